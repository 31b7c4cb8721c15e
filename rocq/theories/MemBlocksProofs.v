From Verif Require Import Base Wire Cid FMap BlockSpec MemBlocks.

Lemma repo_cid_eqb_hash a b : reflect (cid_hash a = cid_hash b) (repo_cid_eqb a b).
Proof. apply mh_eqb_spec. Qed.

Definition mh_stored := stored cid_hash mh_eqb.

(** Entries are keyed by their block's cid and no two share a multihash. *)
Definition mem_ok (m : mem_store) : Prop :=
  Forall (fun kv => b_cid (snd kv) = fst kv) m /\ NoDup (map (fun kv => cid_hash (fst kv)) m).

Lemma mget_hash c (m : mem_store) : mget repo_cid_eqb c m = mget mh_eqb (cid_hash c) (map (fun kv => (cid_hash (fst kv), snd kv)) m).
Proof. induction m as [|[k v] m IH]; [reflexivity|]. cbn. rewrite IH. reflexivity. Qed.

Lemma mdel_hash c (m : mem_store) :
  map (fun kv => (cid_hash (fst kv), snd kv)) (mdel repo_cid_eqb c m)
  = mdel mh_eqb (cid_hash c) (map (fun kv => (cid_hash (fst kv), snd kv)) m).
Proof.
  unfold mdel. induction m as [|[k v] m IH]; [reflexivity|]. cbn.
  unfold repo_cid_eqb at 1. destruct (mh_eqb (cid_hash c) (cid_hash k)); cbn; rewrite IH; reflexivity.
Qed.

Lemma hash_keys (m : mem_store) : mkeys (map (fun kv => (cid_hash (fst kv), snd kv)) m) = map (fun kv => cid_hash (fst kv)) m.
Proof. unfold mkeys. rewrite map_map. reflexivity. Qed.

Lemma mdel_forall {K V} eqb (P : K * V -> Prop) k m : Forall P m -> Forall P (mdel eqb k m).
Proof. rewrite !Forall_forall. intros H x Hx. apply filter_In in Hx. apply H. tauto. Qed.

Lemma mem_step_ok m o : mem_ok m -> mem_ok (fst (mem_step m o)).
Proof.
  intros [H1 H2]. destruct o as [b|c|c|c|]; cbn [mem_step fst]; try (split; assumption).
  - unfold mem_put. destruct (mget repo_cid_eqb (b_cid b) m) eqn:E; cbn [fst]; [split; assumption|].
    split; [constructor; auto|]. cbn. constructor; [|exact H2].
    rewrite mget_hash in E. apply (mget_none mh_eqb mh_eqb_spec) in E. rewrite hash_keys in E. exact E.
  - unfold mem_remove. destruct (mget repo_cid_eqb c m) eqn:E; cbn [fst]; [|split; assumption].
    split; [apply mdel_forall; exact H1|]. rewrite <- hash_keys, mdel_hash.
    apply mdel_nodup. rewrite hash_keys. exact H2.
Qed.

Lemma mem_step_stored (m : mem_store) o h k :
  (forall k, mget mh_eqb k (map (fun kv => (cid_hash (fst kv), snd kv)) m) = mh_stored h k) ->
  mget mh_eqb k (map (fun kv => (cid_hash (fst kv), snd kv)) (fst (mem_step m o))) = mh_stored (o :: h) k.
Proof.
  intros H. destruct o as [b|c|c|c|]; cbn [mem_step fst]; try (rewrite H; reflexivity).
  - unfold mem_put, mh_stored. cbn [stored]. fold mh_stored. rewrite mget_hash, <- !H.
    set (hm := map (fun kv : cid * block => (cid_hash (fst kv), snd kv)) m).
    destruct (mget mh_eqb (cid_hash (b_cid b)) hm) as [x|] eqn:E; cbn [fst].
    + fold hm. destruct (mget mh_eqb k hm) as [y|] eqn:Ek; [reflexivity|].
      destruct (mh_eqb_spec (cid_hash (b_cid b)) k); [congruence|reflexivity].
    + cbn [map fst snd mget]. fold hm.
      destruct (mh_eqb_spec k (cid_hash (b_cid b))) as [->|Hne].
      * rewrite E, (eqb_same mh_eqb mh_eqb_spec). reflexivity.
      * destruct (mh_eqb_spec (cid_hash (b_cid b)) k); [congruence|]. destruct (mget mh_eqb k hm); reflexivity.
  - unfold mem_remove, mh_stored. cbn [stored]. fold mh_stored. rewrite mget_hash, <- H.
    destruct (mget mh_eqb (cid_hash c) _) eqn:E; cbn [fst].
    + rewrite mdel_hash, (mget_mdel mh_eqb mh_eqb_spec).
      destruct (mh_eqb_spec k (cid_hash c)), (mh_eqb_spec (cid_hash c) k); congruence.
    + destruct (mh_eqb_spec (cid_hash c) k) as [<-|]; [exact E|reflexivity].
Qed.

Lemma mem_run_snoc h o : mem_run (h ++ [o]) = fst (mem_step (mem_run h) o).
Proof. unfold mem_run. rewrite fold_left_app. reflexivity. Qed.

Lemma mem_run_spec h :
  mem_ok (mem_run h) /\
  forall k, mget mh_eqb k (map (fun kv => (cid_hash (fst kv), snd kv)) (mem_run h)) = mh_stored (rev h) k.
Proof.
  induction h as [|o h IH] using rev_ind.
  - split; [split; constructor|]. reflexivity.
  - rewrite mem_run_snoc, rev_app_distr. cbn [rev app]. destruct IH as [H1 H2].
    split; [apply mem_step_ok; exact H1|]. intros k. apply mem_step_stored. exact H2.
Qed.
