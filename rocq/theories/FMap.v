(** Finite maps as association lists over any key type with a boolean equality: the standard library
    maps ([HashMap], [HashedMap]) where the iteration order is unspecified, and the files of a
    directory.  Nothing here models code of /repo. *)
From Verif Require Import Base Wire Cid.

Section Map.
  Context {K V : Type}.
  Variable eqb : K -> K -> bool.

  Fixpoint mget (k : K) (m : list (K * V)) : option V :=
    match m with
    | [] => None
    | (k', v) :: r => if eqb k k' then Some v else mget k r
    end.
  Definition mdel (k : K) (m : list (K * V)) : list (K * V) :=
    filter (fun kv => negb (eqb k (fst kv))) m.
  Definition mset (k : K) (v : V) (m : list (K * V)) : list (K * V) := (k, v) :: mdel k m.
End Map.

Section MapLemmas.
  Context {K V : Type}.
  Variable eqb : K -> K -> bool.
  Hypothesis eqb_spec : forall a b, reflect (a = b) (eqb a b).
  Implicit Types m : list (K * V).

  Lemma eqb_same a : eqb a a = true.
  Proof. destruct (eqb_spec a a); congruence. Qed.

  Lemma mget_mdel k m k' : mget eqb k' (mdel eqb k m) = if eqb k' k then None else mget eqb k' m.
  Proof.
    unfold mdel. induction m as [|[k0 v0] m IH]; cbn [filter mget fst]; [destruct (eqb k' k); reflexivity|].
    destruct (eqb_spec k k0) as [E|E]; cbn [negb mget]; rewrite IH.
    - subst. destruct (eqb_spec k' k0); reflexivity.
    - destruct (eqb_spec k' k0) as [E0|]; [|reflexivity]. destruct (eqb_spec k' k); [congruence|reflexivity].
  Qed.

  Lemma mget_mset k v m k' : mget eqb k' (mset eqb k v m) = if eqb k' k then Some v else mget eqb k' m.
  Proof. unfold mset. cbn [mget]. rewrite mget_mdel. destruct (eqb k' k); reflexivity. Qed.

  Lemma mget_in k v m : mget eqb k m = Some v -> In (k, v) m.
  Proof.
    induction m as [|[k0 v0] m IH]; cbn; [discriminate|].
    destruct (eqb_spec k k0) as [E|]; [intros [= ->]; subst; auto|auto].
  Qed.

  Definition mkeys m := map fst m.

  Lemma mdel_keys k m x : In x (mkeys (mdel eqb k m)) <-> In x (mkeys m) /\ x <> k.
  Proof.
    unfold mkeys, mdel. rewrite !in_map_iff. split.
    - intros ([a b] & <- & H). apply filter_In in H as [H1 H2]. cbn in *. split.
      + exists (a, b). auto.
      + destruct (eqb_spec k a); [discriminate|congruence].
    - intros [([a b] & <- & H) Hn]. exists (a, b). split; [reflexivity|]. apply filter_In. split; [exact H|].
      cbn in *. destruct (eqb_spec k a); [congruence|reflexivity].
  Qed.

  Lemma mdel_nodup k m : NoDup (mkeys m) -> NoDup (mkeys (mdel eqb k m)).
  Proof.
    unfold mkeys, mdel. induction m as [|[k0 v0] m IH]; cbn; intros H; [constructor|].
    inversion H; subst. destruct (eqb k k0); cbn; [auto|]. constructor; [|auto].
    intros Hi. apply H2. apply in_map_iff in Hi as ([a b] & E & Hi). apply filter_In in Hi as [Hi _].
    apply in_map_iff. exists (a, b). auto.
  Qed.

  Lemma mset_nodup k v m : NoDup (mkeys m) -> NoDup (mkeys (mset eqb k v m)).
  Proof.
    intros H. unfold mset. cbn. constructor; [|apply mdel_nodup; exact H].
    intros Hi. apply mdel_keys in Hi. tauto.
  Qed.

  Lemma in_mget k v m : NoDup (mkeys m) -> In (k, v) m -> mget eqb k m = Some v.
  Proof.
    induction m as [|[k0 v0] m IH]; cbn; intros Hn Hi; [contradiction|]. inversion Hn; subst.
    destruct Hi as [[= -> ->]|Hi]; [rewrite eqb_same; reflexivity|].
    destruct (eqb_spec k k0) as [->|]; [|auto]. exfalso. apply H1. apply in_map_iff. exists (k0, v). auto.
  Qed.

  Lemma mget_none k m : mget eqb k m = None <-> ~ In k (mkeys m).
  Proof.
    induction m as [|[k0 v0] m IH]; cbn; [tauto|]. destruct (eqb_spec k k0) as [->|H].
    - split; [discriminate|]. intros H. exfalso. apply H. auto.
    - rewrite IH. split; intros H1; [intros [H2|H2]; [congruence|tauto]|tauto].
  Qed.

  Lemma in_mkeys k m : In k (mkeys m) <-> exists v, mget eqb k m = Some v.
  Proof.
    destruct (mget eqb k m) as [v|] eqn:E.
    - split; [eauto|]. intros _. apply mget_in in E. apply in_map_iff. exists (k, v). auto.
    - apply mget_none in E. split; [contradiction|]. intros [v H]. discriminate.
  Qed.

  Lemma mdel_id k m : mget eqb k m = None -> mdel eqb k m = m.
  Proof.
    intros H. unfold mdel. induction m as [|[k0 v0] m IH]; [reflexivity|]. cbn in *.
    destruct (eqb k k0); [discriminate|]. cbn. f_equal. auto.
  Qed.
End MapLemmas.

(** Equality of multihashes and cids (Rust [==]). *)
Definition mh_eqb (a b : multihash) : bool := N.eqb (mh_code a) (mh_code b) && beq (mh_digest a) (mh_digest b).
Definition cid_eqb (a b : cid) : bool :=
  match a, b with
  | CidV0 x, CidV0 y => beq x y
  | CidV1 k m, CidV1 k' m' => N.eqb k k' && mh_eqb m m'
  | _, _ => false
  end.
Lemma mh_eqb_spec a b : reflect (a = b) (mh_eqb a b).
Proof.
  destruct a as [c d], b as [c' d']. unfold mh_eqb. cbn.
  destruct (N.eqb_spec c c'), (beq_spec d d'); cbn; constructor; congruence.
Qed.
Lemma cid_eqb_spec a b : reflect (a = b) (cid_eqb a b).
Proof.
  destruct a as [d|k m], b as [d'|k' m']; cbn; try (constructor; congruence).
  - destruct (beq_spec d d'); constructor; congruence.
  - destruct (N.eqb_spec k k'), (mh_eqb_spec m m'); cbn; constructor; congruence.
Qed.
