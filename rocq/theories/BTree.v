(** Ordered maps from byte strings, as Rust's [BTreeMap<String, V>] (and, where the iteration order
    does not matter, [HashMap<String, V>]).  A map is the list of its entries in increasing key
    order; [String]'s [Ord] is the lexicographic order of the UTF-8 bytes.  These functions model
    the standard library, not code of /repo. *)
From Verif Require Import Base.

(** [<str as Ord>::cmp]: lexicographic on bytes. *)
Fixpoint bcmp (a b : bytes) : comparison :=
  match a, b with
  | [], [] => Eq
  | [], _ :: _ => Lt
  | _ :: _, [] => Gt
  | x :: a', y :: b' => match N.compare x y with Eq => bcmp a' b' | c => c end
  end.

Section V.
Context {V : Type}.

(** [BTreeMap::insert]: replaces the value of an equal key. *)
Fixpoint bt_insert (k : bytes) (v : V) (m : list (bytes * V)) : list (bytes * V) :=
  match m with
  | [] => [(k, v)]
  | (k', v') :: r =>
      match bcmp k k' with
      | Lt => (k, v) :: m
      | Eq => (k, v) :: r
      | Gt => (k', v') :: bt_insert k v r
      end
  end.

(** [BTreeMap::get]. *)
Fixpoint bt_get (k : bytes) (m : list (bytes * V)) : option V :=
  match m with
  | [] => None
  | (k', v') :: r => if beq k k' then Some v' else bt_get k r
  end.

(** [BTreeMap::remove]. *)
Definition bt_remove (k : bytes) (m : list (bytes * V)) : list (bytes * V) :=
  filter (fun kv => negb (beq k (fst kv))) m.

(** [FromIterator]: insert one entry after the other. *)
Definition bt_of_list (l : list (bytes * V)) : list (bytes * V) :=
  fold_left (fun m kv => bt_insert (fst kv) (snd kv) m) l [].

(** Strictly increasing keys: what every [BTreeMap] satisfies. *)
Fixpoint bt_sorted (m : list (bytes * V)) : Prop :=
  match m with
  | [] => True
  | (k, _) :: r => Forall (fun kv => bcmp k (fst kv) = Lt) r /\ bt_sorted r
  end.

End V.

Lemma bcmp_refl a : bcmp a a = Eq.
Proof. induction a as [|x a IH]; cbn; [reflexivity|]. rewrite N.compare_refl. exact IH. Qed.

Lemma bcmp_eq a b : bcmp a b = Eq <-> a = b.
Proof.
  revert b. induction a as [|x a IH]; intros [|y b]; cbn; try (split; congruence).
  destruct (N.compare_spec x y) as [->|H|H]; try (split; [discriminate|intros E; inversion E; lia]).
  rewrite IH. split; congruence.
Qed.

Lemma bcmp_antisym a b : bcmp b a = CompOpp (bcmp a b).
Proof.
  revert b. induction a as [|x a IH]; intros [|y b]; cbn; try reflexivity.
  rewrite (N.compare_antisym x y). destruct (N.compare x y); cbn; auto.
Qed.

Lemma bcmp_trans a b c : bcmp a b = Lt -> bcmp b c = Lt -> bcmp a c = Lt.
Proof.
  revert b c. induction a as [|x a IH]; intros [|y b] [|z c]; cbn; try discriminate; auto.
  destruct (N.compare_spec x y) as [->|H|H]; try discriminate;
  destruct (N.compare_spec y z) as [->|H'|H']; try discriminate; intros Hab Hbc.
  - eapply IH; eauto.
  - reflexivity.
  - destruct (N.compare_spec x z); try lia. reflexivity.
  - destruct (N.compare_spec x z); try lia. reflexivity.
Qed.

Lemma bcmp_beq a b : beq a b = match bcmp a b with Eq => true | _ => false end.
Proof.
  destruct (beq_spec a b) as [->|Hne].
  - rewrite bcmp_refl. reflexivity.
  - destruct (bcmp a b) eqn:E; try reflexivity. apply bcmp_eq in E. congruence.
Qed.

Section VL.
Context {V : Type}.
Implicit Types m : list (bytes * V).

Lemma bt_sorted_cons k v m :
  bt_sorted ((k, v) :: m) <-> Forall (fun kv => bcmp k (fst kv) = Lt) m /\ bt_sorted m.
Proof. reflexivity. Qed.

Lemma bt_get_insert k v m k' :
  bt_sorted m -> bt_get k' (bt_insert k v m) = if beq k' k then Some v else bt_get k' m.
Proof.
  induction m as [|[k0 v0] m IH]; cbn [bt_insert bt_get bt_sorted fst]; intros Hs.
  - destruct (beq_spec k' k); reflexivity.
  - destruct Hs as [Hf Hs]. destruct (bcmp k k0) eqn:E; cbn [bt_get].
    + apply bcmp_eq in E. subst k0. destruct (beq_spec k' k); reflexivity.
    + destruct (beq_spec k' k); reflexivity.
    + rewrite IH by exact Hs.
      destruct (beq_spec k' k0) as [E1|E1]; destruct (beq_spec k' k) as [E2|E2]; try reflexivity.
      subst. rewrite bcmp_refl in E. discriminate.
Qed.

Lemma bt_insert_lb k0 k v m :
  bcmp k0 k = Lt -> Forall (fun kv => bcmp k0 (fst kv) = Lt) m ->
  Forall (fun kv => bcmp k0 (fst kv) = Lt) (bt_insert k v m).
Proof.
  intros Hk. induction m as [|[k1 v1] m IH]; cbn [bt_insert]; intros Hf.
  - repeat constructor. exact Hk.
  - inversion Hf; subst. destruct (bcmp k k1); constructor; cbn; auto.
Qed.

Lemma bt_insert_sorted k v m : bt_sorted m -> bt_sorted (bt_insert k v m).
Proof.
  induction m as [|[k0 v0] m IH]; cbn [bt_insert]; intros Hs; [cbn; auto|].
  destruct Hs as [Hf Hs]. destruct (bcmp k k0) eqn:E.
  - apply bcmp_eq in E. subst. split; assumption.
  - split; [|split; assumption]. constructor; [exact E|].
    eapply Forall_impl; [|exact Hf]. intros a Ha. eapply bcmp_trans; eauto.
  - split; [|apply IH; exact Hs]. apply bt_insert_lb; [|exact Hf].
    rewrite bcmp_antisym, E. reflexivity.
Qed.

Lemma bt_of_list_sorted_acc l m :
  bt_sorted m -> bt_sorted (fold_left (fun m kv => bt_insert (fst kv) (snd kv) m) l m).
Proof.
  revert m. induction l as [|[k v] l IH]; cbn; intros m Hm; [exact Hm|].
  apply IH. apply bt_insert_sorted. exact Hm.
Qed.

Lemma bt_of_list_sorted (l : list (bytes * V)) : bt_sorted (bt_of_list l).
Proof. apply bt_of_list_sorted_acc. exact I. Qed.

Lemma bt_get_lb k m : Forall (fun kv => bcmp k (fst kv) = Lt) m -> bt_get k m = None.
Proof.
  induction m as [|[k0 v0] m IH]; intros Hf; [reflexivity|]. inversion Hf; subst. cbn.
  cbn in H1. destruct (beq_spec k k0) as [->|]; [rewrite bcmp_refl in H1; discriminate|]. auto.
Qed.

(** Two sorted maps with the same lookups are equal. *)
Lemma bt_ext m1 m2 :
  bt_sorted m1 -> bt_sorted m2 -> (forall k, bt_get k m1 = bt_get k m2) -> m1 = m2.
Proof.
  revert m2. induction m1 as [|[k1 v1] m1 IH]; intros [|[k2 v2] m2] H1 H2 Hg.
  - reflexivity.
  - specialize (Hg k2). cbn in Hg. rewrite beq_refl in Hg. discriminate.
  - specialize (Hg k1). cbn in Hg. rewrite beq_refl in Hg. discriminate.
  - destruct H1 as [Hf1 H1]. destruct H2 as [Hf2 H2].
    assert (Hk : k1 = k2).
    { destruct (bcmp k1 k2) eqn:E.
      - apply bcmp_eq. exact E.
      - pose proof (Hg k1) as Hg1. cbn in Hg1. rewrite beq_refl in Hg1.
        destruct (beq_spec k1 k2) as [->|]; [reflexivity|].
        rewrite bt_get_lb in Hg1; [discriminate|].
        eapply Forall_impl; [|exact Hf2]. intros a Ha. eapply bcmp_trans; eauto.
      - assert (E' : bcmp k2 k1 = Lt) by (rewrite bcmp_antisym, E; reflexivity).
        pose proof (Hg k2) as Hg1. cbn in Hg1. rewrite beq_refl in Hg1.
        destruct (beq_spec k2 k1) as [->|]; [reflexivity|].
        rewrite bt_get_lb in Hg1; [discriminate|].
        eapply Forall_impl; [|exact Hf1]. intros a Ha. eapply bcmp_trans; eauto. }
    subst k2. pose proof (Hg k1) as Hv. cbn in Hv. rewrite beq_refl in Hv. inversion Hv; subst v2.
    f_equal. apply IH; auto. intros k. specialize (Hg k). cbn in Hg.
    destruct (beq_spec k k1) as [E|]; [|exact Hg]. rewrite E.
    rewrite !bt_get_lb by assumption. reflexivity.
Qed.

Lemma bt_get_in k v m : bt_get k m = Some v -> In (k, v) m.
Proof.
  induction m as [|[k0 v0] m IH]; cbn; [discriminate|].
  destruct (beq_spec k k0) as [->|]; [intros E; inversion E; auto|]. auto.
Qed.

Lemma bt_sorted_nodup m : bt_sorted m -> NoDup (map fst m).
Proof.
  induction m as [|[k v] m IH]; cbn; intros Hs; [constructor|].
  destruct Hs as [Hf Hs]. constructor; [|auto].
  rewrite in_map_iff. intros [[k' v'] [E Hin]]. cbn in E. subst k'.
  rewrite Forall_forall in Hf. specialize (Hf _ Hin). cbn in Hf. rewrite bcmp_refl in Hf. discriminate.
Qed.

Lemma nodup_get k v m : NoDup (map fst m) -> In (k, v) m -> bt_get k m = Some v.
Proof.
  induction m as [|[k0 v0] m IH]; cbn; intros Hn Hin; [contradiction|].
  inversion Hn; subst. destruct Hin as [E|Hin].
  - inversion E; subst. rewrite beq_refl. reflexivity.
  - destruct (beq_spec k k0) as [->|]; [|auto].
    exfalso. apply H1. apply in_map_iff. exists (k0, v). auto.
Qed.

Lemma bt_of_list_get_acc l m k :
  bt_sorted m -> NoDup (map fst l) ->
  bt_get k (fold_left (fun m kv => bt_insert (fst kv) (snd kv) m) l m)
  = match bt_get k l with Some v => Some v | None => bt_get k m end.
Proof.
  revert m. induction l as [|[k0 v0] l IH]; cbn [fold_left]; intros m Hm Hn; [reflexivity|].
  inversion Hn; subst. rewrite IH; [|apply bt_insert_sorted; exact Hm|assumption].
  cbn [fst snd bt_get]. destruct (beq_spec k k0) as [->|Hne].
  - destruct (bt_get k0 l) eqn:E.
    + exfalso. apply H1. apply bt_get_in in E. apply in_map_iff. exists (k0, v). auto.
    + rewrite bt_get_insert by exact Hm. rewrite beq_refl. reflexivity.
  - rewrite bt_get_insert by exact Hm. destruct (beq_spec k k0); [contradiction|]. reflexivity.
Qed.

(** Rebuilding a map from its entries in any order gives the map back. *)
Lemma bt_of_perm l m : bt_sorted m -> NoDup (map fst l) ->
  (forall kv, In kv l <-> In kv m) -> bt_of_list l = m.
Proof.
  intros Hm Hn Hp. apply bt_ext; [apply bt_of_list_sorted|exact Hm|].
  intros k. unfold bt_of_list. rewrite bt_of_list_get_acc by (auto; exact I). cbn [bt_get].
  destruct (bt_get k l) as [v|] eqn:E.
  - apply bt_get_in in E. apply Hp in E. symmetry. apply nodup_get; [apply bt_sorted_nodup|]; assumption.
  - destruct (bt_get k m) as [v|] eqn:E'; [|reflexivity].
    apply bt_get_in in E'. apply Hp in E'. rewrite (nodup_get k v l) in E by assumption. discriminate.
Qed.

Lemma bt_remove_sorted k m : bt_sorted m -> bt_sorted (bt_remove k m).
Proof.
  induction m as [|[k0 v0] m IH]; cbn; intros Hs; [exact I|]. destruct Hs as [Hf Hs].
  destruct (beq k k0); cbn; [auto|]. split; [|auto].
  rewrite Forall_forall in *. intros a Ha. apply filter_In in Ha. apply Hf. tauto.
Qed.

Lemma bt_get_remove k m k' :
  bt_get k' (bt_remove k m) = if beq k' k then None else bt_get k' m.
Proof.
  unfold bt_remove.
  induction m as [|[k0 v0] m IH]; cbn [filter bt_get fst]; [destruct (beq k' k); reflexivity|].
  destruct (beq_spec k k0) as [E|Hne]; cbn [negb bt_get]; rewrite IH.
  - subst. destruct (beq_spec k' k0); reflexivity.
  - destruct (beq_spec k' k0) as [E|]; [|reflexivity].
    destruct (beq_spec k' k); [congruence|reflexivity].
Qed.

End VL.
