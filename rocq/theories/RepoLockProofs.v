(** Proofs about [RepoLock]. *)
From Verif Require Import Base RepoLock RepoLockSpec.

Lemma set_same i p m : set i p m i = p.
Proof. unfold set. rewrite Nat.eqb_refl. reflexivity. Qed.
Lemma set_other i j p m : j <> i -> set i p m j = m j.
Proof. intros N. unfold set. destruct (Nat.eqb_spec j i); [contradiction|reflexivity]. Qed.

(** Who has the directory has the lock on an inode made before; each inode is locked once. *)
Record good (w : world) : Prop := {
  g_locks : forall i, has (nodes w i) <-> exists n, In (i, n) (locks w);
  g_inode : NoDup (map snd (locks w));
  g_owner : NoDup (map fst (locks w));
  g_next : (forall i n, In (i, n) (locks w) -> n < next_inode w)%N /\ (forall n, lock_file w = Some n -> n < next_inode w)%N }.
(** Without interference they are all on the file which is there. *)
Definition tidy (w : world) : Prop := forall i n, In (i, n) (locks w) -> lock_file w = Some n.

Lemma in_gone i j n (l : list (nat * N)) : In (j, n) (filter (fun x => negb (Nat.eqb (fst x) i)) l) <-> In (j, n) l /\ j <> i.
Proof. rewrite filter_In. cbn [fst]. destruct (Nat.eqb_spec j i); cbn; intuition congruence. Qed.
Lemma nodup_filter {A B} (f : A -> B) p (l : list A) : NoDup (map f l) -> NoDup (map f (filter p l)).
Proof.
  induction l as [|x l IH]; [intros _; constructor|]. cbn [map filter]. intros H. inversion_clear H as [|? ? H1 H2]. destruct (p x); [|exact (IH H2)].
  cbn [map]. constructor; [|exact (IH H2)]. intros I. apply H1. apply in_map_iff in I as (y & E & I). apply filter_In in I as [I _]. rewrite <- E. exact (in_map f _ _ I).
Qed.
Lemma gone_good i w : good w -> good (gone i w).
Proof.
  intros [A B C [D E]]. split; cbn [gone nodes locks next_inode lock_file].
  - intros j. destruct (Nat.eq_dec j i) as [->|N].
    + rewrite set_same. cbn [has]. split; [intros []|]. intros (n & H). apply in_gone in H as [_ H]. contradiction.
    + rewrite set_other by exact N. rewrite A. split; intros (n & H); exists n; [apply in_gone; split; assumption|apply in_gone in H as [H _]; exact H].
  - apply nodup_filter, B.
  - apply nodup_filter, C.
  - split; [|exact E]. intros j n H. apply in_gone in H as [H _]. exact (D j n H).
Qed.
Lemma gone_tidy i w : tidy w -> tidy (gone i w).
Proof. intros T j n H. cbn [gone locks lock_file] in *. apply in_gone in H as [H _]. exact (T j n H). Qed.
(** Changes which concern neither. *)
Lemma same_good w w' : good w -> locks w' = locks w -> next_inode w' = next_inode w -> (lock_file w' = lock_file w \/ lock_file w' = None) ->
  (forall i, has (nodes w' i) <-> has (nodes w i)) -> good w'.
Proof.
  intros [A B C [D E]] L N F H. split; rewrite ?L, ?N; try assumption.
  - intros i. rewrite H. apply A.
  - split; [exact D|]. intros n X. destruct F as [F|F]; rewrite F in X; [exact (E n X)|discriminate X].
Qed.
Lemma set_has i p m : (has p <-> has (m i)) -> forall j, has (set i p m j) <-> has (m j).
Proof. intros H j. destruct (Nat.eq_dec j i) as [->|N]; [rewrite set_same; exact H|rewrite set_other by exact N; reflexivity]. Qed.
Lemma phase_good i p w : good w -> (has p <-> has (nodes w i)) -> good (with_phase i p w).
Proof. intros G H. apply (same_good w); try reflexivity; [exact G|left; reflexivity|]. intros j. apply set_has, H. Qed.
Lemma after_good i h t j w : good w -> has (nodes w i) -> good (fst (after i h t j w)).
Proof. intros G H. unfold after. destruct h, t, j; cbn [fst]; try (apply phase_good; [exact G|]; split; intros _; [exact H|exact Logic.I]). apply gone_good, G. Qed.
Lemma after_tidy i h t j w : tidy w -> tidy (fst (after i h t j w)).
Proof. intros T. unfold after. destruct h, t, j; cbn [fst]; try exact T. apply gone_tidy, T. Qed.

Lemma file_good w n' : good w -> let n := match lock_file w with Some n => n | None => next_inode w end in
  n' = (match lock_file w with Some _ => next_inode w | None => N.succ (next_inode w) end) ->
  good (mk_world (dir w) (blocks_dir w) (pins_dir w) (Some n) n' (locks w) (nodes w)) /\ (n < n')%N.
Proof.
  intros [A B C [D E]] n ->. assert (L : (n < match lock_file w with Some _ => next_inode w | None => N.succ (next_inode w) end)%N) by (subst n; destruct (lock_file w) as [m|]; [exact (E m eq_refl)|lia]).
  split; [|exact L]. split; cbn [nodes locks next_inode lock_file]; try assumption. split.
  - intros i m H. specialize (D i m H). destruct (lock_file w); lia.
  - intros m [= <-]. exact L.
Qed.
Lemma locked_in n w : is_locked n w = true <-> exists i, In (i, n) (locks w).
Proof.
  unfold is_locked. rewrite existsb_exists. split.
  - intros ([i m] & H & E). cbn [snd] in E. apply N.eqb_eq in E as <-. exists i. exact H.
  - intros (i & H). exists (i, n). split; [exact H|apply N.eqb_refl].
Qed.
Lemma lock_good i n w : good w -> nodes w i = Configured -> is_locked n w = false -> (n < next_inode w)%N ->
  good (mk_world (dir w) (blocks_dir w) (pins_dir w) (lock_file w) (next_inode w) ((i, n) :: locks w) (set i (Initializing None None) (nodes w))).
Proof.
  intros [A B C [D E]] P F L. assert (F' : forall j, ~ In (j, n) (locks w)) by (intros j H; assert (is_locked n w = true) by (apply locked_in; exists j; exact H); congruence).
  assert (O : forall m, ~ In (i, m) (locks w)) by (intros m H; assert (X : has (nodes w i)) by (apply A; exists m; exact H); rewrite P in X; exact X).
  split; cbn [nodes locks next_inode lock_file map fst snd].
  - intros j. destruct (Nat.eq_dec j i) as [->|N].
    + rewrite set_same. split; [intros _; exists n; left; reflexivity|intros _; exact Logic.I].
    + rewrite set_other by exact N. rewrite A. split; intros (m & H); exists m; [right; exact H|destruct H as [H|H]; [congruence|exact H]].
  - constructor; [|exact B]. intros H. apply in_map_iff in H as ([j m] & X & H). cbn [snd] in X. subst m. exact (F' j H).
  - constructor; [|exact C]. intros H. apply in_map_iff in H as ([j m] & X & H). cbn [fst] in X. subst j. exact (O m H).
  - split; [|exact E]. intros j m [H|H]; [congruence|exact (D j m H)].
Qed.

Ltac unstep H := repeat match type of H with context [match ?x with _ => _ end] => let E := fresh "E" in destruct x eqn:E; try discriminate H end.
Lemma some_pair {A B : Type} (a c : A) (b d : B) : Some (a, b) = Some (c, d) -> c = a /\ d = b.
Proof. intros [= -> ->]. split; reflexivity. Qed.
Lemma step_good w o w' a : good w -> step w o = Some (w', a) -> good w'.
Proof.
  intros G H. destruct o; cbn [step] in H.
  - destruct (nodes w i) eqn:P; try discriminate H. destruct (fault || negb (dir w)); [apply some_pair in H as [-> _]; apply gone_good, G|]. cbv zeta in H.
    destruct (file_good w _ G eq_refl) as [G' L]. destruct (is_locked _ w) eqn:F; apply some_pair in H as [-> _]; [apply gone_good, G'|].
    apply (lock_good i _ _ G'); [exact P|exact F|exact L].
  - destruct (nodes w i) as [|[b|] d| | |] eqn:P; try discriminate H. destruct fault; apply some_pair in H as [-> _].
    + apply phase_good; [exact G|rewrite P; split; intros _; exact Logic.I].
    + apply (same_good w); try reflexivity; [exact G|left; reflexivity|]. apply set_has. rewrite P. split; intros _; exact Logic.I.
  - destruct (nodes w i) as [|b [d|]| | |] eqn:P; try discriminate H. destruct fault; apply some_pair in H as [-> _].
    + apply phase_good; [exact G|rewrite P; split; intros _; exact Logic.I].
    + apply (same_good w); try reflexivity; [exact G|left; reflexivity|]. apply set_has. rewrite P. split; intros _; exact Logic.I.
  - destruct (nodes w i) as [|[b|] [d|]| | |] eqn:P; try discriminate H. destruct b, d; cbn [negb] in H; apply some_pair in H as [-> _]; try (apply gone_good, G).
    apply phase_good; [exact G|rewrite P; split; intros _; exact Logic.I].
  - destruct (nodes w i) eqn:P; try discriminate H. destruct fault; apply some_pair in H as [-> _]; [apply gone_good, G|]. apply phase_good; [exact G|rewrite P; split; intros _; exact Logic.I].
  - destruct (nodes w i) eqn:P; try discriminate H; apply some_pair in H as [-> _]; apply gone_good, G.
  - destruct (nodes w i) as [| | |[|h] t j|] eqn:P; try discriminate H. apply some_pair in H as [-> _]. apply phase_good; [exact G|rewrite P; split; intros _; exact Logic.I].
  - destruct (nodes w i) as [| | |[|h] t j|] eqn:P; try discriminate H. injection H as H. apply (f_equal fst) in H. cbn [fst] in H. rewrite <- H. apply after_good; [exact G|rewrite P; exact Logic.I].
  - destruct (nodes w i) as [| | |h [] j|] eqn:P; try discriminate H. injection H as H. apply (f_equal fst) in H. cbn [fst] in H. rewrite <- H. apply after_good; [exact G|rewrite P; exact Logic.I].
  - destruct (nodes w i) as [| | |h [] j|] eqn:P; try discriminate H. apply some_pair in H as [-> _]. apply phase_good; [exact G|rewrite P; split; intros _; exact Logic.I].
  - destruct (nodes w i) as [| | |h t [|j]|] eqn:P; try discriminate H. injection H as H. apply (f_equal fst) in H. cbn [fst] in H. rewrite <- H. apply after_good; [exact G|rewrite P; exact Logic.I].
  - destruct (nodes w i) eqn:P; try discriminate H; apply some_pair in H as [-> _]; apply gone_good, G.
  - apply some_pair in H as [-> _]. apply (same_good w); try reflexivity; [exact G|left; reflexivity].
  - apply some_pair in H as [-> _]. apply (same_good w); try reflexivity; [exact G|right; reflexivity].
  - apply some_pair in H as [-> _]. apply (same_good w); try reflexivity; [exact G|right; reflexivity].
Qed.
Lemma step_tidy w o w' a : tidy w -> o <> RemoveLock -> o <> RemoveDir -> step w o = Some (w', a) -> tidy w'.
Proof.
  intros T N1 N2 H. destruct o; cbn [step] in H; try contradiction.
  - destruct (nodes w i) eqn:P; try discriminate H. destruct (fault || negb (dir w)); [apply some_pair in H as [-> _]; apply gone_tidy, T|]. cbv zeta in H.
    set (n := match lock_file w with Some n => n | None => next_inode w end) in *.
    assert (X : forall j m, In (j, m) (locks w) -> m = n) by (intros j m I; specialize (T j m I); subst n; rewrite T; reflexivity).
    destruct (is_locked n w); apply some_pair in H as [-> _]; intros j m I; cbn [gone locks lock_file] in *.
    + apply in_gone in I as [I _]. rewrite (X j m I). reflexivity.
    + destruct I as [I|I]; [congruence|rewrite (X j m I); reflexivity].
  - unstep H; apply some_pair in H as [-> _]; exact T.
  - unstep H; apply some_pair in H as [-> _]; exact T.
  - unstep H; apply some_pair in H as [-> _]; try (apply gone_tidy, T); exact T.
  - unstep H; apply some_pair in H as [-> _]; try (apply gone_tidy, T); exact T.
  - unstep H; apply some_pair in H as [-> _]; apply gone_tidy, T.
  - unstep H; apply some_pair in H as [-> _]; exact T.
  - destruct (nodes w i) as [| | |[|h] t j|] eqn:P; try discriminate H. injection H as H. apply (f_equal fst) in H. cbn [fst] in H. rewrite <- H. apply after_tidy, T.
  - destruct (nodes w i) as [| | |h [] j|] eqn:P; try discriminate H. injection H as H. apply (f_equal fst) in H. cbn [fst] in H. rewrite <- H. apply after_tidy, T.
  - unstep H; apply some_pair in H as [-> _]; exact T.
  - destruct (nodes w i) as [| | |h t [|j]|] eqn:P; try discriminate H. injection H as H. apply (f_equal fst) in H. cbn [fst] in H. rewrite <- H. apply after_tidy, T.
  - unstep H; apply some_pair in H as [-> _]; apply gone_tidy, T.
  - apply some_pair in H as [-> _]. exact T.
Qed.
Lemma run_good h : forall w w' t, good w -> run w h = Some (w', t) -> good w'.
Proof.
  induction h as [|o h IH]; intros w w' t G H; cbn [run] in H; [injection H as <- _; exact G|]. destruct (step w o) as [[w1 a]|] eqn:S; [|discriminate].
  destruct (run w1 h) as [[w2 t2]|] eqn:R; [|discriminate]. injection H as <- _. exact (IH _ _ _ (step_good _ _ _ _ G S) R).
Qed.
Lemma run_tidy h : forall w w' t, tidy w -> untouched h -> run w h = Some (w', t) -> tidy w'.
Proof.
  induction h as [|o h IH]; intros w w' t G U H; cbn [run] in H; [injection H as <- _; exact G|]. destruct (step w o) as [[w1 a]|] eqn:S; [|discriminate].
  destruct (run w1 h) as [[w2 t2]|] eqn:R; [|discriminate]. injection H as <- _. destruct (U o (or_introl eq_refl)) as [U1 U2]. apply (IH _ _ _ (step_tidy _ _ _ _ G U1 U2 S)) with (2 := R). intros x X. apply U. right. exact X.
Qed.
Lemma init_good d : good (init d).
Proof. split; cbn; try constructor; try (intros; contradiction); try discriminate. intros (n & []). Qed.
Lemma init_tidy d : tidy (init d).
Proof. intros i n []. Qed.

(** * One node at a time *)
Lemma one w i j : good w -> tidy w -> has (nodes w i) -> has (nodes w j) -> i = j.
Proof.
  intros [A B _ _] T Hi Hj. apply A in Hi as (n & Hi). apply A in Hj as (m & Hj).
  assert (n = m) by (pose proof (T i n Hi); pose proof (T j m Hj); congruence). subst m.
  destruct (Nat.eq_dec i j) as [E|N]; [exact E|exfalso].
  clear - B Hi Hj N. induction (locks w) as [|[k q] l IH]; [destruct Hi|]. cbn [map snd] in B. inversion_clear B as [|? ? B1 B2].
  destruct Hi as [Hi|Hi], Hj as [Hj|Hj]; [congruence| | |exact (IH B2 Hi Hj)]; apply B1.
  - injection Hi as -> ->. exact (in_map snd _ _ Hj).
  - injection Hj as -> ->. exact (in_map snd _ _ Hi).
Qed.
Lemma step_other w o w' a i : step w o = Some (w', a) -> who o <> Some i -> nodes w' i = nodes w i.
Proof.
  intros H N. destruct o; cbn [step who] in H, N; unfold after in H; cbv zeta in H; unstep H; apply some_pair in H as [-> _]; cbn [nodes gone with_phase]; try (rewrite set_other by congruence); reflexivity.
Qed.
Definition observed (o : op) (a : out) (i : nat) (before : bool) : bool :=
  match who o with
  | Some j => if Nat.eqb j i then match a with Locked => true | Refused _ | Freed => false | _ => before end else before
  | None => before
  end.
Definition hasb (p : phase) : bool := match p with Configured | Gone => false | _ => true end.
Lemma hasb_has p : hasb p = true <-> has p.
Proof. destruct p; cbn; intuition discriminate. Qed.
Lemma step_observed w o w' a i : step w o = Some (w', a) -> hasb (nodes w' i) = observed o a i (hasb (nodes w i)).
Proof.
  intros H. unfold observed. destruct (who o) as [j|] eqn:W.
  - destruct (Nat.eqb_spec j i) as [->|N]; [|rewrite (step_other _ _ _ _ i H); [reflexivity|congruence]].
    destruct o; cbn [who] in W; try discriminate W; injection W as ->; cbn [step] in H; unfold after in H; cbv zeta in H; unstep H; apply some_pair in H as [-> ->]; cbn [nodes gone with_phase]; rewrite ?set_same; try reflexivity;
      match goal with E : nodes w i = _ |- _ => rewrite ?E; reflexivity end.
  - rewrite (step_other _ _ _ _ i H); [reflexivity|congruence].
Qed.
Lemma run_observed h : forall w w' t i, run w h = Some (w', t) -> hasb (nodes w' i) = has_after i (hasb (nodes w i)) t.
Proof.
  induction h as [|o h IH]; intros w w' t i H; cbn [run] in H; [injection H as <- <-; reflexivity|]. destruct (step w o) as [[w1 a]|] eqn:S; [|discriminate].
  destruct (run w1 h) as [[w2 t2]|] eqn:R; [|discriminate]. cbn [option_map fst snd] in H. injection H as <- <-. cbn [has_after].
  rewrite (IH _ _ _ i R). rewrite (step_observed _ _ _ _ i S). reflexivity.
Qed.
Lemma run_app h1 : forall h2 w w' t, run w (h1 ++ h2) = Some (w', t) <-> exists w1 t1 t2, run w h1 = Some (w1, t1) /\ run w1 h2 = Some (w', t2) /\ t = t1 ++ t2.
Proof.
  induction h1 as [|o h1 IH]; intros h2 w w' t; cbn [app run].
  - split; [intros H; exists w, [], t; repeat split; exact H|]. intros (w1 & t1 & t2 & [= <- <-] & H & ->). exact H.
  - destruct (step w o) as [[w1 a]|]; [|split; [discriminate|intros (? & ? & ? & H & _); discriminate H]]. split.
    + destruct (run w1 (h1 ++ h2)) as [[w2 t2]|] eqn:R; [|discriminate]. cbn [option_map fst snd]. intros [= <- <-]. apply IH in R as (w3 & t3 & t4 & R1 & R2 & ->). rewrite R1. exists w3, ((o, a) :: t3), t4. repeat split. exact R2.
    + intros (w3 & t3 & t4 & R1 & R2 & ->). destruct (run w1 h1) as [[w2 t2]|] eqn:R; [|discriminate R1]. cbn [option_map fst snd] in R1. injection R1 as <- <-.
      assert (X : run w1 (h1 ++ h2) = Some (w', t2 ++ t4)) by (apply IH; exists w2, t2, t4; repeat split; assumption). rewrite X. reflexivity.
Qed.
Lemma run_snoc h o w w' t : run w (h ++ [o]) = Some (w', t) -> exists w1 t1 a, run w h = Some (w1, t1) /\ step w1 o = Some (w', a) /\ t = t1 ++ [(o, a)].
Proof.
  intros H. apply run_app in H as (w1 & t1 & t2 & A & B & ->). cbn [run] in B. destruct (step w1 o) as [[w2 a]|] eqn:S; [|discriminate]. cbn [option_map fst snd] in B. injection B as <- <-. exists w1, t1, a. repeat split; assumption.
Qed.
Lemma run_ops h : forall w w' t, run w h = Some (w', t) -> map fst t = h.
Proof.
  induction h as [|o h IH]; intros w w' t H; cbn [run] in H; [injection H as <- <-; reflexivity|]. destruct (step w o) as [[w1 a]|]; [|discriminate]. destruct (run w1 h) as [[w2 t2]|] eqn:R; [|discriminate].
  cbn [option_map fst snd] in H. injection H as <- <-. cbn [map fst]. f_equal. exact (IH _ _ _ R).
Qed.

(** * The directories *)
Definition made (w : world) (p : phase) : Prop :=
  match p with
  | Initializing b d => (b = Some true -> blocks_dir w = true) /\ (d = Some true -> pins_dir w = true)
  | Swarming | Up _ _ _ => blocks_dir w = true /\ pins_dir w = true
  | _ => True
  end.
Lemma made_le w w' p : (blocks_dir w = true -> blocks_dir w' = true) -> (pins_dir w = true -> pins_dir w' = true) -> made w p -> made w' p.
Proof. intros A B. destruct p; cbn [made]; intuition. Qed.
Lemma step_dirs w o w' a : step w o = Some (w', a) -> o <> RemoveDir -> (blocks_dir w = true -> blocks_dir w' = true) /\ (pins_dir w = true -> pins_dir w' = true).
Proof. intros H N. destruct o; cbn [step] in H; try contradiction; unfold after in H; cbv zeta in H; unstep H; apply some_pair in H as [-> _]; cbn; split; intros X; try exact X; reflexivity. Qed.
Lemma step_made w o w' a : (forall i, made w (nodes w i)) -> o <> RemoveDir -> step w o = Some (w', a) -> forall i, made w' (nodes w' i).
Proof.
  intros M N H i. destruct (step_dirs _ _ _ _ H N) as [L1 L2].
  assert (D : who o <> Some i \/ who o = Some i) by (destruct (who o) as [j|]; [destruct (Nat.eq_dec j i); [right|left]|left]; congruence).
  destruct D as [D|D]; [rewrite (step_other _ _ _ _ i H D); exact (made_le _ _ _ L1 L2 (M i))|].
  pose proof (M i) as Mi. destruct o; cbn [who] in D; try discriminate D; injection D as ->; cbn [step] in H; unfold after in H; cbv zeta in H; unstep H; apply some_pair in H as [-> _]; cbn [nodes gone with_phase]; rewrite set_same;
    try match goal with E : nodes w i = _ |- _ => rewrite E in Mi end; cbn [made blocks_dir pins_dir with_phase gone] in Mi |- *; subst; cbn [negb] in *; try exact Logic.I; try (intuition (try congruence)).
  all: repeat match goal with E : negb ?b = false |- _ => apply (f_equal negb) in E; rewrite Bool.negb_involutive in E; cbn [negb] in E; subst b end; auto.
Qed.
Lemma run_made h : forall w w' t, (forall i, made w (nodes w i)) -> untouched h -> run w h = Some (w', t) -> forall i, made w' (nodes w' i).
Proof.
  induction h as [|o h IH]; intros w w' t G U H; cbn [run] in H; [injection H as <- _; exact G|]. destruct (step w o) as [[w1 a]|] eqn:S; [|discriminate].
  destruct (run w1 h) as [[w2 t2]|] eqn:R; [|discriminate]. injection H as <- _. destruct (U o (or_introl eq_refl)) as [U1 U2]. apply (IH _ _ _ (step_made _ _ _ _ G U2 S)) with (2 := R). intros x X. apply U. right. exact X.
Qed.

(** * Which of the two failed *)
Definition results (h : list op) (i : nat) (p : phase) : Prop :=
  match p with
  | Configured => (forall f, ~ In (InitBlocks i f) h) /\ (forall f, ~ In (InitData i f) h)
  | Initializing b d =>
      (forall f, In (InitBlocks i f) h <-> b = Some (negb f)) /\ (forall f, In (InitData i f) h <-> d = Some (negb f))
  | _ => True
  end.
Lemma in_snoc {A} (x y : A) l : In x (l ++ [y]) <-> In x l \/ y = x.
Proof. rewrite in_app_iff. cbn [In]. intuition. Qed.
Lemma run_results h : forall d w t i, run (init d) h = Some (w, t) -> results h i (nodes w i).
Proof.
  induction h as [|o h IH] using rev_ind; intros d w t i H.
  - cbn [run] in H. injection H as <- _. cbn. split; intros f [].
  - apply run_snoc in H as (w1 & t1 & a & R & S & _). specialize (IH _ _ _ i R).
    assert (D : who o <> Some i \/ who o = Some i) by (destruct (who o) as [j|]; [destruct (Nat.eq_dec j i); [right|left]|left]; congruence).
    destruct D as [D|D].
    + rewrite (step_other _ _ _ _ i S D). assert (N1 : forall f, o <> InitBlocks i f) by (intros f ->; apply D; reflexivity). assert (N2 : forall f, o <> InitData i f) by (intros f ->; apply D; reflexivity).
      destruct (nodes w1 i); cbn [results] in IH |- *; try exact Logic.I; destruct IH as [A B]; split; intros f; rewrite in_snoc; [specialize (A f)|specialize (B f)|specialize (A f)|specialize (B f)]; specialize (N1 f); specialize (N2 f); tauto.
    + destruct o; cbn [who] in D; try discriminate D; injection D as ->; cbn [step] in S; unfold after in S; cbv zeta in S; unstep S; apply some_pair in S as [-> _]; cbn [nodes gone with_phase]; rewrite set_same;
        try match goal with E : nodes w1 i = _ |- _ => rewrite E in IH end; cbn [results] in IH |- *; subst; try exact Logic.I; destruct IH as [A B]; split; intros f; rewrite in_snoc; specialize (A f); specialize (B f); destruct f; cbn [negb] in *; intuition congruence.
Qed.

(** * What keeps a started node's repository *)
Definition count (p : op -> bool) (t : list (op * out)) : nat := length (filter p (map fst t)).
Lemma count_snoc p t o a : count p (t ++ [(o, a)]) = ((if p o then 1 else 0) + count p t)%nat.
Proof. unfold count. rewrite map_app, filter_app, app_length. cbn [map fst filter]. destruct (p o); cbn [length]; lia. Qed.
Definition kept (t : list (op * out)) (i : nat) (p : phase) : Prop :=
  match p with
  | Up a b c => count (is_clone i) t = (a + count (is_drop i) t)%nat /\ count (is_spawn i) t = (c + count (is_done i) t)%nat /\ (In (EndTask i) (map fst t) <-> b = false)
  | Gone => In (Kill i) (map fst t) \/ ~ In (CreateSwarm i false, Started) t \/
      count (is_clone i) t = count (is_drop i) t /\ count (is_spawn i) t = count (is_done i) t /\ In (EndTask i) (map fst t)
  | _ => ~ In (CreateSwarm i false, Started) t /\ count (is_clone i) t = 0%nat /\ count (is_drop i) t = 0%nat /\ count (is_spawn i) t = 0%nat /\ count (is_done i) t = 0%nat /\ ~ In (EndTask i) (map fst t)
  end.
Lemma not_mine o i : who o <> Some i -> is_clone i o = false /\ is_drop i o = false /\ is_spawn i o = false /\ is_done i o = false /\ o <> EndTask i /\ o <> Kill i /\ o <> CreateSwarm i false.
Proof.
  intros W. assert (X : forall j, Some j <> Some i -> Nat.eqb j i = false) by (intros j N; apply Nat.eqb_neq; congruence).
  destruct o; cbn [who is_clone is_drop is_spawn is_done] in *; try (rewrite (X _ W)); try (destruct fault); repeat split; try reflexivity; intros [= ->]; apply W; reflexivity.
Qed.
Lemma run_kept h : forall d w t i, run (init d) h = Some (w, t) -> kept t i (nodes w i).
Proof.
  induction h as [|o h IH] using rev_ind; intros d w t i H.
  - cbn [run] in H. injection H as <- <-. cbn. repeat split; intros [].
  - apply run_snoc in H as (w1 & t1 & a & R & S & ->). specialize (IH _ _ _ i R).
    assert (M : map fst (t1 ++ [(o, a)]) = map fst t1 ++ [o]) by (rewrite map_app; reflexivity).
    assert (D : who o <> Some i \/ who o = Some i) by (destruct (who o) as [j|]; [destruct (Nat.eq_dec j i); [right|left]|left]; congruence).
    destruct D as [D|D].
    + rewrite (step_other _ _ _ _ i S D). destruct (not_mine o i D) as (A1 & A2 & A3 & A4 & A5 & A6 & A7).
      destruct (nodes w1 i); cbn [kept] in IH |- *; rewrite ?M, ?count_snoc, ?in_snoc, ?A1, ?A2, ?A3, ?A4; cbn [Nat.add]; intuition congruence.
    + destruct o; cbn [who] in D; try discriminate D; injection D as ->; cbn [step] in S; unfold after in S; cbv zeta in S; unstep S; apply some_pair in S as [-> ->]; cbn [nodes gone with_phase]; rewrite set_same;
        try match goal with E : nodes w1 i = _ |- _ => rewrite E in IH end; cbn [kept] in IH |- *; rewrite ?M, ?count_snoc, ?in_snoc; cbn [is_clone is_drop is_spawn is_done]; rewrite ?Nat.eqb_refl; cbn [Nat.add] in *; subst; try (intuition (try congruence; try lia)).
Qed.

(** For examples. *)
Lemma ex_run w h (P : world -> list (op * out) -> Prop) : match run w h with Some (w', t) => P w' t | None => False end -> exists w' t, run w h = Some (w', t) /\ P w' t.
Proof. destruct (run w h) as [[w' t]|]; [|intros []]. intros H. exists w', t. split; [reflexivity|exact H]. Qed.
