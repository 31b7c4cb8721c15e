(** Lemmas about the texts of paths written into tar headers. *)
From Verif Require Import Base Wire WireProofs Cid Pb FileVisit IpfsPath PathSpec IpfsPathProofs StdPath Walk WalkSpec WalkProofs Tar TarSpec TarFields.
Local Open Scope N_scope.

Lemma text_true l : text true l = slashed l.
Proof. induction l as [|c l IH]; [reflexivity|cbn; rewrite IH; reflexivity]. Qed.
Lemma ends_with_slash_iff p : ends_with_slash p = true <-> exists q, p = q ++ [47].
Proof.
  unfold ends_with_slash. split.
  - destruct (rev p) as [|c r] eqn:E; [discriminate|]. intros H. exists (rev r). rewrite <- (rev_involutive p), E. cbn. f_equal. f_equal. lia.
  - intros (q & ->). rewrite rev_app_distr. reflexivity.
Qed.
Lemma slashed_cons x l : slashed (x :: l) = 47 :: x ++ slashed l.
Proof. reflexivity. Qed.
Lemma filter_slashed f l : (length (slashed (filter f l)) <= length (slashed l))%nat.
Proof. induction l as [|x l IH]; [reflexivity|]. cbn [filter]. rewrite (slashed_cons x l). destruct (f x); [rewrite slashed_cons|]; cbn [length]; rewrite ?app_length; lia. Qed.
Lemma text_comps_length p : (length (if is_absolute p then [47%N] else []) + length (text false (comps p)) <= length p)%nat.
Proof.
  unfold comps. destruct (split_inv p) as (x & l & -> & E & Hx & Hl).
  set (t := filter (fun s => negb (dropped s)) l).
  assert (T : (length (slashed t) <= length (slashed l))%nat) by apply filter_slashed.
  assert (T2 : (length (text false t) <= length (slashed t) - 1)%nat).
  { destruct t as [|y t']; [cbn; lia|]. rewrite text_join, join_slashed, slashed_cons. cbn [length]. rewrite !app_length. lia. }
  destruct (is_absolute p) eqn:A.
  - destruct l as [|y l].
    + assert (p = x) by (rewrite E; cbn; apply app_nil_r). subst p. destruct x as [|c x]; [discriminate|]. exfalso. cbn in A. apply Hx. left. lia.
    + rewrite E, app_length. assert (1 <= length (slashed (y :: l)))%nat by (cbn; lia).
      cbn [length]. lia.
  - cbn [length]. destruct (beq_spec x []) as [->|Hn].
    + cbn [app] in E. rewrite E. lia.
    + rewrite E, app_length. rewrite text_join, join_slashed, app_length. cbn [plus]. lia.
Qed.
Lemma comps_trailing q : q <> [] -> comps (q ++ [47]) = comps q.
Proof.
  intros Hq. unfold comps. rewrite (split_join q []). cbn [split_slash]. destruct (split_slash q) as [|s0 rest] eqn:E; [exfalso; exact (split_nonempty _ E)|].
  cbn [app]. rewrite filter_app. cbn [filter dropped beq]. change (negb (dropped [])) with false. cbn [app]. rewrite app_nil_r.
  destruct q as [|c q]; [congruence|]. reflexivity.
Qed.
Lemma canon_length p : (length (canon p) <= Nat.max (length p) 2)%nat.
Proof.
  unfold canon. destruct (ends_with_slash p) eqn:E.
  - apply ends_with_slash_iff in E as (q & ->). rewrite !app_length. cbn [length].
    destruct q as [|c q]; [cbn; lia|]. set (q' := c :: q) in *. assert (Hq : q' <> []) by discriminate.
    rewrite (comps_trailing q' Hq). assert (H := text_comps_length q').
    replace (is_absolute (q' ++ [47])) with (is_absolute q') by reflexivity. lia.
  - rewrite !app_length. cbn [length]. assert (H := text_comps_length p). lia.
Qed.
Lemma canon_length_relative p : is_absolute p = false -> (length (canon p) <= length p)%nat.
Proof.
  intros A. unfold canon. destruct (ends_with_slash p) eqn:E.
  - apply ends_with_slash_iff in E as (q & ->). rewrite !app_length. cbn [length].
    destruct q as [|c q]; [discriminate|]. set (q' := c :: q) in *. assert (Hq : q' <> []) by discriminate.
    rewrite (comps_trailing q' Hq). assert (H := text_comps_length q').
    replace (is_absolute (q' ++ [47])) with (is_absolute q') in * by reflexivity. lia.
  - rewrite !app_length. cbn [length]. assert (H := text_comps_length p). lia.
Qed.

(** A tidy path is written as it is. *)
Lemma tidy_steps ns : Forall tidy_name ns -> Forall step_name ns.
Proof. apply Forall_impl. intros n H. apply H. Qed.
Lemma join_no_end ns : ns <> [] -> Forall step_name ns -> ends_with_slash (join ns) = false.
Proof.
  intros Hn H. destruct (ends_with_slash (join ns)) eqn:E; [|reflexivity]. apply ends_with_slash_iff in E as (q & E).
  destruct ns as [|x l]; [congruence|]. assert (S := split_join_list x l (steps_plain _ H)). rewrite E, (split_join q []) in S.
  cbn [split_slash] in S. rewrite Forall_forall in H. assert (Q : In [] (x :: l)) by (rewrite <- S; apply in_or_app; right; left; reflexivity).
  destruct (H _ Q) as [N _]. congruence.
Qed.
Lemma canon_join ns : ns <> [] -> Forall step_name ns -> canon (join ns) = join ns.
Proof.
  intros Hn H. unfold canon. rewrite join_no_end by assumption. rewrite comps_join by exact H. rewrite text_join, app_nil_r.
  destruct ns as [|x l]; [congruence|]. inversion H; subst. rewrite abs_join by assumption. reflexivity.
Qed.
Lemma good_written p : good_path p -> is_absolute p = false /\ Forall (written false) (comps p) /\ canon p = p /\ p <> [] /\ wf_bytes p.
Proof.
  intros ((ns & Hn & T & ->) & _). assert (S := tidy_steps _ T). destruct ns as [|x l]; [congruence|].
  split; [apply abs_join; inversion S; assumption|]. rewrite comps_join by exact S. split; [|split; [apply canon_join; assumption|split]].
  - rewrite Forall_forall in *. intros n H. destruct (T n H) as ((_ & _ & N1) & N2 & N3 & _). split; [exact N3|]. intros _. split; assumption.
  - rewrite join_slashed. inversion S as [|? ? (N & _) _]; subst. destruct x; [congruence|discriminate].
  - rewrite join_slashed. inversion T as [|? ? Tx Tl]; subst. apply wf_bytes_app. split; [apply Tx|].
    clear - Tl. induction Tl as [|n l Hn _ IH]; cbn; [constructor|]. constructor; [unfold is_byte; lia|]. apply wf_bytes_app. split; [apply Hn|exact IH].
Qed.

(** Cutting a text cuts the last of its segments. *)
Lemma split_cut a b : exists init l h t, split_slash a = init ++ [l] /\ split_slash b = h :: t /\ split_slash (a ++ b) = init ++ (l ++ h) :: t /\
  (init = [] /\ a = l \/ init <> [] /\ exists q, a = q ++ 47 :: l).
Proof.
  destruct (split_slash b) as [|h t] eqn:B; [exfalso; exact (split_nonempty _ B)|].
  induction a as [|c a (init & l & h' & t' & E1 & E2 & E3 & E4)].
  - exists [], [], h, t. cbn. rewrite B. repeat split; auto.
  - injection E2 as <- <-. cbn [app split_slash]. destruct (c =? 47) eqn:C.
    + assert (c = 47) by lia. subst c. exists ([] :: init), l, h, t. rewrite E1, E3. repeat split.
      right. split; [discriminate|]. destruct E4 as [[-> ->]|(_ & q & ->)]; [exists []; reflexivity|exists (47 :: q); reflexivity].
    + rewrite E1, E3. destruct init as [|i init]; cbn [app].
      * exists [], (c :: l), h, t. repeat split; [].
        destruct E4 as [[_ ->]|(Q & _)]; [left; split; reflexivity|congruence].
      * exists ((c :: i) :: init), l, h, t. repeat split. right. split; [discriminate|]. destruct E4 as [[E _]|(_ & q & ->)]; [discriminate|exists (c :: q); reflexivity].
Qed.
Lemma comps_dot p : In [46] (comps p) -> is_absolute p = false -> exists l, split_slash p = [46] :: l.
Proof.
  unfold comps. destruct (split_slash p) as [|s0 rest]; [intros []|]. intros H A. rewrite A in H.
  assert (F : ~ In [46] (filter (fun s => negb (dropped s)) rest)) by (intros Q; apply filter_In in Q as [_ Q]; discriminate).
  destruct (beq s0 []); [contradiction|]. destruct H as [->|H]; [eexists; reflexivity|contradiction].
Qed.
Lemma split_no_zero p : ~ In 0 p -> forall c, In c (split_slash p) -> ~ In 0 c.
Proof.
  intros H c Hc Z. destruct (split_inv p) as (x & l & E & Ep & _). rewrite E in Hc. apply H. rewrite Ep. apply in_or_app.
  destruct Hc as [->|Hc]; [left; exact Z|right]. clear - Hc Z. induction l as [|y l IH]; [destruct Hc|]. cbn. right. apply in_or_app.
  destruct Hc as [->|Hc]; [left; exact Z|right; apply IH, Hc].
Qed.
Lemma good_no_zero p : good_path p -> ~ In 0 p.
Proof.
  intros ((ns & Hn & T & ->) & _). destruct ns as [|x l]; [congruence|]. rewrite join_slashed. inversion T as [|? ? Tx Tl]; subst.
  intros H. apply in_app_or in H as [H|H]; [apply Tx, H|]. clear - Tl H. induction Tl as [|n l Hn _ IH]; cbn in H; [contradiction|].
  destruct H as [H|H]; [discriminate|]. apply in_app_or in H as [H|H]; [apply Hn, H|apply IH, H].
Qed.
Lemma cut_written p : good_path p -> (100 < length p)%nat ->
  let c := firstn 100 p in is_absolute c = false /\ Forall (written false) (comps c) /\ c <> [] /\ (length (canon c) <= 100)%nat.
Proof.
  intros G L c. destruct (good_written p G) as (A & _ & _ & _ & _). assert (Z := good_no_zero p G). destruct G as ((ns & Hn & T & Ep) & _ & Hcut).
  assert (Lc : length c = 100%nat) by (subst c; rewrite firstn_length; lia).
  assert (Ac : is_absolute c = false) by (subst c; destruct p; [cbn in L; lia|exact A]).
  assert (Sp : split_slash p = ns).
  { subst p. destruct ns as [|x l]; [congruence|]. apply split_join_list, steps_plain, tidy_steps, T. }
  split; [exact Ac|]. split; [|split; [destruct c; [discriminate|discriminate]|rewrite <- Lc; apply canon_length_relative, Ac]].
  destruct (split_cut c (skipn 100 p)) as (init & l & h & t & E1 & E2 & E3 & E4).
  replace (c ++ skipn 100 p) with p in E3 by (subst c; symmetry; apply firstn_skipn). rewrite Sp in E3.
  rewrite Forall_forall in *. intros x Hx. assert (Hs := comps_in _ _ Hx). rewrite E1 in Hs. split.
  - intros Q. apply Z. rewrite <- (firstn_skipn 100 p). apply in_or_app. left. fold c.
    assert (Q2 : forall c, In c (split_slash c) -> True) by auto. clear Q2.
    destruct (in_dec N.eq_dec 0 c) as [Y|Y]; [exact Y|]. exfalso. apply (split_no_zero c Y x); [apply comps_in, Hx|exact Q].
  - intros _. split.
    + intros ->. destruct (comps_dot c Hx Ac) as (r & E). rewrite E1 in E. destruct init as [|i init].
      * cbn in E. injection E as -> <-. destruct E4 as [[_ E4]|(Q & _)]; [rewrite E4 in Lc; discriminate|congruence].
      * cbn in E. injection E as -> _. destruct (T [46]) as ((_ & _ & N) & _); [rewrite E3; left; reflexivity|congruence].
    + intros ->. apply in_app_or in Hs as [Hs|[Hs|[]]].
      * destruct (T [46; 46]) as (_ & N & _); [rewrite E3; apply in_or_app; left; exact Hs|congruence].
      * subst l. destruct E4 as [[_ E4]|(_ & q & E4)]; [rewrite E4 in Lc; discriminate|].
        apply Hcut. split; [exact L|]. exists q. exact E4.
Qed.

(** Link targets. *)
Lemma target_written t : ~ In 0 t -> Forall (written true) (comps t).
Proof. intros H. rewrite Forall_forall. intros c Hc. split; [apply (split_no_zero t H), comps_in, Hc|discriminate]. Qed.
Lemma comps_plain p : Forall plain (comps p).
Proof.
  destruct (split_inv p) as (x & l & E & _ & Hx & Hl). rewrite Forall_forall. intros c Hc. apply comps_in in Hc. rewrite E in Hc.
  destruct Hc as [<-|Hc]; [exact Hx|]. rewrite Forall_forall in Hl. apply Hl, Hc.
Qed.
Lemma comps_tail_steps p x l : comps p = x :: l -> Forall step_name l /\ x <> [] /\ (is_absolute p = true -> step_name x).
Proof.
  intros E. assert (P := comps_plain p). rewrite E in P. inversion P as [|? ? Px Pl]; subst. unfold comps in E.
  destruct (split_slash p) as [|s0 rest]; [discriminate|].
  assert (F : forall y, In y (filter (fun s => negb (dropped s)) rest) -> y <> [] /\ y <> [46]).
  { intros y Hy. apply filter_In in Hy as [_ Hy]. split; intros ->; discriminate. }
  assert (G : forall z, is_absolute p = true \/ s0 = [] -> filter (fun s => negb (dropped s)) rest = z :: l -> Forall step_name l /\ z <> [] /\ (plain z -> step_name z)).
  { intros z _ Ez. rewrite Ez in F. split; [|split].
    - rewrite Forall_forall in *. intros y Hy. destruct (F y (or_intror Hy)). split; [assumption|]. split; [apply Pl, Hy|assumption].
    - apply (F z). left. reflexivity.
    - intros Pz. destruct (F z (or_introl eq_refl)). split; [assumption|]. split; assumption. }
  destruct (is_absolute p) eqn:A.
  - destruct (G x (or_introl eq_refl) E) as (G1 & G2 & G3). auto.
  - destruct (beq_spec s0 []) as [->|Hs].
    + destruct (G x (or_intror eq_refl) E) as (G1 & G2 & G3). split; [exact G1|]. split; [exact G2|discriminate].
    + injection E as -> <-. split; [|split; [exact Hs|discriminate]]. rewrite Forall_forall in *. intros y Hy.
      destruct (F y Hy). split; [assumption|]. split; [apply Pl, Hy|assumption].
Qed.
Lemma canon_same t : t <> [] -> same_target t (canon t).
Proof.
  intros Ht. assert (P := comps_plain t).
  assert (Abs : is_absolute (canon t) = is_absolute t).
  { unfold canon. destruct (is_absolute t) eqn:A; [reflexivity|]. cbn [app]. destruct (comps t) as [|x l] eqn:E; [exfalso; exact (relative_comps _ Ht A E)|].
    destruct (comps_tail_steps _ _ _ E) as (_ & Hx & _). inversion P as [|? ? Px _]; subst. destruct x as [|c x]; [congruence|]. cbn.
    destruct (c =? 47) eqn:C; [|reflexivity]. exfalso. apply Px. left. lia. }
  assert (C : comps (canon t) = comps t).
  { assert (Q : comps ((if is_absolute t then [47] else []) ++ text false (comps t)) = comps t).
    { rewrite text_join. destruct (is_absolute t) eqn:A.
      - cbn [app]. unfold comps at 1. cbn [split_slash is_absolute]. change (47 =? 47) with true. cbn iota.
        destruct (comps t) as [|x l] eqn:E; [reflexivity|]. destruct (comps_tail_steps _ _ _ E) as (Sl & _ & Sx).
        rewrite split_join_list by exact P. apply filter_steps. constructor; [apply Sx, A|exact Sl].
      - cbn [app]. destruct (comps t) as [|x l] eqn:E; [exfalso; exact (relative_comps _ Ht A E)|].
        destruct (comps_tail_steps _ _ _ E) as (Sl & Nx & _). unfold comps. rewrite split_join_list by exact P.
        assert (AJ : is_absolute (join (x :: l)) = false).
        { rewrite join_slashed. inversion P as [|? ? Px _]; subst. destruct x as [|c x]; [congruence|]. cbn. destruct (c =? 47) eqn:C; [|reflexivity]. exfalso. apply Px. left. lia. }
        rewrite AJ. destruct (beq_spec x []); [congruence|]. rewrite filter_steps by exact Sl. reflexivity. }
    unfold canon. destruct (ends_with_slash t); [|rewrite app_nil_r; exact Q].
    rewrite app_assoc, comps_trailing; [exact Q|].
    destruct (is_absolute t) eqn:A; [discriminate|]. cbn [app]. destruct (comps t) as [|x l] eqn:E; [exfalso; exact (relative_comps _ Ht A E)|].
    destruct (comps_tail_steps _ _ _ E) as (_ & Nx & _). rewrite text_join, join_slashed. destruct x; [congruence|discriminate]. }
  split; [symmetry; exact Abs|]. split; [symmetry; exact C|].
  intros (ns & Hn & S & [->| ->]); [symmetry; apply canon_join; assumption|].
  assert (E : ends_with_slash (47 :: join ns) = false).
  { assert (J := join_no_end ns Hn S). unfold ends_with_slash in *. cbn [rev]. destruct (rev (join ns)) as [|c r] eqn:R; [|exact J].
    exfalso. apply (f_equal (@length N)) in R. rewrite rev_length in R. destruct ns as [|x l]; [congruence|]. rewrite join_slashed in R.
    inversion S as [|? ? (N & _) _]; subst. destruct x; [congruence|discriminate]. }
  unfold canon. rewrite E. cbn [is_absolute]. change (47 =? 47) with true. cbn [app]. rewrite app_nil_r. f_equal.
  unfold comps. cbn [split_slash is_absolute]. change (47 =? 47) with true. cbn iota. destruct ns as [|x l]; [congruence|].
  rewrite split_join_list by (apply steps_plain, S). rewrite filter_steps by exact S. rewrite text_join. reflexivity.
Qed.
