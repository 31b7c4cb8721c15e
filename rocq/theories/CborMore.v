(** Injectivity of the dag-cbor encoding, safety of the decoder. *)
From Coq Require Import Permutation.
From Verif Require Import Base Wire WireProofs Cid CidProofs BTree Ipld Cbor CborSpec CborProofs CborRound.
Local Open Scope N_scope.

(** * Injectivity *)
Lemma head_inj a n b m r s :
  n < u64_max1 -> m < u64_max1 -> write_u64 a n ++ r = write_u64 b m ++ s -> a = b /\ n = m /\ r = s.
Proof.
  intros Hn Hm E.
  destruct (head_spec a n Hn) as (b0 & t & Hh & Hd & _ & Ha & _).
  destruct (head_spec b m Hm) as (b1 & t' & Hh' & Hd' & _ & Ha' & _).
  rewrite Hh, Hh' in E. cbn [app] in E. inversion E; subst b1.
  pose proof (Ha r) as H0. rewrite H1, Ha' in H0. inversion H0. split; [congruence|auto].
Qed.

Lemma app_inj_len {A} (a b r s : list A) : a ++ r = b ++ s -> length a = length b -> a = b /\ r = s.
Proof.
  revert b. induction a as [|x a IH]; intros [|y b] E Hl; cbn in *; try lia; [auto|].
  inversion E; subst. destruct (IH b H1) as [-> ->]; [lia|auto].
Qed.

Lemma be_bytes_inj n x y r s :
  x < 256 ^ N.of_nat n -> y < 256 ^ N.of_nat n -> be_bytes n x ++ r = be_bytes n y ++ s ->
  x = y /\ r = s.
Proof.
  intros Hx Hy E. pose proof (read_be_app n x r Hx) as H. rewrite E, read_be_app in H by exact Hy.
  inversion H. auto.
Qed.

Lemma nonfinite_bits f :
  f < u64_max1 -> f64_finite f = false -> f64_man f = 0 ->
  f = f64_sign f * 2 ^ 63 + 2047 * 2 ^ 52 /\ f64_sign f <= 1.
Proof.
  intros Hf Hfin Hman. unfold f64_finite in Hfin. apply negb_false_iff, N.eqb_eq in Hfin.
  unfold f64_exp, f64_man, f64_sign in *.
  assert (H1 : f = 2 ^ 52 * (f / 2 ^ 52) + f mod 2 ^ 52) by (apply N.div_mod; vm_compute; discriminate).
  assert (H2 : f / 2 ^ 52 = 2048 * (f / 2 ^ 52 / 2048) + (f / 2 ^ 52) mod 2048) by (apply N.div_mod; lia).
  rewrite N.div_div in H2 by (vm_compute; discriminate). change (2 ^ 52 * 2048) with (2 ^ 63) in H2.
  split.
  - rewrite Hman in H1. rewrite Hfin in H2. change (2 ^ 63) with (2048 * 2 ^ 52).
    change (2 ^ 63) with (2048 * 2 ^ 52) in H2. set (q := 2 ^ 52) in *. clearbody q. nia.
  - assert (f / 2 ^ 63 < 2); [|lia]. apply N.div_lt_upper_bound; [vm_compute; discriminate|exact Hf].
Qed.

Lemma write_f64_inj f g r s :
  f < u64_max1 -> g < u64_max1 -> is_nan f = false -> is_nan g = false ->
  write_f64 f ++ r = write_f64 g ++ s -> f = g /\ r = s.
Proof.
  intros Hf Hg Nf Ng E.
  assert (K : forall x, x < u64_max1 -> is_nan x = false -> f64_finite x = false ->
     x = f64_sign x * 2 ^ 63 + 2047 * 2 ^ 52 /\ f64_sign x <= 1 /\ f64_man x = 0).
  { intros x Hx Nx Fx. assert (Hm : f64_man x = 0).
    { unfold is_nan in Nx. unfold f64_finite, f64_exp in Fx. apply negb_false_iff in Fx.
      rewrite Fx in Nx. cbn [andb] in Nx. apply negb_false_iff, N.eqb_eq in Nx. exact Nx. }
    destruct (nonfinite_bits x Hx Fx Hm). auto. }
  unfold write_f64 in E.
  destruct (f64_finite f) eqn:Ff; destruct (f64_finite g) eqn:Fg.
  - destruct (narrow f) as [y|] eqn:En; destruct (narrow g) as [z|] eqn:En'; cbn [app] in E; try discriminate.
    + apply (f_equal (@tl N)) in E. cbn [tl] in E. apply be_bytes_inj in E as [-> ->].
      * apply narrow_some in En, En'. split; congruence.
      * eapply narrow_small in En; eauto.
      * eapply narrow_small in En'; eauto.
    + apply (f_equal (@tl N)) in E. cbn [tl] in E. apply be_bytes_inj in E; auto.
  - destruct (K g Hg Ng Fg) as (_ & _ & Hm). rewrite Hm in E. change (0 =? 0) with true in E. cbn iota in E.
    destruct (f64_sign g =? 0); destruct (narrow f); cbn [app] in E; discriminate.
  - destruct (K f Hf Nf Ff) as (_ & _ & Hm). rewrite Hm in E. change (0 =? 0) with true in E. cbn iota in E.
    destruct (f64_sign f =? 0); destruct (narrow g); cbn [app] in E; discriminate.
  - destruct (K f Hf Nf Ff) as (Ef & Sf & Hm). destruct (K g Hg Ng Fg) as (Eg & Sg & Hm').
    rewrite Hm, Hm' in E. change (0 =? 0) with true in E. cbn iota in E.
    destruct (N.eqb_spec (f64_sign f) 0) as [S1|S1]; destruct (N.eqb_spec (f64_sign g) 0) as [S2|S2];
      cbn [app] in E; inversion E; split; auto; rewrite Ef, Eg.
    + rewrite S1, S2. reflexivity.
    + replace (f64_sign f) with 1 by lia. replace (f64_sign g) with 1 by lia. reflexivity.
Qed.

(** The major type a value is written with. *)
Definition major_of (v : ipld) : N :=
  match v with
  | Integer i => if (i <? 0)%Z then 1 else 0
  | IBytes _ => 2 | Str _ => 3 | IList _ => 4 | IMap _ => 5 | Link _ => 6
  | _ => 7
  end.

Lemma head_major a n r : n < u64_max1 -> exists b0 t, write_u64 a n ++ r = b0 :: t /\ b0 / 32 = a.
Proof.
  intros Hn. destruct (head_spec a n Hn) as (b0 & t & Hh & Hd & _). rewrite Hh.
  exists b0, (t ++ r). split; [reflexivity|exact Hd].
Qed.

Lemma write_major v b r :
  wf_ipld v -> write_ipld v = Ok b -> exists b0 t, b ++ r = b0 :: t /\ b0 / 32 = major_of v.
Proof.
  intros Hwf Hw. destruct v; cbn [wf_ipld] in Hwf.
  - cbn in Hw. inversion Hw. eexists _, _. split; reflexivity.
  - cbn in Hw. inversion Hw. eexists _, _. split; [reflexivity|]. destruct b0; reflexivity.
  - cbn [write_ipld] in Hw. pose proof (write_int_inv _ _ Hw) as Hi.
    rewrite write_int_ok in Hw by exact Hi. inversion Hw. cbn [major_of].
    change (2 ^ 64)%Z with 18446744073709551616%Z in Hi.
    destruct (Z.ltb_spec i 0); apply head_major; unfold u64_max1; lia.
  - cbn in Hw. inversion Hw. unfold write_f64. cbn [major_of].
    destruct (f64_finite bits); [destruct (narrow bits)|destruct (f64_man bits =? 0); [destruct (f64_sign bits =? 0)|]];
      eexists _, _; split; reflexivity.
  - cbn in Hw. inversion Hw. unfold write_str. rewrite <- app_assoc. apply head_major. tauto.
  - cbn in Hw. inversion Hw. unfold write_bytes. rewrite <- app_assoc. apply head_major. tauto.
  - cbn [write_ipld] in Hw. apply prepend_inv in Hw as (c & _ & ->). rewrite <- app_assoc. apply head_major. tauto.
  - cbn [write_ipld] in Hw. apply prepend_inv in Hw as (c & _ & ->). rewrite <- app_assoc. apply head_major. tauto.
  - cbn in Hw. inversion Hw. eexists _, _. split; reflexivity.
Qed.

Definition prefix_inj (v1 : ipld) : Prop :=
  forall v2 b1 b2 r1 r2, wf_ipld v1 -> wf_ipld v2 -> nan_free v1 -> nan_free v2 ->
    write_ipld v1 = Ok b1 -> write_ipld v2 = Ok b2 -> b1 ++ r1 = b2 ++ r2 -> v1 = v2 /\ r1 = r2.

Lemma seq_inj {A} (f : A -> cres bytes) (P : A -> Prop) l1 l2 bs1 bs2 r1 r2 :
  Forall (fun x => forall y b c r s, P y -> f x = Ok b -> f y = Ok c -> b ++ r = c ++ s -> x = y /\ r = s) l1 ->
  Forall P l2 ->
  Forall2 (fun x b => f x = Ok b) l1 bs1 -> Forall2 (fun x b => f x = Ok b) l2 bs2 ->
  length l1 = length l2 -> concat bs1 ++ r1 = concat bs2 ++ r2 -> l1 = l2 /\ r1 = r2.
Proof.
  intros HI HP HF1. revert l2 bs2 HP. induction HF1 as [|x b l bs Hx HF1 IH]; intros l2 bs2 HP HF2 Hl E.
  - destruct l2; cbn in Hl; [|lia]. inversion HF2; subst. auto.
  - destruct HF2 as [|y c l2 bs2 Hy HF2]; [cbn in Hl; lia|].
    cbn [concat] in E. rewrite <- !app_assoc in E. inversion HI; subst. inversion HP; subst.
    destruct (H1 y b c _ _ H3 Hx Hy E) as [-> E2].
    destruct (IH H2 l2 bs2 H4 HF2) as [-> ->]; [cbn in Hl; lia|exact E2|]. auto.
Qed.

Lemma prefix_injective v : prefix_inj v.
Proof.
  induction v as [|b|i|f|s|bs|l IH|m IH|c] using ipld_ind'; intros v2 b1 b2 r1 r2 W1 W2 N1 N2 E1 E2 E.
  all: destruct (write_major _ _ r1 W1 E1) as (x1 & t1 & X1 & M1);
    destruct (write_major _ _ r2 W2 E2) as (x2 & t2 & X2 & M2);
    rewrite X1, X2 in E; injection E as Hx Ht; rewrite Hx in M1; rewrite M1 in M2;
    assert (E : b1 ++ r1 = b2 ++ r2) by (rewrite X1, X2; congruence);
    clear Hx Ht X1 X2.
  - destruct v2 as [|b2'|i2|f2|s2|bs2|l2|m2|c2]; cbn [major_of] in M2; try discriminate;
      try (destruct (i2 <? 0)%Z; discriminate); cbn in E1, E2; inversion E1; inversion E2; subst.
    + cbn [app] in E. inversion E. auto.
    + cbn [app] in E. destruct b2'; discriminate.
    + unfold write_f64 in E.
      destruct (f64_finite f2); [destruct (narrow f2)|destruct (f64_man f2 =? 0); [destruct (f64_sign f2 =? 0)|]]; discriminate.
  - destruct v2 as [|b2'|i2|f2|s2|bs2|l2|m2|c2]; cbn [major_of] in M2; try discriminate;
      try (destruct (i2 <? 0)%Z; discriminate); cbn in E1, E2; inversion E1; inversion E2; subst.
    + cbn [app] in E. destruct b; discriminate.
    + cbn [app] in E. destruct b, b2'; inversion E; auto.
    + unfold write_f64 in E.
      destruct (f64_finite f2); [destruct (narrow f2)|destruct (f64_man f2 =? 0); [destruct (f64_sign f2 =? 0)|]];
      destruct b; discriminate.
  - destruct v2 as [|b2'|i2|f2|s2|bs2|l2|m2|c2]; cbn [major_of] in M2; try (destruct (i <? 0)%Z; discriminate).
    cbn [write_ipld] in E1, E2. pose proof (write_int_inv _ _ E1) as Hi1. pose proof (write_int_inv _ _ E2) as Hi2.
    rewrite write_int_ok in E1, E2 by assumption. injection E1 as <-. injection E2 as <-.
    change (2 ^ 64)%Z with 18446744073709551616%Z in *.
    destruct (Z.ltb_spec i 0); destruct (Z.ltb_spec i2 0); try discriminate;
      apply head_inj in E as (_ & E & ->); try (unfold u64_max1; lia); split; auto; f_equal; lia.
  - destruct v2 as [|b2'|i2|f2|s2|bs2|l2|m2|c2]; cbn [major_of] in M2; try discriminate;
      try (destruct (i2 <? 0)%Z; discriminate); cbn [write_ipld] in E1, E2; injection E1 as <-; injection E2 as <-.
    + unfold write_f64 in E.
      destruct (f64_finite f); [destruct (narrow f)|destruct (f64_man f =? 0); [destruct (f64_sign f =? 0)|]]; discriminate.
    + unfold write_f64 in E.
      destruct (f64_finite f); [destruct (narrow f)|destruct (f64_man f =? 0); [destruct (f64_sign f =? 0)|]];
      destruct b2'; discriminate.
    + apply write_f64_inj in E as [-> ->]; auto.
  - destruct v2 as [|b2'|i2|f2|s2|bs2|l2|m2|c2]; cbn [major_of] in M2; try discriminate;
      try (destruct (i2 <? 0)%Z; discriminate). cbn [write_ipld] in E1, E2. injection E1 as <-. injection E2 as <-.
    unfold write_str in E. rewrite <- !app_assoc in E. cbn [wf_ipld] in W1, W2.
    apply head_inj in E as (_ & El & E); [|tauto|tauto].
    apply app_inj_len in E as [-> ->]; [auto|unfold blen in El; lia].
  - destruct v2 as [|b2'|i2|f2|s2|bs2|l2|m2|c2]; cbn [major_of] in M2; try discriminate;
      try (destruct (i2 <? 0)%Z; discriminate). cbn [write_ipld] in E1, E2. injection E1 as <-. injection E2 as <-.
    unfold write_bytes in E. rewrite <- !app_assoc in E. cbn [wf_ipld] in W1, W2.
    apply head_inj in E as (_ & El & E); [|tauto|tauto].
    apply app_inj_len in E as [-> ->]; [auto|unfold blen in El; lia].
  - destruct v2 as [|b2'|i2|f2|s2|bs2|l2|m2|c2]; cbn [major_of] in M2; try discriminate;
      try (destruct (i2 <? 0)%Z; discriminate). cbn [write_ipld] in E1, E2.
    apply prepend_inv in E1 as (c1 & E1 & ->). apply prepend_inv in E2 as (c2 & E2 & ->).
    apply write_all_inv in E1 as (bs1 & F1 & ->). apply write_all_inv in E2 as (bs2 & F2 & ->).
    rewrite <- !app_assoc in E. cbn [wf_ipld] in W1, W2. destruct W1 as [L1 W1]. destruct W2 as [L2 W2].
    apply head_inj in E as (_ & El & E); [|assumption|assumption].
    cbn [nan_free] in N1, N2. rewrite allP_Forall in *.
    destruct (seq_inj write_ipld (fun y => wf_ipld y /\ nan_free y) l l2 bs1 bs2 r1 r2) as [-> ->]; auto.
    + rewrite Forall_forall in *. intros x Hx y b c r s [Wy Ny] Ex Ey Exy. eapply IH; eauto.
    + rewrite Forall_forall in *. auto.
    + unfold blen in El. lia.
  - destruct v2 as [|b2'|i2|f2|s2|bs2|l2|m2|c2]; cbn [major_of] in M2; try discriminate;
      try (destruct (i2 <? 0)%Z; discriminate). rewrite write_map in E1, E2.
    apply prepend_inv in E1 as (c1 & E1 & ->). apply prepend_inv in E2 as (c2 & E2 & ->).
    apply write_all_inv in E1 as (bs1 & F1 & ->). apply write_all_inv in E2 as (bs2 & F2 & ->).
    rewrite <- !app_assoc in E. cbn [wf_ipld] in W1, W2.
    destruct W1 as (L1 & S1 & K1 & W1). destruct W2 as (L2 & S2 & K2 & W2).
    apply head_inj in E as (_ & El & E); [|assumption|assumption].
    cbn [nan_free] in N1, N2. rewrite allP_Forall in *.
    assert (Hin : forall m : list (bytes * ipld), forall x, In x (ksort m) <-> In x m).
    { intros m0 x. split; apply Permutation_in; [|symmetry]; apply ksort_perm. }
    assert (Hnd : forall m : list (bytes * ipld), bt_sorted m -> NoDup (map fst (ksort m))).
    { intros m0 Hs. apply (Permutation_NoDup (l := map fst m0)).
      - apply Permutation_map. symmetry. apply ksort_perm.
      - apply bt_sorted_nodup. exact Hs. }
    destruct (seq_inj write_entry (fun y => blen (fst y) < u64_max1 /\ wf_ipld (snd y) /\ nan_free (snd y))
                (ksort m) (ksort m2) bs1 bs2 r1 r2) as [Em Er]; auto.
    + rewrite Forall_forall in *. intros [k v] Hx [k' v'] b c r s (Ly & Wy & Ny) Ex Ey Exy.
      apply (proj1 (Hin _ _)) in Hx. cbn [fst snd] in *.
      unfold write_entry in Ex, Ey. cbn [fst snd] in Ex, Ey.
      apply prepend_inv in Ex as (c1 & Ex & ->). apply prepend_inv in Ey as (c2 & Ey & ->).
      unfold write_str in Exy. rewrite <- !app_assoc in Exy.
      specialize (K1 _ Hx) as (_ & _ & Lk). cbn [fst] in Lk.
      apply head_inj in Exy as (_ & Elk & Exy); [|assumption|assumption].
      apply app_inj_len in Exy as [-> Exy]; [|unfold blen in Elk; lia].
      destruct (IH _ Hx v' c1 c2 r s) as [Ev ->];
        [exact (W1 _ Hx)|exact Wy|exact (N1 _ Hx)|exact Ny|exact Ex|exact Ey|exact Exy|].
      cbn [snd] in Ev. subst v'. auto.
    + rewrite Forall_forall in *. intros x Hx. apply (proj1 (Hin _ _)) in Hx.
      specialize (K2 _ Hx). split; [tauto|]. split; [apply W2|apply N2]; exact Hx.
    + rewrite !ksort_length. unfold blen in El. lia.
    + split; [|exact Er]. f_equal.
      rewrite <- (bt_of_perm (ksort m) m S1 (Hnd m S1) (Hin m)).
      rewrite Em. apply bt_of_perm; auto.
  - destruct v2 as [|b2'|i2|f2|s2|bs2|l2|m2|c2]; cbn [major_of] in M2; try discriminate;
      try (destruct (i2 <? 0)%Z; discriminate). cbn [write_ipld] in E1, E2. injection E1 as <-. injection E2 as <-.
    unfold write_link in E. rewrite <- !app_assoc in E. cbn [wf_ipld] in W1, W2.
    apply app_inv_head in E. apply head_inj in E as (_ & El & E); [|tauto|tauto].
    cbn [app] in E. inversion E as [E'].
    apply app_inj_len in E' as [E' ->]; [|unfold blen in El; lia].
    split; [|reflexivity]. f_equal. apply cid_to_bytes_inj; tauto.
Qed.

(** * Safety of decoding *)
Definition wlocal {A} (rd : bytes -> cres (A * bytes)) : Prop :=
  forall bs v r, rd bs = Ok (v, r) ->
    exists used, bs = used ++ r /\ forall r', rd (used ++ r') = Ok (v, r').
Definition local {A} (rd : bytes -> cres (A * bytes)) : Prop :=
  forall bs v r, rd bs = Ok (v, r) ->
    exists used, bs = used ++ r /\ used <> [] /\ forall r', rd (used ++ r') = Ok (v, r').

Lemma local_w {A} (rd : bytes -> cres (A * bytes)) : local rd -> wlocal rd.
Proof. intros H bs v r E. destruct (H _ _ _ E) as (u & ? & _ & ?). eauto. Qed.

Lemma obind_inv {A B} (o : cres A) (f : A -> cres B) b :
  obind o f = Ok b -> exists a, o = Ok a /\ f a = Ok b.
Proof. destruct o; cbn; intros; try discriminate; eauto. Qed.

Lemma read_exact_wlocal n : wlocal (read_exact n).
Proof.
  intros bs v r E. apply read_exact_inv in E as [-> Hl]. exists v. split; [reflexivity|].
  intros r'. apply read_exact_app. exact Hl.
Qed.

Lemma read_be_wlocal n : wlocal (read_be n).
Proof.
  intros bs v r E. unfold read_be in *. apply obind_inv in E as ([b r0] & E & E').
  inversion E'; subst. destruct (read_exact_wlocal _ _ _ _ E) as (u & -> & H).
  exists u. split; [reflexivity|]. intros r'. rewrite H. reflexivity.
Qed.

Lemma read_be_local n : local (read_be (S n)).
Proof.
  intros bs v r E. destruct (read_be_inv _ _ _ _ E) as (a & -> & Hl & ->).
  exists a. split; [reflexivity|]. split; [destruct a; [discriminate Hl|discriminate]|].
  intros r'. unfold read_be. rewrite read_exact_app by exact Hl. reflexivity.
Qed.

Ltac wl :=
  match goal with
  | E : obind ?o _ = Ok _ |- _ =>
      let p := fresh "p" in let q := fresh "q" in
      apply obind_inv in E as ([p q] & ? & E); cbn beta iota in E
  | E : (if ?c then _ else _) = Ok _ |- _ => let C := fresh "C" in destruct c eqn:C; try discriminate E
  end.

Lemma cread_bytes_wlocal n : wlocal (cread_bytes n).
Proof.
  intros bs v r E. unfold cread_bytes in *. destruct (65536 <? n); [discriminate|].
  apply read_exact_wlocal. exact E.
Qed.

Lemma cread_str_wlocal n : wlocal (cread_str n).
Proof.
  intros bs v r E. unfold cread_str in *. repeat wl. inversion E; subst.
  destruct (cread_bytes_wlocal _ _ _ _ H) as (u & -> & Hu). exists u. split; [reflexivity|].
  intros r'. rewrite Hu. cbn [obind]. rewrite C. reflexivity.
Qed.

Lemma read_arg_wlocal i : wlocal (read_arg i).
Proof.
  assert (K : forall n bs v r, obind (read_be n bs) (fun '(v, r) => Ok (Some v, r)) = Ok (v, r) ->
    exists used, bs = used ++ r /\
      forall r', obind (read_be n (used ++ r')) (fun '(v, r) => Ok (Some v, r)) = Ok (v, r')).
  { intros n bs v r E. wl. inversion E; subst.
    destruct (read_be_wlocal _ _ _ _ H) as (u & -> & Hu). exists u. split; [reflexivity|].
    intros r'. rewrite Hu. reflexivity. }
  intros bs v r E. unfold read_arg in *.
  destruct (i <=? 23); [inversion E; subst; exists []; split; [reflexivity|intros; reflexivity]|].
  destruct (i =? 24); [apply K; exact E|]. destruct (i =? 25); [apply K; exact E|].
  destruct (i =? 26); [apply K; exact E|]. destruct (i =? 27); [apply K; exact E|].
  inversion E; subst. exists []. split; [reflexivity|intros; reflexivity].
Qed.

Lemma read_link_local : local read_link.
Proof.
  intros bs v r E. unfold read_link in *. repeat wl.
  destruct p2 as [|b0 c]; [discriminate E|]. destruct (negb (b0 =? 0)) eqn:C2; [discriminate E|].
  destruct (cid_from_bytes c) eqn:C3; [|discriminate E]. inversion E; subst.
  destruct (read_be_local _ _ _ _ H) as (u1 & -> & Hn & Hu1).
  destruct (read_be_local _ _ _ _ H0) as (u2 & -> & _ & Hu2).
  destruct (read_be_local _ _ _ _ H1) as (u3 & -> & _ & Hu3).
  destruct (cread_bytes_wlocal _ _ _ _ H2) as (u4 & -> & Hu4).
  exists (u1 ++ u2 ++ u3 ++ u4). rewrite <- !app_assoc. split; [reflexivity|]. split.
  - intros Z. apply app_eq_nil in Z. tauto.
  - intros r'. rewrite <- !app_assoc. rewrite Hu1. cbn [obind]. rewrite C.
    rewrite Hu2. cbn [obind]. rewrite C0. rewrite Hu3. cbn [obind]. rewrite C1.
    rewrite Hu4. cbn [obind]. rewrite C2, C3. reflexivity.
Qed.

Lemma read_string_item_local : local read_string_item.
Proof.
  intros bs v r E. unfold read_string_item in *. repeat wl. destruct p0 as [len|]; [|discriminate E].
  destruct (read_be_local _ _ _ _ H) as (u1 & -> & Hn & Hu1).
  destruct (read_arg_wlocal _ _ _ _ H0) as (u2 & -> & Hu2).
  destruct (cread_str_wlocal _ _ _ _ E) as (u3 & -> & Hu3).
  exists (u1 ++ u2 ++ u3). rewrite <- !app_assoc. split; [reflexivity|]. split.
  - intros Z. apply app_eq_nil in Z. tauto.
  - intros r'. rewrite <- !app_assoc, Hu1. cbn [obind]. rewrite C, Hu2. cbn [obind]. apply Hu3.
Qed.

Lemma read_items_local {A} (rd : bytes -> cres (A * bytes)) :
  local rd -> forall fuel n bs l r, read_items rd fuel n bs = Ok (l, r) ->
  exists used, bs = used ++ r /\ (length l <= length used)%nat /\
    forall f r', (length l <= f)%nat -> read_items rd f n (used ++ r') = Ok (l, r').
Proof.
  intros Hl. induction fuel as [|fuel IH]; intros n bs l r E; cbn [read_items] in E.
  - destruct (N.eqb_spec n 0); [|discriminate E]. inversion E; subst. exists []. split; [reflexivity|].
    split; [cbn; lia|]. intros f r' _. destruct f; reflexivity.
  - destruct (N.eqb_spec n 0) as [->|Hn].
    + inversion E; subst. exists []. split; [reflexivity|]. split; [cbn; lia|]. intros f r' _. destruct f; reflexivity.
    + repeat wl. inversion E; subst. destruct (Hl _ _ _ H) as (u1 & -> & Hne & Hu1).
      destruct (IH _ _ _ _ H0) as (u2 & -> & Hlen & Hu2). exists (u1 ++ u2).
      rewrite <- app_assoc. split; [reflexivity|]. split.
      * rewrite app_length. destruct u1; [congruence|]. cbn [length]. lia.
      * intros f r' Hf. cbn [length] in Hf. destruct f as [|f]; [lia|]. cbn [read_items].
        destruct (N.eqb_spec n 0); [contradiction|]. rewrite <- app_assoc, Hu1. cbn [obind].
        rewrite Hu2 by lia. reflexivity.
Qed.

Section Size.
Variable ipld_size : N.

Definition entry_reader (d : nat) (r : bytes) : cres ((bytes * ipld) * bytes) :=
  obind (read_string_item r) (fun '(k, r) =>
  obind (read_ipld ipld_size d r) (fun '(v, r) => Ok ((k, v), r))).

Lemma entry_local d : local (read_ipld ipld_size d) -> local (entry_reader d).
Proof.
  intros Hd bs v r E. unfold entry_reader in *. repeat wl. inversion E; subst.
  destruct (read_string_item_local _ _ _ H) as (u1 & -> & Hn & Hu1).
  destruct (Hd _ _ _ H0) as (u2 & -> & _ & Hu2).
  exists (u1 ++ u2). rewrite <- app_assoc. split; [reflexivity|]. split.
  - intros Z. apply app_eq_nil in Z. tauto.
  - intros r'. rewrite <- app_assoc, Hu1. cbn [obind]. rewrite Hu2. reflexivity.
Qed.

Lemma major_cases {T} (m : N) (f0 f1 f2 f3 f4 f5 f6 f7 : T) :
  match m with 0 => f0 | 1 => f1 | 2 => f2 | 3 => f3 | 4 => f4 | 5 => f5 | 6 => f6 | _ => f7 end
  = if m =? 0 then f0 else if m =? 1 then f1 else if m =? 2 then f2 else if m =? 3 then f3
    else if m =? 4 then f4 else if m =? 5 then f5 else if m =? 6 then f6 else f7.
Proof.
  destruct m as [|p]; [reflexivity|].
  destruct p as [[[p|p|]|[p|p|]|]|[[p|p|]|[p|p|]|]|]; reflexivity.
Qed.

Lemma read_ipld_S d r :
  read_ipld ipld_size (S d) r =
  obind (read_be 1 r) (fun '(major, r) =>
    let info := major mod 32 in
    let mt := major / 32 in
    if mt =? 0 then obind (read_arg info r) (fun '(a, r) =>
        match a with Some v => Ok (Integer (Z.of_N v), r) | None => Err UnexpectedCode end)
    else if mt =? 1 then obind (read_arg info r) (fun '(a, r) =>
        match a with Some v => Ok (Integer (-1 - Z.of_N v), r) | None => Err UnexpectedCode end)
    else if mt =? 2 then obind (read_arg info r) (fun '(a, r) =>
        match a with Some n => obind (cread_bytes n r) (fun '(b, r) => Ok (IBytes b, r)) | None => Err UnexpectedCode end)
    else if mt =? 3 then obind (read_arg info r) (fun '(a, r) =>
        match a with Some n => obind (cread_str n r) (fun '(b, r) => Ok (Str b, r)) | None => Err UnexpectedCode end)
    else if mt =? 4 then obind (read_arg info r) (fun '(a, r) =>
        match a with
        | Some n => if 65536 <? n * ipld_size then Err LengthOutOfRange else
           obind (read_items (read_ipld ipld_size d) (S (length r)) n r) (fun '(l, r) => Ok (IList l, r))
        | None => Err UnexpectedCode end)
    else if mt =? 5 then obind (read_arg info r) (fun '(a, r) =>
        match a with
        | Some n =>
           obind (read_items (entry_reader d) (S (length r)) n r) (fun '(l, r) => Ok (IMap (bt_of_list l), r))
        | None => Err UnexpectedCode end)
    else if mt =? 6 then
      if info =? 24 then obind (read_link r) (fun '(c, r) => Ok (Link c, r)) else Err UnexpectedCode
    else if info =? 20 then Ok (IBool false, r) else
         if info =? 21 then Ok (IBool true, r) else
         if (info =? 22) || (info =? 23) then Ok (Null, r) else
         if info =? 26 then obind (read_be 4 r) (fun '(y, r) => Ok (Float (widen y), r)) else
         if info =? 27 then obind (read_be 8 r) (fun '(x, r) => Ok (Float x, r)) else
         Err UnexpectedCode).
Proof.
  cbn [read_ipld]. destruct (read_be 1 r) as [[major r0]|e|]; cbn [obind]; try reflexivity.
  rewrite major_cases. reflexivity.
Qed.

Lemma read_ipld_local d : local (read_ipld ipld_size d).
Proof.
  induction d as [|d IH]; intros bs v r E; [discriminate E|].
  rewrite read_ipld_S in E. apply obind_inv in E as ([major q] & Hb & E). cbv zeta beta iota in E.
  destruct (read_be_local _ _ _ _ Hb) as (u0 & -> & Hne & Hu0).
  assert (K : exists u, q = u ++ r /\ forall r', read_ipld ipld_size (S d) (u0 ++ u ++ r') = Ok (v, r')).
  { repeat match goal with
    | E : (if ?c then _ else _) = Ok _ |- _ => let C := fresh "C" in destruct c eqn:C
    end; try discriminate E.
    all: try (inversion E; subst; exists []; split; [reflexivity|]; intros r'; rewrite read_ipld_S;
              cbn [app]; rewrite Hu0; cbn [obind]; cbv zeta; rewrite ?C, ?C0, ?C1, ?C2, ?C3, ?C4, ?C5, ?C6, ?C7, ?C8; reflexivity).
    all: wl.
    1-6: destruct p as [n|]; [|discriminate E];
      match goal with H : read_arg _ _ = _ |- _ =>
        destruct (read_arg_wlocal _ _ _ _ H) as (u1 & -> & Hu1) end.
    - inversion E; subst. exists u1. split; [reflexivity|]. intros r'. rewrite read_ipld_S, Hu0. cbn [obind]. cbv zeta.
      rewrite C, Hu1. reflexivity.
    - inversion E; subst. exists u1. split; [reflexivity|]. intros r'. rewrite read_ipld_S, Hu0. cbn [obind]. cbv zeta.
      rewrite C, C0, Hu1. reflexivity.
    - wl. inversion E; subst. destruct (cread_bytes_wlocal _ _ _ _ H0) as (u2 & -> & Hu2).
      exists (u1 ++ u2). rewrite <- app_assoc. split; [reflexivity|]. intros r'.
      rewrite <- app_assoc, read_ipld_S, Hu0. cbn [obind]. cbv zeta. rewrite C, C0, C1, Hu1. cbn [obind]. rewrite Hu2. reflexivity.
    - wl. inversion E; subst. destruct (cread_str_wlocal _ _ _ _ H0) as (u2 & -> & Hu2).
      exists (u1 ++ u2). rewrite <- app_assoc. split; [reflexivity|]. intros r'.
      rewrite <- app_assoc, read_ipld_S, Hu0. cbn [obind]. cbv zeta. rewrite C, C0, C1, C2, Hu1. cbn [obind]. rewrite Hu2. reflexivity.
    - wl. wl. inversion E; subst. destruct (read_items_local _ IH _ _ _ _ _ H0) as (u2 & -> & Hlen & Hu2).
      exists (u1 ++ u2). rewrite <- app_assoc. split; [reflexivity|]. intros r'.
      rewrite <- app_assoc, read_ipld_S, Hu0. cbn [obind]. cbv zeta. rewrite C, C0, C1, C2, C3, Hu1. cbn [obind]. rewrite C4.
      rewrite Hu2; [reflexivity|]. rewrite app_length. lia.
    - wl. inversion E; subst. destruct (read_items_local _ (entry_local _ IH) _ _ _ _ _ H0) as (u2 & -> & Hlen & Hu2).
      exists (u1 ++ u2). rewrite <- app_assoc. split; [reflexivity|]. intros r'.
      rewrite <- app_assoc, read_ipld_S, Hu0. cbn [obind]. cbv zeta. rewrite C, C0, C1, C2, C3, C4, Hu1. cbn [obind].
      rewrite Hu2; [reflexivity|]. rewrite app_length. lia.
    - inversion E; subst. destruct (read_link_local _ _ _ H) as (u2 & -> & _ & Hu2).
      exists u2. split; [reflexivity|]. intros r'.
      rewrite read_ipld_S, Hu0. cbn [obind]. cbv zeta. rewrite C, C0, C1, C2, C3, C4, C5, C6. rewrite Hu2. reflexivity.
    - inversion E; subst. destruct (read_be_wlocal _ _ _ _ H) as (u2 & -> & Hu2).
      exists u2. split; [reflexivity|]. intros r'.
      rewrite read_ipld_S, Hu0. cbn [obind]. cbv zeta. rewrite C, C0, C1, C2, C3, C4, C5, C6, C7, C8, C9. rewrite Hu2. reflexivity.
    - inversion E; subst. destruct (read_be_wlocal _ _ _ _ H) as (u2 & -> & Hu2).
      exists u2. split; [reflexivity|]. intros r'.
      rewrite read_ipld_S, Hu0. cbn [obind]. cbv zeta. rewrite C, C0, C1, C2, C3, C4, C5, C6, C7, C8, C9, C10. rewrite Hu2. reflexivity. }
  destruct K as (u & -> & Hu). exists (u0 ++ u). rewrite <- app_assoc. split; [reflexivity|]. split.
  - intros Z. apply app_eq_nil in Z. tauto.
  - intros r'. rewrite <- app_assoc. apply Hu.
Qed.

(** ** No panic while the stack lasts *)
Lemma read_exact_np n r : read_exact n r <> Panic.
Proof. unfold read_exact. destruct (n <=? length r)%nat; discriminate. Qed.
Lemma read_be_np n r : read_be n r <> Panic.
Proof. unfold read_be. pose proof (read_exact_np n r). destruct (read_exact n r) as [[? ?]|?|]; cbn; congruence. Qed.
Lemma cread_bytes_np n r : cread_bytes n r <> Panic.
Proof. unfold cread_bytes. destruct (65536 <? n); [discriminate|]. apply read_exact_np. Qed.
Lemma cread_str_np n r : cread_str n r <> Panic.
Proof.
  unfold cread_str. pose proof (cread_bytes_np n r). destruct (cread_bytes n r) as [[? ?]|?|]; cbn [obind]; try congruence.
  destruct (utf8 _); discriminate.
Qed.
Lemma read_arg_np i r : read_arg i r <> Panic.
Proof.
  unfold read_arg. repeat (match goal with |- context [if ?c then _ else _] => destruct c end;
    [try discriminate; match goal with |- context [read_be ?n ?r] =>
       pose proof (read_be_np n r); destruct (read_be n r) as [[? ?]|?|]; cbn; congruence end|]).
  discriminate.
Qed.
Ltac np H :=
  match goal with |- obind ?o _ <> Panic =>
    let N := fresh "Hnp" in pose proof H as N; destruct o as [[? ?]|?|] eqn:?; cbn [obind]; [|discriminate|congruence]
  end.
Lemma read_link_np r : read_link r <> Panic.
Proof.
  unfold read_link. np (read_be_np 1 r). destruct (negb _); [discriminate|].
  np (read_be_np 1 b). destruct (negb _); [discriminate|]. np (read_be_np 1 b0).
  destruct (N.eqb_spec n1 0); [discriminate|]. np (cread_bytes_np n1 b1).
  unfold cread_bytes in Heqc2. destruct (65536 <? n1); [discriminate|].
  apply read_exact_inv in Heqc2 as [_ Hl]. destruct b2 as [|x c]; [cbn in Hl; lia|].
  destruct (negb _); [discriminate|]. destruct (cid_from_bytes c); discriminate.
Qed.
Lemma read_string_item_np r : read_string_item r <> Panic.
Proof.
  unfold read_string_item. np (read_be_np 1 r). destruct (_ =? 3); [|discriminate].
  np (read_arg_np (n mod 32) b). destruct o; [apply cread_str_np|discriminate].
Qed.

Lemma read_items_np {A} (rd : bytes -> cres (A * bytes)) k :
  local rd -> (forall bs, (length bs <= k)%nat -> rd bs <> Panic) ->
  forall fuel n bs, (length bs <= k)%nat -> (length bs < fuel)%nat -> read_items rd fuel n bs <> Panic.
Proof.
  intros Hl Hrd. induction fuel as [|fuel IH]; intros n bs Hk Hf; [lia|]. cbn [read_items].
  destruct (n =? 0); [discriminate|]. np (Hrd bs Hk).
  destruct (Hl _ _ _ Heqc) as (u & -> & Hne & _). rewrite app_length in Hk, Hf.
  destruct u; [congruence|]. cbn [length] in Hk, Hf.
  np (IH (n - 1) b ltac:(lia) ltac:(lia)). discriminate.
Qed.

Lemma entry_np d k :
  (forall bs, (length bs <= k)%nat -> read_ipld ipld_size d bs <> Panic) ->
  forall bs, (length bs <= k)%nat -> entry_reader d bs <> Panic.
Proof.
  intros Hd bs Hk. unfold entry_reader. pose proof (read_string_item_np bs) as Hs.
  destruct (read_string_item bs) as [[key r]|e|] eqn:E; cbn [obind]; [|discriminate|congruence].
  destruct (read_string_item_local _ _ _ E) as (u & -> & _). rewrite app_length in Hk.
  specialize (Hd r ltac:(lia)). destruct (read_ipld ipld_size d r) as [[v r']|e|]; cbn [obind]; congruence.
Qed.

Lemma read_ipld_np d : forall bs, (length bs < d)%nat -> read_ipld ipld_size d bs <> Panic.
Proof.
  induction d as [|d IH]; intros bs Hd; [lia|]. rewrite read_ipld_S.
  np (read_be_np 1 bs). cbv zeta. destruct (read_be_local _ _ _ _ Heqc) as (u & -> & Hne & _).
  rewrite app_length in Hd. destruct u as [|u0 u]; [congruence|]. cbn [length] in Hd.
  repeat match goal with |- (if ?c then _ else _) <> _ => destruct c end; try discriminate.
  - np (read_arg_np (n mod 32) b). destruct o; discriminate.
  - np (read_arg_np (n mod 32) b). destruct o; discriminate.
  - np (read_arg_np (n mod 32) b). destruct o; [|discriminate]. np (cread_bytes_np n0 b0). discriminate.
  - np (read_arg_np (n mod 32) b). destruct o; [|discriminate]. np (cread_str_np n0 b0). discriminate.
  - np (read_arg_np (n mod 32) b). destruct o; [|discriminate].
    destruct (65536 <? _); [discriminate|].
    destruct (read_arg_wlocal _ _ _ _ Heqc0) as (u2 & -> & _). rewrite app_length in Hd.
    np (read_items_np _ (length b0) (read_ipld_local d) (fun bs Hb => IH bs ltac:(lia)) (S (length b0)) n0 b0 ltac:(lia) ltac:(lia)).
    discriminate.
  - np (read_arg_np (n mod 32) b). destruct o; [|discriminate].
    destruct (read_arg_wlocal _ _ _ _ Heqc0) as (u2 & -> & _). rewrite app_length in Hd.
    np (read_items_np (entry_reader d) (length b0) (entry_local d (read_ipld_local d))
          (entry_np d (length b0) (fun bs Hb => IH bs ltac:(lia))) (S (length b0)) n0 b0 ltac:(lia) ltac:(lia)).
    discriminate.
  - np (read_link_np b). discriminate.
  - np (read_be_np 4 b). discriminate.
  - np (read_be_np 8 b). discriminate.
Qed.

(** A block of nested one-element lists needs one stack frame per byte. *)
Lemma nested_overflow d rest :
  ipld_size <= 65536 -> read_ipld ipld_size d (repeat 129 d ++ rest) = Panic.
Proof.
  intros Hs. induction d as [|d IH]; [reflexivity|]. rewrite read_ipld_S. cbn [repeat app].
  rewrite read_be_1. cbn [obind]. cbv zeta. change (129 / 32) with 4. change (129 mod 32) with 1.
  cbn [N.eqb Pos.eqb]. change (read_arg 1 (repeat 129 d ++ rest)) with (@Ok (option N * bytes) cbor_err (Some 1, repeat 129 d ++ rest)).
  cbn [obind]. destruct (N.ltb_spec 65536 (1 * ipld_size)); [lia|].
  cbn [read_items]. change (1 =? 0) with false. cbn iota. rewrite IH. reflexivity.
Qed.
End Size.
