(** Base 32 and base 58 decode what they encode; cid and peer id texts parse back. *)
From Verif Require Import Base Wire WireProofs Cid CidProofs Text.
Local Open Scope N_scope.

(** * Bits *)
Lemma of_bits_acc l acc : of_bits l acc = acc * 2 ^ N.of_nat (length l) + of_bits l 0.
Proof.
  revert acc. induction l as [|b l IH]; intros acc.
  - cbn. lia.
  - cbn [of_bits length]. rewrite IH, (IH (2 * 0 + N.b2n b)).
    rewrite Nat2N.inj_succ, N.pow_succ_r'. set (q := 2 ^ N.of_nat (length l)). clearbody q. nia.
Qed.

Lemma of_bits_lt l : of_bits l 0 < 2 ^ N.of_nat (length l).
Proof.
  induction l as [|b l IH]; [cbn; lia|]. cbn [of_bits length]. rewrite of_bits_acc.
  rewrite Nat2N.inj_succ, N.pow_succ_r'. destruct b; cbn [N.b2n]; lia.
Qed.

Lemma to_bits_length w v : length (to_bits w v) = w.
Proof. induction w; cbn; congruence. Qed.

Lemma of_bits_to_bits w v : of_bits (to_bits w v) 0 = v mod 2 ^ N.of_nat w.
Proof.
  induction w as [|w IH]; [cbn; rewrite N.mod_1_r; reflexivity|].
  cbn [to_bits of_bits]. rewrite of_bits_acc, IH, to_bits_length, Nat2N.inj_succ, N.pow_succ_r'.
  rewrite (N.mul_comm 2 (2 ^ N.of_nat w)), N.mod_mul_r by (try apply N.pow_nonzero; lia).
  pose proof (N.testbit_spec' v (N.of_nat w)) as E. rewrite <- E.
  destruct (N.testbit v (N.of_nat w)); cbn [N.b2n]; lia.
Qed.

Lemma to_bits_of_bits g : forall acc, to_bits (length g) (of_bits g acc) = g.
Proof.
  induction g as [|b g IH]; intros acc; [reflexivity|]. cbn [length to_bits of_bits]. f_equal; [|apply IH].
  rewrite of_bits_acc. pose proof (of_bits_lt g) as H.
  assert (E : N.b2n (N.testbit ((2 * acc + N.b2n b) * 2 ^ N.of_nat (length g) + of_bits g 0) (N.of_nat (length g))) = N.b2n b).
  { rewrite N.testbit_spec'. rewrite N.div_add_l by (apply N.pow_nonzero; lia).
    rewrite (N.div_small (of_bits g 0)) by exact H. rewrite N.add_0_r.
    replace (2 * acc + N.b2n b) with (N.b2n b + acc * 2) by lia. rewrite N.mod_add by lia. destruct b; reflexivity. }
  destruct b; destruct (N.testbit _ _); cbn in E; congruence.
Qed.

(** * Base 32 *)
Lemma group5_spec n : forall l, (length l <= n)%nat ->
  exists k, (k < 5)%nat /\ concat (group5 l) = l ++ repeat false k /\ Forall (fun g => length g = 5%nat) (group5 l).
Proof.
  induction n as [|n IH]; intros l Hl.
  - destruct l; [|cbn in Hl; lia]. exists 0%nat. (split; [lia|split; [reflexivity|repeat constructor]]).
  - destruct l as [|a [|b [|c [|d [|e r]]]]].
    + exists 0%nat. (split; [lia|split; [reflexivity|repeat constructor]]).
    + exists 4%nat. (split; [lia|split; [reflexivity|repeat constructor]]).
    + exists 3%nat. (split; [lia|split; [reflexivity|repeat constructor]]).
    + exists 2%nat. (split; [lia|split; [reflexivity|repeat constructor]]).
    + exists 1%nat. (split; [lia|split; [reflexivity|repeat constructor]]).
    + destruct (IH r ltac:(cbn [length] in Hl; lia)) as (k & H1 & H2 & H3).
      exists k. split; [exact H1|]. change (group5 (a :: b :: c :: d :: e :: r)) with ([a; b; c; d; e] :: group5 r).
      cbn [concat app]. rewrite H2. split; [reflexivity|]. constructor; auto.
Qed.

Lemma group8_spec gs pad :
  Forall (fun g => length g = 8%nat) gs -> (length pad < 8)%nat ->
  group8 (concat gs ++ pad) = (gs, pad).
Proof.
  intros HF Hp. induction HF as [|g gs Hg HF IH].
  - cbn [concat app]. destruct pad as [|a [|b [|c [|d [|e [|f [|h [|x pad]]]]]]]]; try reflexivity. cbn in Hp. lia.
  - destruct g as [|a [|b [|c [|d [|e [|f [|h [|x [|y g]]]]]]]]]; try discriminate Hg.
    cbn [concat app]. cbn [group8]. rewrite IH. reflexivity.
Qed.

Lemma b32_val_char v : v < 32 -> b32_val (b32_char v) = Some v.
Proof.
  intros H. unfold b32_char, b32_val. destruct (v <? 26) eqn:E.
  - replace (97 <=? 97 + v) with true by lia. replace (97 + v <=? 122) with true by lia. cbn [andb]. f_equal. lia.
  - replace (97 <=? 24 + v) with false by lia. replace (50 <=? 24 + v) with true by lia.
    replace (24 + v <=? 55) with true by lia. cbn [andb]. f_equal. lia.
Qed.

Lemma b32_vals_map vs : Forall (fun v => v < 32) vs -> b32_vals (map b32_char vs) = Some vs.
Proof. induction 1 as [|v vs H HF IH]; cbn; [reflexivity|]. rewrite b32_val_char, IH by exact H. reflexivity. Qed.

Lemma bits_of_bytes bs : wf_bytes bs -> map (fun g => of_bits g 0) (map (to_bits 8) bs) = bs.
Proof.
  induction 1 as [|b bs H HF IH]; cbn [map]; [reflexivity|]. rewrite IH. f_equal.
  rewrite of_bits_to_bits. apply N.mod_small. exact H.
Qed.

Theorem b32_decode_encode bs : wf_bytes bs -> b32_decode (b32_encode bs) = Some bs.
Proof.
  intros Hw. unfold b32_decode, b32_encode.
  set (bits := concat (map (to_bits 8) bs)).
  destruct (group5_spec (length bits) bits (le_n _)) as (k & Hk & Hc & H5).
  rewrite <- (map_map (fun g => of_bits g 0) b32_char). rewrite b32_vals_map.
  2:{ rewrite Forall_map. eapply Forall_impl; [|exact H5]. intros g Hg.
      pose proof (of_bits_lt g) as H. rewrite Hg in H. exact H. }
  rewrite map_map.
  replace (map (fun x => to_bits 5 (of_bits x 0)) (group5 bits)) with (group5 bits).
  2:{ rewrite <- (map_id (group5 bits)) at 1. apply map_ext_in. intros g Hg. rewrite Forall_forall in H5.
      rewrite <- (H5 g Hg). symmetry. apply to_bits_of_bits. }
  rewrite Hc. subst bits. rewrite group8_spec.
  - rewrite repeat_length.
    replace (k <? 5)%nat with true by (symmetry; apply Nat.ltb_lt; exact Hk).
    replace (forallb negb (repeat false k)) with true
      by (clear; induction k; cbn; auto).
    cbn [andb]. rewrite bits_of_bytes by exact Hw. reflexivity.
  - rewrite Forall_map. apply Forall_forall. intros b _. apply to_bits_length.
  - rewrite repeat_length. lia.
Qed.

Definition alnum (c : N) : Prop := 48 <= c <= 57 \/ 65 <= c <= 90 \/ 97 <= c <= 122.

Lemma b32_chars bs : Forall alnum (b32_encode bs).
Proof.
  unfold b32_encode. set (bits := concat _).
  destruct (group5_spec (length bits) bits (le_n _)) as (k & Hk & Hc & H5).
  rewrite Forall_map. eapply Forall_impl; [|exact H5]. intros g Hg.
  pose proof (of_bits_lt g) as H. rewrite Hg in H. change (2 ^ N.of_nat 5) with 32 in H.
  unfold b32_char, alnum. destruct (_ <? 26) eqn:E; lia.
Qed.

Lemma b32_length n : forall bs, length bs = n -> (8 * n <= 5 * length (b32_encode bs))%nat.
Proof.
  intros bs Hn. unfold b32_encode. rewrite map_length. set (bits := concat _).
  destruct (group5_spec (length bits) bits (le_n _)) as (k & Hk & Hc & H5).
  assert (L : length (concat (group5 bits)) = (5 * length (group5 bits))%nat).
  { clear - H5. induction H5 as [|g gs H HF IH]; [reflexivity|]. cbn [concat]. rewrite app_length, IH, H. cbn [length]. lia. }
  rewrite Hc, app_length, repeat_length in L.
  assert (B : length bits = (8 * n)%nat).
  { subst bits n. clear. induction bs as [|b bs IH]; [reflexivity|]. cbn [map concat]. rewrite app_length, to_bits_length, IH. cbn [length]. lia. }
  lia.
Qed.

(** * Digits *)
Fixpoint canon (l : list N) : Prop :=
  match l with [] => True | [x] => x <> 0 | _ :: r => canon r end.

Lemma canon_tl x y r : canon (x :: y :: r) = canon (y :: r).
Proof. reflexivity. Qed.

Lemma undigits_digits b fuel : 2 <= b -> forall v, v < 2 ^ N.of_nat fuel -> undigits b (digits fuel b v) = v.
Proof.
  intros Hb. induction fuel as [|f IH]; intros v Hv; [cbn in Hv |- *; lia|].
  cbn [digits]. destruct (N.eqb_spec v 0) as [->|Hn]; [reflexivity|]. cbn [undigits].
  rewrite IH.
  - pose proof (N.div_mod v b ltac:(lia)). lia.
  - rewrite Nat2N.inj_succ, N.pow_succ_r' in Hv. apply N.div_lt_upper_bound; [lia|].
    assert (2 * 2 ^ N.of_nat f <= b * 2 ^ N.of_nat f) by (apply N.mul_le_mono_r; exact Hb). lia.
Qed.

Lemma canon_undigits b l : 2 <= b -> l <> [] -> canon l -> undigits b l <> 0.
Proof.
  intros Hb. induction l as [|x l IH]; intros Hn Hc; [congruence|]. cbn [undigits].
  destruct l as [|y l]; [cbn in *; lia|]. specialize (IH ltac:(discriminate) Hc).
  assert (b * undigits b (y :: l) <> 0) by (apply N.neq_mul_0; lia). lia.
Qed.

Lemma digits_undigits b l : 2 <= b -> forall fuel,
  Forall (fun d => d < b) l -> canon l -> undigits b l < 2 ^ N.of_nat fuel ->
  digits fuel b (undigits b l) = l.
Proof.
  intros Hb. induction l as [|x l IH]; intros fuel HF Hc Hv.
  - destruct fuel; reflexivity.
  - pose proof (canon_undigits b (x :: l) Hb ltac:(discriminate) Hc) as Hnz.
    destruct fuel as [|f]; [cbn [N.of_nat] in Hv; rewrite N.pow_0_r in Hv; lia|].
    cbn [digits]. destruct (N.eqb_spec (undigits b (x :: l)) 0) as [E|_]; [contradiction|].
    inversion HF as [|? ? Hx HF']; subst. cbn [undigits].
    rewrite (N.mul_comm b), N.mod_add, N.div_add by lia. rewrite N.mod_small, N.div_small by exact Hx.
    rewrite N.add_0_l. f_equal. apply IH; [exact HF'|destruct l; [exact I|exact Hc]|].
    rewrite Nat2N.inj_succ, N.pow_succ_r' in Hv. cbn [undigits] in Hv.
    assert (2 * undigits b l <= b * undigits b l) by (apply N.mul_le_mono_r; exact Hb). lia.
Qed.

Lemma digits_bound fuel b v : 2 <= b -> Forall (fun d => d < b) (digits fuel b v).
Proof.
  intros Hb. revert v. induction fuel as [|f IH]; intros v; cbn [digits]; [constructor|].
  destruct (v =? 0); constructor; auto. apply N.mod_lt. lia.
Qed.

Lemma digits_canon b fuel : 2 <= b -> forall v, v < 2 ^ N.of_nat fuel -> canon (digits fuel b v).
Proof.
  intros Hb. induction fuel as [|f IH]; intros v Hv; [exact I|]. cbn [digits].
  destruct (N.eqb_spec v 0) as [->|Hn]; [exact I|].
  assert (Hq : v / b < 2 ^ N.of_nat f).
  { rewrite Nat2N.inj_succ, N.pow_succ_r' in Hv. apply N.div_lt_upper_bound; [lia|].
    assert (2 * 2 ^ N.of_nat f <= b * 2 ^ N.of_nat f) by (apply N.mul_le_mono_r; exact Hb). lia. }
  pose proof (undigits_digits b f Hb _ Hq) as U. specialize (IH _ Hq).
  destruct (digits f b (v / b)) as [|y l]; [|exact IH].
  cbn in U. cbn. pose proof (N.div_mod v b ltac:(lia)) as D. rewrite <- U in D. lia.
Qed.

Lemma size_bound v : v < 2 ^ N.of_nat (N.size_nat v).
Proof.
  pose proof (N.size_gt v) as H. replace (N.of_nat (N.size_nat v)) with (N.size v); [exact H|].
  clear H. destruct v as [|p]; [reflexivity|]. cbn [N.size N.size_nat].
  induction p as [p IH|p IH|]; cbn [Pos.size Pos.size_nat]; [| |reflexivity]; rewrite Nat2N.inj_succ, <- IH; reflexivity.
Qed.

Lemma canon_rev l : canon l -> match rev l with [] => True | x :: _ => x <> 0 end.
Proof.
  induction l as [|x l IH]; intros Hc; [exact I|]. cbn [rev].
  destruct l as [|y l]; [exact Hc|]. specialize (IH Hc).
  destruct (rev (y :: l)) as [|z r] eqn:E; [|exact IH].
  exfalso. apply (f_equal (@length N)) in E. rewrite rev_length in E. discriminate.
Qed.

Lemma rev_canon l : match l with [] => True | x :: _ => x <> 0 end -> canon (rev l).
Proof.
  destruct l as [|x l]; intros H; [exact I|]. cbn [rev].
  induction (rev l) as [|y r IH]; [exact H|]. cbn [app]. destruct r; exact IH.
Qed.

Lemma drop_while_hd l : match drop_while is_zero l with [] => True | x :: _ => x <> 0 end.
Proof.
  induction l as [|x l IH]; [exact I|]. cbn [drop_while]. unfold is_zero at 1.
  destruct (N.eqb_spec x 0) as [->|H]; [exact IH|exact H].
Qed.

Lemma drop_while_zeros l : l = repeat 0 (leading is_zero l) ++ drop_while is_zero l.
Proof.
  unfold leading.
  assert (SS : forall l, (length (drop_while is_zero l) <= length l)%nat).
  { clear. induction l as [|x l IH]; cbn [drop_while]; [lia|]. destruct (is_zero x); cbn [length]; lia. }
  induction l as [|x l IH]; [reflexivity|]. cbn [drop_while]. unfold is_zero at 1 3.
  destruct (N.eqb_spec x 0) as [->|H].
  - specialize (SS l). cbn [length]. replace (S (length l) - _)%nat with (S (length l - length (drop_while is_zero l)))%nat by lia.
    cbn [repeat app]. f_equal. exact IH.
  - rewrite Nat.sub_diag. reflexivity.
Qed.

Lemma drop_while_app z l :
  match l with [] => True | x :: _ => x <> 0 end -> drop_while is_zero (repeat 0 z ++ l) = l.
Proof.
  intros H. induction z as [|z IH]; cbn [repeat app].
  - destruct l as [|x l]; [reflexivity|]. cbn [drop_while]. unfold is_zero. destruct (N.eqb_spec x 0); [contradiction|reflexivity].
  - cbn [drop_while]. exact IH.
Qed.
Lemma leading_app z l :
  match l with [] => True | x :: _ => x <> 0 end -> leading is_zero (repeat 0 z ++ l) = z.
Proof. intros H. unfold leading. rewrite drop_while_app by exact H. rewrite app_length, repeat_length. lia. Qed.

Lemma drop_while_forall (P : N -> Prop) l : Forall P l -> Forall P (drop_while is_zero l).
Proof. induction 1 as [|x l H HF IH]; cbn [drop_while]; [constructor|]. destruct (is_zero x); auto. Qed.

(** * Base 58 *)
Lemma b58_val_char v : v < 58 -> b58_val (b58_char v) = Some v.
Proof.
  intros H. 
  assert (A : forallb (fun v => match b58_val (b58_char v) with Some w => w =? v | None => false end)
                (map N.of_nat (seq 0 58)) = true) by (vm_compute; reflexivity).
  rewrite forallb_forall in A. specialize (A v).
  destruct (b58_val (b58_char v)) as [w|].
  - f_equal. apply N.eqb_eq. apply A. apply in_map_iff. exists (N.to_nat v). split; [lia|]. apply in_seq. lia.
  - exfalso. assert (false = true); [|discriminate]. apply A. apply in_map_iff. exists (N.to_nat v). split; [lia|]. apply in_seq. lia.
Qed.

Lemma b58_vals_map vs : Forall (fun v => v < 58) vs -> b58_vals (map b58_char vs) = Some vs.
Proof. induction 1 as [|v vs H HF IH]; cbn [map b58_vals]; [reflexivity|]. rewrite b58_val_char, IH by exact H. reflexivity. Qed.

Lemma b58_digits_bound bs : Forall (fun v => v < 58) (b58_digits bs).
Proof.
  unfold b58_digits. apply Forall_app. split.
  - apply Forall_forall. intros x Hx. apply repeat_spec in Hx. subst. lia.
  - apply Forall_rev. apply digits_bound. lia.
Qed.

Theorem b58_decode_encode bs : wf_bytes bs -> b58_decode (b58_encode bs) = Some bs.
Proof.
  intros Hw. unfold b58_decode, b58_encode. rewrite b58_vals_map by apply b58_digits_bound. f_equal.
  unfold b58_undigits, b58_digits.
  set (v := undigits 256 (rev (drop_while is_zero bs))).
  pose proof (digits_canon 58 _ ltac:(lia) v (size_bound v)) as Hc.
  pose proof (canon_rev _ Hc) as Hr.
  rewrite drop_while_app, leading_app by exact Hr. rewrite rev_involutive.
  rewrite (undigits_digits 58 _ ltac:(lia) v (size_bound v)).
  rewrite (digits_undigits 256 (rev (drop_while is_zero bs)) ltac:(lia)).
  - rewrite rev_involutive. symmetry. apply drop_while_zeros.
  - apply Forall_rev. apply drop_while_forall. exact Hw.
  - apply rev_canon. apply drop_while_hd.
  - apply size_bound.
Qed.

Lemma b58_char_alnum v : v < 58 -> alnum (b58_char v).
Proof.
  intros H. unfold b58_char, alnum.
  destruct (v <? 9) eqn:?, (v <? 17) eqn:?, (v <? 22) eqn:?, (v <? 33) eqn:?, (v <? 44) eqn:?; lia.
Qed.
Lemma b58_chars bs : Forall alnum (b58_encode bs).
Proof.
  unfold b58_encode. rewrite Forall_map. eapply Forall_impl; [|apply b58_digits_bound]. exact b58_char_alnum.
Qed.

(** The upper digits of a number are the digits of its upper part. *)
Lemma digits_split b k : 2 <= b -> forall fuel v, v < 2 ^ N.of_nat fuel -> v / b ^ N.of_nat k <> 0 ->
  exists low, length low = k /\ digits fuel b v = low ++ digits (fuel - k) b (v / b ^ N.of_nat k).
Proof.
  intros Hb. induction k as [|k IH]; intros fuel v Hv Hq.
  - exists []. split; [reflexivity|]. rewrite N.pow_0_r, N.div_1_r, Nat.sub_0_r. reflexivity.
  - rewrite Nat2N.inj_succ, N.pow_succ_r' in *.
    rewrite <- N.div_div in * by (try apply N.pow_nonzero; lia).
    assert (Hn : v <> 0). { intros ->. rewrite !N.div_0_l in Hq by (try apply N.pow_nonzero; lia). congruence. }
    destruct fuel as [|f]; [cbn [N.of_nat] in Hv; rewrite N.pow_0_r in Hv; lia|].
    destruct (IH f (v / b)) as (low & Hl & E); [|exact Hq|].
    + rewrite Nat2N.inj_succ, N.pow_succ_r' in Hv. apply N.div_lt_upper_bound; [lia|].
      assert (2 * 2 ^ N.of_nat f <= b * 2 ^ N.of_nat f) by (apply N.mul_le_mono_r; exact Hb). lia.
    + exists (v mod b :: low). split; [cbn; congruence|]. cbn [digits].
      destruct (N.eqb_spec v 0); [contradiction|]. rewrite E. reflexivity.
Qed.

Lemma undigits_bound l : Forall (fun d => d < 256) l -> undigits 256 l < 256 ^ N.of_nat (length l).
Proof.
  induction 1 as [|d l H HF IH]; [cbn; lia|]. cbn [undigits length]. rewrite Nat2N.inj_succ, N.pow_succ_r'. lia.
Qed.
Lemma undigits_app b l r : undigits b (l ++ r) = undigits b l + b ^ N.of_nat (length l) * undigits b r.
Proof.
  induction l as [|x l IH]; [cbn [app undigits length N.of_nat]; rewrite N.pow_0_r; lia|].
  cbn [app undigits length]. rewrite IH, Nat2N.inj_succ, N.pow_succ_r'. lia.
Qed.

Lemma digits_1378 fuel : (2 <= fuel)%nat -> digits fuel 58 1378 = [44; 23].
Proof. intros H. destruct fuel as [|[|f]]; [lia|lia|]. destruct f; vm_compute; reflexivity. Qed.

(** Version 0 cids print as 46 characters starting with "Qm". *)
Lemma v0_text d : length d = 32%nat -> wf_bytes d -> is_v0_text (cid_to_text (CidV0 d)) = true.
Proof.
  intros Hl Hw. unfold cid_to_text, b58_encode, b58_digits, cid_to_bytes.
  replace (drop_while is_zero (18 :: 32 :: d)) with (18 :: 32 :: d) by reflexivity.
  replace (leading is_zero (18 :: 32 :: d)) with 0%nat by (unfold leading; cbn [drop_while is_zero N.eqb]; rewrite Nat.sub_diag; reflexivity).
  cbn [repeat app]. set (v := undigits 256 (rev (18 :: 32 :: d))).
  assert (Hv : 1378 * 58 ^ 44 <= v < 1379 * 58 ^ 44).
  { subst v. cbn [rev]. rewrite <- app_assoc. rewrite undigits_app, rev_length, Hl. cbn [app undigits].
    pose proof (undigits_bound (rev d) ltac:(apply Forall_rev; exact Hw)) as B. rewrite rev_length, Hl in B.
    set (u := undigits 256 (rev d)) in *. clearbody u.
    change (256 ^ N.of_nat 32) with 115792089237316195423570985008687907853269984665640564039457584007913129639936 in *.
    change (32 + 256 * (18 + 256 * 0)) with 4640. 
    let x := eval vm_compute in (1378 * 58 ^ 44) in change (1378 * 58 ^ 44) with x.
    let x := eval vm_compute in (1379 * 58 ^ 44) in change (1379 * 58 ^ 44) with x.
    lia. }
  assert (Hq : v / 58 ^ N.of_nat 44 = 1378).
  { change (N.of_nat 44) with 44. symmetry. apply (N.div_unique v (58 ^ 44) 1378 (v - 1378 * 58 ^ 44)); lia. }
  destruct (digits_split 58 44 ltac:(lia) (N.size_nat v) v (size_bound v) ltac:(rewrite Hq; lia)) as (low & Hlow & E).
  rewrite Hq in E.
  assert (Hf : (46 <= N.size_nat v)%nat).
  { destruct (Nat.le_gt_cases 46 (N.size_nat v)) as [|Hlt]; [assumption|]. exfalso.
    pose proof (size_bound v) as B.
    assert (2 ^ N.of_nat (N.size_nat v) <= 2 ^ 46) by (apply N.pow_le_mono_r; lia).
    assert (2 ^ 46 <= 1378 * 58 ^ 44) by (vm_compute; discriminate). lia. }
  rewrite E, digits_1378 by lia. rewrite rev_app_distr. cbn [rev app map].
  unfold is_v0_text. cbn [length]. rewrite map_length, rev_length, Hlow. reflexivity.
Qed.

(** * Cids *)
Lemma after_first_none p s :
  (exists c p', p = c :: p' /\ Forall (fun x => x <> c) s) -> after_first p s = None.
Proof.
  intros (c & p' & -> & HF). induction HF as [|x s H HF IH]; [reflexivity|].
  cbn [after_first strip_prefix]. destruct (N.eqb_spec c x); [congruence|]. exact IH.
Qed.

Lemma alnum_no_slash s : Forall alnum s -> after_first slash_ipfs s = None.
Proof.
  intros H. apply after_first_none. exists 47. eexists. split; [reflexivity|].
  eapply Forall_impl; [|exact H]. unfold alnum. intros; lia.
Qed.

Lemma cid_text_alnum c : Forall alnum (cid_to_text c).
Proof.
  destruct c as [d|k m]; unfold cid_to_text; [apply b58_chars|]. constructor; [unfold alnum; lia|apply b32_chars].
Qed.

Lemma wf_write_varint v : wf_bytes (write_varint v).
Proof. apply write_varint_wf. Qed.

Lemma cid_bytes_length c : wf_cid c -> (2 <= length (cid_to_bytes c))%nat.
Proof.
  destruct c as [d|k m]; cbn [wf_cid cid_to_bytes length]; [lia|]. intros _. rewrite !app_length.
  pose proof (write_varint_nonempty 1). pose proof (write_varint_nonempty k).
  destruct (write_varint 1), (write_varint k); try congruence. cbn [length]. lia.
Qed.

Theorem cid_text_roundtrip ob c : wf_cid c -> cid_from_text ob (cid_to_text c) = Some c.
Proof.
  intros Hw. unfold cid_from_text. rewrite alnum_no_slash by apply cid_text_alnum.
  pose proof (cid_bytes_length c Hw) as Hl. pose proof (cid_to_bytes_wf c Hw) as Hb.
  destruct c as [d|k m].
  - destruct Hw as [Hd Hwd]. pose proof (v0_text d Hd Hwd) as V. rewrite V.
    unfold is_v0_text in V. apply andb_true_iff in V as [V _]. apply Nat.eqb_eq in V. rewrite V.
    cbn [Nat.ltb Nat.leb]. unfold cid_to_text. rewrite b58_decode_encode by exact Hb. apply cid_roundtrip. split; assumption.
  - unfold cid_to_text at 1. pose proof (b32_length _ _ (eq_refl (length (cid_to_bytes (CidV1 k m))))) as L.
    cbn [length]. destruct (Nat.ltb_spec (S (length (b32_encode (cid_to_bytes (CidV1 k m))))) 2); [lia|].
    unfold cid_to_text. unfold is_v0_text.
    replace (match 98 :: b32_encode (cid_to_bytes (CidV1 k m)) with a :: b :: _ => (a =? 81) && (b =? 109) | _ => false end) with false
      by (destruct (b32_encode _); reflexivity).
    rewrite andb_false_r. unfold multibase_decode. cbn [N.eqb Pos.eqb]. rewrite b32_decode_encode by exact Hb.
    apply cid_roundtrip. exact Hw.
Qed.

Lemma cid_text_inj c1 c2 : wf_cid c1 -> wf_cid c2 -> cid_to_text c1 = cid_to_text c2 -> c1 = c2.
Proof.
  intros H1 H2 E. apply (cid_text_roundtrip (fun _ _ => None)) in H1. apply (cid_text_roundtrip (fun _ _ => None)) in H2. congruence.
Qed.

(** * Peer ids *)
Definition wf_peer (p : peer_id) : Prop :=
  mh_code p < u64_max1 /\ wf_bytes (mh_digest p) /\ blen (mh_digest p) < u64_max1 /\ peer_ok p = true.

Theorem peer_text_roundtrip p : wf_peer p -> peer_from_text (peer_to_text p) = Some p.
Proof.
  intros (H1 & H2 & H3 & H4). unfold peer_from_text, peer_to_text. rewrite b58_decode_encode.
  - rewrite mh_roundtrip by auto. rewrite H4. reflexivity.
  - unfold mh_to_bytes. rewrite !wf_bytes_app. auto using wf_write_varint.
Qed.
