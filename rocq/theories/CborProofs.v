(** Lemmas about [Cbor]. *)
From Verif Require Import Base Wire WireProofs Cid CidProofs BTree Ipld Cbor.
Local Open Scope N_scope.

(** * Big endian fields *)
Lemma be_bytes_length n v : length (be_bytes n v) = n.
Proof. unfold be_bytes. rewrite rev_length. apply le_bytes_length. Qed.

Lemma be_val_bytes n v : v < 256 ^ N.of_nat n -> be_val (be_bytes n v) = v.
Proof. intros H. unfold be_val, be_bytes. rewrite rev_involutive. apply le_val_bytes. exact H. Qed.

Lemma read_exact_app a r n : length a = n -> read_exact n (a ++ r) = Ok (a, r).
Proof.
  intros <-. unfold read_exact. rewrite app_length.
  destruct (Nat.leb_spec (length a) (length a + length r)); [|lia].
  rewrite firstn_app, skipn_app, Nat.sub_diag, firstn_all, skipn_all, firstn_O, app_nil_r. reflexivity.
Qed.

Lemma read_be_app n v r : v < 256 ^ N.of_nat n -> read_be n (be_bytes n v ++ r) = Ok (v, r).
Proof.
  intros H. unfold read_be. rewrite read_exact_app by apply be_bytes_length. cbn [obind].
  rewrite be_val_bytes by exact H. reflexivity.
Qed.

Lemma read_be_1 b r : read_be 1 (b :: r) = Ok (b, r).
Proof.
  unfold read_be, read_exact. cbn [length Nat.leb firstn skipn obind].
  unfold be_val. cbn [rev app le_val]. rewrite N.mul_0_r, N.add_0_r. reflexivity.
Qed.

Lemma read_exact_inv n bs a r :
  read_exact n bs = Ok (a, r) -> bs = a ++ r /\ length a = n.
Proof.
  unfold read_exact. destruct (Nat.leb_spec n (length bs)); [|discriminate].
  intros E. inversion E; subst. rewrite firstn_skipn, firstn_length_le by assumption. auto.
Qed.

Lemma read_be_inv n bs v r :
  read_be n bs = Ok (v, r) -> exists a, bs = a ++ r /\ length a = n /\ v = be_val a.
Proof.
  unfold read_be. destruct (read_exact n bs) as [[a r0]|e|] eqn:E; cbn [obind]; try discriminate.
  intros H. inversion H; subst. apply read_exact_inv in E as [E1 E2]. eauto.
Qed.

(** * Heads *)
Lemma div32 a b : b < 32 -> (a * 32 + b) / 32 = a.
Proof. intros H. rewrite N.add_comm, N.div_add by lia. rewrite N.div_small by lia. lia. Qed.
Lemma mod32 a b : b < 32 -> (a * 32 + b) mod 32 = b.
Proof. intros H. rewrite N.add_comm, N.mod_add by lia. apply N.mod_small. lia. Qed.

Lemma head_spec major v :
  v < u64_max1 ->
  exists b0 tl, write_u64 major v = b0 :: tl /\ b0 / 32 = major /\ b0 < major * 32 + 32 /\
    (forall r, read_arg (b0 mod 32) (tl ++ r) = Ok (Some v, r)) /\
    (b0 mod 32 = 24 -> 24 <= v <= 255) /\ (24 <= v <= 255 -> b0 mod 32 = 24 /\ tl = [v]).
Proof.
  intros Hv. unfold u64_max1 in Hv. unfold write_u64, write_u32, write_u16, write_u8.
  destruct (N.leb_spec v 4294967295); [destruct (N.leb_spec v 65535);
    [destruct (N.leb_spec v 255); [destruct (N.leb_spec v 23)|]|]|].
  all: eexists _, _; split; [reflexivity|]; rewrite div32, mod32 by lia; split; [reflexivity|];
    split; [lia|]; split; [|split; [lia|intros; try lia; auto]].
  - intros r. unfold read_arg. destruct (N.leb_spec v 23); [reflexivity|lia].
  - intros r. unfold read_arg. cbn [N.leb N.compare]. change (24 =? 24) with true. cbn [app].
    change (24 <=? 23) with false. cbn iota.
    rewrite read_be_1. reflexivity.
  - intros r. unfold read_arg. change (25 <=? 23) with false. change (25 =? 24) with false.
    change (25 =? 25) with true. cbn iota. rewrite read_be_app; [reflexivity|]. change (256 ^ N.of_nat 2) with 65536. lia.
  - intros r. unfold read_arg. change (26 <=? 23) with false. change (26 =? 24) with false.
    change (26 =? 25) with false. change (26 =? 26) with true. cbn iota.
    rewrite read_be_app; [reflexivity|]. change (256 ^ N.of_nat 4) with 4294967296. lia.
  - intros r. unfold read_arg. change (27 <=? 23) with false. change (27 =? 24) with false.
    change (27 =? 25) with false. change (27 =? 26) with false. change (27 =? 27) with true. cbn iota.
    rewrite read_be_app; [reflexivity|]. change (256 ^ N.of_nat 8) with 18446744073709551616. lia.
Qed.

(** * Floats *)
Lemma fields64 s e m :
  e < 2048 -> m < 2 ^ 52 ->
  f64_sign (s * 2 ^ 63 + (e * 2 ^ 52 + m)) = s /\
  f64_exp (s * 2 ^ 63 + (e * 2 ^ 52 + m)) = e /\
  f64_man (s * 2 ^ 63 + (e * 2 ^ 52 + m)) = m.
Proof.
  intros He Hm. unfold f64_sign, f64_exp, f64_man.
  change (2 ^ 63) with (2048 * 2 ^ 52). set (q := 2 ^ 52) in *.
  assert (Hq : q <> 0) by (subst q; vm_compute; discriminate). clearbody q.
  assert (Hb : e * q + m < 2048 * q) by nia.
  repeat split.
  - rewrite N.add_comm, N.div_add by nia. rewrite N.div_small by exact Hb. lia.
  - replace (s * (2048 * q) + (e * q + m)) with (m + (s * 2048 + e) * q) by lia.
    rewrite N.div_add by exact Hq. rewrite (N.div_small m q) by exact Hm.
    rewrite N.add_0_l, N.add_comm, N.mod_add by lia. apply N.mod_small. exact He.
  - replace (s * (2048 * q) + (e * q + m)) with (m + (s * 2048 + e) * q) by lia.
    rewrite N.mod_add by exact Hq. apply N.mod_small. exact Hm.
Qed.

Lemma narrow_widen y :
  (y / 2 ^ 23) mod 256 <> 255 -> narrow (widen y) = Some y.
Proof.
  intros He.
  assert (Hy : y = (y / 2 ^ 31) * 2 ^ 31 + ((y / 2 ^ 23) mod 256 * 2 ^ 23 + y mod 2 ^ 23)).
  { change (2 ^ 31) with (2 ^ 23 * 256). rewrite <- (N.div_div y (2 ^ 23) 256) by (vm_compute; discriminate).
    assert (H1 : y = 2 ^ 23 * (y / 2 ^ 23) + y mod 2 ^ 23) by (apply N.div_mod; vm_compute; discriminate).
    assert (H2 : y / 2 ^ 23 = 256 * (y / 2 ^ 23 / 256) + (y / 2 ^ 23) mod 256) by (apply N.div_mod; lia).
    set (q := 2 ^ 23) in *. clearbody q. nia. }
  set (s := y / 2 ^ 31) in *. set (e := (y / 2 ^ 23) mod 256) in *. set (m := y mod 2 ^ 23) in *.
  assert (He' : e < 256) by (apply N.mod_lt; lia).
  assert (Hm' : m < 2 ^ 23) by (apply N.mod_lt; vm_compute; discriminate).
  assert (Hw : exists E M, widen y = s * 2 ^ 63 + (E * 2 ^ 52 + M) /\ E < 2048 /\ M < 2 ^ 52 /\
     (if (874 <=? E) && (E <=? 896) then (2 ^ 52 + M) / 2 ^ (52 - (E - 874))
      else if (897 <=? E) && (E <=? 1150) then (E - 896) * 2 ^ 23 + M / 2 ^ 29
      else 0) = e * 2 ^ 23 + m).
  { unfold widen. fold s. fold e. fold m.
    destruct (N.eqb_spec e 255); [contradiction|].
    destruct (N.eqb_spec e 0) as [E0|E0].
    - destruct (N.eqb_spec m 0) as [M0|M0].
      + exists 0, 0. repeat split; try (vm_compute; reflexivity); try lia.
        rewrite E0, M0. reflexivity.
      + destruct (N.log2_spec m) as [Hlo Hhi]; [lia|].
        set (k := N.log2 m) in *.
        assert (Hk : k <= 22).
        { assert (k < 23); [|lia]. apply (N.pow_lt_mono_r_iff 2); [lia|]. lia. }
        assert (Hp : 2 ^ 52 = 2 ^ k * 2 ^ (52 - k)).
        { rewrite <- N.pow_add_r. f_equal. lia. }
        assert (Hpos : 2 ^ (52 - k) <> 0) by (apply N.pow_nonzero; lia).
        rewrite N.pow_succ_r' in Hhi.
        exists (k + 874), ((m - 2 ^ k) * 2 ^ (52 - k)). split; [lia|]. split; [lia|]. split.
        * rewrite Hp. apply N.mul_lt_mono_pos_r; lia.
        * destruct (N.leb_spec 874 (k + 874)); [|lia]. destruct (N.leb_spec (k + 874) 896); [|lia].
          cbn [andb]. replace (k + 874 - 874) with k by lia. rewrite E0, N.mul_0_l, N.add_0_l.
          transitivity ((m * 2 ^ (52 - k)) / 2 ^ (52 - k)).
          { f_equal. rewrite Hp, <- N.mul_add_distr_r. f_equal. lia. }
          apply N.div_mul. exact Hpos.
    - exists (e + 896), (m * 2 ^ 29). split; [lia|]. split; [lia|]. split.
      + change (2 ^ 52) with (2 ^ 23 * 2 ^ 29). apply N.mul_lt_mono_pos_r; [vm_compute; reflexivity|exact Hm'].
      + destruct (N.leb_spec (e + 896) 896); [lia|]. rewrite andb_false_r.
        destruct (N.leb_spec 897 (e + 896)); [|lia]. destruct (N.leb_spec (e + 896) 1150); [|lia].
        cbn [andb]. rewrite N.div_mul by (vm_compute; discriminate). f_equal. f_equal. lia. }
  destruct Hw as (E & M & Hw & HE & HM & Hv).
  unfold narrow. destruct (fields64 s E M HE HM) as (F1 & F2 & F3).
  rewrite Hw, F1, F2, F3, Hv. rewrite <- Hy, Hw, N.eqb_refl. reflexivity.
Qed.

Lemma narrow_some x y : narrow x = Some y -> widen y = x.
Proof.
  unfold narrow. cbv zeta. match goal with |- (if widen ?t =? x then _ else _) = _ -> _ => set (w := t) end.
  destruct (N.eqb_spec (widen w) x); [|discriminate]. intros E. inversion E. congruence.
Qed.

Lemma narrow_small x y : x < u64_max1 -> narrow x = Some y -> y < 2 ^ 32.
Proof.
  intros Hx. unfold narrow. cbv zeta.
  match goal with |- (if widen ?t =? x then _ else _) = _ -> _ => set (w := t) end.
  destruct (widen w =? x); [|discriminate]. intros E. inversion E; subst y. subst w.
  assert (Hs : f64_sign x <= 1).
  { unfold f64_sign. assert (x / 2 ^ 63 < 2); [|lia].
    apply N.div_lt_upper_bound; [vm_compute; discriminate|]. exact Hx. }
  assert (Hm : f64_man x < 2 ^ 52) by (apply N.mod_lt; vm_compute; discriminate).
  set (b := if _ && _ then _ else _).
  assert (Hb : b < 2 ^ 31); [|change (2 ^ 32) with (2 * 2 ^ 31); nia].
  subst b. destruct ((874 <=? f64_exp x) && (f64_exp x <=? 896)) eqn:E1.
  - apply andb_true_iff in E1 as [E1 E2]. apply N.leb_le in E1, E2.
    apply N.lt_le_trans with (2 ^ 24); [|vm_compute; discriminate].
    apply N.div_lt_upper_bound; [apply N.pow_nonzero; lia|].
    rewrite <- N.pow_add_r. apply N.lt_le_trans with (2 ^ 53).
    + change (2 ^ 53) with (2 ^ 52 + 2 ^ 52). lia.
    + apply N.pow_le_mono_r; lia.
  - destruct ((897 <=? f64_exp x) && (f64_exp x <=? 1150)) eqn:E3; [|vm_compute; reflexivity].
    apply andb_true_iff in E3 as [E3 E4]. apply N.leb_le in E3, E4.
    assert (f64_man x / 2 ^ 29 < 2 ^ 23).
    { apply N.div_lt_upper_bound; [vm_compute; discriminate|]. exact Hm. }
    change (2 ^ 31) with (256 * 2 ^ 23). set (q := 2 ^ 23) in *. clearbody q. nia.
Qed.
