(** Lemmas about [Wire]. *)
From Verif Require Import Base Wire.
Local Open Scope N_scope.

Lemma write_varint_n_wf f v : wf_bytes (write_varint_n f v).
Proof.
  revert v. induction f as [|f IH]; intros v; cbn [write_varint_n]; [constructor|].
  destruct (N.leb_spec v 127).
  - constructor; [unfold is_byte; lia|constructor].
  - constructor; [|apply IH]. unfold is_byte. pose proof (N.mod_lt v 128). lia.
Qed.

Lemma write_varint_wf v : wf_bytes (write_varint v).
Proof. apply write_varint_n_wf. Qed.

Lemma read_write_varint_n f m shift acc v r :
  v < 128 ^ N.of_nat (S f) ->
  read_varint_n (S f) m shift acc (write_varint_n (S f) v ++ r)
  = Some ((acc + v * 2 ^ shift) mod m, r).
Proof.
  revert shift acc v. induction f as [|f IH]; intros shift acc v Hv.
  - change (v < 128 ^ 1) in Hv. rewrite N.pow_1_r in Hv.
    cbn [write_varint_n]. destruct (N.leb_spec v 127); [|lia].
    cbn [app read_varint_n]. destruct (N.ltb_spec v 128); [|lia].
    rewrite (N.mod_small v 128) by lia. reflexivity.
  - cbn [write_varint_n]. destruct (N.leb_spec v 127).
    + cbn [app read_varint_n]. destruct (N.ltb_spec v 128); [|lia].
      rewrite (N.mod_small v 128) by lia. reflexivity.
    + assert (Hm : v mod 128 < 128) by (apply N.mod_lt; lia).
      assert (Hdiv : v = 128 * (v / 128) + v mod 128) by (apply N.div_mod; lia).
      assert (Hlt : v / 128 < 128 ^ N.of_nat (S f)).
      { apply N.div_lt_upper_bound; [lia|].
        rewrite <- N.pow_succ_r'. replace (N.succ (N.of_nat (S f))) with (N.of_nat (S (S f))) by lia.
        exact Hv. }
      change ((v mod 128 + 128) :: ?x) with ([v mod 128 + 128] ++ x).
      rewrite <- app_assoc. cbn [app].
      cbn [read_varint_n].
      destruct (N.ltb_spec (v mod 128 + 128) 128); [lia|].
      change (match f with | O => _ | S _ => _ end) with (write_varint_n (S f) (v / 128)).
      assert (Hx : (v mod 128 + 128) mod 128 = v mod 128).
      { rewrite N.add_mod by lia. rewrite N.mod_same, N.add_0_r by lia.
        rewrite !N.mod_mod by lia. reflexivity. }
      rewrite Hx.
      specialize (IH (shift + 7) (acc + v mod 128 * 2 ^ shift) (v / 128) Hlt).
      cbn [write_varint_n read_varint_n] in IH. cbn [write_varint_n].
      rewrite IH. do 3 f_equal.
      rewrite N.pow_add_r. change (2 ^ 7) with 128.
      rewrite Hdiv at 3. lia.
Qed.

Lemma pow128_10 : u64_max1 <= 128 ^ N.of_nat 10.
Proof. vm_compute. discriminate. Qed.

Lemma read_write_varint64 v r :
  v < u64_max1 -> read_varint64 (write_varint v ++ r) = Some (v, r).
Proof.
  intros Hv. unfold read_varint64, write_varint.
  rewrite read_write_varint_n by (pose proof pow128_10; lia).
  rewrite N.pow_0_r, N.mul_1_r, N.add_0_l, N.mod_small by exact Hv. reflexivity.
Qed.

Lemma u32_u64 : u32_max1 < u64_max1.
Proof. vm_compute. reflexivity. Qed.

Lemma read_write_varint32 v r :
  v < u32_max1 -> read_varint32 (write_varint v ++ r) = Some (v, r).
Proof.
  intros Hv. unfold read_varint32, write_varint. pose proof u32_u64.
  rewrite read_write_varint_n by (pose proof pow128_10; lia).
  rewrite N.pow_0_r, N.mul_1_r, N.add_0_l, N.mod_small by exact Hv. reflexivity.
Qed.

(** Number of bytes written = computed size. *)
Lemma blen_write_varint v : v < u64_max1 -> blen (write_varint v) = sizeof_varint v.
Proof.
  intros Hv. unfold u64_max1 in Hv. unfold write_varint, sizeof_varint, blen.
  cbn [write_varint_n].
  rewrite !N.div_div by lia. cbn [N.mul Pos.mul].
  (* each threshold v/128^k <= 127  <->  v <= 128^(k+1)-1 *)
  assert (T : forall k c, 0 < k -> c = 128 * k - 1 -> (v / k <=? 127) = (v <=? c)).
  { intros k c Hk ->. apply eq_true_iff_eq. rewrite !N.leb_le. split; intros H.
    - assert (v < k * (v / k) + k).
      { pose proof (N.mod_lt v k). rewrite (N.div_mod v k) at 1 by lia. lia. }
      nia.
    - assert (v / k < 128); [|lia]. apply N.div_lt_upper_bound; lia. }
  rewrite (T 128 16383), (T 16384 2097151), (T 2097152 268435455), (T 268435456 34359738367),
    (T 34359738368 4398046511103), (T 4398046511104 562949953421311),
    (T 562949953421312 72057594037927935), (T 72057594037927936 9223372036854775807) by reflexivity.
  repeat match goal with
  | |- context [v <=? ?c] => destruct (N.leb_spec v c); [reflexivity|]
  end.
  assert (Hl : (v / 9223372036854775808 <=? 127) = true).
  { apply N.leb_le. assert (v / 9223372036854775808 < 128); [|lia].
    apply N.div_lt_upper_bound; lia. }
  rewrite Hl. reflexivity.
Qed.

Lemma write_varint_nonempty v : write_varint v <> [].
Proof. unfold write_varint. cbn [write_varint_n]. destruct (v <=? 127); discriminate. Qed.

Lemma sizeof_varint_pos v : 1 <= sizeof_varint v.
Proof.
  unfold sizeof_varint.
  repeat match goal with |- context [if ?c then _ else _] => destruct c end; lia.
Qed.

Lemma sizeof_varint_le v : sizeof_varint v <= 10.
Proof.
  unfold sizeof_varint.
  repeat match goal with |- context [if ?c then _ else _] => destruct c end; lia.
Qed.

(** Readers consume a non-empty prefix. *)
Lemma read_varint_n_consume f m s a bs v r :
  read_varint_n f m s a bs = Some (v, r) -> exists p, bs = p ++ r /\ p <> [].
Proof.
  revert s a bs. induction f as [|f IH]; intros s a bs H; cbn [read_varint_n] in H;
    [destruct bs; discriminate|].
  destruct bs as [|b bs]; [discriminate|].
  destruct (b <? 128).
  - injection H as _ <-. exists [b]. split; [reflexivity|discriminate].
  - apply IH in H. destruct H as (p & -> & _). exists (b :: p). split; [reflexivity|discriminate].
Qed.

Lemma read_varint64_consume bs v r :
  read_varint64 bs = Some (v, r) -> (length r < length bs)%nat.
Proof.
  intros H. apply read_varint_n_consume in H. destruct H as (p & -> & Hp).
  rewrite app_length. destruct p; [congruence|cbn [length]; lia].
Qed.

Lemma read_varint32_consume bs v r :
  read_varint32 bs = Some (v, r) -> (length r < length bs)%nat.
Proof.
  intros H. apply read_varint_n_consume in H. destruct H as (p & -> & Hp).
  rewrite app_length. destruct p; [congruence|cbn [length]; lia].
Qed.

Lemma read_varint_n_bound f m s a bs v r :
  m <> 0 -> read_varint_n f m s a bs = Some (v, r) -> v < m.
Proof.
  intros Hm. revert s a bs. induction f as [|f IH]; intros s a bs H; cbn [read_varint_n] in H;
    [destruct bs; discriminate|].
  destruct bs as [|b bs]; [discriminate|].
  destruct (b <? 128); [|eapply IH; eassumption].
  injection H as <- _. apply N.mod_lt. exact Hm.
Qed.

Lemma read_varint64_bound bs v r : read_varint64 bs = Some (v, r) -> v < u64_max1.
Proof. apply read_varint_n_bound. discriminate. Qed.

Lemma read_varint32_bound bs v r : read_varint32 bs = Some (v, r) -> v < u32_max1.
Proof. apply read_varint_n_bound. discriminate. Qed.

Lemma read_bytes_consume bs v r : read_bytes bs = Some (v, r) -> (length r < length bs)%nat.
Proof.
  unfold read_bytes. intros H. destruct (read_varint32 bs) as [[n r0]|] eqn:E; [|discriminate].
  apply read_varint32_consume in E.
  destruct (n <=? blen r0); [|discriminate]. injection H as _ <-.
  rewrite skipn_length. lia.
Qed.

Lemma read_bytes_prefix bs v r :
  read_bytes bs = Some (v, r) -> exists p, bs = p ++ v ++ r /\ p <> [].
Proof.
  unfold read_bytes. intros H. destruct (read_varint32 bs) as [[n r0]|] eqn:E; [|discriminate].
  apply read_varint_n_consume in E. destruct E as (p & -> & Hp).
  destruct (n <=? blen r0); [|discriminate]. injection H as <- <-.
  exists p. rewrite firstn_skipn. auto.
Qed.

Lemma read_string_consume bs v r : read_string bs = Some (v, r) -> (length r < length bs)%nat.
Proof.
  unfold read_string. destruct (read_bytes bs) as [[s r0]|] eqn:E; [|discriminate].
  destruct (utf8 s); [|discriminate]. intros [= _ <-]. eapply read_bytes_consume; eassumption.
Qed.

Lemma take_exact_consume n bs v r :
  take_exact n bs = Some (v, r) -> (length r <= length bs)%nat.
Proof.
  unfold take_exact. destruct (n <=? length bs)%nat; [|discriminate]. intros [= _ <-].
  rewrite skipn_length. lia.
Qed.

Lemma read_unknown_consume t bs r : read_unknown t bs = Some r -> (length r <= length bs)%nat.
Proof.
  unfold read_unknown. intros H.
  destruct (t mod 8) as [|p]; [|destruct p as [[q|q|]|[q|q|]|]; try discriminate;
    try (destruct q; discriminate)].
  - destruct (read_varint64 bs) as [[v r0]|] eqn:E; [|discriminate]. injection H as <-.
    apply read_varint64_consume in E. cbn. lia.
  - destruct q; try discriminate. destruct (take_exact 4 bs) as [[v r0]|] eqn:E; [|discriminate].
    injection H as <-. apply take_exact_consume in E. exact E.
  - destruct (read_varint64 bs) as [[v r0]|] eqn:E; [|discriminate].
    apply read_varint64_consume in E.
    destruct (v <=? blen r0); [|discriminate]. injection H as <-. rewrite skipn_length. lia.
  - destruct (take_exact 8 bs) as [[v r0]|] eqn:E; [|discriminate].
    injection H as <-. apply take_exact_consume in E. exact E.
Qed.

(** [field] never yields more input than it was given. *)
Definition consuming {M} (field : N -> M -> bytes -> option (M * bytes)) : Prop :=
  forall tag m bs m' r, field tag m bs = Some (m', r) -> (length r <= length bs)%nat.

(** The loop's fuel is never the reason for its result. *)
Lemma read_loop_fuel {M} (field : N -> M -> bytes -> option (M * bytes)) f1 f2 m bs :
  consuming field -> (length bs <= f1)%nat -> (length bs <= f2)%nat ->
  read_loop f1 field m bs = read_loop f2 field m bs.
Proof.
  intros Hc. revert f2 m bs. induction f1 as [|f1 IH]; intros f2 m bs H1 H2.
  - destruct bs as [|b bs]; [destruct f2; reflexivity|cbn in H1; lia].
  - destruct bs as [|b bs]; [destruct f2; reflexivity|].
    destruct f2 as [|f2]; [cbn in H2; lia|].
    cbn [read_loop]. destruct (read_varint32 (b :: bs)) as [[t r]|] eqn:E; [|reflexivity].
    apply read_varint32_consume in E.
    destruct (field t m r) as [[m' r']|] eqn:Ef; [|reflexivity].
    apply Hc in Ef. apply IH; cbn [length] in *; lia.
Qed.

Lemma read_message_step {M} (field : N -> M -> bytes -> option (M * bytes)) m bs :
  consuming field -> bs <> [] ->
  read_message field m bs =
  match read_varint32 bs with
  | Some (tag, r) =>
      match field tag m r with Some (m', r') => read_message field m' r' | None => None end
  | None => None
  end.
Proof.
  intros Hc Hne. unfold read_message. destruct bs as [|b bs]; [congruence|].
  cbn [length read_loop]. destruct (read_varint32 (b :: bs)) as [[t r]|] eqn:E; [|reflexivity].
  apply read_varint32_consume in E.
  destruct (field t m r) as [[m' r']|] eqn:Ef; [|reflexivity].
  apply Hc in Ef. apply read_loop_fuel; cbn [length] in *; auto; lia.
Qed.

Lemma read_message_nil {M} (field : N -> M -> bytes -> option (M * bytes)) m :
  read_message field m [] = Some m.
Proof. reflexivity. Qed.

Lemma read_message_field {M} (field : N -> M -> bytes -> option (M * bytes)) m tag body rest m' :
  consuming field -> tag < u32_max1 ->
  field tag m (body ++ rest) = Some (m', rest) ->
  read_message field m (write_varint tag ++ body ++ rest) = read_message field m' rest.
Proof.
  intros Hc Ht Hf. rewrite read_message_step; auto.
  - rewrite read_write_varint32 by exact Ht. rewrite Hf. reflexivity.
  - pose proof (write_varint_nonempty tag). destruct (write_varint tag); [congruence|discriminate].
Qed.

Lemma read_bytes_w b r :
  blen b < u32_max1 -> read_bytes ((write_varint (blen b) ++ b) ++ r) = Some (b, r).
Proof.
  intros H. unfold read_bytes. rewrite <- app_assoc, read_write_varint32 by exact H.
  rewrite blen_app. destruct (N.leb_spec (blen b) (blen b + blen r)); [|lia].
  unfold blen. rewrite Nnat.Nat2N.id.
  rewrite firstn_app, skipn_app, firstn_all, skipn_all, Nat.sub_diag. cbn.
  rewrite app_nil_r. reflexivity.
Qed.

Lemma read_string_w b r :
  blen b < u32_max1 -> utf8 b = true ->
  read_string ((write_varint (blen b) ++ b) ++ r) = Some (b, r).
Proof. intros H Hu. unfold read_string. rewrite read_bytes_w by exact H. rewrite Hu. reflexivity. Qed.

Lemma le_val_bytes n v : v < 256 ^ N.of_nat n -> le_val (le_bytes n v) = v.
Proof.
  revert v. induction n as [|n IH]; intros v H.
  - change (v < 1) in H. cbn. lia.
  - cbn [le_bytes le_val]. rewrite IH.
    + rewrite (N.div_mod v 256) at 3 by lia. lia.
    + apply N.div_lt_upper_bound; [lia|]. rewrite <- N.pow_succ_r'.
      replace (N.succ (N.of_nat n)) with (N.of_nat (S n)) by lia. exact H.
Qed.

Lemma le_bytes_length n v : length (le_bytes n v) = n.
Proof. revert v. induction n as [|n IH]; intros v; cbn; [reflexivity|]. rewrite IH. reflexivity. Qed.

Lemma take_exact_app a r n : length a = n -> take_exact n (a ++ r) = Some (a, r).
Proof.
  intros <-. unfold take_exact. rewrite app_length.
  destruct (Nat.leb_spec (length a) (length a + length r)); [|lia].
  rewrite firstn_app, skipn_app, firstn_all, skipn_all, Nat.sub_diag. cbn.
  rewrite app_nil_r. reflexivity.
Qed.

Lemma blen_w_bytes tag b :
  tag <= 127 -> blen b < u64_max1 -> blen (w_bytes tag b) = 1 + sizeof_len (blen b).
Proof.
  intros Ht Hb. unfold w_bytes, sizeof_len. rewrite !blen_app, !blen_write_varint by (unfold u64_max1 in *; lia).
  unfold sizeof_varint at 1. destruct (N.leb_spec tag 127); lia.
Qed.

Lemma blen_w_uint tag v :
  tag <= 127 -> v < u64_max1 -> blen (w_uint tag v) = 1 + sizeof_varint v.
Proof.
  intros Ht Hb. unfold w_uint. rewrite !blen_app, !blen_write_varint by (unfold u64_max1 in *; lia).
  unfold sizeof_varint at 1. destruct (N.leb_spec tag 127); lia.
Qed.

Lemma blen_w_msg tag size body :
  tag <= 127 -> size < u64_max1 -> blen body = size ->
  blen (w_msg tag size body) = 1 + sizeof_len size.
Proof.
  intros Ht Hb Hs. unfold w_msg, sizeof_len. rewrite !blen_app, !blen_write_varint by (unfold u64_max1 in *; lia).
  unfold sizeof_varint at 1. destruct (N.leb_spec tag 127); lia.
Qed.
