(** Lemmas about [Prost]. *)
From Verif Require Import Base Wire WireProofs Prost.
Local Open Scope N_scope.

Lemma pb_varint_write v r : v < u64_max1 -> pb_varint (write_varint v ++ r) = Some (v, r).
Proof.
  intros H. unfold pb_varint, write_varint. rewrite read_write_varint_n by (pose proof pow128_10; lia).
  rewrite N.pow_0_r, N.mul_1_r, N.add_0_l, N.mod_small by (eapply N.lt_trans; [exact H|reflexivity]).
  destruct (N.ltb_spec v u64_max1); [reflexivity|lia].
Qed.
Lemma pb_varint_consume bs v r : pb_varint bs = Some (v, r) -> (length r < length bs)%nat.
Proof.
  unfold pb_varint. destruct (read_varint_n _ _ _ _ bs) as [[x y]|] eqn:E; [|discriminate].
  destruct (x <? u64_max1); [|discriminate]. intros [= -> ->].
  apply read_varint_n_consume in E as (p & -> & Hp). rewrite app_length. destruct p; [congruence|cbn; lia].
Qed.
Lemma pb_key_consume bs t w r : pb_key bs = Some (t, w, r) -> (length r < length bs)%nat.
Proof.
  unfold pb_key. destruct (pb_varint bs) as [[k r']|] eqn:E; [|discriminate].
  destruct (_ || _ || _); [discriminate|]. intros [= _ _ <-]. eapply pb_varint_consume. exact E.
Qed.
Lemma pb_plain_consume w bs v r : pb_plain w bs = Some (v, r) -> (length r <= length bs)%nat.
Proof.
  unfold pb_plain. destruct (w =? 0).
  { destruct (pb_varint bs) as [[x y]|] eqn:E; [|discriminate]. intros [= _ <-]. apply pb_varint_consume in E. lia. }
  destruct (w =? 1).
  { destruct (take_exact 8 bs) as [[x y]|] eqn:E; [|discriminate]. intros [= _ <-]. apply take_exact_consume in E. lia. }
  destruct (w =? 2).
  { destruct (pb_varint bs) as [[x y]|] eqn:E; [|discriminate]. destruct (x <=? blen y); [|discriminate]. intros [= _ <-].
    apply pb_varint_consume in E. rewrite skipn_length. lia. }
  destruct (w =? 5); [|discriminate].
  destruct (take_exact 4 bs) as [[x y]|] eqn:E; [|discriminate]. intros [= _ <-]. apply take_exact_consume in E. lia.
Qed.
Lemma skip_group_consume f : forall l t bs r, skip_group f l t bs = Some r -> (length r < length bs)%nat.
Proof.
  induction f as [|f IH]; intros l t bs r; cbn [skip_group]; [discriminate|].
  destruct (pb_key bs) as [[[t' w] r']|] eqn:E; [|discriminate]. apply pb_key_consume in E.
  destruct (w =? 4). { destruct (t' =? t); [|discriminate]. intros [= <-]. exact E. }
  destruct l as [|[|l]]; try discriminate.
  destruct (if w =? 3 then _ else _) as [r''|] eqn:E2; [|discriminate]. intros H. apply IH in H.
  assert (length r'' <= length r')%nat; [|lia].
  destruct (w =? 3). { apply IH in E2. lia. }
  destruct (pb_plain w r') as [[v y]|] eqn:E3; [|discriminate]. injection E2 as <-. eapply pb_plain_consume. exact E3.
Qed.
(** The fuel of the readers is never what stops them. *)
Lemma skip_group_fuel f : forall g l t bs, (length bs <= f)%nat -> (length bs <= g)%nat -> skip_group f l t bs = skip_group g l t bs.
Proof.
  induction f as [|f IH]; intros g l t bs Hf Hg.
  { destruct bs; [|cbn in Hf; lia]. destruct g; reflexivity. }
  destruct g as [|g]. { destruct bs; [|cbn in Hg; lia]. reflexivity. }
  cbn [skip_group]. destruct (pb_key bs) as [[[t' w] r']|] eqn:E; [|reflexivity]. apply pb_key_consume in E.
  destruct (w =? 4); [reflexivity|]. destruct l as [|[|l]]; try reflexivity.
  destruct (w =? 3).
  - rewrite (IH g (S l) t' r') by lia. destruct (skip_group g (S l) t' r') as [r''|] eqn:E2; [|reflexivity].
    apply skip_group_consume in E2. apply IH; lia.
  - destruct (pb_plain w r') as [[v y]|] eqn:E3; [|reflexivity]. cbn [option_map snd]. apply pb_plain_consume in E3. apply IH; lia.
Qed.
Lemma pb_fields_fuel f : forall g l bs, (length bs <= f)%nat -> (length bs <= g)%nat -> pb_fields_n f l bs = pb_fields_n g l bs.
Proof.
  induction f as [|f IH]; intros g l bs Hf Hg; (destruct bs as [|b bs]; [destruct g; reflexivity|]); [cbn in Hf; lia|].
  destruct g as [|g]; [cbn in Hg; lia|]. cbn [pb_fields_n].
  destruct (pb_key (b :: bs)) as [[[t w] r]|] eqn:E; [|reflexivity]. apply pb_key_consume in E. cbn [length] in *.
  destruct (w =? 3).
  - destruct l as [|l]; [reflexivity|]. rewrite (skip_group_fuel f g) by lia.
    destruct (skip_group g (S l) t r) as [r'|] eqn:E2; [|reflexivity]. apply skip_group_consume in E2. cbn [option_map].
    rewrite (IH g) by lia. reflexivity.
  - destruct (pb_plain w r) as [[v r']|] eqn:E2; [|reflexivity]. apply pb_plain_consume in E2. rewrite (IH g) by lia. reflexivity.
Qed.

(** Reading what was written. *)
Lemma pb_key_write t w r : 0 < t -> w <= 5 -> t * 8 + w < u32_max1 -> pb_key (write_varint (t * 8 + w) ++ r) = Some (t, w, r).
Proof.
  intros Ht Hw Hk. unfold pb_key. rewrite pb_varint_write by (pose proof u32_u64; lia).
  assert (E1 : (t * 8 + w) / 8 = t) by (rewrite N.mul_comm, N.add_comm, N.mul_comm, N.div_add by lia; rewrite (N.div_small w 8) by lia; reflexivity).
  assert (E2 : (t * 8 + w) mod 8 = w) by (rewrite N.add_comm, N.mod_add by lia; apply N.mod_small; lia).
  rewrite E1, E2. destruct (N.leb_spec u32_max1 (t * 8 + w)); [lia|]. destruct (N.ltb_spec 5 w); [lia|].
  destruct (N.eqb_spec t 0); [lia|]. reflexivity.
Qed.
Lemma pb_fields_step l t w body v rest : 0 < t -> w <= 5 -> w <> 3 -> t * 8 + w < u32_max1 ->
  pb_plain w (body ++ rest) = Some (v, rest) ->
  pb_fields l (write_varint (t * 8 + w) ++ body ++ rest) = option_map (cons (t, v)) (pb_fields l rest).
Proof.
  intros Ht Hw H3 Hk Hb. unfold pb_fields. set (bs := write_varint (t * 8 + w) ++ body ++ rest).
  assert (Hn : bs <> []) by (unfold bs; pose proof (write_varint_nonempty (t * 8 + w)); destruct (write_varint (t * 8 + w)); [congruence|discriminate]).
  assert (HL : (length rest < length bs)%nat).
  { unfold bs. rewrite !app_length. pose proof (write_varint_nonempty (t * 8 + w)). destruct (write_varint (t * 8 + w)); [congruence|cbn; lia]. }
  destruct (length bs) as [|n] eqn:El; [lia|]. destruct bs as [|b0 bs0] eqn:Eb; [congruence|]. cbn [pb_fields_n].
  rewrite <- Eb. unfold bs. rewrite pb_key_write by assumption. destruct (N.eqb_spec w 3); [lia|]. rewrite Hb.
  rewrite (pb_fields_fuel n (length rest)) by lia. reflexivity.
Qed.
Lemma pb_fields_len l t b rest : 0 < t -> t * 8 + 2 < u32_max1 -> blen b < u64_max1 ->
  pb_fields l (w_bytes (t * 8 + 2) b ++ rest) = option_map (cons (t, PLen b)) (pb_fields l rest).
Proof.
  intros Ht Hk Hb. unfold w_bytes. rewrite <- !app_assoc. rewrite (app_assoc (write_varint (blen b))).
  apply pb_fields_step; try lia. unfold pb_plain. cbn [N.eqb]. rewrite <- app_assoc, pb_varint_write by exact Hb.
  rewrite blen_app. destruct (N.leb_spec (blen b) (blen b + blen rest)); [|lia].
  unfold blen. rewrite Nnat.Nat2N.id, firstn_app, skipn_app, firstn_all, skipn_all, Nat.sub_diag. cbn [firstn skipn app].
  rewrite app_nil_r. reflexivity.
Qed.
Lemma pb_fields_uint l t v rest : 0 < t -> t * 8 < u32_max1 -> v < u64_max1 ->
  pb_fields l (w_uint (t * 8) v ++ rest) = option_map (cons (t, PVarint v)) (pb_fields l rest).
Proof.
  intros Ht Hk Hv. unfold w_uint. rewrite <- !app_assoc. replace (t * 8) with (t * 8 + 0) by lia.
  apply pb_fields_step; try lia. unfold pb_plain. cbn [N.eqb]. rewrite pb_varint_write by exact Hv. reflexivity.
Qed.
Lemma pb_fields_nil l : pb_fields l [] = Some [].
Proof. reflexivity. Qed.

Lemma pb_merge_app {M} (field : M -> N * pval -> option M) a b m :
  pb_merge field m (a ++ b) = match pb_merge field m a with Some m' => pb_merge field m' b | None => None end.
Proof. revert m. induction a as [|x a IH]; intros m; cbn; [reflexivity|]. destruct (field m x); [apply IH|reflexivity]. Qed.

Lemma i32_roundtrip z : (-2147483648 <= z < 2147483648)%Z -> to_i32 (of_i32 z) = z.
Proof.
  intros H. unfold to_i32, of_i32, u32_max1.
  assert (E : Z.of_N (Z.to_N (z mod 18446744073709551616) mod 4294967296) = (z mod 4294967296)%Z).
  { rewrite N2Z.inj_mod, Z2N.id by (apply Z.mod_pos_bound; lia).
    change (Z.of_N 4294967296) with 4294967296%Z. symmetry.
    rewrite (Z.div_mod z 18446744073709551616) at 1 by lia.
    replace (18446744073709551616 * (z / 18446744073709551616))%Z with (4294967296 * (z / 18446744073709551616) * 4294967296)%Z by lia.
    rewrite Z.add_comm, Z.mod_add by lia. reflexivity. }
  rewrite E. cbv zeta. destruct (Z.ltb_spec z 0).
  - rewrite <- (Z.mod_add z 1 4294967296) by lia. rewrite Z.mod_small by lia. destruct (Z.ltb_spec (z + 1 * 4294967296) 2147483648); lia.
  - rewrite Z.mod_small by lia. destruct (Z.ltb_spec z 2147483648); lia.
Qed.
Lemma of_i32_lt z : of_i32 z < u64_max1.
Proof. unfold of_i32, u64_max1. pose proof (Z.mod_pos_bound z 18446744073709551616). lia. Qed.
