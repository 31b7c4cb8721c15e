From Verif Require Import Base Wire WireProofs Cid CidProofs Text TextProofs FsPaths.
Local Open Scope N_scope.

Lemma path_eqb_spec a b : reflect (a = b) (path_eqb a b).
Proof.
  destruct a as [x y], b as [x' y']. unfold path_eqb. cbn.
  destruct (beq_spec x x'), (beq_spec y y'); cbn; constructor; congruence.
Qed.

Lemma last_dot_none s : Forall (fun c => c <> 46) s -> last_dot s = None.
Proof.
  induction 1 as [|c s H HF IH]; [reflexivity|]. cbn [last_dot]. rewrite IH.
  destruct (N.eqb_spec c 46); [contradiction|reflexivity].
Qed.
Lemma last_dot_app s e : Forall (fun c => c <> 46) s -> Forall (fun c => c <> 46) e ->
  last_dot (s ++ 46 :: e) = Some (s, e).
Proof.
  intros Hs He. induction Hs as [|c s H HF IH]; cbn [app last_dot].
  - rewrite last_dot_none by exact He. reflexivity.
  - rewrite IH. reflexivity.
Qed.

Lemma alnum_dot s : Forall alnum s -> Forall (fun c => c <> 46) s.
Proof. apply Forall_impl. unfold alnum. intros; lia. Qed.

Lemma stem_app s e : s <> [] -> Forall (fun c => c <> 46) s -> Forall (fun c => c <> 46) e ->
  file_stem (s ++ 46 :: e) = s /\ extension (s ++ 46 :: e) = Some e.
Proof.
  intros Hn Hs He. unfold file_stem, extension. rewrite last_dot_app by assumption.
  destruct s; [congruence|]. auto.
Qed.
Lemma stem_plain s : Forall (fun c => c <> 46) s -> file_stem s = s.
Proof. intros Hs. unfold file_stem. rewrite last_dot_none by exact Hs. reflexivity. Qed.

Lemma utf8_ascii s : Forall (fun c => c < 128) s -> utf8 s = true.
Proof.
  intros H. unfold utf8.
  assert (G : forall f s, Forall (fun c => c < 128) s -> (length s <= f)%nat -> utf8_n f s = true); [|apply G; auto].
  clear. induction f as [|f IH]; intros s H Hl.
  - destruct s; [reflexivity|cbn in Hl; lia].
  - destruct s as [|c s]; [reflexivity|]. inversion H; subst. cbn [utf8_n]. destruct (N.ltb_spec c 128); [|lia].
    apply IH; [assumption|]. cbn in Hl. lia.
Qed.

Lemma alnum_utf8 s : Forall alnum s -> utf8 s = true.
Proof. intros H. apply utf8_ascii. eapply Forall_impl; [|exact H]. unfold alnum. intros; lia. Qed.

Lemma wf_to_v1 c : wf_cid c -> wf_cid (to_v1 c).
Proof.
  destruct c as [d|k m]; [|auto]. cbn. intros [Hl Hw]. repeat split; try reflexivity; auto.
  unfold blen. rewrite Hl. reflexivity.
Qed.

Lemma shard_ok key : (3 <= length key)%nat -> shard key = Ok (firstn 2 (skipn (length key - 3) key), key).
Proof. intros H. unfold shard. destruct (Nat.ltb_spec (length key) 3); [lia|reflexivity]. Qed.

Lemma text_length c : wf_cid c -> (3 <= length (cid_to_text (to_v1 c)))%nat.
Proof.
  intros Hw. apply wf_to_v1 in Hw. pose proof (cid_bytes_length _ Hw) as Hl.
  assert (E : exists k m, to_v1 c = CidV1 k m) by (destruct c; cbn; eauto).
  destruct E as (k & m & E). rewrite E in *. unfold cid_to_text. cbn [length].
  pose proof (b32_length _ _ (eq_refl (length (cid_to_bytes (CidV1 k m))))). lia.
Qed.
Lemma pin_length c : wf_cid c -> (3 <= length (b32_encode (cid_to_bytes c)))%nat.
Proof.
  intros Hw. pose proof (cid_bytes_length _ Hw) as Hl.
  pose proof (b32_length _ _ (eq_refl (length (cid_to_bytes c)))). lia.
Qed.

Definition shard_of (key : bytes) : bytes := firstn 2 (skipn (length key - 3) key).
(** The paths without the panic case. *)
Definition block_file (c : cid) : path :=
  (shard_of (cid_to_text (to_v1 c)), cid_to_text (to_v1 c) ++ 46 :: ext_data).
Definition pin_stem (c : cid) : bytes := b32_encode (cid_to_bytes c).

Lemma block_path_ok c : wf_cid c -> block_path c = Ok (block_file c).
Proof.
  intros Hw. unfold block_path. rewrite shard_ok by (apply text_length; exact Hw).
  cbn [with_ext]. unfold set_extension. cbn [fst snd].
  rewrite stem_plain by (apply alnum_dot, cid_text_alnum). reflexivity.
Qed.
Lemma pin_path_ok c ext : wf_cid c ->
  with_ext ext (pin_path c) = Ok (shard_of (pin_stem c), pin_stem c ++ 46 :: ext).
Proof.
  intros Hw. unfold pin_path. rewrite shard_ok by (apply pin_length; exact Hw).
  cbn [with_ext]. unfold set_extension. cbn [fst snd].
  rewrite stem_plain by (apply alnum_dot, b32_chars). reflexivity.
Qed.

Lemma block_file_inj c1 c2 : wf_cid c1 -> wf_cid c2 -> block_file c1 = block_file c2 -> to_v1 c1 = to_v1 c2.
Proof.
  intros H1 H2 E. unfold block_file in E. injection E as _ E. apply app_inv_tail in E.
  apply cid_text_inj; auto using wf_to_v1.
Qed.

Lemma length_nil {A} (l : list A) : (3 <= length l)%nat -> l <> [].
Proof. destruct l; [cbn; lia|discriminate]. Qed.

Lemma listed_block_file ob c : wf_cid c -> listed_block ob (snd (block_file c)) = Some (to_v1 c).
Proof.
  intros Hw. unfold listed_block, block_file. cbn [snd].
  destruct (stem_app (cid_to_text (to_v1 c)) ext_data) as [Es Ee].
  { apply length_nil, text_length, Hw. } { apply alnum_dot, cid_text_alnum. }
  { unfold ext_data. repeat constructor; lia. }
  rewrite Es, Ee. replace (beq ext_data ext_data) with true by reflexivity. unfold filestem_to_block_cid.
  rewrite alnum_utf8 by apply cid_text_alnum. apply cid_text_roundtrip, wf_to_v1, Hw.
Qed.

Lemma pin_stem_inj c1 c2 : wf_cid c1 -> wf_cid c2 -> pin_stem c1 = pin_stem c2 -> c1 = c2.
Proof.
  intros H1 H2 E. apply cid_to_bytes_inj; auto.
  apply (f_equal b32_decode) in E. unfold pin_stem in E.
  rewrite !b32_decode_encode in E by (apply cid_to_bytes_wf; assumption). congruence.
Qed.

Lemma filestem_pin c : wf_cid c -> filestem_to_pin_cid (pin_stem c) = Some c.
Proof.
  intros Hw. unfold filestem_to_pin_cid, pin_stem. rewrite alnum_utf8 by apply b32_chars.
  rewrite b32_decode_encode by (apply cid_to_bytes_wf; exact Hw). apply cid_roundtrip, Hw.
Qed.

Lemma listed_pin_file c (r : bool) : wf_cid c ->
  listed_pin (pin_stem c ++ 46 :: (if r then ext_recursive else ext_direct)) = Some (c, r).
Proof.
  intros Hw. unfold listed_pin.
  destruct (stem_app (pin_stem c) (if r then ext_recursive else ext_direct)) as [Es Ee].
  { apply length_nil, pin_length, Hw. } { apply alnum_dot, b32_chars. }
  { destruct r; repeat constructor; lia. }
  rewrite Es, Ee, filestem_pin by exact Hw. destruct r; reflexivity.
Qed.
