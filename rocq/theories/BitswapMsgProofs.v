(** Lemmas about [BitswapMsg]. *)
From Verif Require Import Base Wire WireProofs Cid CidProofs FMap Prost ProstProofs BitswapMsg BitswapMsgSpec.
Local Open Scope N_scope.

Ltac small := first [assumption | lia | (unfold u32_max1, u64_max1; lia)].

Lemma fields_w_len l t b rest : 0 < t -> t * 8 + 2 < u32_max1 -> blen b < u64_max1 ->
  pb_fields l (w_len (t * 8 + 2) b ++ rest) = option_map (app (match b with [] => [] | _ => [(t, PLen b)] end)) (pb_fields l rest).
Proof.
  intros Ht Hk Hb. unfold w_len. destruct b as [|x b]; [cbn [app]; destruct (pb_fields l rest); reflexivity|].
  rewrite pb_fields_len by assumption. reflexivity.
Qed.

Section Hash.
Variable hasher : N -> option (bytes -> bytes).

(** * Lengths *)
Lemma blen_w_bytes_ge tag b : blen b <= blen (w_bytes tag b).
Proof. unfold w_bytes. rewrite !blen_app. lia. Qed.
Lemma blen_w_len_ge tag b : blen b <= blen (w_len tag b).
Proof. unfold w_len. destruct b as [|x b]; [rewrite blen_nil; lia|]. apply blen_w_bytes_ge. Qed.
Lemma blen_concat_in (l : list bytes) x : In x l -> blen x <= blen (concat l).
Proof.
  induction l as [|y l IH]; intros H; [destruct H|]. cbn [concat]. rewrite blen_app. destruct H as [->|H]; [lia|]. specialize (IH H). lia.
Qed.
Lemma blen_blocks (bs : list block) : sumN (map (fun b => blen (b_data b)) bs) <= blen (concat (map (fun b => w_bytes 26 (payload_bytes b)) bs)).
Proof.
  induction bs as [|b bs IH]; cbn [map concat sumN]; [lia|]. rewrite blen_app.
  assert (blen (b_data b) <= blen (w_bytes 26 (payload_bytes b))); [|lia].
  eapply N.le_trans; [|apply blen_w_bytes_ge]. unfold payload_bytes. rewrite blen_app. pose proof (blen_w_len_ge 18 (b_data b)). lia.
Qed.
Lemma blen_to_bytes m : sumN (map (fun b => blen (b_data b)) (m_blocks m)) <= blen (to_bytes m).
Proof. unfold to_bytes. rewrite blen_app. pose proof (blen_blocks (m_blocks m)). lia. Qed.

(** * Entries *)
Lemma entry_read blk p cn : blk <> [] -> blen blk < u64_max1 -> is_i32 p ->
  embedded 98 entry_field (mk_entry [] 0%Z false) (w_entry blk p cn) = Some (mk_entry blk p cn).
Proof.
  intros Hn Hb Hp. unfold embedded, w_entry. change 10 with (1 * 8 + 2).
  rewrite fields_w_len by small.
  change 16 with (2 * 8). change 24 with (3 * 8).
  assert (E3 : pb_fields 98 (w_uint (3 * 8) 1) = Some [(3, PVarint 1)]).
  { rewrite <- (app_nil_r (w_uint _ _)). rewrite pb_fields_uint by small. reflexivity. }
  destruct blk as [|x blk]; [congruence|]. destruct (Z.eqb_spec p 0) as [->|Hp0], cn; cbn [app].
  - rewrite E3. reflexivity.
  - reflexivity.
  - rewrite pb_fields_uint by first [apply of_i32_lt | small]. rewrite E3. cbn [option_map app].
    cbn [pb_merge entry_field N.eqb Pos.eqb]. cbn [e_block e_priority e_cancel]. rewrite i32_roundtrip by exact Hp. reflexivity.
  - rewrite pb_fields_uint by first [apply of_i32_lt | small]. rewrite pb_fields_nil. cbn [option_map app].
    cbn [pb_merge entry_field N.eqb Pos.eqb]. cbn [e_block e_priority e_cancel]. rewrite i32_roundtrip by exact Hp. reflexivity.
Qed.
Lemma cid_to_bytes_nonempty c : cid_to_bytes c <> [].
Proof.
  destruct c as [d|k m]; cbn [cid_to_bytes]; [discriminate|]. pose proof (write_varint_nonempty 1). destruct (write_varint 1); [congruence|discriminate].
Qed.

Definition want_entry (w : cid * Z) : entry := mk_entry (cid_to_bytes (fst w)) (snd w) false.
Definition cancel_entry (c : cid) : entry := mk_entry (cid_to_bytes c) 0%Z true.
Definition entries_of (m : message) : list entry := map want_entry (m_want m) ++ map cancel_entry (m_cancel m).
Definition entry_bytes (e : entry) : bytes := w_entry (e_block e) (e_priority e) (e_cancel e).
Lemma entries_bytes_eq m : entries_bytes m = map entry_bytes (entries_of m).
Proof.
  unfold entries_bytes, entries_of. rewrite map_app, !map_map. f_equal. apply map_ext. intros [c p]. reflexivity.
Qed.
Definition entry_ok (e : entry) : Prop := e_block e <> [] /\ is_i32 (e_priority e) /\ exists c, wf_cid c /\ e_block e = cid_to_bytes c.
Lemma entries_ok m : wf_message m -> Forall entry_ok (entries_of m).
Proof.
  intros (_ & HW & _ & HC & _). unfold entries_of. apply Forall_app. split; apply Forall_map.
  - eapply Forall_impl; [|exact HW]. intros [c p] [H1 H2]. split; [apply cid_to_bytes_nonempty|]. split; [exact H2|]. exists c. auto.
  - eapply Forall_impl; [|exact HC]. intros c H1. split; [apply cid_to_bytes_nonempty|]. split; [split; [discriminate|reflexivity]|]. exists c. auto.
Qed.

Lemma wantlist_read es es0 : Forall entry_ok es -> blen (concat (map (w_bytes 10) (map entry_bytes es))) < u64_max1 ->
  embedded 99 wantlist_field es0 (concat (map (w_bytes 10) (map entry_bytes es))) = Some (es0 ++ es).
Proof.
  intros HO HL.
  assert (E : pb_fields 99 (concat (map (w_bytes 10) (map entry_bytes es))) = Some (map (fun e => (1, PLen (entry_bytes e))) es) /\
          forall es1, pb_merge wantlist_field es1 (map (fun e => (1, PLen (entry_bytes e))) es) = Some (es1 ++ es)).
  { clear es0. induction es as [|e es IH]; [split; [reflexivity|]; intros; cbn; rewrite app_nil_r; reflexivity|].
    inversion HO as [|? ? (Hn & Hp & _) HO']; subst. cbn [map concat] in *. rewrite blen_app in HL.
    destruct IH as [I1 I2]; [exact HO'|lia|].
    pose proof (blen_w_bytes_ge 10 (entry_bytes e)). split.
    - change 10 with (1 * 8 + 2) at 1. rewrite pb_fields_len by small. rewrite I1. reflexivity.
    - intros es1. cbn [pb_merge wantlist_field N.eqb Pos.eqb]. unfold entry_bytes at 1. rewrite entry_read; [|exact Hn| |exact Hp].
      + cbn [option_map]. rewrite I2, <- app_assoc. destruct e; reflexivity.
      + eapply N.le_lt_trans; [|exact HL]. pose proof (blen_w_len_ge 10 (e_block e)).
        assert (blen (e_block e) <= blen (entry_bytes e)); [|lia]. unfold entry_bytes, w_entry. rewrite blen_app. lia. }
  destruct E as [E1 E2]. unfold embedded. rewrite E1. apply E2.
Qed.

(** * Blocks *)
Definition block_payload (b : block) : bytes * bytes := (prefix_to_bytes (prefix_of (b_cid b)), b_data b).
Lemma prefix_bytes_nonempty p : prefix_to_bytes p <> [].
Proof. unfold prefix_to_bytes. pose proof (write_varint_nonempty (p_version p)). destruct (write_varint (p_version p)); [congruence|discriminate]. Qed.
Lemma payload_read b : blen (payload_bytes b) < u64_max1 ->
  embedded 99 payload_field ([], []) (payload_bytes b) = Some (block_payload b).
Proof.
  intros HL. unfold payload_bytes in *. rewrite blen_app in HL.
  pose proof (blen_w_len_ge 10 (prefix_to_bytes (prefix_of (b_cid b)))). pose proof (blen_w_len_ge 18 (b_data b)).
  unfold embedded, block_payload. change 10 with (1 * 8 + 2). rewrite fields_w_len by small.
  change 18 with (2 * 8 + 2). rewrite <- (app_nil_r (w_len (2 * 8 + 2) _)), fields_w_len by small.
  pose proof (prefix_bytes_nonempty (prefix_of (b_cid b))).
  destruct (prefix_to_bytes _) as [|x px]; [congruence|]. destruct (b_data b); reflexivity.
Qed.

Lemma message_read m : wf_message m -> blen (to_bytes m) < u64_max1 ->
  embedded 100 message_field ([], []) (to_bytes m) = Some (entries_of m, map block_payload (m_blocks m)).
Proof.
  intros HW HL. unfold to_bytes in *. rewrite blen_app, entries_bytes_eq in HL. rewrite entries_bytes_eq.
  assert (EB : pb_fields 100 (concat (map (fun b => w_bytes 26 (payload_bytes b)) (m_blocks m))) = Some (map (fun b => (3, PLen (payload_bytes b))) (m_blocks m)) /\
     forall es ps, pb_merge message_field (es, ps) (map (fun b => (3, PLen (payload_bytes b))) (m_blocks m)) = Some (es, ps ++ map block_payload (m_blocks m))).
  { assert (HL' : blen (concat (map (fun b => w_bytes 26 (payload_bytes b)) (m_blocks m))) < u64_max1) by lia. clear HL. revert HL'.
    induction (m_blocks m) as [|b bs IH]; intros HL; [split; [reflexivity|]; intros; cbn; rewrite app_nil_r; reflexivity|].
    cbn [map concat] in *. rewrite blen_app in HL. destruct IH as [I1 I2]; [lia|]. pose proof (blen_w_bytes_ge 26 (payload_bytes b)). split.
    - change 26 with (3 * 8 + 2) at 1. rewrite pb_fields_len by small. rewrite I1. reflexivity.
    - intros es ps. cbn [pb_merge message_field N.eqb Pos.eqb]. rewrite payload_read by lia. cbn [option_map]. rewrite I2, <- app_assoc. reflexivity. }
  destruct EB as [E1 E2]. unfold embedded.
  destruct (entries_of m) as [|e es] eqn:Ee.
  - cbn [map app]. rewrite E1. apply E2.
  - rewrite <- Ee in HL. rewrite <- Ee.
    assert (EL : match map entry_bytes (entries_of m) with [] => [] | l => w_bytes 10 (concat (map (w_bytes 10) l)) end
      = w_bytes 10 (concat (map (w_bytes 10) (map entry_bytes (entries_of m))))) by (rewrite Ee; reflexivity).
    rewrite EL in HL. rewrite EL. pose proof (blen_w_bytes_ge 10 (concat (map (w_bytes 10) (map entry_bytes (entries_of m))))).
    change 10 with (1 * 8 + 2) at 1. rewrite pb_fields_len by small. rewrite E1.
    cbn [option_map pb_merge message_field N.eqb Pos.eqb]. rewrite wantlist_read by first [apply entries_ok; exact HW | lia]. apply E2.
Qed.

(** * The message again *)
Lemma in_set_insert c s x : In x (set_insert c s) <-> x = c \/ In x s.
Proof.
  unfold set_insert. destruct (existsb (cid_eqb c) s) eqn:E; [|cbn; intuition].
  split; [auto|]. intros [->|H]; [|exact H]. apply existsb_exists in E as (y & Hy & E). destruct (cid_eqb_spec c y); [subst; exact Hy|discriminate].
Qed.
Lemma add_entries_app a b m : add_entries (a ++ b) m = match add_entries a m with Some m' => add_entries b m' | None => None end.
Proof. revert m. induction a as [|e a IH]; intros m; cbn; [reflexivity|]. destruct (cid_from_bytes _); [apply IH|reflexivity]. Qed.
Lemma add_wants ws : forall m, NoDup (map fst ws) -> Forall (fun w => wf_cid (fst w) /\ is_i32 (snd w)) ws ->
  exists m', add_entries (map want_entry ws) m = Some m' /\ m_cancel m' = m_cancel m /\ m_blocks m' = m_blocks m /\
   forall c, wants m' c = match mget cid_eqb c ws with Some p => Some p | None => wants m c end.
Proof.
  induction ws as [|[c0 p0] ws IH]; intros m HN HF; [exists m; cbn; auto|].
  inversion HN as [|? ? Hx HN']; subst. inversion HF as [|? ? [Hc _] HF']; subst. cbn [fst snd] in *.
  cbn [map add_entries want_entry e_block e_cancel e_priority]. unfold want_entry at 1. cbn [fst snd e_block e_cancel e_priority].
  rewrite cid_roundtrip by exact Hc. destruct (IH (m_want_block c0 p0 m) HN' HF') as (m' & E & H1 & H2 & H3).
  exists m'. split; [exact E|]. split; [exact H1|]. split; [exact H2|]. intros c. rewrite H3. cbn [mget].
  unfold wants, m_want_block. cbn [m_want]. rewrite (mget_mset _ cid_eqb_spec).
  destruct (cid_eqb_spec c c0) as [->|]; [|reflexivity].
  assert (mget cid_eqb c0 ws = None) as -> by (apply (mget_none _ cid_eqb_spec); exact Hx). reflexivity.
Qed.
Lemma add_cancels cs : forall m, Forall wf_cid cs ->
  exists m', add_entries (map cancel_entry cs) m = Some m' /\ m_want m' = m_want m /\ m_blocks m' = m_blocks m /\
   forall c, In c (m_cancel m') <-> In c cs \/ In c (m_cancel m).
Proof.
  induction cs as [|c0 cs IH]; intros m HF; [exists m; cbn; intuition|].
  inversion HF as [|? ? Hc HF']; subst. cbn [map add_entries cancel_entry e_block e_cancel]. unfold cancel_entry at 1. cbn [e_block e_cancel].
  rewrite cid_roundtrip by exact Hc. destruct (IH (m_cancel_block c0 m) HF') as (m' & E & H1 & H2 & H3).
  exists m'. split; [exact E|]. split; [exact H1|]. split; [exact H2|]. intros c. rewrite H3. unfold m_cancel_block. cbn [m_cancel]. rewrite in_set_insert.
  cbn [In]. intuition.
Qed.
Lemma prefix_roundtrip c : wf_cid c -> (exists h, hasher (mh_code (cid_hash c)) = Some h) ->
  prefix_new hasher (prefix_to_bytes (prefix_of c)) = Some (prefix_of c).
Proof.
  intros Hw [h Hh]. unfold prefix_new, prefix_to_bytes.
  assert (Hv : p_version (prefix_of c) <= 1) by (destruct c; cbn; lia).
  rewrite read_write_varint64 by (unfold u64_max1; lia). destruct (N.leb_spec (p_version (prefix_of c)) 1); [|lia].
  assert (Hk : codec_known (p_codec (prefix_of c)) = true) by (destruct c as [d|k m]; [reflexivity|exact (proj1 Hw)]).
  rewrite read_write_varint64 by (apply codec_known_small; exact Hk). rewrite Hk.
  assert (Hm : p_mh (prefix_of c) < u64_max1) by (destruct c as [d|k m]; [reflexivity|exact (proj1 (proj2 Hw))]).
  rewrite read_write_varint64 by exact Hm. unfold prefix_of at 1. cbn [p_mh]. rewrite Hh.
  assert (Hl : p_len (prefix_of c) < u64_max1).
  { destruct c as [d|k m]; [destruct Hw as [Hd _]; unfold prefix_of, blen; cbn; rewrite Hd; reflexivity|exact (proj2 (proj2 (proj2 Hw)))]. }
  rewrite <- (app_nil_r (write_varint (p_len _))). rewrite read_write_varint64 by exact Hl. reflexivity.
Qed.
Lemma to_cid_of c data : (exists h n, hasher (mh_code (cid_hash c)) = Some h /\ mh_digest (cid_hash c) = firstn n (h data)) ->
  prefix_to_cid hasher (prefix_of c) data = Some c.
Proof.
  intros (h & n & Hh & Hd). unfold prefix_to_cid. cbn [prefix_of p_mh p_len p_version p_codec]. rewrite Hh. cbv zeta.
  assert (E : (if blen (mh_digest (cid_hash c)) <? blen (h data) then firstn (N.to_nat (blen (mh_digest (cid_hash c)))) (h data) else h data) = mh_digest (cid_hash c)).
  { unfold blen. rewrite Nnat.Nat2N.id, Hd, firstn_length. destruct (N.ltb_spec (N.of_nat (Nat.min n (length (h data)))) (N.of_nat (length (h data)))).
    - f_equal. lia.
    - symmetry. apply firstn_all2. lia. }
  rewrite E. destruct c as [d|k [mc md]]; reflexivity.
Qed.
Lemma add_blocks bs : forall m, Forall (fun b => wf_cid (b_cid b)) bs -> Forall (digest_of hasher) bs ->
  add_payload hasher (map block_payload bs) m = Some (mk_message (m_want m) (m_cancel m) (m_blocks m ++ bs)).
Proof.
  induction bs as [|b bs IH]; intros m HW HD; cbn [map add_payload]; [rewrite app_nil_r; destruct m; reflexivity|].
  inversion HW as [|? ? Hw HW']; subst. inversion HD as [|? ? Hd HD']; subst. unfold block_payload at 1.
  rewrite prefix_roundtrip by first [exact Hw | destruct Hd as (h & n & Hh & _); eauto]. rewrite to_cid_of by exact Hd.
  rewrite IH by assumption. unfold m_add_block. cbn [m_want m_cancel m_blocks]. rewrite <- app_assoc. destruct b; reflexivity.
Qed.
Lemma bytes_roundtrip m : wf_message m -> Forall (digest_of hasher) (m_blocks m) -> blen (to_bytes m) < u64_max1 ->
  exists m', from_bytes hasher (to_bytes m) = Some m' /\ same_message m m'.
Proof.
  intros HW HD HL. unfold from_bytes. rewrite message_read by assumption. unfold entries_of. rewrite add_entries_app.
  pose proof HW as (HN & HF & _ & HC & HB).
  destruct (add_wants (m_want m) message0 HN HF) as (m1 & E1 & C1 & B1 & W1). rewrite E1.
  destruct (add_cancels (m_cancel m) m1 HC) as (m2 & E2 & W2 & B2 & C2). rewrite E2. rewrite add_blocks by assumption.
  eexists. split; [reflexivity|]. repeat split; cbn [m_cancel m_blocks]; intros.
  - unfold wants at 2. cbn [m_want]. rewrite W2. fold (wants m1 c). rewrite W1. fold (wants m c). destruct (wants m c); reflexivity.
  - apply C2. auto.
  - apply C2 in H. rewrite C1 in H. destruct H as [H|[]]. exact H.
  - rewrite B2, B1. reflexivity.
Qed.

(** * What was received *)
Lemma add_entries_blocks es : forall m m', add_entries es m = Some m' -> m_blocks m' = m_blocks m.
Proof.
  induction es as [|e es IH]; intros m m'; cbn [add_entries]; [intros [= ->]; reflexivity|].
  destruct (cid_from_bytes _); [|discriminate]. intros H. apply IH in H. rewrite H. destruct (e_cancel e); reflexivity.
Qed.
Lemma add_payload_digest ps : forall m m', add_payload hasher ps m = Some m' -> Forall (digest_of hasher) (m_blocks m) -> Forall (digest_of hasher) (m_blocks m').
Proof.
  induction ps as [|[px data] ps IH]; intros m m'; cbn [add_payload]; [intros [= ->]; auto|].
  destruct (prefix_new hasher px) as [p|]; [|discriminate]. destruct (prefix_to_cid hasher p data) as [c|] eqn:E; [|discriminate].
  intros H HF. eapply IH; [exact H|]. unfold m_add_block. cbn [m_blocks]. apply Forall_app. split; [exact HF|]. constructor; [|constructor].
  unfold prefix_to_cid in E. destruct (hasher (p_mh p)) as [h|] eqn:Eh; [|discriminate]. cbv zeta in E.
  set (d := if p_len p <? blen (h data) then _ else _) in E.
  assert (Hd : exists n, d = firstn n (h data)).
  { unfold d. destruct (p_len p <? blen (h data)); [eauto|]. exists (length (h data)). symmetry. apply firstn_all. }
  destruct Hd as [n Hd]. exists h, n. destruct (p_version p =? 0).
  - destruct ((p_codec p =? codec_dagpb) && (p_mh p =? sha2_256)) eqn:E2; [|discriminate]. injection E as <-. apply andb_prop in E2 as [_ E2]. apply N.eqb_eq in E2.
    cbn [b_cid cid_hash mh_code mh_digest b_data]. rewrite <- E2. auto.
  - injection E as <-. cbn. auto.
Qed.
Lemma received_digest bs m : from_bytes hasher bs = Some m -> Forall (digest_of hasher) (m_blocks m).
Proof.
  unfold from_bytes. destruct (embedded _ _ _ _) as [[es ps]|]; [|discriminate].
  destruct (add_entries es message0) as [m0|] eqn:E; [|discriminate]. intros H. eapply add_payload_digest; [exact H|].
  rewrite (add_entries_blocks _ _ _ E). constructor.
Qed.
Lemma digest_full b h : digest_of hasher b -> hasher (mh_code (cid_hash (b_cid b))) = Some h ->
  length (mh_digest (cid_hash (b_cid b))) = length (h (b_data b)) -> mh_digest (cid_hash (b_cid b)) = h (b_data b).
Proof.
  intros (h' & n & Hh & Hd) Hh' HL. assert (h' = h) by congruence. subst h'. rewrite Hd in *. rewrite firstn_length in HL. apply firstn_all2. lia.
Qed.

(** * Over a substream *)
Lemma delivered m : blen (to_bytes m) <= max_buf_size -> upgrade_inbound hasher (upgrade_outbound m) = from_bytes hasher (to_bytes m).
Proof.
  intros H. unfold upgrade_inbound, upgrade_outbound, max_buf_size in *. rewrite read_write_varint64 by (unfold u64_max1; lia).
  destruct (N.ltb_spec 524288 (blen (to_bytes m))); [lia|]. rewrite N.leb_refl. f_equal. apply firstn_all2. unfold blen. lia.
Qed.
Lemma not_delivered m : max_buf_size < blen (to_bytes m) -> blen (to_bytes m) < u64_max1 -> upgrade_inbound hasher (upgrade_outbound m) = None.
Proof.
  intros H HL. unfold upgrade_inbound, upgrade_outbound, max_buf_size in *. rewrite read_write_varint64 by exact HL.
  destruct (N.ltb_spec 524288 (blen (to_bytes m))); [reflexivity|lia].
Qed.
End Hash.

Lemma received_nodup hasher bs m : from_bytes hasher bs = Some m -> NoDup (map fst (m_want m)).
Proof.
  unfold from_bytes. destruct (embedded _ _ _ _) as [[es ps]|]; [|discriminate].
  assert (HE : forall es m m', add_entries es m = Some m' -> NoDup (map fst (m_want m)) -> NoDup (map fst (m_want m'))).
  { clear. induction es as [|e es IH]; intros m m'; cbn [add_entries]; [intros [= ->]; auto|]. destruct (cid_from_bytes _); [|discriminate]. intros H HN. eapply IH; [exact H|].
    destruct (e_cancel e); [exact HN|]. apply (mset_nodup _ cid_eqb_spec). exact HN. }
  assert (HP : forall ps m m', add_payload hasher ps m = Some m' -> m_want m' = m_want m).
  { clear. induction ps as [|[px data] ps IH]; intros m m'; cbn [add_payload]; [intros [= ->]; reflexivity|].
    destruct (prefix_new hasher px); [|discriminate]. destruct (prefix_to_cid hasher p data); [|discriminate]. intros H. apply IH in H. exact H. }
  destruct (add_entries es message0) as [m0|] eqn:E; [|discriminate]. intros H. rewrite (HP _ _ _ H). eapply HE; [exact E|constructor].
Qed.
