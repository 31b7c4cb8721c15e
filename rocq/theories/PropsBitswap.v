(** Properties C40-C43 and C59: exchanging blocks with peers.

    [hasher] stands for the hash functions: the function of a hash code, [None] for a code that is
    not known.  A history is a list of calls of the node and of the swarm, beginning with a fresh
    behaviour; [run] gives the state after it and what each call of poll returned. *)
From Coq Require Import Permutation.
From Verif Require Import Base Wire Cid CidProofs FMap BitswapMsg BitswapMsgSpec BitswapMsgProofs Bitswap BitswapSpec BitswapProofs BitswapMore BitswapPeers.
Local Open Scope N_scope.

(** * Messages *)
(** Every message whose blocks are what their cids say is read back as the same message. *)
Theorem c40_roundtrip hasher m : wf_message m -> Forall (digest_of hasher) (m_blocks m) -> blen (to_bytes m) < 2 ^ 64 ->
  exists m', from_bytes hasher (to_bytes m) = Some m' /\ same_message m m'.
Proof. apply bytes_roundtrip. Qed.
Print Assumptions c40_roundtrip.

(** Over a substream too, up to 512 KiB. *)
Theorem c40_delivered hasher m : wf_message m -> Forall (digest_of hasher) (m_blocks m) -> blen (to_bytes m) <= 524288 ->
  exists m', upgrade_inbound hasher (upgrade_outbound m) = Some m' /\ same_message m m'.
Proof. intros H1 H2 H3. rewrite delivered by exact H3. apply bytes_roundtrip; try assumption. unfold u64_max1. lia. Qed.
Print Assumptions c40_delivered.

(** The hash functions of the examples: one known code, sha2-256, whose hash sums up the bytes. *)
Definition toy (code : N) : option (bytes -> bytes) :=
  if code =? 18 then Some (fun b => repeat (sumN b mod 256) 32) else None.
Definition raw_cid (data : bytes) : cid := CidV1 85 {| mh_code := 18; mh_digest := repeat (sumN data mod 256) 32 |}.
Definition v0_cid (data : bytes) : cid := CidV0 (repeat (sumN data mod 256) 32).
Lemma digest_wf data : wf_bytes (repeat (sumN data mod 256) 32).
Proof. apply Forall_forall. intros y Hy. apply repeat_spec in Hy. subst. apply N.mod_lt. lia. Qed.
Lemma raw_wf data : wf_cid (raw_cid data).
Proof. split; [reflexivity|]. split; [reflexivity|]. split; [apply digest_wf|]. cbn [mh_digest]. unfold blen. rewrite repeat_length. reflexivity. Qed.
Lemma v0_wf data : wf_cid (v0_cid data).
Proof. split; [apply repeat_length|apply digest_wf]. Qed.
Lemma raw_digest data : digest_of toy (mk_block (raw_cid data) data).
Proof. eexists _, 32%nat. split; [reflexivity|]. cbn [b_cid raw_cid cid_hash mh_digest b_data]. symmetry. apply firstn_all2. rewrite repeat_length. apply le_n. Qed.
Lemma v0_digest data : digest_of toy (mk_block (v0_cid data) data).
Proof. eexists _, 32%nat. split; [reflexivity|]. cbn [b_cid v0_cid cid_hash mh_digest b_data]. symmetry. apply firstn_all2. rewrite repeat_length. apply le_n. Qed.
Definition ex_message : message :=
  mk_message [(raw_cid [1], 1%Z); (v0_cid [2], (-5)%Z)] [raw_cid [3]] [mk_block (raw_cid [4; 4]) [4; 4]; mk_block (v0_cid []) []].
Example c40_example : wf_message ex_message /\ Forall (digest_of toy) (m_blocks ex_message) /\ blen (to_bytes ex_message) <= 524288 /\
  from_bytes toy (to_bytes ex_message) = Some (mk_message [(v0_cid [2], (-5)%Z); (raw_cid [1], 1%Z)] [raw_cid [3]] (m_blocks ex_message)).
Proof.
  split; [|split; [|split]].
  - repeat split; repeat constructor; try apply raw_wf; try apply v0_wf; cbn; try (unfold is_i32; lia); intuition discriminate.
  - repeat constructor; [apply raw_digest|apply v0_digest].
  - vm_compute. discriminate.
  - vm_compute. reflexivity.
Qed.

(** A message above 512 KiB is never received. *)
Theorem c40_too_large hasher m : 524288 < blen (to_bytes m) -> blen (to_bytes m) < 2 ^ 64 -> upgrade_inbound hasher (upgrade_outbound m) = None.
Proof. apply not_delivered. Qed.
Print Assumptions c40_too_large.

(** A block whose cid is not made from its data does not survive: the other side computes its cid. *)
Theorem c40_wrong_cid_refuted : exists hasher m m', wf_message m /\ blen (to_bytes m) <= 524288 /\
  upgrade_inbound hasher (upgrade_outbound m) = Some m' /\ ~ same_message m m'.
Proof.
  exists toy, (mk_message [] [] [mk_block (raw_cid [9]) [1]]). eexists. split; [repeat split; repeat constructor; apply raw_wf|].
  split; [vm_compute; discriminate|]. split; [vm_compute; reflexivity|]. intros (_ & _ & H). revert H. vm_compute. discriminate.
Qed.
Print Assumptions c40_wrong_cid_refuted.

(** * Verification of received blocks *)
(** In whatever is received, the digest in the cid of a block begins the hash of its data. *)
Theorem c41_received_partial hasher bs m : from_bytes hasher bs = Some m -> Forall (digest_of hasher) (m_blocks m).
Proof. apply received_digest. Qed.
Print Assumptions c41_received_partial.

(** When it is as long as the hash, it is the hash. *)
Theorem c41_full hasher bs m b h : from_bytes hasher bs = Some m -> In b (m_blocks m) -> hasher (mh_code (cid_hash (b_cid b))) = Some h ->
  length (mh_digest (cid_hash (b_cid b))) = length (h (b_data b)) -> mh_digest (cid_hash (b_cid b)) = h (b_data b).
Proof. intros H Hb. apply digest_full. pose proof (received_digest _ _ _ H) as HF. rewrite Forall_forall in HF. apply HF. exact Hb. Qed.
Print Assumptions c41_full.
Example c41_example : exists m, from_bytes toy (to_bytes ex_message) = Some m /\ In (mk_block (raw_cid [4; 4]) [4; 4]) (m_blocks m) /\
  length (mh_digest (cid_hash (raw_cid [4; 4]))) = length (repeat (sumN [4; 4] mod 256) 32).
Proof. eexists. split; [vm_compute; reflexivity|]. split; [left; reflexivity|reflexivity]. Qed.

(** It need not be as long: the sender chooses the length, and a cid with an empty digest goes with
    any data, so two different contents arrive under the same cid. *)
Theorem c41_truncated_refuted : exists hasher bs1 bs2 c d1 d2, d1 <> d2 /\ hasher (mh_code (cid_hash c)) <> None /\
  option_map m_blocks (from_bytes hasher bs1) = Some [mk_block c d1] /\ option_map m_blocks (from_bytes hasher bs2) = Some [mk_block c d2].
Proof.
  exists toy, (w_bytes 26 (w_bytes 10 [1; 85; 18; 0] ++ w_bytes 18 [1])), (w_bytes 26 (w_bytes 10 [1; 85; 18; 0] ++ w_bytes 18 [2])), (CidV1 85 {| mh_code := 18; mh_digest := [] |}), [1], [2].
  repeat split; try discriminate; vm_compute; reflexivity.
Qed.
Print Assumptions c41_truncated_refuted.

(** * Want lists *)
(** The want list of the node: what was said last about each cid. *)
Theorem c42_local_wantlist h s t c : run bitswap0 h = Some (s, t) -> mget cid_eqb c (local_wantlist s) = wanted_after h c.
Proof. intros H. apply (wanted_inv _ _ _ H). Qed.
Print Assumptions c42_local_wantlist.

(** After any careful history, a connected peer that gets everything handed out and waiting believes
    exactly that. *)
Theorem c42_believes_partial h s t p c : careful h -> run bitswap0 h = Some (s, t) -> connected_after p false h = true ->
  believes (handed_out p [] t ++ waiting p s) c = wanted_after h c.
Proof.
  intros HC HR HP. rewrite <- (connected_inv p _ _ _ HR) in HP. unfold has_peer in HP. destruct (get_peer p s) as [l|] eqn:E; [|discriminate].
  rewrite <- (proj2 (wanted_inv _ _ _ HR)). eapply agrees_inv in HR as A; [|exact HC]. apply (A p l E c).
Qed.
Print Assumptions c42_believes_partial.

Lemma careful_poll h order : careful h -> careful (h ++ [OPoll order]).
Proof.
  intros HC h1 o h2 s t E R. destruct h2 as [|o2 h2] using rev_ind.
  - apply app_inj_tail in E as [<- <-]. exact Logic.I.
  - clear IHh2. rewrite app_comm_cons, app_assoc in E. apply app_inj_tail in E as [E _]. eapply HC; eassumption.
Qed.
Lemma wanted_poll h order c : wanted_after (h ++ [OPoll order]) c = wanted_after h c.
Proof. unfold wanted_after. rewrite fold_left_app. reflexivity. Qed.
Lemma connected_poll p h order : connected_after p false (h ++ [OPoll order]) = connected_after p false h.
Proof. rewrite connected_app. reflexivity. Qed.
Lemma handed_none p t o : handed_out p [] (t ++ [(OPoll o, None)]) = handed_out p [] t.
Proof. rewrite handed_app. reflexivity. Qed.
Lemma quiet h order s t : run bitswap0 (h ++ [OPoll order]) = Some (s, t ++ [(OPoll order, None)]) -> fair_order s order ->
  b_events s = [] /\ (forall p l, get_peer p s = Some l -> message_empty (l_message l) = true).
Proof.
  intros R HF. apply run_snoc in R as (s1 & t1 & a & R1 & R2 & Et). apply app_inj_tail in Et as [-> [= <-]]. cbn [step] in R2.
  destruct (poll order s1) as [s2 a2] eqn:E. assert (s2 = s /\ a2 = None) as [-> ->] by (split; congruence).
  assert (HF1 : fair_order s1 order) by (unfold fair_order in *; rewrite <- (poll_keys _ _ _ _ E); exact HF).
  destruct (poll_idle _ _ _ HF1 E) as (_ & H1 & _ & H2). auto.
Qed.

(** Once poll has nothing to hand out, the peer believes it from what was handed out since it
    connected. *)
Theorem c42_quiet_partial h order s t p c : careful h ->
  run bitswap0 (h ++ [OPoll order]) = Some (s, t ++ [(OPoll order, None)]) -> fair_order s order -> connected_after p false h = true ->
  believes (handed_out p [] t) c = wanted_after h c.
Proof.
  intros HC R HF HP. pose proof (c42_believes_partial _ _ _ p c (careful_poll _ order HC) R) as HB. rewrite connected_poll, wanted_poll, handed_none in HB.
  destruct (quiet _ _ _ _ R HF) as [H1 H2]. rewrite (believes_idle _ p s c H1 H2) in HB. apply HB. exact HP.
Qed.
Print Assumptions c42_quiet_partial.

(** And that is so after boundedly many calls. *)
Theorem c42_flush h s t orders : run bitswap0 h = Some (s, t) -> (length (b_events s) + length (b_peers s) < length orders)%nat ->
  exists s' t', run bitswap0 (h ++ map OPoll orders) = Some (s', t ++ t') /\ exists o, In (OPoll o, None) t'.
Proof.
  intros R HL. destruct (polls_end orders s) as (s' & t' & R' & HO).
  - pose proof (work_bound (drained s)) as HW. rewrite drained_events in HW. assert (E : length (b_peers (drained s)) = length (b_peers s)) by (rewrite <- (map_length fst (b_peers (drained s))), drained_keys; apply map_length). lia.
  - exists s', t'. split; [|exact HO]. rewrite run_app, R, R'. reflexivity.
Qed.
Print Assumptions c42_flush.

(** A message changes what a node believes its peer to want as it says, except that wants for what
    the node itself wants are ignored. *)
Theorem c42_peer_wantlist p m s s' w c : received p m s = Some s' -> peer_wantlist p s = Some w -> NoDup (map fst (m_want m)) ->
  exists w', peer_wantlist p s' = Some w' /\
   mget cid_eqb c w' =
     match mget cid_eqb c (local_wantlist s) with
     | None => believes_step c (mget cid_eqb c w) m
     | Some _ => if existsb (cid_eqb c) (m_cancel m) then None else mget cid_eqb c w
     end.
Proof. intros H1 H2 H3. destruct (peer_wantlist_received _ _ _ _ _ H1 H2 H3) as (w' & E & H). eauto. Qed.
Print Assumptions c42_peer_wantlist.

(** End to end: when poll has nothing more to hand out and the peer has received, in order and from
    one connection, the bytes of the messages handed out since it connected, then its list of what
    we want is right about every cid that it did not want itself. *)
Theorem c42_end_to_end_partial hasher h order s t me p k r1 r2 s' t' c :
  careful h -> Forall (op_ok hasher) h ->
  run bitswap0 (h ++ [OPoll order]) = Some (s, t ++ [(OPoll order, None)]) -> fair_order s order -> connected_after p false h = true ->
  Forall (fun m => blen (to_bytes m) <= 524288) (handed_out p [] t) ->
  run bitswap0 (r1 ++ OEstablished me k :: r2) = Some (s', t') -> stays me r2 -> wanted_after r1 c = None -> never_wants c r2 ->
  Forall2 (fun m m' => upgrade_inbound hasher (upgrade_outbound m) = Some m') (handed_out p [] t) (messages_from me r2) ->
  exists w, peer_wantlist me s' = Some w /\ mget cid_eqb c w = wanted_after h c.
Proof.
  intros HC HO R HF HP HL R' HS HN HV HD.
  rewrite <- (c42_quiet_partial _ _ _ _ p c HC R HF HP).
  assert (HH : Forall (honest hasher) (handed_out p [] t)).
  { assert (HO2 : Forall (op_ok hasher) (h ++ [OPoll order])) by (apply Forall_app; split; [exact HO|repeat constructor]).
    destruct (run_ok hasher _ _ _ _ R HO2) as [_ HT]; [split; constructor|]. apply Forall_app in HT as [HT _]. apply handed_ok; [exact HT|constructor]. }
  change (OEstablished me k :: r2) with ([OEstablished me k] ++ r2) in R'. rewrite app_assoc, run_app in R'.
  destruct (run bitswap0 (r1 ++ [OEstablished me k])) as [[s1 t1]|] eqn:R1; [|discriminate]. destruct (run s1 r2) as [[s2 t2]|] eqn:R2; [|discriminate]. injection R' as <- <-.
  assert (HW : peer_wantlist me s1 = Some []).
  { apply run_snoc in R1 as (s0 & t0 & a & _ & E & _). cbn [step] in E. assert (s1 = established me s0) by congruence. subst s1. unfold peer_wantlist, get_peer.
    rewrite established_peers, (mget_mset _ N.eqb_spec), N.eqb_refl. reflexivity. }
  assert (HD' : Forall2 (fun m m' => from_bytes hasher (to_bytes m) = Some m' /\ same_message m m') (handed_out p [] t) (messages_from me r2)).
  { revert HL HH HD. clear. generalize (handed_out p [] t) as ms, (messages_from me r2) as ms'. intros ms ms' HL HH HD. induction HD as [|m m' ms ms' E _ IH]; constructor.
    - inversion HL; subst. inversion HH as [|? ? [Hw Hd] ?]; subst. destruct (c40_roundtrip hasher m Hw Hd) as (m2 & E2 & HS); [unfold u64_max1; lia|].
      rewrite delivered in E by assumption. assert (m2 = m') by congruence. subst m2. auto.
    - apply IH; [inversion HL|inversion HH]; assumption. }
  destruct (peer_wantlist_run me c r2 (r1 ++ [OEstablished me k]) s1 t1 s2 t2 [] R1 R2 HS HW) as (w & E1 & E2); try assumption.
  - revert HD'. clear. induction 1 as [|m m' ms ms' [E _] _ IH]; constructor; [eapply received_nodup; exact E|exact IH].
  - unfold wanted_after. rewrite fold_left_app. exact HN.
  - exists w. split; [exact E1|]. rewrite E2. cbn [mget]. unfold believes. revert HD'. clear. generalize (@None Z) as x. intros x H. revert x.
    induction H as [|m m' ms ms' [_ E] _ IH]; intros x; [reflexivity|]. cbn [fold_left]. rewrite <- (same_step c x _ _ E). apply IH.
Qed.
Print Assumptions c42_end_to_end_partial.

(** A history meeting all this: two wants before the peer connects, one after, a cancel once the
    want was sent, and a receiver getting what was handed out. *)
Fixpoint careful_run (s : bitswap) (h : list op) : Prop :=
  match h with
  | [] => True
  | o :: r => careful_step s o /\ match step s o with Some (s', _) => careful_run s' r | None => True end
  end.
Lemma careful_of_run h : careful_run bitswap0 h -> careful h.
Proof.
  intros H h1 o h2 s t -> R. revert H R. generalize bitswap0 at 1 2 as s0. revert t. induction h1 as [|o1 h1 IH]; intros t s0 H R; [injection R as <- <-; apply H|].
  cbn [app careful_run run] in H, R. destruct H as [_ H]. destruct (step s0 o1) as [[s1 a]|]; [|discriminate]. destruct (run s1 h1) as [[s2 t2]|] eqn:E; [|discriminate]. injection R as <- <-.
  eapply IH; [exact H|exact E].
Qed.
Definition c1 := raw_cid [1]. Definition c2 := v0_cid [2]. Definition c3 := raw_cid [3].
Definition ex_h : list op :=
  [OWant c1 1; OWant c2 (-7); OEstablished 5 0; OPoll [5]; OWant c3 9; OPoll [5]; OCancel c1; OWant c2 4; OPoll [5]].
Definition ex_trace : list (op * option action) := match run bitswap0 ex_h with Some (_, t) => t | None => [] end.
Definition ex_r2 : list op := map (OReceived 8 0) (concat (map (fun m => match upgrade_inbound toy (upgrade_outbound m) with Some x => [x] | None => [] end) (handed_out 5 [] ex_trace))).
Definition run_of (h : list op) : bitswap * list (op * option action) := match run bitswap0 h with Some x => x | None => (bitswap0, []) end.
Definition is_some {A} (o : option A) : bool := match o with Some _ => true | None => false end.
Lemma run_of_ok h : is_some (run bitswap0 h) = true -> run bitswap0 h = Some (run_of h).
Proof. unfold run_of. destruct (run bitswap0 h); [reflexivity|discriminate]. Qed.
Lemma all_read ms : forallb (fun m => is_some (upgrade_inbound toy (upgrade_outbound m))) ms = true ->
  Forall2 (fun m m' => upgrade_inbound toy (upgrade_outbound m) = Some m') ms
    (messages_from 8 (map (OReceived 8 0) (concat (map (fun m => match upgrade_inbound toy (upgrade_outbound m) with Some x => [x] | None => [] end) ms)))).
Proof.
  induction ms as [|m ms IH]; intros H; [constructor|]. cbn [forallb] in H. apply andb_prop in H as [H1 H2]. specialize (IH H2). cbn [map concat].
  destruct (upgrade_inbound toy (upgrade_outbound m)) as [x|] eqn:E; [|discriminate]. unfold messages_from in *. cbn [app map concat]. constructor; [exact E|exact IH].
Qed.
Example c42_example :
  careful ex_h /\ Forall (op_ok toy) ex_h /\
  run bitswap0 (ex_h ++ [OPoll [5]]) = Some (fst (run_of (ex_h ++ [OPoll [5]])), ex_trace ++ [(OPoll [5], None)]) /\
  fair_order (fst (run_of (ex_h ++ [OPoll [5]]))) [5] /\ connected_after 5 false ex_h = true /\
  Forall (fun m => blen (to_bytes m) <= 524288) (handed_out 5 [] ex_trace) /\ length (handed_out 5 [] ex_trace) = 3%nat /\
  run bitswap0 ([] ++ OEstablished 8 0 :: ex_r2) = Some (run_of ([] ++ OEstablished 8 0 :: ex_r2)) /\ stays 8 ex_r2 /\ never_wants c1 ex_r2 /\
  Forall2 (fun m m' => upgrade_inbound toy (upgrade_outbound m) = Some m') (handed_out 5 [] ex_trace) (messages_from 8 ex_r2) /\
  (wanted_after ex_h c1, wanted_after ex_h c2, wanted_after ex_h c3) = (None, Some 4%Z, Some 9%Z).
Proof.
  split.
  { apply careful_of_run. vm_compute. repeat (split; [first [exact Logic.I|reflexivity|idtac]|]); try exact Logic.I.
    intros p l [E|[]]. apply (f_equal snd) in E. cbn [snd] in E. subst l. reflexivity. }
  split; [repeat constructor; try apply raw_wf; try apply v0_wf; unfold is_i32; lia|].
  split; [vm_compute; reflexivity|]. split; [vm_compute; apply Permutation_refl|]. split; [reflexivity|].
  split; [repeat constructor; vm_compute; discriminate|]. split; [vm_compute; reflexivity|].
  split; [apply run_of_ok; vm_compute; reflexivity|].
  split; [vm_compute; repeat constructor|]. split; [vm_compute; repeat constructor|]. split; [|vm_compute; reflexivity].
  apply all_read. vm_compute. reflexivity.
Qed.

(** A cid cancelled before the want for it was sent: the message has both, and the want prevails. *)
Theorem c42_batched_cancel_refuted : exists h order s t p c,
  run bitswap0 (h ++ [OPoll order]) = Some (s, t ++ [(OPoll order, None)]) /\ fair_order s order /\ connected_after p false h = true /\
  wanted_after h c = None /\ believes (handed_out p [] t) c = Some 1%Z.
Proof.
  exists [OEstablished 5 0; OWant c1 1; OCancel c1; OPoll [5]], [5]. eexists _, (snd (run_of [OEstablished 5 0; OWant c1 1; OCancel c1; OPoll [5]])), 5, c1.
  split; [vm_compute; reflexivity|]. split; [apply Permutation_refl|]. repeat split; vm_compute; reflexivity.
Qed.
Print Assumptions c42_batched_cancel_refuted.

(** The same when the block arrives in between. *)
Theorem c42_batched_block_refuted : exists h order s t p c,
  run bitswap0 (h ++ [OPoll order]) = Some (s, t ++ [(OPoll order, None)]) /\ fair_order s order /\ connected_after p false h = true /\
  wanted_after h c = None /\ believes (handed_out p [] t) c = Some 1%Z.
Proof.
  exists [OEstablished 5 0; OWant c1 1; OReceived 5 0 (mk_message [] [] [mk_block c1 [1]]); OPoll [5]; OPoll [5]], [5].
  eexists _, (snd (run_of [OEstablished 5 0; OWant c1 1; OReceived 5 0 (mk_message [] [] [mk_block c1 [1]]); OPoll [5]; OPoll [5]])), 5, c1.
  split; [vm_compute; reflexivity|]. split; [apply Permutation_refl|]. repeat split; vm_compute; reflexivity.
Qed.
Print Assumptions c42_batched_block_refuted.

(** A want list not yet handed out when the connection closed is handed out on the next one. *)
Theorem c42_stale_wantlist_refuted : exists h order s t p c,
  swarm true [] h /\ run bitswap0 (h ++ [OPoll order]) = Some (s, t ++ [(OPoll order, None)]) /\ fair_order s order /\ connected_after p false h = true /\
  wanted_after h c = None /\ believes (handed_out p [] t) c = Some 1%Z.
Proof.
  exists [OWant c1 1; OEstablished 5 0; OClosed 5 0; OCancel c1; OEstablished 5 1; OPoll [5]], [5].
  eexists _, (snd (run_of [OWant c1 1; OEstablished 5 0; OClosed 5 0; OCancel c1; OEstablished 5 1; OPoll [5]])), 5, c1.
  split; [|split; [vm_compute; reflexivity|]].
  - cbn. repeat split; auto; try intros _ k'; intuition discriminate.
  - split; [apply Permutation_refl|]. repeat split; vm_compute; reflexivity.
Qed.
Print Assumptions c42_stale_wantlist_refuted.

(** A peer that wants the cid itself does not learn that we want it, not even after it has stopped
    wanting it. *)
Theorem c42_both_want_refuted : exists r2 s' t' me c m w,
  run bitswap0 ([] ++ OEstablished me 0 :: r2) = Some (s', t') /\ stays me r2 /\ messages_from me r2 = [m] /\ believes [m] c = Some 1%Z /\
  wanted_after r2 c = None /\ peer_wantlist me s' = Some w /\ mget cid_eqb c w = None.
Proof.
  exists [OWant c1 1; OReceived 8 0 (mk_message [(c1, 1%Z)] [] []); OCancel c1]. eexists _, _, 8, c1, (mk_message [(c1, 1%Z)] [] []), [].
  split; [vm_compute; reflexivity|]. split; [repeat constructor|]. repeat split; vm_compute; reflexivity.
Qed.
Print Assumptions c42_both_want_refuted.

(** * Panics *)
(** The only call that panics is the one for a message of a peer for which the last connection event
    is not that one was established. *)
Theorem c43_exact h s t o : run bitswap0 h = Some (s, t) ->
  (run bitswap0 (h ++ [o]) = None <-> exists p k m, o = OReceived p k m /\ connected_after p false h = false).
Proof. apply panic_iff. Qed.
Print Assumptions c43_exact.

(** A swarm with at most one connection to a peer never makes it panic. *)
Theorem c43_single_partial h : swarm true [] h -> exists s t, run bitswap0 h = Some (s, t).
Proof. apply (swarm_no_panic h []); [intros p k []|intros p k k' []]. Qed.
Print Assumptions c43_single_partial.
Example c43_example : swarm true [] [OEstablished 5 0; OReceived 5 0 ex_message; OClosed 5 0; OEstablished 6 1; OEstablished 5 2; OReceived 5 2 ex_message; OPoll [6; 5]].
Proof. cbn. repeat split; auto; try intros _ k'; intuition discriminate. Qed.

(** With two connections to a peer it panics once one of them is closed and a message arrives on the
    other. *)
Theorem c43_two_connections_refuted : exists h, swarm false [] h /\ run bitswap0 h = None.
Proof.
  exists [OEstablished 5 0; OEstablished 5 1; OClosed 5 0; OReceived 5 1 message0]. split; [|reflexivity].
  cbn. repeat split; auto; try discriminate; intuition discriminate.
Qed.
Print Assumptions c43_two_connections_refuted.

(** The node finds the statistics of the peer of every event it is given. *)
Theorem c43_statistics h order s t e : run bitswap0 (h ++ [OPoll order]) = Some (s, t ++ [(OPoll order, Some (Report e))]) -> node_event s e = Some tt.
Proof. apply node_no_panic. Qed.
Print Assumptions c43_statistics.
Example c43_statistics_example : exists s t, run bitswap0 ([OEstablished 5 0; OReceived 5 0 (mk_message [] [] [mk_block c1 [1]]); OClosed 5 0] ++ [OPoll []]) =
  Some (s, t ++ [(OPoll [], Some (Report (ReceivedBlock 5 (mk_block c1 [1]))))]).
Proof. eexists _, (snd (run_of [OEstablished 5 0; OReceived 5 0 (mk_message [] [] [mk_block c1 [1]]); OClosed 5 0])). vm_compute. reflexivity. Qed.

(** * Sending blocks *)
(** While a connection lasts, the blocks queued for the peer are handed out in order and once: those
    handed out, then those waiting, then those not looked at yet are all blocks queued since the
    poll before the connection. *)
Theorem c59_blocks_partial p k h1 h2 s t : run bitswap0 (h1 ++ OEstablished p k :: h2) = Some (s, t) -> stays p h2 ->
  blocks_of (handed_out p [] t) ++ blocks_of (waiting p s) ++ unpolled p (h1 ++ OEstablished p k :: h2) = unpolled p h1 ++ queued_for p h2.
Proof. apply blocks_sent. Qed.
Print Assumptions c59_blocks_partial.

(** When poll has nothing more to hand out, all of them were handed out. *)
Theorem c59_quiet_partial p k h1 h2 order s t :
  run bitswap0 ((h1 ++ OEstablished p k :: h2) ++ [OPoll order]) = Some (s, t ++ [(OPoll order, None)]) -> fair_order s order -> stays p h2 ->
  blocks_of (handed_out p [] t) = unpolled p h1 ++ queued_for p h2.
Proof.
  intros R HF HS. destruct (quiet _ _ _ _ R HF) as [H1 H2]. rewrite <- app_assoc in R. cbn [app] in R.
  assert (HS' : stays p (h2 ++ [OPoll order])) by (apply Forall_app; split; [exact HS|repeat constructor]).
  pose proof (blocks_sent _ _ _ _ _ _ R HS') as HB. rewrite handed_none in HB.
  assert (EQ : queued_for p (h2 ++ [OPoll order]) = queued_for p h2) by (unfold queued_for; rewrite map_app, concat_app; cbn; apply app_nil_r).
  assert (EU : unpolled p (h1 ++ OEstablished p k :: h2 ++ [OPoll order]) = []) by (unfold unpolled; rewrite app_comm_cons, app_assoc, fold_left_app; reflexivity).
  assert (EW : blocks_of (waiting p s) = []) by (destruct (waiting_idle p s H1 H2) as [-> | ->]; reflexivity).
  rewrite EQ, EU, EW, !app_nil_r in HB. exact HB.
Qed.
Print Assumptions c59_quiet_partial.
Definition bk x := mk_block (raw_cid [x]) [x].
Example c59_example : exists s t,
  run bitswap0 (([OWant c1 1; OQueue 5 (bk 1)] ++ OEstablished 5 0 :: [OQueue 5 (bk 2); OPoll [5]; OQueue 6 (bk 9); OQueue 5 (bk 3); OPoll [5]; OQueue 5 (bk 4); OPoll [5]]) ++ [OPoll [5]])
   = Some (s, t ++ [(OPoll [5], None)]) /\ fair_order s [5] /\ blocks_of (handed_out 5 [] t) = [bk 1; bk 2; bk 3; bk 4] /\ length (handed_out 5 [] t) = 3%nat.
Proof.
  eexists _, (snd (run_of ([OWant c1 1; OQueue 5 (bk 1)] ++ OEstablished 5 0 :: [OQueue 5 (bk 2); OPoll [5]; OQueue 6 (bk 9); OQueue 5 (bk 3); OPoll [5]; OQueue 5 (bk 4); OPoll [5]]))).
  split; [vm_compute; reflexivity|]. split; [apply Permutation_refl|]. vm_compute. auto.
Qed.

(** A second connection to the peer drops the blocks that wait, although the peer was connected all
    the time. *)
Theorem c59_second_connection_refuted : exists p b h order s t,
  swarm false [] h /\ run bitswap0 (h ++ [OPoll order]) = Some (s, t ++ [(OPoll order, None)]) /\ fair_order s order /\
  (exists k h2, h = OWant c1 1 :: OEstablished p k :: h2 /\ queued_for p h2 = [b] /\ forall q k', ~ In (OClosed q k') h) /\
  forall m, In m (messages_to p (actions t)) -> ~ In b (m_blocks m).
Proof.
  exists 5, (bk 1), [OWant c1 1; OEstablished 5 0; OQueue 5 (bk 1); OPoll [5]; OEstablished 5 1; OPoll [5]], [5].
  eexists _, (snd (run_of [OWant c1 1; OEstablished 5 0; OQueue 5 (bk 1); OPoll [5]; OEstablished 5 1; OPoll [5]])).
  split; [cbn; repeat split; auto; try discriminate; intuition discriminate|]. split; [vm_compute; reflexivity|]. split; [apply Permutation_refl|]. split.
  - exists 0. eexists. split; [reflexivity|]. split; [reflexivity|]. intros q k' Hi. cbn in Hi. intuition discriminate.
  - intros m Hm. vm_compute in Hm. destruct Hm as [<-|[<-|[]]]; intros [].
Qed.
Print Assumptions c59_second_connection_refuted.

(** Blocks that can each be sent are put in one message that cannot be received. *)
Definition hashed (data : bytes) : block := mk_block (raw_cid data) data.
Lemma batch_run d1 d2 : let h := [OEstablished 5 0; OQueue 5 (hashed d1); OQueue 5 (hashed d2); OPoll [5]] in
  exists s t, swarm true [] h /\ Forall (op_ok toy) h /\ run bitswap0 h = Some (s, t) /\ queued_for 5 h = [hashed d1; hashed d2] /\
  handed_out 5 [] t = [mk_message [] [] [hashed d1; hashed d2]].
Proof.
  eexists _, _. split; [repeat split; auto; try intros _ k'; intros []|].
  split; [repeat (constructor; [first [exact Logic.I|split; [apply raw_wf|apply raw_digest]]|]); constructor|]. repeat split; reflexivity.
Qed.
Definition big (x : N) : bytes := repeat x (N.to_nat 262144).
Lemma one_big : (blen (to_bytes (mk_message [] [] [hashed (big 0)])) <=? 524288) = true /\ (blen (to_bytes (mk_message [] [] [hashed (big 1)])) <=? 524288) = true.
Proof. split; vm_compute; reflexivity. Qed.
Lemma two_big : (524288 <? blen (to_bytes (mk_message [] [] [hashed (big 0); hashed (big 1)]))) = true /\ (blen (to_bytes (mk_message [] [] [hashed (big 0); hashed (big 1)])) <? 2 ^ 64) = true.
Proof. split; vm_compute; reflexivity. Qed.
Theorem c59_batch_refuted : exists hasher h s t p m b1 b2,
  swarm true [] h /\ Forall (op_ok hasher) h /\ run bitswap0 h = Some (s, t) /\ queued_for p h = [b1; b2] /\
  blen (to_bytes (mk_message [] [] [b1])) <= 524288 /\ blen (to_bytes (mk_message [] [] [b2])) <= 524288 /\
  handed_out p [] t = [m] /\ m_blocks m = [b1; b2] /\ upgrade_inbound hasher (upgrade_outbound m) = None.
Proof.
  destruct one_big as [L1 L2], two_big as [L3 L4]. apply N.leb_le in L1, L2. apply N.ltb_lt in L3, L4. revert L1 L2 L3 L4.
  generalize (big 0) as d1, (big 1) as d2. intros d1 d2 L1 L2 L3 L4. destruct (batch_run d1 d2) as (s & t & H1 & H2 & H3 & H4 & H5).
  eexists toy, _, s, t, 5, (mk_message [] [] [hashed d1; hashed d2]), (hashed d1), (hashed d2).
  repeat (split; [first [eassumption|reflexivity]|]). apply c40_too_large; assumption.
Qed.
Print Assumptions c59_batch_refuted.
