(** Lemmas about a want on its way to a node that has the block, and the block on its way back. *)
From Verif Require Import Base Wire Cid FMap BlockSpec MemBlocks MemBlocksProofs SubsSpec Subs SubsProofs GetPut GetPutProofs BitswapMsg BitswapMsgSpec BitswapMsgProofs Bitswap BitswapSpec BitswapProofs BitswapMore BitswapPeers Exchange ExchangeSpec ExchangeProofs.
Local Open Scope N_scope.

Lemma unwanted_stays c s o s' a : bstep s o = Some (s', a) -> (forall z, o <> OWant c z) -> mget cid_eqb c (b_wanted s) = None -> mget cid_eqb c (b_wanted s') = None.
Proof.
  intros H Ho Hc. destruct o as [q|q b|c0 pr|c0|q k|q k|q k m|q k|order]; cbn [Bitswap.step] in H.
  - injection H as <- _. unfold connect. destruct (existsb _ _); exact Hc.
  - injection H as <- _. exact Hc.
  - injection H as <- _. cbn [want_block b_wanted with_wanted]. rewrite (mget_mset _ cid_eqb_spec). destruct (cid_eqb_spec c c0) as [->|]; [exfalso; eapply Ho; reflexivity|exact Hc].
  - injection H as <- _. cbn [cancel_block b_wanted with_wanted]. rewrite (mget_mdel _ cid_eqb_spec). destruct (cid_eqb c c0); [reflexivity|exact Hc].
  - assert (s' = established q s) as -> by congruence. unfold established, send_want_list. cbn [b_wanted with_peers with_stats]. destruct (is_empty (b_wanted s)); exact Hc.
  - assert (s' = closed q s) as -> by congruence. exact Hc.
  - destruct (received q m s) as [s1|] eqn:E; [|discriminate]. injection H as <- <-. apply received_shape in E as (l0 & f & e & _ & -> & Hf & _).
    rewrite receive_blocks_wanted. cbn [b_wanted with_events with_peers]. rewrite Hc. destruct (existsb _ _); reflexivity.
  - injection H as <- _. exact Hc.
  - destruct (poll order s) as [s1 a1] eqn:E. injection H as <- _. rewrite (poll_wanted _ _ _ _ E). exact Hc.
Qed.

(** * The store *)
Lemma mget_same_hash {V} c c' (m : list (cid * V)) : cid_hash c = cid_hash c' -> mget repo_cid_eqb c m = mget repo_cid_eqb c' m.
Proof. intros E. induction m as [|[k v] m IH]; [reflexivity|]. cbn [mget]. unfold repo_cid_eqb in *. rewrite E, IH. reflexivity. Qed.
Lemma store_put b m c : mget repo_cid_eqb c (fst (mem_put b m)) = match mget repo_cid_eqb c m with Some x => Some x | None => if repo_cid_eqb c (BlockSpec.b_cid b) then Some b else None end.
Proof.
  unfold mem_put. destruct (mget repo_cid_eqb (BlockSpec.b_cid b) m) as [x|] eqn:E; cbn [fst mget].
  - destruct (mget repo_cid_eqb c m) eqn:Ec; [reflexivity|]. destruct (repo_cid_eqb_hash c (BlockSpec.b_cid b)) as [Eh|]; [|reflexivity]. rewrite (mget_same_hash _ _ _ Eh) in Ec. congruence.
  - destruct (repo_cid_eqb_hash c (BlockSpec.b_cid b)) as [Eh|]; [|destruct (mget repo_cid_eqb c m); reflexivity]. rewrite (mget_same_hash _ _ _ Eh), E. reflexivity.
Qed.
Lemma store_del {V} c c' (m : list (cid * V)) : cid_hash c' <> cid_hash c -> mget repo_cid_eqb c (mdel repo_cid_eqb c' m) = mget repo_cid_eqb c m.
Proof.
  intros Hne. induction m as [|[k v] m IH]; [reflexivity|]. cbn [mget]. unfold mdel in *. cbn [filter fst].
  destruct (repo_cid_eqb_hash c' k) as [E1|E1]; cbn [negb]; [|cbn [mget]; rewrite IH; reflexivity].
  destruct (repo_cid_eqb_hash c k) as [E2|E2]; [congruence|exact IH].
Qed.
Lemma store_step debug s a c k : mget repo_cid_eqb c (store s) = Some k -> match a with RemoveB c' => cid_hash c' <> cid_hash c | _ => True end ->
  mget repo_cid_eqb c (store (fst (gstep debug s a))) = Some k.
Proof.
  intros E Ha. destruct a as [c'|g|g|g w|g|g|b|t|c'| |]; cbn [gstep]; try exact E.
  - unfold mem_get. destruct (mget repo_cid_eqb c' (store s)); exact E.
  - destruct (nth_error (gets s) g) as [[]|]; exact E.
  - destruct (nth_error (gets s) g) as [[]|]; exact E.
  - destruct (nth_error (gets s) g) as [[]|]; try exact E. cbn zeta. destruct (ans _) as [| | |[]| |]; exact E.
  - destruct (nth_error (gets s) g) as [[]|]; exact E.
  - destruct (nth_error (gets s) g) as [[]|]; exact E.
  - pose proof (store_put b (store s) c) as HP. rewrite E in HP. destruct (mem_put b (store s)) as [m []]; exact HP || exact E.
  - destruct (nth_error (puts s) t) as [[b [|]|]|]; exact E.
  - cbn [fst store]. unfold mem_remove. destruct (mget repo_cid_eqb c' (store s)) eqn:E'; [|exact E]. cbn [fst].
    rewrite <- E. apply store_del. exact Ha.
Qed.

(** A call about the cid was about it before, or has just looked and not found it. *)
Definition about (c : cid) (x : getst) : Prop := x = Missing c \/ exists i, x = Starting c i \/ x = Subscribed c i.
Lemma gets_back debug s a g c x : nth_error (gets (fst (gstep debug s a))) g = Some x -> about c x ->
  (exists y, nth_error (gets s) g = Some y /\ about c y) \/ mget repo_cid_eqb c (store s) = None.
Proof.
  intros E Hx. assert (Hsame : nth_error (gets s) g = Some x -> (exists y, nth_error (gets s) g = Some y /\ about c y) \/ mget repo_cid_eqb c (store s) = None) by eauto.
  destruct a as [c'|g'|g'|g' w|g'|g'|b|t|c'| |]; cbn [gstep] in E; try (apply Hsame; exact E).
  - unfold mem_get in E. destruct (mget repo_cid_eqb c' (store s)) eqn:Em; cbn [fst gets] in E; apply nth_snoc in E as [E|[_ ->]]; try (apply Hsame; exact E).
    + destruct Hx as [[=]|(i & [[=]|[=]])].
    + destruct Hx as [[= ->]|(i & [[=]|[=]])]. right. exact Em.
  - destruct (nth_error (gets s) g') as [[c1| | | |]|] eqn:Eg; try (apply Hsame; exact E). rewrite begin_ans in E. cbn [fst gets] in E.
    rewrite (nth_set g' _ _ _ g Eg) in E. destruct (Nat.eqb_spec g' g) as [->|]; [|apply Hsame; exact E]. injection E as <-.
    destruct Hx as [[=]|(i & [[= -> _]|[=]])]. left. eexists. split; [exact Eg|left; reflexivity].
  - destruct (nth_error (gets s) g') as [[|c1 i1| | |]|] eqn:Eg; try (apply Hsame; exact E). cbn [fst gets] in E.
    rewrite (nth_set g' _ _ _ g Eg) in E. destruct (Nat.eqb_spec g' g) as [->|]; [|apply Hsame; exact E]. injection E as <-.
    destruct Hx as [[=]|(i & [[=]|[= -> _]])]. left. eexists. split; [exact Eg|right; eexists; left; reflexivity].
  - destruct (nth_error (gets s) g') as [[| |c1 i1| |]|] eqn:Eg; try (apply Hsame; exact E). cbn zeta in E.
    destruct (ans _) as [| | |[]| |]; cbn [fst gets] in E; try (apply Hsame; exact E); rewrite (nth_set g' _ _ _ g Eg) in E;
      (destruct (Nat.eqb_spec g' g) as [->|]; [|apply Hsame; exact E]); injection E as <-; destruct Hx as [[=]|(i & [[=]|[=]])].
  - destruct (nth_error (gets s) g') as [[| |c1 i1| |]|] eqn:Eg; try (apply Hsame; exact E). cbn [fst gets] in E.
    rewrite (nth_set g' _ _ _ g Eg) in E. destruct (Nat.eqb_spec g' g) as [->|]; [|apply Hsame; exact E]. injection E as <-. destruct Hx as [[=]|(i & [[=]|[=]])].
  - destruct (nth_error (gets s) g') as [[]|]; apply Hsame; exact E.
  - unfold mem_put in E. destruct (mget repo_cid_eqb _ (store s)); apply Hsame; exact E.
  - destruct (nth_error (puts s) t) as [[b [|]|]|]; apply Hsame; exact E.
Qed.

Section Pipe.
  Variable hasher : N -> option (bytes -> bytes).
  Variable debug : bool.
  Notation wstep := (wstep hasher debug).
  Notation wrun := (wrun hasher debug).
  Notation honest := (honest hasher).
  Definition good_world : world -> Prop := world_ok debug wf_cid (block_ok hasher) (state_ok hasher) honest.
  Lemma honest_send m : honest m -> blen (to_bytes m) < u64_max1 -> forall m', upgrade_inbound hasher (upgrade_outbound m) = Some m' -> same_message m m'.
  Proof.
    intros [Hw Hd] Hl m' E. destruct (N.leb_spec (blen (to_bytes m)) max_buf_size) as [Hs|Hs].
    - rewrite delivered in E by exact Hs. destruct (bytes_roundtrip hasher m Hw Hd Hl) as (m2 & E2 & HS). congruence.
    - rewrite not_delivered in E by assumption. discriminate.
  Qed.
  Lemma good_B s o s' a : bstep s o = Some (s', a) -> op_Q wf_cid o -> op_P (block_ok hasher) o -> state_ok hasher s ->
    state_ok hasher s' /\ match a with Some (Notify _ m) => honest m | _ => True end.
  Proof.
    intros E HQ HP HS. destruct (step_ok hasher s o s' a E) as [H1 H2]; [|exact HS|].
    - destruct o; cbn in *; try exact Logic.I; try assumption. unfold msg_P in HP. eapply Forall_impl; [|exact HP]. intros b Hb. apply Hb.
    - split; [exact H1|]. destruct a as [[]|]; auto.
  Qed.
  Lemma good_send m m' : honest m -> msg_P (block_ok hasher) m -> blen (to_bytes m) < u64_max1 -> upgrade_inbound hasher (upgrade_outbound m) = Some m' -> msg_P (block_ok hasher) m'.
  Proof. intros H1 H2 H3 E. destruct (honest_send m H1 H3 m' E) as (_ & _ & Eb). unfold msg_P. rewrite <- Eb. exact H2. Qed.
  Lemma good_run h : no_forging h -> Forall (fair_caller hasher) h -> good_world (wrun h).
  Proof.
    intros H1 H2. apply world_run; [intros b Hb; apply Hb|split; constructor|apply good_B|apply good_send|].
    apply Forall_forall. intros o Ho. unfold no_forging in H1. rewrite Forall_forall in H1, H2. specialize (H1 _ Ho). specialize (H2 _ Ho).
    destruct o as [n a| | | | | | | | |]; cbn in *; try exact Logic.I; [|destruct H1]. destruct a; try exact Logic.I; exact H2.
  Qed.

  (** What a step does to the bitswap of a node. *)
  Definition follows (w w' : world) (m : peer) (act : option action) : Prop :=
    match act with
    | Some (Notify p x) => honest x /\ (connected w' m p -> blen (to_bytes x) < u64_max1 -> In (m, p, upgrade_outbound x) (w_net w'))
    | Some (Report (ReceivedBlock _ k)) => In (TStore k) (n_tasks (w_node w' m))
    | Some (Report (ReceivedWant p c _)) => In (TServe p c) (n_tasks (w_node w' m))
    | _ => True
    end.
  Lemma bs_of_step w o m : good_world w -> let w' := fst (wstep w o) in
    n_bs (w_node w' m) = n_bs (w_node w m) \/
    exists o' act, bstep (n_bs (w_node w m)) o' = Some (n_bs (w_node w' m), act) /\
      (forall p, stays p [o'] \/ o = WUp m p \/ o = WDown m p) /\
      (forall c z, o' = OWant c z -> In (EWant c) (n_chan (w_node w m))) /\
      (forall order, o' = OPoll order -> o = WPoll m order) /\
      follows w w' m act.
  Proof.
    intros HG. destruct o as [n a|n g|n|n i|n order|n p|n p|i|i|n p bs]; cbn [Exchange.wstep].
    - destruct (node_repo debug (w_node w n) a) as [x o] eqn:E. cbn [fst]. left. destruct (N.eqb_spec m n) as [->|Hne]; [|rewrite set_other by exact Hne; reflexivity].
      rewrite set_same. unfold node_repo in E. destruct (match a with PollG g _ => _ | _ => _ end); [injection E as <- <-; reflexivity|]. destruct (gstep debug _ a). injection E as <- <-. reflexivity.
    - cbn [fst]. left. destruct (N.eqb_spec m n) as [->|Hne]; [|rewrite set_other by exact Hne; reflexivity]. rewrite set_same. unfold node_ask.
      destruct (nth_error _ g) as [[]|]; try reflexivity. destruct (existsb _ _); reflexivity.
    - cbn [fst]. destruct (N.eqb_spec m n) as [->|Hne]; [|left; rewrite set_other by exact Hne; reflexivity]. rewrite set_same. unfold node_back.
      destruct (n_chan (w_node w n)) as [|[c|c|c] r] eqn:Ec; [left; reflexivity|right..].
      + exists (OWant c 1), None. split; [reflexivity|]. split; [intros p; left; repeat constructor|]. split; [intros c0 z [= <- _]; left; reflexivity|]. split; [discriminate|exact Logic.I].
      + exists (OCancel c), None. split; [reflexivity|]. split; [intros p; left; repeat constructor|]. split; [discriminate|]. split; [discriminate|exact Logic.I].
      + exists (OCancel c), None. split; [reflexivity|]. split; [intros p; left; repeat constructor|]. split; [discriminate|]. split; [discriminate|exact Logic.I].
    - cbn [fst]. destruct (N.eqb_spec m n) as [->|Hne]; [|left; rewrite set_other by exact Hne; reflexivity]. rewrite set_same. unfold node_task.
      destruct (nth_error (n_tasks (w_node w n)) i) as [[b|p c|c]|]; try (left; reflexivity). unfold mem_get. cbn [n_repo with_tasks].
      destruct (mget repo_cid_eqb c (store (n_repo (w_node w n)))) as [b|]; [|left; reflexivity]. right.
      exists (OQueue p (from_repo b)), None. split; [reflexivity|]. split; [intros q; left; repeat constructor|]. split; [discriminate|]. split; [discriminate|exact Logic.I].
    - destruct (node_poll n (w_node w n) order) as [x l] eqn:E. cbn [fst]. destruct (N.eqb_spec m n) as [->|Hne]; [|left; rewrite set_other by exact Hne; reflexivity].
      right. unfold node_poll in E. destruct (poll order (n_bs (w_node w n))) as [b act] eqn:Ep. exists (OPoll order), act.
      assert (Eb : n_bs x = b) by (destruct act as [[p|p y|[p k|p c z|p c]]|]; injection E as <- <-; reflexivity).
      split; [rewrite set_same; cbn [Bitswap.step]; rewrite Ep, Eb; reflexivity|]. split; [intros q; left; repeat constructor|]. split; [discriminate|]. split; [intros ? [= ->]; reflexivity|].
      unfold follows, connected. rewrite set_same. cbn [w_net set_node].
      destruct act as [[p|p y|[p k|p c z|p c]]|]; try exact Logic.I.
      + split.
        * destruct (proj1 HG n) as [K1 K2 _ _ _]. apply (good_B (n_bs (w_node w n)) (OPoll order) b (Some (Notify p y))); [cbn [Bitswap.step]; rewrite Ep; reflexivity|exact Logic.I|exact Logic.I|exact K2].
        * intros Hc Hl. rewrite Eb in Hc. injection E as _ <-. destruct (get_peer p b); [|congruence]. apply N.ltb_lt in Hl. rewrite Hl. apply in_or_app. right. left. reflexivity.
      + injection E as <- _. cbn [n_tasks with_tasks]. apply in_or_app. right. left. reflexivity.
      + injection E as <- _. cbn [n_tasks with_tasks]. apply in_or_app. right. left. reflexivity.
    - cbn [fst]. destruct (N.eqb_spec m n) as [->|Hne]; [|left; rewrite set_other by exact Hne; reflexivity]. rewrite set_same. right.
      exists (OEstablished p 0), None. split; [reflexivity|]. split; [|split; [discriminate|split; [discriminate|exact Logic.I]]].
      intros q. destruct (N.eqb_spec p q) as [->|Hq]; [right; left; reflexivity|left; repeat constructor; exact Hq].
    - cbn [fst]. destruct (N.eqb_spec m n) as [->|Hne]; [|left; rewrite set_other by exact Hne; reflexivity]. rewrite set_same. right.
      exists (OClosed p 0), None. split; [reflexivity|]. split; [|split; [discriminate|split; [discriminate|exact Logic.I]]].
      intros q. destruct (N.eqb_spec p q) as [->|Hq]; [right; right; reflexivity|left; repeat constructor; exact Hq].
    - destruct (nth_error (w_net w) i) as [[[p n] s]|] eqn:E; [|left; reflexivity]. destruct (is_up w n p); [|left; reflexivity]. cbn [fst].
      destruct (N.eqb_spec m n) as [->|Hne]; [|left; rewrite set_other by exact Hne; reflexivity]. rewrite set_same. unfold node_hear.
      destruct (upgrade_inbound hasher s) as [x|]; [|left; reflexivity]. destruct (received p x (n_bs (w_node w n))) as [s'|] eqn:Er; [|left; reflexivity]. right.
      exists (OReceived p 0 x), None. split; [cbn [Bitswap.step]; rewrite Er; reflexivity|]. split; [intros q; left; repeat constructor|]. split; [discriminate|]. split; [discriminate|exact Logic.I].
    - left. reflexivity.
    - destruct (is_up w n p); [|left; reflexivity]. cbn [fst]. destruct (N.eqb_spec m n) as [->|Hne]; [|left; rewrite set_other by exact Hne; reflexivity]. rewrite set_same. unfold node_hear.
      destruct (upgrade_inbound hasher bs) as [x|]; [|left; reflexivity]. destruct (received p x (n_bs (w_node w n))) as [s'|] eqn:Er; [|left; reflexivity]. right.
      exists (OReceived p 0 x), None. split; [cbn [Bitswap.step]; rewrite Er; reflexivity|]. split; [intros q; left; repeat constructor|]. split; [discriminate|]. split; [discriminate|exact Logic.I].
  Qed.

  Lemma act_polled s o s' x : bstep s o = Some (s', Some x) -> exists order, o = OPoll order /\ snd (poll order s) = Some x.
  Proof.
    destruct o as [q|q b|c0 pr|c0|q k|q k|q k m|q k|order]; cbn [Bitswap.step]; intros H; try discriminate.
    - destruct (received q m s); discriminate.
    - exists order. destruct (poll order s) as [s1 y]. split; [reflexivity|]. injection H as _ ->. reflexivity.
  Qed.
  Lemma net_of_step w o x : In x (w_net w) ->
    In x (w_net (fst (wstep w o))) \/ (exists i, o = WLose i /\ nth_error (w_net w) i = Some x) \/
    (exists i, o = WDeliver i /\ nth_error (w_net w) i = Some x /\ is_up w (snd (fst x)) (fst (fst x)) = true).
  Proof.
    intros Hx. destruct o as [n a|n g|n|n i|n order|n p|n p|i|i|n p bs]; cbn [Exchange.wstep]; try (left; exact Hx).
    - destruct (node_repo debug (w_node w n) a). left. exact Hx.
    - destruct (node_poll n (w_node w n) order) as [y l]. left. cbn. apply in_or_app. auto.
    - destruct (nth_error (w_net w) i) as [[[p n] s]|] eqn:E; [|left; exact Hx]. destruct (is_up w n p) eqn:Eu; [|left; exact Hx].
      destruct (without_other i _ _ Hx) as [Ei|Ei]; [|left; exact Ei]. right. right. exists i. rewrite Ei in E. injection E as ->. auto.
    - destruct (without_other i _ _ Hx) as [Ei|Ei]; [|left; exact Ei]. right. left. exists i. auto.
    - destruct (is_up w n p); left; exact Hx.
  Qed.
  Lemma tasks_of_step w o m t : In t (n_tasks (w_node w m)) ->
    In t (n_tasks (w_node (fst (wstep w o)) m)) \/ exists i, o = WTask m i /\ nth_error (n_tasks (w_node w m)) i = Some t.
  Proof.
    intros Ht. destruct o as [n a|n g|n|n i|n order|n p|n p|i|i|n p bs]; cbn [Exchange.wstep].
    - destruct (node_repo debug (w_node w n) a) as [x o] eqn:E. cbn [fst]. left. destruct (N.eqb_spec m n) as [->|Hne]; [|rewrite set_other by exact Hne; exact Ht].
      rewrite set_same. unfold node_repo in E. destruct (match a with PollG g _ => _ | _ => _ end); [injection E as <- <-; exact Ht|]. destruct (gstep debug _ a). injection E as <- <-. apply in_or_app. auto.
    - cbn [fst]. left. destruct (N.eqb_spec m n) as [->|Hne]; [|rewrite set_other by exact Hne; exact Ht]. rewrite set_same. unfold node_ask.
      destruct (nth_error _ g) as [[]|]; try exact Ht. destruct (existsb _ _); exact Ht.
    - cbn [fst]. left. destruct (N.eqb_spec m n) as [->|Hne]; [|rewrite set_other by exact Hne; exact Ht]. rewrite set_same. unfold node_back. destruct (n_chan (w_node w n)) as [|[]]; exact Ht.
    - cbn [fst]. destruct (N.eqb_spec m n) as [->|Hne]; [|left; rewrite set_other by exact Hne; exact Ht]. rewrite set_same. unfold node_task.
      destruct (nth_error (n_tasks (w_node w n)) i) as [t'|] eqn:E; [|left; exact Ht]. destruct (without_other i _ _ Ht) as [Ei|Ei].
      + right. exists i. rewrite Ei in E. injection E as ->. auto.
      + left. destruct t' as [b|p c|c]; cbn [n_tasks with_tasks with_repo with_chan]; try exact Ei. unfold mem_get; destruct (mget repo_cid_eqb c _); exact Ei.
    - destruct (node_poll n (w_node w n) order) as [x l] eqn:E. cbn [fst]. left. destruct (N.eqb_spec m n) as [->|Hne]; [|rewrite set_other by exact Hne; exact Ht]. rewrite set_same. unfold node_poll in E.
      destruct (poll order (n_bs (w_node w n))) as [b [[q|q y|[q k|q c z|q c]]|]]; injection E as <- _; try exact Ht; cbn [n_tasks with_tasks]; apply in_or_app; left; exact Ht.
    - cbn [fst]. left. destruct (N.eqb_spec m n) as [->|Hne]; [|rewrite set_other by exact Hne; exact Ht]. rewrite set_same. exact Ht.
    - cbn [fst]. left. destruct (N.eqb_spec m n) as [->|Hne]; [|rewrite set_other by exact Hne; exact Ht]. rewrite set_same. exact Ht.
    - left. destruct (nth_error (w_net w) i) as [[[p n] s]|] eqn:E; [|exact Ht]. destruct (is_up w n p); [|exact Ht]. cbn [fst].
      destruct (N.eqb_spec m n) as [->|Hne]; [|rewrite set_other by exact Hne; exact Ht]. rewrite set_same. unfold node_hear. destruct (upgrade_inbound hasher s); [|exact Ht]. destruct (received p _ _); exact Ht.
    - left. exact Ht.
    - left. destruct (is_up w n p); [|exact Ht]. cbn [fst].
      destruct (N.eqb_spec m n) as [->|Hne]; [|rewrite set_other by exact Hne; exact Ht]. rewrite set_same. unfold node_hear. destruct (upgrade_inbound hasher bs); [|exact Ht]. destruct (received p _ _); exact Ht.
  Qed.
  (** What a step does to the repo of a node. *)
  Lemma repo_of_step w o m : let w' := fst (wstep w o) in
    n_repo (w_node w' m) = n_repo (w_node w m) \/
    (exists g, o = WRepo m g /\ n_repo (w_node w' m) = fst (gstep debug (n_repo (w_node w m)) g)) \/
    (exists k, n_repo (w_node w' m) = fst (gstep debug (n_repo (w_node w m)) (StorePut (to_repo k))) /\ In (TStore k) (n_tasks (w_node w m))).
  Proof.
    destruct o as [n a|n g|n|n i|n order|n p|n p|i|i|n p bs]; cbn [Exchange.wstep].
    - destruct (node_repo debug (w_node w n) a) as [x o] eqn:E. cbn [fst]. destruct (N.eqb_spec m n) as [->|Hne]; [|left; rewrite set_other by exact Hne; reflexivity].
      rewrite set_same. unfold node_repo in E. destruct (match a with PollG g _ => _ | _ => _ end); [injection E as <- <-; left; reflexivity|]. destruct (gstep debug (n_repo (w_node w n)) a) as [r o'] eqn:Eg.
      right. left. exists a. split; [reflexivity|]. rewrite Eg. injection E as <- <-. reflexivity.
    - cbn [fst]. left. destruct (N.eqb_spec m n) as [->|Hne]; [|rewrite set_other by exact Hne; reflexivity]. rewrite set_same. unfold node_ask.
      destruct (nth_error _ g) as [[]|]; try reflexivity. destruct (existsb _ _); reflexivity.
    - cbn [fst]. left. destruct (N.eqb_spec m n) as [->|Hne]; [|rewrite set_other by exact Hne; reflexivity]. rewrite set_same. unfold node_back. destruct (n_chan (w_node w n)) as [|[]]; reflexivity.
    - cbn [fst]. destruct (N.eqb_spec m n) as [->|Hne]; [|left; rewrite set_other by exact Hne; reflexivity]. rewrite set_same. unfold node_task.
      destruct (nth_error (n_tasks (w_node w n)) i) as [[b|p c|c]|] eqn:E; try (left; reflexivity).
      + right. right. exists b. split; [reflexivity|]. eapply nth_error_In. exact E.
      + left. unfold mem_get; destruct (mget repo_cid_eqb c _); reflexivity.
    - destruct (node_poll n (w_node w n) order) as [x l] eqn:E. cbn [fst]. left. destruct (N.eqb_spec m n) as [->|Hne]; [|rewrite set_other by exact Hne; reflexivity]. rewrite set_same. unfold node_poll in E.
      destruct (poll order (n_bs (w_node w n))) as [b [[q|q y|[q k|q c z|q c]]|]]; injection E as <- _; reflexivity.
    - cbn [fst]. left. destruct (N.eqb_spec m n) as [->|Hne]; [|rewrite set_other by exact Hne; reflexivity]. rewrite set_same. reflexivity.
    - cbn [fst]. left. destruct (N.eqb_spec m n) as [->|Hne]; [|rewrite set_other by exact Hne; reflexivity]. rewrite set_same. reflexivity.
    - left. destruct (nth_error (w_net w) i) as [[[p n] s]|] eqn:E; [|reflexivity]. destruct (is_up w n p); [|reflexivity]. cbn [fst].
      destruct (N.eqb_spec m n) as [->|Hne]; [|rewrite set_other by exact Hne; reflexivity]. rewrite set_same. unfold node_hear. destruct (upgrade_inbound hasher s); [|reflexivity]. destruct (received p _ _); reflexivity.
    - left. reflexivity.
    - left. destruct (is_up w n p); [|reflexivity]. cbn [fst].
      destruct (N.eqb_spec m n) as [->|Hne]; [|rewrite set_other by exact Hne; reflexivity]. rewrite set_same. unfold node_hear. destruct (upgrade_inbound hasher bs); [|reflexivity]. destruct (received p _ _); reflexivity.
  Qed.
  (** The calls that have asked, and the events of the repo. *)
  Lemma asked_of_step w o m : let w' := fst (wstep w o) in
    (forall g, In g (n_asked (w_node w m)) -> In g (n_asked (w_node w' m))) /\
    (forall c, In (EWant c) (n_chan (w_node w' m)) -> In (EWant c) (n_chan (w_node w m)) \/
       exists g i, o = WAsk m g /\ ~ In g (n_asked (w_node w m)) /\ nth_error (gets (n_repo (w_node w m))) g = Some (Subscribed c i)).
  Proof.
    assert (Hsame : forall x, n_asked x = n_asked (w_node w m) -> n_chan x = n_chan (w_node w m) ->
      (forall g, In g (n_asked (w_node w m)) -> In g (n_asked x)) /\
      (forall c, In (EWant c) (n_chan x) -> In (EWant c) (n_chan (w_node w m)) \/
       exists g i, o = WAsk m g /\ ~ In g (n_asked (w_node w m)) /\ nth_error (gets (n_repo (w_node w m))) g = Some (Subscribed c i))) by (intros x -> ->; auto).
    destruct o as [n a|n g|n|n i|n order|n p|n p|i|i|n p bs]; cbn [Exchange.wstep].
    - destruct (node_repo debug (w_node w n) a) as [x o] eqn:E. cbn [fst]. destruct (N.eqb_spec m n) as [->|Hne]; [|apply Hsame; rewrite set_other by exact Hne; reflexivity].
      rewrite set_same. unfold node_repo in E. destruct (match a with PollG g _ => _ | _ => _ end); [injection E as <- <-; auto|]. destruct (gstep debug _ a). injection E as <- <-. cbn [n_asked n_chan].
      split; [auto|]. intros c Hc. apply in_app_or in Hc as [Hc|Hc]; [auto|]. apply in_map_iff in Hc as (y & [=] & _).
    - cbn [fst]. destruct (N.eqb_spec m n) as [->|Hne]; [|apply Hsame; rewrite set_other by exact Hne; reflexivity]. rewrite set_same. unfold node_ask.
      destruct (nth_error (gets (n_repo (w_node w n))) g) as [[|  |c i| |]|] eqn:Eg; try (apply Hsame; reflexivity). destruct (existsb (Nat.eqb g) (n_asked (w_node w n))) eqn:Ee; [apply Hsame; reflexivity|].
      cbn [n_asked n_chan with_chan with_asked]. split; [right; assumption|]. intros c' Hc. apply in_app_or in Hc as [Hc|[[= <-]|[]]]; [auto|]. right. exists g, i. split; [reflexivity|]. split; [|exact Eg].
      intros Hi. assert (Hf : existsb (Nat.eqb g) (n_asked (w_node w n)) = true) by (apply existsb_exists; exists g; split; [exact Hi|apply Nat.eqb_refl]). congruence.
    - cbn [fst]. destruct (N.eqb_spec m n) as [->|Hne]; [|apply Hsame; rewrite set_other by exact Hne; reflexivity]. rewrite set_same. unfold node_back.
      destruct (n_chan (w_node w n)) as [|[c|c|c] r] eqn:Ec; cbn [n_asked n_chan with_chan with_bs]; (split; [auto|]); intros c' Hc'; try (rewrite Ec in Hc'; destruct Hc'); left; right; exact Hc'.
    - cbn [fst]. destruct (N.eqb_spec m n) as [->|Hne]; [|apply Hsame; rewrite set_other by exact Hne; reflexivity]. rewrite set_same. unfold node_task.
      destruct (nth_error (n_tasks (w_node w n)) i) as [[b|p c|c]|]; try (apply Hsame; reflexivity).
      + unfold mem_get; destruct (mget repo_cid_eqb c _); apply Hsame; reflexivity.
      + cbn [n_asked n_chan with_chan with_tasks]. split; [auto|]. intros c' Hc. apply in_app_or in Hc as [Hc|[[=]|[]]]. auto.
    - destruct (node_poll n (w_node w n) order) as [x l] eqn:E. cbn [fst]. apply Hsame; (destruct (N.eqb_spec m n) as [->|Hne]; [|rewrite set_other by exact Hne; reflexivity]); rewrite set_same; unfold node_poll in E;
      destruct (poll order (n_bs (w_node w n))) as [b [[q|q y|[q k|q c z|q c]]|]]; injection E as <- _; reflexivity.
    - cbn [fst]. apply Hsame; (destruct (N.eqb_spec m n) as [->|Hne]; [|rewrite set_other by exact Hne; reflexivity]); rewrite set_same; reflexivity.
    - cbn [fst]. apply Hsame; (destruct (N.eqb_spec m n) as [->|Hne]; [|rewrite set_other by exact Hne; reflexivity]); rewrite set_same; reflexivity.
    - destruct (nth_error (w_net w) i) as [[[p n] s]|] eqn:E; [|apply Hsame; reflexivity]. destruct (is_up w n p); [|apply Hsame; reflexivity]. cbn [fst].
      apply Hsame; (destruct (N.eqb_spec m n) as [->|Hne]; [|rewrite set_other by exact Hne; reflexivity]); rewrite set_same; unfold node_hear; (destruct (upgrade_inbound hasher s); [|reflexivity]); destruct (received p _ _); reflexivity.
    - apply Hsame; reflexivity.
    - destruct (is_up w n p); [|apply Hsame; reflexivity]. cbn [fst].
      apply Hsame; (destruct (N.eqb_spec m n) as [->|Hne]; [|rewrite set_other by exact Hne; reflexivity]); rewrite set_same; unfold node_hear; (destruct (upgrade_inbound hasher bs); [|reflexivity]); destruct (received p _ _); reflexivity.
  Qed.
End Pipe.
