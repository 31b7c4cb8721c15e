(** Lemmas about a want on its way and the block on its way back, stage by stage. *)
From Verif Require Import Base Wire Cid FMap BlockSpec MemBlocks MemBlocksProofs SubsSpec Subs SubsProofs GetPut GetPutProofs BitswapMsg BitswapMsgSpec BitswapMsgProofs Bitswap BitswapSpec BitswapProofs BitswapMore BitswapPeers Exchange ExchangeSpec ExchangeProofs ExchangePipe.
Local Open Scope N_scope.

Section Arrive.
  Variable hasher : N -> option (bytes -> bytes).
  Variable debug : bool.
  Notation wstep := (wstep hasher debug).
  Notation wrun := (wrun hasher debug).
  Notation honest := (honest hasher).
  Notation good_world := (good_world hasher debug).
  Variables a b : peer.
  Variable c : cid.
  Definition pair (n p : peer) : Prop := (n = a /\ p = b) \/ (n = b /\ p = a).

  Lemma pair_stays w o n p o' : steady_step hasher a b c w o -> pair n p -> connected w n p ->
    stays p [o'] \/ o = WUp n p \/ o = WDown n p -> stays p [o'].
  Proof.
    intros HS Hp Hc [H|[->| ->]]; [exact H| |]; cbn in HS; exfalso.
    - apply HS; assumption.
    - destruct HS as [H1 H2]. destruct Hp; auto.
  Qed.
  Lemma up_iff w n p : connected w n p <-> has_peer p (n_bs (w_node w n)) = true.
  Proof. unfold connected, has_peer. destruct (get_peer p _); split; congruence. Qed.
  Lemma connected_stays w o n p : good_world w -> steady_step hasher a b c w o -> pair n p -> connected w n p -> connected (fst (wstep w o)) n p.
  Proof.
    intros HG HS Hp Hc. destruct (bs_of_step hasher debug w o n HG) as [E|(o' & act & E & Hst & _)].
    - unfold connected in *. rewrite E. exact Hc.
    - pose proof (pair_stays w o n p o' HS Hp Hc (Hst p)) as Hs. apply up_iff. rewrite (connected_step p _ _ _ _ E).
      apply up_iff in Hc. rewrite Hc. inversion Hs as [|x l Hx _]; subst. destruct o'; try reflexivity; cbn; destruct (N.eqb_spec p p0); congruence.
  Qed.
  Lemma has_stays w o n k : (n = a \/ n = b) -> steady_step hasher a b c w o -> has w n c = Some k -> has (fst (wstep w o)) n c = Some k.
  Proof.
    intros Hn HS Hk. unfold has in *. destruct (repo_of_step hasher debug w o n) as [->|[(g & -> & ->)|(x & -> & _)]]; [exact Hk| |].
    - apply store_step; [exact Hk|]. destruct g; try exact Logic.I. cbn in HS. apply HS. exact Hn.
    - apply store_step; [exact Hk|exact Logic.I].
  Qed.
  (** A node which has the block and does not want it does not come to want it. *)
  Lemma unwanting_stays w o k : good_world w -> has w a c = Some k -> ~ wants_itself w a c -> ~ wants_itself (fst (wstep w o)) a c.
  Proof.
    intros HG Hk Hn Hw. apply Hn. clear Hn. destruct (asked_of_step hasher debug w o a) as [Ha Hc].
    destruct Hw as [Hw|[Hw|(g & Hg & Hw)]].
    - destruct (bs_of_step hasher debug w o a HG) as [E|(o' & act & E & _ & Hwant & _)]; [left; rewrite <- E; exact Hw|].
      destruct (mget cid_eqb c (local_wantlist (n_bs (w_node w a)))) eqn:El; [left; unfold local_wantlist in *; congruence|].
      right. left. destruct o' as [q|q x|c0 pr|c0|q x|q x|q x m|q x|order]; try (exfalso; apply Hw; eapply unwanted_stays; [exact E|discriminate|exact El]).
      destruct (cid_eqb_spec c0 c) as [->|Hne]; [eapply Hwant; reflexivity|]. exfalso. apply Hw. eapply unwanted_stays; [exact E|congruence|exact El].
    - destruct (Hc _ Hw) as [H|(g & i & _ & Hi & Hg)]; [right; left; exact H|]. right. right. exists g. split; [exact Hi|]. right. exists i. right. exact Hg.
    - right. right. exists g. split; [auto|]. change (about c) with (about c) in *.
      assert (Hab : exists x, call (fst (wstep w o)) a g = Some x /\ about c x) by (destruct Hw as [Hw|(i & [Hw|Hw])]; eexists; (split; [exact Hw|]); [left; reflexivity|right; exists i; left; reflexivity|right; exists i; right; reflexivity]).
      clear Hw. destruct Hab as (x & Ex & Hx).
      assert (Hback : exists y, nth_error (gets (n_repo (w_node w a))) g = Some y /\ about c y).
      { unfold call in Ex. destruct (repo_of_step hasher debug w o a) as [E|[(g' & _ & E)|(k' & E & _)]]; rewrite E in Ex.
        - eauto.
        - destruct (gets_back debug _ _ _ _ _ Ex Hx) as [H|H]; [exact H|]. unfold has in Hk. congruence.
        - destruct (gets_back debug _ _ _ _ _ Ex Hx) as [H|H]; [exact H|]. unfold has in Hk. congruence. }
      destruct Hback as (y & Ey & [->|(i & [->| ->])]); unfold call; eauto.
  Qed.

  Inductive stage (w : world) : Prop :=
  | s_want : want_waits w b a c -> stage w
  | s_sent m : In (b, a, upgrade_outbound m) (w_net w) -> honest m -> blen (to_bytes m) < u64_max1 -> wants m c <> None -> stage w
  | s_event z : connected w a b -> In (Report (ReceivedWant b c z)) (b_events (n_bs (w_node w a))) -> stage w
  | s_serve : connected w a b -> In (TServe b c) (n_tasks (w_node w a)) -> stage w
  | s_queued k : connected w a b -> b_cid k = c -> queued b k (n_bs (w_node w a)) -> stage w
  | s_reply m k : In (a, b, upgrade_outbound m) (w_net w) -> honest m -> blen (to_bytes m) < u64_max1 -> In k (m_blocks m) -> b_cid k = c -> stage w
  | s_came k : b_cid k = c -> In (Report (ReceivedBlock a k)) (b_events (n_bs (w_node w b))) -> stage w
  | s_store k : b_cid k = c -> In (TStore k) (n_tasks (w_node w b)) -> stage w
  | s_has : has w b c <> None -> stage w.

  (** What a node polls out to its peer is in the air. *)
  Lemma polled_out w o n p o' s' m : good_world w -> steady_step hasher a b c w o -> pair n p -> connected w n p ->
    bstep (n_bs (w_node w n)) o' = Some (s', Some (Notify p m)) -> (forall order, o' = OPoll order -> o = WPoll n order) ->
    follows hasher w (fst (wstep w o)) n (Some (Notify p m)) ->
    In (n, p, upgrade_outbound m) (w_net (fst (wstep w o))) /\ honest m /\ blen (to_bytes m) < u64_max1.
  Proof.
    intros HG HS Hp Hc E Ho [Hm Hnet]. destruct (act_polled _ _ _ _ E) as (order & -> & Ep). specialize (Ho _ eq_refl). subst o.
    assert (Hl : blen (to_bytes m) < u64_max1) by (exact (HS p m Ep)). split; [|split; assumption]. apply Hnet; [|exact Hl]. apply connected_stays; assumption.
  Qed.
  Lemma heard w o n p m : nth_error (w_net w) o = Some (p, n, upgrade_outbound m) -> is_up w n p = true -> honest m -> blen (to_bytes m) < u64_max1 ->
    upgrade_inbound hasher (upgrade_outbound m) <> None ->
    exists m' s', same_message m m' /\ received p m' (n_bs (w_node w n)) = Some s' /\ n_bs (w_node (fst (wstep w (WDeliver o))) n) = s'.
  Proof.
    intros Ei Hu Hm Hl Hr. cbn [Exchange.wstep]. rewrite Ei, Hu. cbn [fst]. rewrite set_same. unfold node_hear.
    destruct (upgrade_inbound hasher (upgrade_outbound m)) as [m'|] eqn:Em; [|congruence]. exists m'.
    assert (Hrec : exists s', received p m' (n_bs (w_node w n)) = Some s') by (unfold received, is_up in *; destruct (get_peer p _); [eauto|discriminate]).
    destruct Hrec as (s' & Es). exists s'. split; [exact (honest_send hasher m Hm Hl m' Em)|]. split; [exact Es|]. rewrite Es. reflexivity.
  Qed.

  Lemma stage_step w o k : a <> b -> good_world w -> steady_step hasher a b c w o -> connected w b a -> has w a c = Some k -> BlockSpec.b_cid k = c ->
    ~ wants_itself w a c -> stage w -> stage (fst (wstep w o)).
  Proof.
    intros Hab HG HS Hba Hk Ek Hnw St. assert (Pab : pair a b) by (left; auto). assert (Pba : pair b a) by (right; auto).
    assert (Hevents : forall n x, In x (b_events (n_bs (w_node w n))) ->
      In x (b_events (n_bs (w_node (fst (wstep w o)) n))) \/ follows hasher w (fst (wstep w o)) n (Some x)).
    { intros n x Hx. destruct (bs_of_step hasher debug w o n HG) as [->|(o' & act & E & _ & _ & _ & Hf)]; [auto|].
      destruct (ev_step _ _ _ _ _ E Hx) as [H| ->]; auto. }
    destruct St as [Hw|m Hm Hh Hl Hw|z Hc He|Hc Ht|x Hc Ex Hq|m x Hm Hh Hl Hx Ex|x Ex He|x Ex Ht|Hh].
    - destruct (bs_of_step hasher debug w o b HG) as [E|(o' & act & E & Hst & _ & Ho & Hf)]; [apply s_want; unfold want_waits; rewrite E; exact Hw|].
      destruct (want_step a c _ _ _ _ E (pair_stays w o b a o' HS Pba Hba (Hst a)) Hw) as [H|(m & -> & Hwm)]; [apply s_want; exact H|].
      destruct (polled_out w o b a _ _ _ HG HS Pba Hba E Ho Hf) as (H1 & H2 & H3). exact (s_sent _ m H1 H2 H3 Hwm).
    - destruct (net_of_step hasher debug w o _ Hm) as [H|[(i & -> & Hi)|(i & -> & Hi & Hu)]]; [exact (s_sent _ m H Hh Hl Hw)|exfalso|].
      + exact (HS _ _ _ Hi (or_intror (conj eq_refl eq_refl))).
      + cbn [fst snd] in Hu. assert (Hr : upgrade_inbound hasher (upgrade_outbound m) <> None) by (exact (HS _ _ _ Hi (or_intror (conj eq_refl eq_refl)))).
        destruct (heard w i a b m Hi Hu Hh Hl Hr) as (m' & s' & (HSw & _ & _) & Er & Es).
        destruct (want_reported b m' _ _ c Er) as (z & Hz); [rewrite <- HSw; exact Hw| |].
        * destruct (mget cid_eqb c (b_wanted (n_bs (w_node w a)))) eqn:El; [|reflexivity]. exfalso. apply Hnw. left. unfold local_wantlist. congruence.
        * apply (s_event _ z); [|rewrite Es; exact Hz]. apply connected_stays; try assumption. apply up_iff. exact Hu.
    - pose proof (connected_stays w o a b HG HS Pab Hc) as Hc'. destruct (Hevents _ _ He) as [H|H]; [exact (s_event _ z Hc' H)|exact (s_serve _ Hc' H)].
    - pose proof (connected_stays w o a b HG HS Pab Hc) as Hc'. destruct (tasks_of_step hasher debug w o a _ Ht) as [H|(i & -> & Hi)]; [exact (s_serve _ Hc' H)|].
      apply (s_queued _ (from_repo k) Hc' Ek). cbn [Exchange.wstep fst]. rewrite set_same. unfold node_task. rewrite Hi. unfold mem_get. cbn [n_repo with_tasks n_bs].
      unfold has in Hk. rewrite Hk. right. unfold ready_for. cbn [n_bs with_bs b_ready with_ready]. rewrite filter_app, map_app. apply in_or_app. right. cbn. rewrite N.eqb_refl. left. reflexivity.
    - pose proof (connected_stays w o a b HG HS Pab Hc) as Hc'. destruct (bs_of_step hasher debug w o a HG) as [E|(o' & act & E & Hst & _ & Ho & Hf)]; [apply (s_queued _ x Hc' Ex); rewrite E; exact Hq|].
      destruct (queue_step b x _ _ _ _ E (proj1 (up_iff _ _ _) Hc) (pair_stays w o a b o' HS Pab Hc (Hst b)) Hq) as [H|(m & -> & Hwm)]; [exact (s_queued _ x Hc' Ex H)|].
      destruct (polled_out w o a b _ _ _ HG HS Pab Hc E Ho Hf) as (H1 & H2 & H3). exact (s_reply _ m x H1 H2 H3 Hwm Ex).
    - destruct (net_of_step hasher debug w o _ Hm) as [H|[(i & -> & Hi)|(i & -> & Hi & Hu)]]; [exact (s_reply _ m x H Hh Hl Hx Ex)|exfalso|].
      + exact (HS _ _ _ Hi (or_introl (conj eq_refl eq_refl))).
      + cbn [fst snd] in Hu. assert (Hr : upgrade_inbound hasher (upgrade_outbound m) <> None) by (exact (HS _ _ _ Hi (or_introl (conj eq_refl eq_refl)))).
        destruct (heard w i b a m Hi Hu Hh Hl Hr) as (m' & s' & (_ & _ & HSb) & Er & Es).
        apply (s_came _ x Ex). rewrite Es. apply (block_reported a m' _ _ x Er). rewrite <- HSb. exact Hx.
    - destruct (Hevents _ _ He) as [H|H]; [exact (s_came _ x Ex H)|exact (s_store _ x Ex H)].
    - destruct (tasks_of_step hasher debug w o b _ Ht) as [H|(i & -> & Hi)]; [exact (s_store _ x Ex H)|].
      apply s_has. unfold has. cbn [Exchange.wstep fst]. rewrite set_same. unfold node_task. rewrite Hi. cbn [n_repo with_tasks with_repo gstep].
      pose proof (store_put (to_repo x) (store (n_repo (w_node w b))) c) as Es. destruct (mem_put (to_repo x) (store (n_repo (w_node w b)))) as [m' r] eqn:Em.
      assert (Er : exists c' nw, r = RPut c' nw) by (unfold mem_put in Em; destruct (mget repo_cid_eqb _ _); injection Em as _ <-; eauto). destruct Er as (c' & nw & ->). cbn [fst store] in *. rewrite Es.
      destruct (mget repo_cid_eqb c (store (n_repo (w_node w b)))); [discriminate|]. cbn [to_repo BlockSpec.b_cid]. rewrite Ex. destruct (repo_cid_eqb_hash c c); [discriminate|congruence].
    - apply s_has. destruct (has w b c) as [x|] eqn:E; [|congruence]. rewrite (has_stays w o b x); [discriminate|auto|exact HS|exact E].
  Qed.
  Lemma quiet_stage w : connected w b a -> quiet w a b -> stage w -> has w b c <> None.
  Proof.
    intros Hba ((A1 & A2 & A3 & A4 & A5 & A6) & (B1 & B2 & B3 & B4 & B5 & B6) & Hn) St.
    destruct St as [Hw|m Hm Hh Hl Hw|z Hc He|Hc Ht|x Hc Ex Hq|m x Hm Hh Hl Hx Ex|x Ex He|x Ex Ht|Hh]; [..|exact Hh]; exfalso.
    - destruct Hw as (m & Hm & Hw). apply waiting_in in Hm as [Hm|(l & Hl & ->)]; [rewrite B3 in Hm; destruct Hm|]. apply B5 in Hl. unfold message_empty in Hl. apply andb_true_iff in Hl as [Hl _]. apply andb_true_iff in Hl as [Hl _].
      unfold wants in Hw. destruct (m_want (l_message l)); [apply Hw; reflexivity|discriminate].
    - destruct (Hn _ _ _ Hm) as [_ H]. apply H. auto.
    - rewrite A3 in He. destruct He.
    - rewrite A2 in Ht. destruct Ht.
    - destruct Hq as [Hq|Hq].
      + unfold waiting in Hq. rewrite A3 in Hq. cbn [messages_to app] in Hq. destruct (get_peer b (n_bs (w_node w a))) as [l|] eqn:El; [|destruct Hq].
        apply A5 in El. unfold message_empty in El. apply andb_true_iff in El as [_ El]. unfold blocks_of in Hq. cbn [map concat] in Hq. rewrite app_nil_r in Hq. destruct (m_blocks (l_message l)); [destruct Hq|discriminate].
      + unfold ready_for in Hq. rewrite A4 in Hq. destruct Hq.
    - destruct (Hn _ _ _ Hm) as [H _]. apply H. auto.
    - rewrite B3 in He. destruct He.
    - rewrite B2 in Ht. destruct Ht.
  Qed.
  Lemma steady_snoc h q o : steady hasher debug a b c h (q ++ [o]) -> steady hasher debug a b c h q /\ steady_step hasher a b c (wrun (h ++ q)) o.
  Proof.
    intros HS. split.
    - intros q1 o' q2 ->. apply (HS q1 o' (q2 ++ [o])). rewrite <- app_assoc. reflexivity.
    - apply (HS q o []). reflexivity.
  Qed.
  Lemma stage_run h q k : a <> b -> no_forging (h ++ q) -> Forall (fair_caller hasher) (h ++ q) -> steady hasher debug a b c h q ->
    connected (wrun h) b a -> has (wrun h) a c = Some k -> BlockSpec.b_cid k = c -> ~ wants_itself (wrun h) a c -> stage (wrun h) ->
    let w := wrun (h ++ q) in stage w /\ connected w b a /\ has w a c = Some k /\ ~ wants_itself w a c.
  Proof.
    intros Hab. induction q as [|o q IH] using rev_ind; intros Hf Hfair HS Hc Hk Ek Hn St; cbn zeta.
    - rewrite app_nil_r. auto.
    - rewrite app_assoc in Hf, Hfair |- *. unfold no_forging in *. apply Forall_app in Hf as [Hf Hfo]. apply Forall_app in Hfair as [Hfair _].
      apply steady_snoc in HS as [HS HSo]. destruct (IH Hf Hfair HS Hc Hk Ek Hn St) as (St' & Hc' & Hk' & Hn').
      rewrite wrun_snoc. pose proof (good_run hasher debug (h ++ q) Hf Hfair) as HG. split; [|split; [|split]].
      + eapply stage_step; eauto.
      + apply connected_stays; auto. right. auto.
      + apply has_stays; auto.
      + eapply unwanting_stays; eauto.
  Qed.
  Lemma arrives h q k : a <> b -> no_forging (h ++ q) -> Forall (fair_caller hasher) (h ++ q) -> steady hasher debug a b c h q ->
    connected (wrun h) b a -> has (wrun h) a c = Some k -> BlockSpec.b_cid k = c -> ~ wants_itself (wrun h) a c -> want_waits (wrun h) b a c ->
    quiet (wrun (h ++ q)) a b -> has (wrun (h ++ q)) b c <> None.
  Proof.
    intros Hab Hf Hfair HS Hc Hk Ek Hn Hw HQ. destruct (stage_run h q k Hab Hf Hfair HS Hc Hk Ek Hn (s_want _ Hw)) as (St & Hc' & _).
    exact (quiet_stage _ Hc' HQ St).
  Qed.
End Arrive.
