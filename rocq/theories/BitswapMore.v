(** More lemmas about [Bitswap]: polling, connections, blocks, want lists of peers. *)
From Coq Require Import Permutation.
From Verif Require Import Base Wire Cid FMap BitswapMsg BitswapMsgSpec BitswapMsgProofs Bitswap BitswapSpec BitswapProofs.
Local Open Scope N_scope.

(** * Polling to the end *)
Lemma drained_keys s : map fst (b_peers (drained s)) = map fst (b_peers s).
Proof. apply send_blocks_same. Qed.
Lemma drained_events s : b_events (drained s) = b_events s.
Proof. apply send_blocks_same. Qed.
Lemma poll_idle order s s' : fair_order s order -> poll order s = (s', None) ->
  s' = drained s /\ b_events s' = [] /\ b_ready s' = [] /\ forall p l, get_peer p s' = Some l -> message_empty (l_message l) = true.
Proof.
  intros HF H. unfold poll in H. fold (drained s) in H. destruct (b_events (drained s)) as [|e r] eqn:Ee; [|discriminate].
  destruct (poll_peers_shape order (drained s)) as [[E1 E2]|(p & l & sent & st & _ & _ & _ & E1 & _)]; rewrite E1 in H; [|discriminate].
  assert (s' = drained s) by congruence. subst s'. repeat split; [exact Ee|]. intros p l Hp. eapply E2; [|exact Hp].
  eapply Permutation_in; [symmetry; exact HF|]. rewrite <- drained_keys. apply (mget_in _ N.eqb_spec) in Hp. apply in_map_iff. exists (p, l). auto.
Qed.
Lemma is_empty_nil {A} (l : list A) : is_empty l = true -> l = [].
Proof. destruct l; [reflexivity|discriminate]. Qed.
Lemma message_empty_nil m : message_empty m = true -> m = message0.
Proof.
  unfold message_empty. intros H. apply andb_prop in H as [H H3]. apply andb_prop in H as [H1 H2].
  apply is_empty_nil in H1, H2, H3. destruct m. cbn in *. subst. reflexivity.
Qed.
Lemma waiting_idle p s : b_events s = [] -> (forall q l, get_peer q s = Some l -> message_empty (l_message l) = true) ->
  waiting p s = [] \/ waiting p s = [message0].
Proof.
  intros HE HM. unfold waiting. rewrite HE. cbn [messages_to app]. destruct (get_peer p s) as [l|] eqn:E; [|auto].
  rewrite (message_empty_nil _ (HM _ _ E)). auto.
Qed.
Lemma believes_idle acc p s c : b_events s = [] -> (forall q l, get_peer q s = Some l -> message_empty (l_message l) = true) ->
  believes (acc ++ waiting p s) c = believes acc c.
Proof.
  intros HE HM. rewrite believes_app. destruct (waiting_idle p s HE HM) as [-> | ->]; [reflexivity|]. cbn [fold_left]. apply step_empty.
Qed.

(** Every poll that returns something leaves less to return. *)
Definition busy (pl : peer * ledger) : bool := negb (message_empty (l_message (snd pl))).
Definition work (s : bitswap) : nat := (length (b_events s) + length (filter busy (b_peers s)))%nat.
Lemma filter_length {A} (f : A -> bool) l : (length (filter f l) <= length l)%nat.
Proof. induction l as [|x l IH]; cbn; [lia|]. destruct (f x); cbn; lia. Qed.
Lemma at_work p sent rec l : mget N.eqb p l <> None -> (forall x, mget N.eqb p l = Some x -> message_empty (l_message x) = false) ->
  (length (filter busy (at_ledger p (fun _ => mk_ledger sent rec message0) l)) < length (filter busy l))%nat.
Proof.
  assert (LE : forall l, (length (filter busy (at_ledger p (fun _ => mk_ledger sent rec message0) l)) <= length (filter busy l))%nat).
  { clear l. induction l as [|[q x] l IH]; [reflexivity|]. cbn [at_ledger map fst snd]. destruct (p =? q); cbn [filter].
    - unfold busy at 1. cbn [snd l_message message0 message_empty is_empty m_want m_cancel m_blocks andb negb]. destruct (busy (q, x)); cbn [length]; unfold at_ledger in IH; lia.
    - destruct (busy (q, x)); cbn [length]; unfold at_ledger in IH; lia. }
  induction l as [|[q x] l IH]; cbn [mget]; [congruence|]. intros HN HE. cbn [at_ledger map fst snd]. destruct (N.eqb_spec p q) as [->|Hn]; cbn [filter].
  - assert (EB : busy (q, x) = true) by (unfold busy; cbn [snd]; rewrite (HE x eq_refl); reflexivity). rewrite EB.
    change (busy (q, mk_ledger sent rec message0)) with false. cbn [length]. specialize (LE l). unfold at_ledger in LE. lia.
  - specialize (IH HN HE). destruct (busy (q, x)); cbn [length]; unfold at_ledger in IH; lia.
Qed.
Lemma drained_drained s : b_ready s = [] -> drained s = s.
Proof. intros H. unfold drained. rewrite H. cbn [fold_left]. destruct s. cbn in *. subst. reflexivity. Qed.
Lemma poll_ready order s s' a : poll order s = (s', a) -> b_ready s' = [].
Proof.
  unfold poll. fold (drained s). destruct (b_events (drained s)).
  - destruct (poll_peers_shape order (drained s)) as [[E1 _]|(p & l & sent & st & _ & _ & _ & E1 & _)]; rewrite E1; intros H; apply (f_equal fst) in H; cbn [fst] in H; subst s'; reflexivity.
  - intros H. apply (f_equal fst) in H. cbn [fst] in H. subst s'. reflexivity.
Qed.
Lemma poll_keys order s s' a : poll order s = (s', a) -> map fst (b_peers s') = map fst (b_peers s).
Proof.
  unfold poll. fold (drained s). rewrite <- (drained_keys s). destruct (b_events (drained s)).
  - destruct (poll_peers_shape order (drained s)) as [[E1 _]|(p & l & sent & st & _ & _ & _ & E1 & _)]; rewrite E1; intros H; apply (f_equal fst) in H; cbn [fst] in H; subst s'; [reflexivity|].
    cbn [b_peers with_stats with_peers]. apply keys_at.
  - intros H. apply (f_equal fst) in H. cbn [fst] in H. subst s'. reflexivity.
Qed.
Lemma poll_work order s s' a : poll order s = (s', Some a) -> (work s' < work (drained s))%nat.
Proof.
  unfold poll. fold (drained s). unfold work. destruct (b_events (drained s)) as [|e r] eqn:Ee.
  - destruct (poll_peers_shape order (drained s)) as [[E1 _]|(p & l & sent & st & H1 & H2 & H3 & E1 & _)]; rewrite E1; intros H; [discriminate|].
    apply (f_equal fst) in H. cbn [fst] in H. subst s'. cbn [b_events b_peers with_stats with_peers]. rewrite Ee. cbn [length Nat.add].
    apply at_work; unfold get_peer in H2; rewrite H2; [discriminate|]. intros x [= <-]. exact H3.
  - intros H. apply (f_equal fst) in H. cbn [fst] in H. subst s'. cbn [b_events b_peers with_events length]. lia.
Qed.
Lemma work_bound s : (work s <= length (b_events s) + length (b_peers s))%nat.
Proof. unfold work. pose proof (filter_length busy (b_peers s)). lia. Qed.
Lemma polls_end orders : forall s, (work (drained s) < length orders)%nat ->
  exists s' t, run s (map OPoll orders) = Some (s', t) /\ exists o, In (OPoll o, None) t.
Proof.
  induction orders as [|o orders IH]; intros s HL; [cbn in HL; lia|]. cbn [map run step]. destruct (poll o s) as [s1 a] eqn:E.
  assert (HR : exists s' t, run s1 (map OPoll orders) = Some (s', t)).
  { clear. revert s1. induction orders as [|o orders IH]; intros s1; [cbn; eauto|]. cbn [map run step]. destruct (poll o s1) as [s2 a]. destruct (IH s2) as (s' & t & ->). eauto. }
  destruct a as [a|].
  - pose proof (poll_work _ _ _ _ E) as HW. destruct (IH s1) as (s' & t & Er & x & Hx).
    { rewrite drained_drained by (eapply poll_ready; exact E). cbn [length] in HL. lia. }
    rewrite Er. do 2 eexists. split; [reflexivity|]. exists x. right. exact Hx.
  - destruct HR as (s' & t & ->). do 2 eexists. split; [reflexivity|]. exists o. left. reflexivity.
Qed.

(** * Connections and panics *)
Lemma receive_blocks_keys p bs : forall s, map fst (b_peers (fold_left (receive_block p) bs s)) = map fst (b_peers s) /\ b_stats (fold_left (receive_block p) bs s) = b_stats s.
Proof.
  induction bs as [|b bs IH]; intros s; [auto|]. cbn [fold_left]. destruct (IH (receive_block p s b)) as [-> ->]. unfold receive_block, push, cancel_block.
  cbn [b_peers b_stats with_events with_wanted with_peers]. rewrite keys_each. auto.
Qed.
Lemma received_keys p m s s' : received p m s = Some s' -> map fst (b_peers s') = map fst (b_peers s) /\ b_stats s' = b_stats s.
Proof.
  intros H. apply received_shape in H as (l & f & e & _ & -> & _). destruct (receive_blocks_keys p (m_blocks m) (with_events (b_events s ++ e) (with_peers (at_ledger p f (b_peers s)) s))) as [-> ->].
  cbn [b_peers b_stats with_events with_peers]. rewrite keys_at. auto.
Qed.
Definition has_peer (p : peer) (s : bitswap) : bool := match get_peer p s with Some _ => true | None => false end.
Lemma has_peer_keys p s s' : map fst (b_peers s') = map fst (b_peers s) -> has_peer p s' = has_peer p s.
Proof.
  intros H. unfold has_peer, get_peer. destruct (mget N.eqb p (b_peers s')) eqn:E1, (mget N.eqb p (b_peers s)) eqn:E2; try reflexivity; exfalso.
  - apply (mget_none _ N.eqb_spec) in E2. apply E2. apply (mget_in _ N.eqb_spec) in E1. unfold mkeys in *.
    assert (HI : In p (map fst (b_peers s'))) by (apply in_map_iff; exists (p, l); auto). rewrite H in HI. exact HI.
  - apply (mget_none _ N.eqb_spec) in E1. apply E1. apply (mget_in _ N.eqb_spec) in E2. unfold mkeys in *.
    assert (HI : In p (map fst (b_peers s))) by (apply in_map_iff; exists (p, l); auto). rewrite <- H in HI. exact HI.
Qed.
Lemma established_peers q s : b_peers (established q s) = mset N.eqb q ledger0 (b_peers s).
Proof. unfold established, send_want_list. cbn [b_wanted with_peers with_stats]. destruct (is_empty (b_wanted s)); reflexivity. Qed.
Lemma connected_step p s o s' a : step s o = Some (s', a) -> has_peer p s' = connected_after p (has_peer p s) [o].
Proof.
  intros H. destruct o as [q|q b|c0 pr|c0|q k|q k|q k m|q k|order]; cbn [step] in H; cbn [connected_after].
  - injection H as <- _. apply has_peer_keys. unfold connect. destruct (existsb _ _); reflexivity.
  - injection H as <- _. reflexivity.
  - injection H as <- _. apply has_peer_keys. apply keys_each.
  - injection H as <- _. apply has_peer_keys. apply keys_each.
  - assert (s' = established q s) by congruence. subst s'. unfold has_peer, get_peer. rewrite established_peers, (mget_mset _ N.eqb_spec). destruct (p =? q); reflexivity.
  - assert (s' = closed q s) by congruence. subst s'. unfold has_peer, get_peer, closed. cbn [b_peers with_peers]. rewrite (mget_mdel _ N.eqb_spec). destruct (p =? q); reflexivity.
  - destruct (received q m s) as [s1|] eqn:E; [|discriminate]. injection H as <- _. apply has_peer_keys. eapply received_keys. exact E.
  - injection H as <- _. reflexivity.
  - destruct (poll order s) as [s1 a1] eqn:E. injection H as <- _. apply has_peer_keys. eapply poll_keys. exact E.
Qed.
Lemma connected_app p h1 h2 b : connected_after p b (h1 ++ h2) = connected_after p (connected_after p b h1) h2.
Proof. revert b. induction h1 as [|o h1 IH]; intros b; cbn; [reflexivity|]. destruct o; apply IH. Qed.
Lemma connected_inv p h s t : run bitswap0 h = Some (s, t) -> has_peer p s = connected_after p false h.
Proof.
  revert s t. induction h as [|o h IH] using rev_ind; intros s t H; [injection H as <- <-; reflexivity|].
  apply run_snoc in H as (s1 & t1 & a & H1 & H2 & ->). rewrite connected_app, <- (IH _ _ H1). eapply connected_step. exact H2.
Qed.
Lemma panic_iff h s t o : run bitswap0 h = Some (s, t) ->
  (run bitswap0 (h ++ [o]) = None <-> exists p k m, o = OReceived p k m /\ connected_after p false h = false).
Proof.
  intros H. rewrite run_app, H. cbn [run]. split.
  - destruct (step s o) as [[s' a]|] eqn:E; [discriminate|]. intros _. destruct o as [q|q b|c0 pr|c0|q k|q k|q k m|q k|order]; try discriminate E.
    exists q, k, m. split; [reflexivity|]. rewrite <- (connected_inv q _ _ _ H). unfold has_peer. cbn [step] in E. unfold received in E.
    destruct (get_peer q s); [discriminate|reflexivity].
  - intros (p & k & m & -> & HC). rewrite <- (connected_inv p _ _ _ H) in HC. unfold has_peer in HC. cbn [step]. unfold received. destruct (get_peer p s); [discriminate|reflexivity].
Qed.

Lemma swarm_no_panic h : forall l s, (forall p k, In (p, k) l -> has_peer p s = true) -> (forall p k k', In (p, k) l -> In (p, k') l -> k = k') ->
  swarm true l h -> exists s' t, run s h = Some (s', t).
Proof.
  induction h as [|o h IH]; intros l s HP HU HS; [cbn; eauto|]. cbn [swarm] in HS. destruct HS as [HS1 HS2]. cbn [run].
  assert (E : exists s' a, step s o = Some (s', a)).
  { destruct o as [q|q b|c0 pr|c0|q k|q k|q k m|q k|order]; cbn [step]; eauto.
    - cbn [swarm_step] in HS1. specialize (HP _ _ HS1). unfold has_peer in HP. unfold received. destruct (get_peer q s); [cbn; eauto|discriminate].
    - destruct (poll order s); eauto. }
  destruct E as (s1 & a & E). rewrite E.
  destruct (IH (opened l o) s1) as (s' & t & ->); [| |exact HS2|eauto].
  - intros p k Hi. rewrite (connected_step p _ _ _ _ E).
    destruct o as [q|q b|c0 pr|c0|q k0|q k0|q k0 m|q k0|order]; cbn [opened] in Hi; cbn [connected_after]; try (eapply HP; exact Hi).
    + destruct Hi as [[= -> ->]|Hi]; [rewrite N.eqb_refl; reflexivity|]. destruct (p =? q); [reflexivity|]. eapply HP. exact Hi.
    + apply filter_In in Hi as [Hi Hf]. cbn [fst snd] in Hf. destruct (N.eqb_spec p q) as [->|Hn]; [|eapply HP; exact Hi].
      cbn [swarm_step] in HS1. assert (k = k0) by (eapply HU; eassumption). subst k. rewrite !N.eqb_refl in Hf. discriminate.
  - intros p k k' H1 H2. destruct o as [q|q b|c0 pr|c0|q k0|q k0|q k0 m|q k0|order]; cbn [opened] in H1, H2; try (eapply HU; eassumption).
    + destruct HS1 as [_ HS1]. specialize (HS1 eq_refl). destruct H1 as [E1|H1], H2 as [E2|H2].
      * congruence.
      * injection E1 as -> ->. exfalso. eapply HS1. eassumption.
      * injection E2 as -> ->. exfalso. eapply HS1. eassumption.
      * eapply HU; eassumption.
    + apply filter_In in H1 as [H1 _], H2 as [H2 _]. eapply HU; eassumption.
Qed.

(** ** Statistics *)
Definition has_stats (p : peer) (s : bitswap) : Prop := mget N.eqb p (b_stats s) <> None.
Definition stats_inv (s : bitswap) : Prop :=
  (forall p, has_peer p s = true -> has_stats p s) /\ (forall p b, In (Report (ReceivedBlock p b)) (b_events s) -> has_stats p s).
Lemma receive_blocks_events p bs : forall s, b_events (fold_left (receive_block p) bs s) = b_events s ++ map (fun b => Report (ReceivedBlock p b)) bs.
Proof.
  induction bs as [|b bs IH]; intros s; [cbn; rewrite app_nil_r; reflexivity|]. cbn [fold_left map]. rewrite IH. unfold receive_block, push. cbn [b_events with_events cancel_block with_wanted with_peers].
  rewrite <- app_assoc. reflexivity.
Qed.
Lemma poll_stats order s s' a p : poll order s = (s', a) -> has_stats p s -> has_stats p s'.
Proof.
  unfold poll. fold (drained s). assert (ES : b_stats (drained s) = b_stats s) by apply send_blocks_same. intros H HS. unfold has_stats in *. rewrite <- ES in HS.
  destruct (b_events (drained s)).
  - destruct (poll_peers_shape order (drained s)) as [[E1 _]|(q & l & sent & st & _ & _ & _ & E1 & E2)]; rewrite E1 in H; apply (f_equal fst) in H; cbn [fst] in H; subst s'; [exact HS|].
    cbn [b_stats with_stats]. intros E. apply HS, E2. exact E.
  - apply (f_equal fst) in H. cbn [fst] in H. subst s'. exact HS.
Qed.
Lemma poll_events order s s' a : poll order s = (s', a) ->
  match b_events s with
  | e :: r => b_events s' = r /\ a = Some e
  | [] => b_events s' = [] /\ match a with Some (Notify p m) => True | None => True | _ => False end
  end.
Proof.
  unfold poll. fold (drained s). rewrite <- (drained_events s). destruct (b_events (drained s)) eqn:Ee.
  - destruct (poll_peers_shape order (drained s)) as [[E1 _]|(q & l & sent & st & _ & _ & _ & E1 & E2)]; rewrite E1; intros H; pose proof (f_equal snd H) as Ha; apply (f_equal fst) in H; cbn [fst snd] in *; subst s' a; (split; [exact Ee|exact Logic.I]).
  - intros H. pose proof (f_equal snd H) as Ha. apply (f_equal fst) in H. cbn [fst snd] in *. subst s' a. auto.
Qed.
Lemma stats_step s o s' a : step s o = Some (s', a) -> stats_inv s -> stats_inv s' /\ (forall p, has_stats p s -> has_stats p s').
Proof.
  intros H [I1 I2].
  assert (Triv : b_stats s' = b_stats s -> map fst (b_peers s') = map fst (b_peers s) -> (forall p b, In (Report (ReceivedBlock p b)) (b_events s') -> In (Report (ReceivedBlock p b)) (b_events s) \/ has_peer p s = true) ->
     stats_inv s' /\ forall p, has_stats p s -> has_stats p s').
  { intros H1 H2 H3. unfold stats_inv, has_stats in *. rewrite H1. repeat split; auto.
    - intros p Hp. apply I1. rewrite <- (has_peer_keys p _ _ H2). exact Hp.
    - intros p b Hi. destruct (H3 _ _ Hi) as [Hi'|Hi']; [eapply I2; exact Hi'|apply I1; exact Hi']. }
  destruct o as [q|q b|c0 pr|c0|q k|q k|q k m|q k|order]; cbn [step] in H.
  - injection H as <- _. apply Triv; unfold connect; destruct (existsb _ _); auto. cbn [push b_events with_events with_targets]. intros p b Hi. apply in_app_or in Hi as [Hi|[[=]|[]]]; auto.
  - injection H as <- _. apply Triv; auto.
  - injection H as <- _. apply Triv; auto. apply keys_each.
  - injection H as <- _. apply Triv; auto. apply keys_each.
  - assert (s' = established q s) by congruence. subst s'. clear Triv H.
    assert (ES : forall p, mget N.eqb p (b_stats (established q s)) = None -> mget N.eqb p (b_stats s) = None /\ p <> q).
    { intros p. unfold established, send_want_list. cbn [b_wanted with_peers with_stats].
      assert (E : mget N.eqb p match mget N.eqb q (b_stats s) with Some _ => b_stats s | None => mset N.eqb q 0 (b_stats s) end = None -> mget N.eqb p (b_stats s) = None /\ p <> q).
      { destruct (mget N.eqb q (b_stats s)) as [x|] eqn:Eq.
        - intros E. split; [exact E|]. intros ->. congruence.
        - rewrite (mget_mset _ N.eqb_spec). destruct (N.eqb_spec p q); [discriminate|auto]. }
      destruct (is_empty (b_wanted s)); exact E. }
    assert (MS : forall p, has_stats p s -> has_stats p (established q s)) by (intros p Hp E; apply ES in E; unfold has_stats in Hp; tauto).
    split; [|exact MS]. split.
    + intros p Hp E. apply ES in E as [E Hn]. assert (has_peer p s = true); [|specialize (I1 _ H); unfold has_stats in I1; contradiction].
      unfold has_peer, get_peer in *. rewrite established_peers, (mget_mset _ N.eqb_spec) in Hp. destruct (N.eqb_spec p q); [congruence|exact Hp].
    + intros p b Hi. apply MS. eapply I2. unfold established, send_want_list in Hi. cbn [b_wanted with_peers with_stats] in Hi.
      destruct (is_empty (b_wanted s)); cbn [b_events push with_events with_peers with_stats] in Hi; [exact Hi|]. apply in_app_or in Hi as [Hi|[[=]|[]]]. exact Hi.
  - assert (s' = closed q s) by congruence. subst s'. split; [|auto]. split; [|exact I2]. intros p Hp. apply I1. unfold has_peer, get_peer, closed in *. cbn [b_peers with_peers] in Hp.
    rewrite (mget_mdel _ N.eqb_spec) in Hp. destruct (p =? q); [discriminate|exact Hp].
  - destruct (received q m s) as [s1|] eqn:E; [|discriminate]. injection H as <- _. destruct (received_keys _ _ _ _ E) as [EK ES]. apply Triv; auto.
    apply received_shape in E as (l & f & e & Hl & -> & _ & He & _). intros p b Hi. rewrite receive_blocks_events in Hi. cbn [b_events with_events] in Hi.
    apply in_app_or in Hi as [Hi|Hi].
    + apply in_app_or in Hi as [Hi|Hi]; [auto|]. exfalso. destruct (He _ Hi) as [(c & [=])|(c & z & [=])].
    + apply in_map_iff in Hi as (b' & [= -> ->] & _). right. unfold has_peer. rewrite Hl. reflexivity.
  - injection H as <- _. auto.
  - destruct (poll order s) as [s1 a1] eqn:E. injection H as <- _. split; [|intros p; eapply poll_stats; exact E]. split.
    + intros p Hp. eapply poll_stats; [exact E|]. apply I1. rewrite <- (has_peer_keys p _ _ (poll_keys _ _ _ _ E)). exact Hp.
    + intros p b Hi. eapply poll_stats; [exact E|]. apply I2 with b. pose proof (poll_events _ _ _ _ E) as HE. destruct (b_events s); destruct HE as [HE _]; rewrite HE in Hi; [destruct Hi|right; exact Hi].
Qed.
Lemma stats_run h s t : run bitswap0 h = Some (s, t) -> stats_inv s.
Proof.
  revert s t. induction h as [|o h IH] using rev_ind; intros s t H; [injection H as <- <-; split; [intros p [=]|intros p b []]|].
  apply run_snoc in H as (s1 & t1 & a & H1 & H2 & ->). eapply stats_step; [exact H2|]. eapply IH. exact H1.
Qed.
Lemma node_no_panic h order s t e : run bitswap0 (h ++ [OPoll order]) = Some (s, t ++ [(OPoll order, Some (Report e))]) -> node_event s e = Some tt.
Proof.
  intros H. apply run_snoc in H as (s1 & t1 & a & H1 & H2 & Et). apply app_inj_tail in Et as [-> [= <-]].
  pose proof (stats_run _ _ _ H1) as [_ I2]. cbn [step] in H2. destruct (poll order s1) as [s2 a2] eqn:E. injection H2 as <- ->.
  pose proof (poll_events _ _ _ _ E) as HE. destruct (b_events s1) as [|e0 r]; [destruct HE as [_ []]|]. destruct HE as [_ [= <-]].
  destruct e as [p b| |]; try reflexivity. cbn [node_event]. pose proof (poll_stats _ _ _ _ p E (I2 p b (or_introl eq_refl))) as HS. unfold has_stats in HS.
  destruct (mget N.eqb p (b_stats s2)); [reflexivity|congruence].
Qed.

(** * Blocks *)
Definition held (p : peer) (s : bitswap) : list block := match get_peer p s with Some l => m_blocks (l_message l) | None => [] end.
Definition ready_for (p : peer) (s : bitswap) : list block := map snd (filter (fun pb => p =? fst pb) (b_ready s)).
Lemma blocks_app a b : blocks_of (a ++ b) = blocks_of a ++ blocks_of b.
Proof. unfold blocks_of. rewrite map_app, concat_app. reflexivity. Qed.
Lemma blocks_waiting p s : blocks_of (waiting p s) = blocks_of (messages_to p (b_events s)) ++ held p s.
Proof. unfold waiting, held. rewrite blocks_app. f_equal. destruct (get_peer p s); [apply app_nil_r|reflexivity]. Qed.
Lemma held_drained p s : has_peer p s = true -> held p (drained s) = held p s ++ ready_for p s /\ has_peer p (drained s) = true.
Proof.
  unfold drained, ready_for, has_peer, held, get_peer. cbn [b_peers with_ready]. generalize (b_ready s) as r. intros r. revert s.
  induction r as [|[q b] r IH]; intros s H; [cbn [filter map fold_left]; rewrite app_nil_r; auto|]. cbn [fold_left fst snd].
  destruct (IH (send_block q b s)) as [E1 E2].
  { unfold send_block. cbn [b_peers with_peers]. rewrite get_at. destruct (p =? q); destruct (mget N.eqb p (b_peers s)); try discriminate; reflexivity. }
  split; [|exact E2]. rewrite E1. unfold send_block. cbn [b_peers with_peers]. rewrite get_at. cbn [filter fst]. destruct (p =? q); [|reflexivity].
  destruct (mget N.eqb p (b_peers s)); [|discriminate]. cbn [option_map with_message l_message m_add_block m_blocks map snd]. rewrite <- app_assoc. reflexivity.
Qed.
Lemma held_each f p s : (forall l, m_blocks (l_message (f l)) = m_blocks (l_message l)) -> held p (with_peers (each_ledger f (b_peers s)) s) = held p s.
Proof. intros H. unfold held, get_peer. cbn [b_peers with_peers]. rewrite get_each. destruct (mget N.eqb p (b_peers s)); cbn [option_map]; auto. Qed.
Lemma held_at q f p s : (forall l, m_blocks (l_message (f l)) = m_blocks (l_message l)) -> held p (with_peers (at_ledger q f (b_peers s)) s) = held p s.
Proof. intros H. unfold held, get_peer. cbn [b_peers with_peers]. rewrite get_at. destruct (p =? q), (mget N.eqb p (b_peers s)); cbn [option_map]; auto. Qed.
Lemma receive_blocks_held q bs p : forall s, held p (fold_left (receive_block q) bs s) = held p s /\ b_ready (fold_left (receive_block q) bs s) = b_ready s.
Proof.
  induction bs as [|b bs IH]; intros s; [auto|]. cbn [fold_left]. destruct (IH (receive_block q s b)) as [-> ->]. split; [|reflexivity].
  apply (held_each _ p s). reflexivity.
Qed.
Lemma messages_none p e : (forall a q m, In a e -> a <> Notify q m) -> messages_to p e = [].
Proof.
  induction e as [|a e IH]; intros H; [reflexivity|]. cbn [messages_to]. rewrite IH by (intros a' q m Hi; apply H; right; exact Hi).
  destruct a; try reflexivity. exfalso. eapply H; [left; reflexivity|reflexivity].
Qed.
Lemma block_step p s o s' a : step s o = Some (s', a) -> has_peer p s = true -> stays p [o] ->
  blocks_of (messages_to p (match a with Some x => [x] | None => [] end)) ++ blocks_of (waiting p s') ++ ready_for p s'
  = blocks_of (waiting p s) ++ ready_for p s ++ queued_for p [o].
Proof.
  intros H HP HS. apply Forall_inv in HS. rewrite !blocks_waiting, <- !app_assoc. unfold queued_for. cbn [map concat]. rewrite app_nil_r.
  destruct o as [q|q b|c0 pr|c0|q k|q k|q k m|q k|order]; cbn [step] in H; try rewrite app_nil_r.
  - injection H as <- <-. cbn [messages_to]. unfold connect. destruct (existsb _ _); [reflexivity|].
    cbn [push b_events with_events with_targets]. rewrite messages_app. cbn [messages_to]. rewrite app_nil_r. reflexivity.
  - injection H as <- <-. cbn [messages_to]. unfold ready_for. cbn [b_ready with_ready b_events]. rewrite filter_app, map_app. cbn [filter fst].
    change (blocks_of []) with (@nil block). cbn [app]. change (held p (with_ready (b_ready s ++ [(q, b)]) s)) with (held p s).
    destruct (p =? q); reflexivity.
  - injection H as <- <-. change (held p (want_block c0 pr s)) with (held p (with_peers (each_ledger (fun l => with_message (m_want_block c0 pr (l_message l)) l) (b_peers s)) s)).
    rewrite held_each by reflexivity. reflexivity.
  - injection H as <- <-. change (held p (cancel_block c0 s)) with (held p (with_peers (each_ledger (fun l => with_message (m_cancel_block c0 (l_message l)) l) (b_peers s)) s)).
    rewrite held_each by reflexivity. reflexivity.
  - assert (s' = established q s /\ a = None) as [-> ->] by (split; congruence).
    assert (EH : held p (established q s) = held p s).
    { unfold held, get_peer. rewrite established_peers, (mget_mset _ N.eqb_spec). destruct (N.eqb_spec p q); [congruence|reflexivity]. }
    assert (EE : messages_to p (b_events (established q s)) = messages_to p (b_events s) /\ b_ready (established q s) = b_ready s).
    { unfold established, send_want_list. cbn [b_wanted with_peers with_stats]. destruct (is_empty (b_wanted s)); [auto|]. cbn [b_events b_ready push with_events with_peers with_stats].
      rewrite messages_app. cbn [messages_to]. destruct (N.eqb_spec p q); [congruence|]. rewrite app_nil_r. auto. }
    destruct EE as [EE ER]. rewrite EH, EE. unfold ready_for. rewrite ER. reflexivity.
  - assert (s' = closed q s /\ a = None) as [-> ->] by (split; congruence).
    assert (EH : held p (closed q s) = held p s).
    { unfold held, get_peer, closed. cbn [b_peers with_peers]. rewrite (mget_mdel _ N.eqb_spec). destruct (N.eqb_spec p q); [congruence|reflexivity]. }
    rewrite EH. reflexivity.
  - destruct (received q m s) as [s1|] eqn:E; [|discriminate]. injection H as <- <-. apply received_shape in E as (l & f & e & Hl & -> & Hf & He & _).
    rewrite receive_blocks_events. destruct (receive_blocks_held q (m_blocks m) p (with_events (b_events s ++ e) (with_peers (at_ledger q f (b_peers s)) s))) as [-> ER].
    unfold ready_for. rewrite ER. cbn [b_events b_ready with_events with_peers messages_to]. rewrite !messages_app.
    rewrite (messages_none p e), (messages_none p (map _ _)).
    + rewrite !app_nil_r. change (held p (with_events (b_events s ++ e) (with_peers (at_ledger q f (b_peers s)) s))) with (held p (with_peers (at_ledger q f (b_peers s)) s)).
      rewrite held_at by (intros l0; rewrite (proj1 (Hf l0)); reflexivity). reflexivity.
    + intros a' r m' Hi. apply in_map_iff in Hi as (x & <- & _). discriminate.
    + intros a' r m' Hi. destruct (He _ Hi) as [(c & ->)|(c & z & ->)]; discriminate.
  - injection H as <- <-. reflexivity.
  - destruct (held_drained p s HP) as [HH HP']. rewrite <- HH. destruct (poll order s) as [s1 a1] eqn:E. injection H as <- <-.
    assert (ER : ready_for p s1 = []) by (unfold ready_for; rewrite (poll_ready _ _ _ _ E); reflexivity). rewrite ER, app_nil_r.
    unfold poll in E. fold (drained s) in E. rewrite <- (drained_events s). destruct (b_events (drained s)) as [|x r] eqn:Ee.
    + destruct (poll_peers_shape order (drained s)) as [[E1 _]|(q & l & sent & st & _ & H2 & _ & E1 & _)]; rewrite E1 in E; pose proof (f_equal snd E) as Ea; apply (f_equal fst) in E; cbn [fst snd] in *; subst s1 a1.
      * rewrite Ee. reflexivity.
      * cbn [b_events with_stats with_peers]. rewrite Ee. cbn [messages_to]. unfold held, get_peer in *. cbn [b_peers with_stats with_peers]. rewrite get_at.
        destruct (N.eqb_spec p q) as [->|Hn]; [|reflexivity]. rewrite H2. cbn [option_map l_message message0 m_blocks blocks_of map concat app]. rewrite !app_nil_r. reflexivity.
    + pose proof (f_equal snd E) as Ea; apply (f_equal fst) in E; cbn [fst snd] in *; subst s1 a1. cbn [b_events with_events]. change (held p (with_events r (drained s))) with (held p (drained s)).
      rewrite app_assoc, <- blocks_app. f_equal. f_equal. change (x :: r) with ([x] ++ r). rewrite messages_app. reflexivity.
Qed.
Lemma connected_stays p h b : stays p h -> connected_after p b h = b.
Proof.
  induction 1 as [|o h H _ IH]; [reflexivity|]. destruct o; cbn [connected_after]; try exact IH; destruct (N.eqb_spec p p0); try congruence; exact IH.
Qed.
Lemma has_peer_run p h : forall s s' t, run s h = Some (s', t) -> has_peer p s' = connected_after p (has_peer p s) h.
Proof.
  induction h as [|o h IH]; intros s s' t H; [injection H as <- <-; reflexivity|]. cbn [run] in H. destruct (step s o) as [[s1 a]|] eqn:E; [|discriminate].
  destruct (run s1 h) as [[s2 t2]|] eqn:E2; [|discriminate]. injection H as <- <-. rewrite (IH _ _ _ E2), (connected_step p _ _ _ _ E).
  change (o :: h) with ([o] ++ h). rewrite connected_app. reflexivity.
Qed.
Lemma block_run p h : forall s s' t, run s h = Some (s', t) -> has_peer p s = true -> stays p h ->
  blocks_of (messages_to p (actions t)) ++ blocks_of (waiting p s') ++ ready_for p s' = blocks_of (waiting p s) ++ ready_for p s ++ queued_for p h.
Proof.
  induction h as [|o h IH]; intros s s' t H HP HS; [injection H as <- <-; cbn; rewrite app_nil_r; reflexivity|].
  cbn [run] in H. destruct (step s o) as [[s1 a]|] eqn:E; [|discriminate]. destruct (run s1 h) as [[s2 t2]|] eqn:E2; [|discriminate]. injection H as <- <-.
  inversion HS as [|? ? H1 H2]; subst. assert (HS1 : stays p [o]) by (constructor; [exact H1|constructor]).
  assert (HP1 : has_peer p s1 = true) by (rewrite (connected_step p _ _ _ _ E), connected_stays; assumption).
  specialize (IH _ _ _ E2 HP1 H2). pose proof (block_step p _ _ _ _ E HP HS1) as HB.
  change (queued_for p (o :: h)) with ((match o with OQueue q b => if p =? q then [b] else [] | _ => [] end) ++ queued_for p h).
  unfold queued_for at 1 in HB. cbn [map concat] in HB. rewrite app_nil_r in HB.
  change (actions ((o, a) :: t2)) with (match a with Some x => [x] | None => [] end ++ actions t2). rewrite messages_app, blocks_app, <- app_assoc, IH.
  rewrite !app_assoc in *. rewrite HB. reflexivity.
Qed.
Lemma ready_inv p h s t : run bitswap0 h = Some (s, t) -> ready_for p s = unpolled p h.
Proof.
  revert s t. induction h as [|o h IH] using rev_ind; intros s t H; [injection H as <- <-; reflexivity|].
  apply run_snoc in H as (s1 & t1 & a & H1 & H2 & ->). unfold unpolled. rewrite fold_left_app. fold (unpolled p h). rewrite <- (IH _ _ H1). cbn [fold_left].
  destruct o as [q|q b|c0 pr|c0|q k|q k|q k m|q k|order]; cbn [step] in H2; cbn [unpolled_step].
  - injection H2 as <- <-. unfold connect. destruct (existsb _ _); reflexivity.
  - injection H2 as <- <-. unfold ready_for. cbn [b_ready with_ready]. rewrite filter_app, map_app. cbn [filter fst]. destruct (p =? q); [reflexivity|]. apply app_nil_r.
  - injection H2 as <- <-. reflexivity.
  - injection H2 as <- <-. reflexivity.
  - assert (s = established q s1) by congruence. subst s. unfold established, send_want_list. cbn [b_wanted with_peers with_stats]. destruct (is_empty (b_wanted s1)); reflexivity.
  - assert (s = closed q s1) by congruence. subst s. reflexivity.
  - destruct (received q m s1) as [s2|] eqn:E; [|discriminate]. injection H2 as <- <-. apply received_shape in E as (l & f & e & Hl & -> & _).
    unfold ready_for. rewrite (proj2 (receive_blocks_held q (m_blocks m) p _)). reflexivity.
  - injection H2 as <- <-. reflexivity.
  - destruct (poll order s1) as [s2 a2] eqn:E. injection H2 as <- <-. unfold ready_for. rewrite (poll_ready _ _ _ _ E). reflexivity.
Qed.
(** The messages in the event queue are want lists: they have no blocks. *)
Lemma events_inv h s t p : run bitswap0 h = Some (s, t) -> blocks_of (messages_to p (b_events s)) = [].
Proof.
  revert s t. induction h as [|o h IH] using rev_ind; intros s t H; [injection H as <- <-; reflexivity|].
  apply run_snoc in H as (s1 & t1 & a & H1 & H2 & ->). specialize (IH _ _ H1).
  destruct o as [q|q b|c0 pr|c0|q k|q k|q k m|q k|order]; cbn [step] in H2.
  - injection H2 as <- <-. unfold connect. destruct (existsb _ _); [exact IH|]. cbn [push b_events with_events with_targets]. rewrite messages_app. cbn [messages_to]. rewrite app_nil_r. exact IH.
  - injection H2 as <- <-. exact IH.
  - injection H2 as <- <-. exact IH.
  - injection H2 as <- <-. exact IH.
  - assert (s = established q s1) by congruence. subst s. unfold established, send_want_list. cbn [b_wanted with_peers with_stats]. destruct (is_empty (b_wanted s1)); [exact IH|].
    cbn [b_events push with_events with_peers with_stats]. rewrite messages_app, blocks_app, IH. cbn [app messages_to]. destruct (p =? q); [|reflexivity].
    unfold blocks_of. cbn [map concat]. rewrite wantlist_message_blocks. reflexivity.
  - assert (s = closed q s1) by congruence. subst s. exact IH.
  - destruct (received q m s1) as [s2|] eqn:E; [|discriminate]. injection H2 as <- <-. apply received_shape in E as (l & f & e & Hl & -> & _ & He & _).
    rewrite receive_blocks_events, !messages_app. cbn [b_events with_events]. rewrite !messages_app, (messages_none p e), (messages_none p (map _ _)).
    + rewrite !app_nil_r. exact IH.
    + intros a' r m' Hi. apply in_map_iff in Hi as (x & <- & _). discriminate.
    + intros a' r m' Hi. destruct (He _ Hi) as [(c & ->)|(c & z & ->)]; discriminate.
  - injection H2 as <- <-. exact IH.
  - destruct (poll order s1) as [s2 a2] eqn:E. injection H2 as <- <-. pose proof (poll_events _ _ _ _ E) as HE. destruct (b_events s1) as [|e r]; destruct HE as [-> _]; [reflexivity|].
    change (e :: r) with ([e] ++ r) in IH. rewrite messages_app, blocks_app in IH. apply app_eq_nil in IH as [_ IH]. exact IH.
Qed.
Lemma handed_stays p h : forall s s' t acc, run s h = Some (s', t) -> stays p h -> handed_out p acc t = acc ++ messages_to p (actions t).
Proof.
  induction h as [|o h IH]; intros s s' t acc H HS; [injection H as <- <-; cbn; rewrite app_nil_r; reflexivity|].
  cbn [run] in H. destruct (step s o) as [[s1 a]|] eqn:E; [|discriminate]. destruct (run s1 h) as [[s2 t2]|] eqn:E2; [|discriminate]. injection H as <- <-.
  inversion HS as [|? ? H1 H2]; subst. change (actions ((o, a) :: t2)) with (match a with Some x => [x] | None => [] end ++ actions t2). rewrite messages_app.
  assert (HA : handed_out p acc ((o, a) :: t2) = handed_out p (acc ++ messages_to p (match a with Some x => [x] | None => [] end)) t2).
  { destruct o as [q|q b|c0 pr|c0|q k|q k|q k m|q k|order]; cbn [step] in E; try (destruct a; cbn [handed_out messages_to]; rewrite ?app_nil_r; reflexivity).
    assert (a = None) by congruence. subst a. cbn [handed_out messages_to]. rewrite app_nil_r. destruct (N.eqb_spec p q); [congruence|reflexivity]. }
  rewrite HA, (IH _ _ _ _ E2 H2), app_assoc. reflexivity.
Qed.
Lemma blocks_sent p k h1 h2 s t : run bitswap0 (h1 ++ OEstablished p k :: h2) = Some (s, t) -> stays p h2 ->
  blocks_of (handed_out p [] t) ++ blocks_of (waiting p s) ++ unpolled p (h1 ++ OEstablished p k :: h2) = unpolled p h1 ++ queued_for p h2.
Proof.
  intros H HS. rewrite <- (ready_inv p _ _ _ H). change (OEstablished p k :: h2) with ([OEstablished p k] ++ h2) in H. rewrite app_assoc, run_app in H.
  destruct (run bitswap0 (h1 ++ [OEstablished p k])) as [[s1 t1]|] eqn:E1; [|discriminate]. destruct (run s1 h2) as [[s2 t2]|] eqn:E2; [|discriminate]. injection H as <- <-.
  pose proof (events_inv _ _ _ p E1) as HE. pose proof (ready_inv p _ _ _ E1) as HR. unfold unpolled in HR. rewrite fold_left_app in HR. cbn [fold_left unpolled_step] in HR. fold (unpolled p h1) in HR.
  apply run_snoc in E1 as (s0 & t0 & a & E0 & E1 & ->). cbn [step] in E1. assert (a = None) by congruence. subst a.
  rewrite !handed_app. cbn [handed_out]. rewrite N.eqb_refl. rewrite (handed_stays p _ _ _ _ [] E2 HS). cbn [app].
  assert (HP : has_peer p s1 = true) by (rewrite (connected_step p s0 (OEstablished p k) _ _ E1); cbn [connected_after]; rewrite N.eqb_refl; reflexivity).
  rewrite (block_run p _ _ _ _ E2 HP HS), blocks_waiting, HE, HR. unfold held, get_peer. assert (s1 = established p s0) by congruence. subst s1.
  rewrite established_peers, (mget_mset _ N.eqb_spec), N.eqb_refl. reflexivity.
Qed.

(** * Want lists of peers *)
Lemma receive_blocks_received q bs p : forall s, option_map l_received (get_peer p (fold_left (receive_block q) bs s)) = option_map l_received (get_peer p s).
Proof.
  induction bs as [|b bs IH]; intros s; [reflexivity|]. cbn [fold_left]. rewrite IH. unfold receive_block, push, cancel_block, get_peer. cbn [b_peers with_events with_wanted with_peers].
  rewrite get_each. destruct (mget N.eqb p (b_peers s)); reflexivity.
Qed.
Lemma peer_wantlist_received p m s s' w : received p m s = Some s' -> peer_wantlist p s = Some w -> NoDup (map fst (m_want m)) ->
  exists w', peer_wantlist p s' = Some w' /\
   forall c, mget cid_eqb c w' =
     match mget cid_eqb c (local_wantlist s) with
     | None => believes_step c (mget cid_eqb c w) m
     | Some _ => if existsb (cid_eqb c) (m_cancel m) then None else mget cid_eqb c w
     end.
Proof.
  intros H HW HN. apply received_shape in H as (l & f & e & Hl & -> & Hf & He & H1 & H2 & _). unfold peer_wantlist in *. rewrite receive_blocks_received.
  rewrite Hl in HW. injection HW as <-. unfold get_peer in *. cbn [b_peers with_events with_peers]. rewrite get_at, N.eqb_refl, Hl. cbn [option_map].
  eexists. split; [reflexivity|]. intros c. unfold local_wantlist. destruct (mget cid_eqb c (b_wanted s)) eqn:E; [eapply H2|apply H1]; eassumption.
Qed.
