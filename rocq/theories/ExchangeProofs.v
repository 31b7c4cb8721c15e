(** Lemmas about nodes exchanging blocks. *)
From Verif Require Import Base Wire Cid FMap BlockSpec MemBlocks SubsSpec Subs SubsProofs GetPut GetPutProofs BitswapMsg BitswapMsgSpec BitswapMsgProofs Bitswap BitswapSpec BitswapProofs BitswapMore BitswapPeers Exchange ExchangeSpec.
Local Open Scope N_scope.
Notation bstep := Bitswap.step.

(** * One step of bitswap *)
Lemma established_events q s : exists e, b_events (established q s) = b_events s ++ e.
Proof. unfold established, send_want_list. cbn [b_wanted with_peers with_stats]. destruct (is_empty (b_wanted s)); [exists []; rewrite app_nil_r; reflexivity|eexists; reflexivity]. Qed.
Lemma ev_step x s o s' a : bstep s o = Some (s', a) -> In x (b_events s) -> In x (b_events s') \/ a = Some x.
Proof.
  intros H Hx. destruct o as [q|q b|c0 pr|c0|q k|q k|q k m|q k|order]; cbn [Bitswap.step] in H.
  - injection H as <- <-. left. unfold connect. destruct (existsb _ _); [exact Hx|]. cbn [push b_events with_events with_targets]. apply in_or_app. auto.
  - injection H as <- <-. left. exact Hx.
  - injection H as <- <-. left. exact Hx.
  - injection H as <- <-. left. exact Hx.
  - assert (s' = established q s) as -> by congruence. left. destruct (established_events q s) as [e ->]. apply in_or_app. auto.
  - assert (s' = closed q s) as -> by congruence. left. exact Hx.
  - destruct (received q m s) as [s1|] eqn:E; [|discriminate]. injection H as <- <-. left. apply received_shape in E as (l & f & e & _ & -> & _).
    rewrite receive_blocks_events. cbn [b_events with_events]. apply in_or_app. left. apply in_or_app. auto.
  - injection H as <- <-. left. exact Hx.
  - destruct (poll order s) as [s1 a1] eqn:E. injection H as <- <-. apply poll_events in E. destruct (b_events s) as [|y r]; [destruct Hx|].
    destruct E as [-> ->]. destruct Hx as [<-|Hx]; auto.
Qed.
Lemma get_received_blocks q bs p c : forall s l, get_peer p s = Some l -> wants (l_message l) c <> None ->
  exists l', get_peer p (fold_left (receive_block q) bs s) = Some l' /\ wants (l_message l') c <> None.
Proof.
  induction bs as [|b bs IH]; intros s l Hl Hw; [eauto|]. cbn [fold_left].
  apply (IH (receive_block q s b) (with_message (m_cancel_block (b_cid b) (l_message l)) l)).
  - unfold receive_block, push, get_peer, cancel_block. cbn [b_peers with_events with_wanted with_peers]. rewrite get_each. unfold get_peer in Hl. rewrite Hl. reflexivity.
  - cbn [l_message with_message]. rewrite wants_cancel_msg. exact Hw.
Qed.
Lemma get_drained p c s l : get_peer p s = Some l -> wants (l_message l) c <> None ->
  exists l', get_peer p (drained s) = Some l' /\ wants (l_message l') c <> None.
Proof.
  unfold drained, get_peer. cbn [b_peers with_ready]. generalize (b_ready s) as r. intros r. revert s l.
  induction r as [|[q b] r IH]; intros s l Hl Hw; [eauto|]. cbn [fold_left fst snd].
  apply (IH (send_block q b s) (if p =? q then with_message (m_add_block b (l_message l)) l else l)).
  - unfold send_block. cbn [b_peers with_peers]. rewrite get_at, Hl. destruct (p =? q); reflexivity.
  - destruct (p =? q); exact Hw.
Qed.
Lemma msg_step p c s o s' a l : bstep s o = Some (s', a) -> stays p [o] -> get_peer p s = Some l -> wants (l_message l) c <> None ->
  (exists l', get_peer p s' = Some l' /\ wants (l_message l') c <> None) \/ exists m, a = Some (Notify p m) /\ wants m c <> None.
Proof.
  intros H HS Hl Hw. apply Forall_inv in HS. destruct o as [q|q b|c0 pr|c0|q k|q k|q k m|q k|order]; cbn [Bitswap.step] in H.
  - injection H as <- <-. left. unfold connect. destruct (existsb _ _); eauto.
  - injection H as <- <-. left. eauto.
  - injection H as <- <-. left. exists (with_message (m_want_block c0 pr (l_message l)) l). split.
    + unfold get_peer, want_block in *. cbn [b_peers with_wanted with_peers]. rewrite get_each, Hl. reflexivity.
    + cbn [l_message with_message]. unfold wants, m_want_block. cbn [m_want]. rewrite (mget_mset _ cid_eqb_spec). destruct (cid_eqb c c0); [discriminate|exact Hw].
  - injection H as <- <-. left. exists (with_message (m_cancel_block c0 (l_message l)) l). split.
    + unfold get_peer, cancel_block in *. cbn [b_peers with_wanted with_peers]. rewrite get_each, Hl. reflexivity.
    + cbn [l_message with_message]. rewrite wants_cancel_msg. exact Hw.
  - assert (s' = established q s) as -> by congruence. left. exists l. split; [|exact Hw]. unfold get_peer in *. rewrite established_peers, (mget_mset _ N.eqb_spec).
    destruct (N.eqb_spec p q); [congruence|exact Hl].
  - assert (s' = closed q s) as -> by congruence. left. exists l. split; [|exact Hw]. unfold get_peer, closed in *. cbn [b_peers with_peers]. rewrite (mget_mdel _ N.eqb_spec).
    destruct (N.eqb_spec p q); [congruence|exact Hl].
  - destruct (received q m s) as [s1|] eqn:E; [|discriminate]. injection H as <- <-. left. apply received_shape in E as (l0 & f & e & _ & -> & Hf & _).
    apply (get_received_blocks q (m_blocks m) p c _ (if p =? q then f l else l)).
    + unfold get_peer in *. cbn [b_peers with_events with_peers]. rewrite get_at, Hl. destruct (p =? q); reflexivity.
    + destruct (p =? q); [rewrite (proj1 (Hf l))|]; exact Hw.
  - injection H as <- <-. left. eauto.
  - destruct (poll order s) as [s1 a1] eqn:E. injection H as <- <-. destruct (get_drained p c s l Hl Hw) as (l1 & Hl1 & Hw1).
    unfold poll in E. fold (drained s) in E. destruct (b_events (drained s)) as [|x r].
    + destruct (poll_peers_shape order (drained s)) as [[E1 _]|(q & l2 & sent & st & _ & H2 & _ & E1 & _)]; rewrite E1 in E;
        pose proof (f_equal snd E) as Ea; apply (f_equal fst) in E; cbn [fst snd] in *; subst s1 a1; [eauto|].
      destruct (N.eqb_spec p q) as [<-|Hne].
      * right. exists (l_message l2). split; [reflexivity|]. rewrite Hl1 in H2. injection H2 as <-. exact Hw1.
      * left. exists l1. split; [|exact Hw1]. unfold get_peer in *. cbn [b_peers with_stats with_peers]. rewrite get_at. destruct (N.eqb_spec p q); [congruence|exact Hl1].
    + pose proof (f_equal snd E) as Ea; apply (f_equal fst) in E; cbn [fst snd] in *; subst s1 a1. left. exists l1. split; [exact Hl1|exact Hw1].
Qed.

Lemma in_messages p m e : In m (messages_to p e) <-> In (Notify p m) e.
Proof.
  induction e as [|x e IH]; [tauto|]. destruct x as [q|q m'|v]; cbn [messages_to In]; try (rewrite IH; intuition discriminate).
  destruct (N.eqb_spec p q) as [<-|Hne]; cbn [In]; rewrite IH; intuition congruence.
Qed.
Lemma waiting_in p m s : In m (waiting p s) <-> In (Notify p m) (b_events s) \/ exists l, get_peer p s = Some l /\ m = l_message l.
Proof.
  unfold waiting. rewrite in_app_iff, in_messages. destruct (get_peer p s) as [l|]; cbn [In]; split; intros [H|H]; auto.
  - destruct H as [<-|[]]. eauto.
  - destruct H as (l' & [= <-] & ->). auto.
  - destruct H.
  - destruct H as (l' & [=] & _).
Qed.
(** A want that waits for a peer goes on waiting or is handed out. *)
Lemma want_step p c s o s' a : bstep s o = Some (s', a) -> stays p [o] ->
  (exists m, In m (waiting p s) /\ wants m c <> None) ->
  (exists m, In m (waiting p s') /\ wants m c <> None) \/ exists m, a = Some (Notify p m) /\ wants m c <> None.
Proof.
  intros H HS (m & Hm & Hw). apply waiting_in in Hm as [Hm|(l & Hl & ->)].
  - destruct (ev_step _ _ _ _ _ H Hm) as [Hi| ->]; [|eauto]. left. exists m. split; [|exact Hw]. apply waiting_in. auto.
  - destruct (msg_step p c _ _ _ _ l H HS Hl Hw) as [(l' & Hl' & Hw')|Hn]; [|auto]. left. exists (l_message l'). split; [|exact Hw']. apply waiting_in. eauto.
Qed.
(** A block queued for a connected peer goes on waiting or is handed out. *)
Definition queued (p : peer) (b : block) (s : bitswap) : Prop := In b (blocks_of (waiting p s)) \/ In b (ready_for p s).
Lemma queue_step p b s o s' a : bstep s o = Some (s', a) -> has_peer p s = true -> stays p [o] -> queued p b s ->
  queued p b s' \/ exists m, a = Some (Notify p m) /\ In b (m_blocks m).
Proof.
  intros H HP HS Hq. pose proof (block_step p s o s' a H HP HS) as E.
  assert (Hi : In b (blocks_of (waiting p s) ++ ready_for p s ++ queued_for p [o])) by (apply in_or_app; destruct Hq; [auto|right; apply in_or_app; auto]).
  rewrite <- E in Hi. apply in_app_or in Hi as [Hi|Hi]; [right|left; apply in_app_or in Hi; exact Hi].
  destruct a as [[q|q m|v]|]; cbn [messages_to] in Hi; try (destruct Hi; fail). destruct (N.eqb_spec p q) as [<-|]; [|destruct Hi].
  exists m. split; [reflexivity|]. unfold blocks_of in Hi. cbn [map concat] in Hi. rewrite app_nil_r in Hi. exact Hi.
Qed.
(** A want that is received is reported, unless the node wants the block itself. *)
Lemma want_reported p m s s' c : received p m s = Some s' -> wants m c <> None -> mget cid_eqb c (b_wanted s) = None ->
  exists z, In (Report (ReceivedWant p c z)) (b_events s').
Proof.
  intros E Hw Hn. apply received_shape in E as (l & f & e & _ & -> & _ & _ & _ & _ & Ee). rewrite receive_blocks_events. cbn [b_events with_events].
  unfold wants in Hw. rewrite <- (unwanted_get (b_wanted s) c (m_want m) Hn) in Hw.
  destruct (mget cid_eqb c (filter (unwanted (b_wanted s)) (m_want m))) as [z|] eqn:Ez; [|congruence].
  exists z. apply in_or_app. left. apply in_or_app. right. rewrite Ee. apply in_or_app. right. apply in_map_iff. exists (c, z). split; [reflexivity|].
  apply (mget_in _ cid_eqb_spec). exact Ez.
Qed.
Lemma block_reported p m s s' b : received p m s = Some s' -> In b (m_blocks m) -> In (Report (ReceivedBlock p b)) (b_events s').
Proof.
  intros E Hb. apply received_shape in E as (l & f & e & _ & -> & _). rewrite receive_blocks_events. apply in_or_app. right. apply in_map_iff. eauto.
Qed.

(** * Blocks in the hands of bitswap *)
Section Kept.
  Variable P : block -> Prop.
  Definition msg_P (m : message) : Prop := Forall P (m_blocks m).
  Definition act_P (a : action) : Prop := match a with Notify _ m => msg_P m | Report (ReceivedBlock _ b) => P b | _ => True end.
  Record bs_P (s : bitswap) : Prop := {
    bp_events : Forall act_P (b_events s);
    bp_peers : Forall (fun pl : peer * ledger => msg_P (l_message (snd pl))) (b_peers s);
    bp_ready : Forall (fun pb : peer * block => P (snd pb)) (b_ready s) }.
  Definition op_P (o : op) : Prop := match o with OQueue _ b => P b | OReceived _ _ m => msg_P m | _ => True end.
  Lemma each_P f l : (forall x, msg_P (l_message x) -> msg_P (l_message (f x))) -> Forall (fun pl : peer * ledger => msg_P (l_message (snd pl))) l ->
    Forall (fun pl : peer * ledger => msg_P (l_message (snd pl))) (each_ledger f l).
  Proof. intros Hf H. unfold each_ledger. apply Forall_map. eapply Forall_impl; [|exact H]. intros [q x] Hx. apply Hf. exact Hx. Qed.
  Lemma at_P q f l : (forall x, msg_P (l_message x) -> msg_P (l_message (f x))) -> Forall (fun pl : peer * ledger => msg_P (l_message (snd pl))) l ->
    Forall (fun pl : peer * ledger => msg_P (l_message (snd pl))) (at_ledger q f l).
  Proof. intros Hf H. unfold at_ledger. apply Forall_map. eapply Forall_impl; [|exact H]. intros [r x] Hx. cbn [fst snd] in *. destruct (q =? r); cbn [snd]; auto. Qed.
  Lemma receive_blocks_P p bs : forall s, Forall P bs -> bs_P s -> bs_P (fold_left (receive_block p) bs s).
  Proof.
    induction bs as [|b bs IH]; intros s HB HS; [exact HS|]. inversion HB as [|? ? H1 H2]; subst. cbn [fold_left]. apply IH; [exact H2|].
    destruct HS as [K1 K2 K3]. split; try assumption.
    - unfold receive_block, push. cbn [b_events with_events cancel_block with_wanted with_peers]. apply Forall_app. split; [exact K1|]. repeat constructor. exact H1.
    - unfold receive_block, push. cbn [b_peers with_events cancel_block with_wanted with_peers]. apply each_P; [|exact K2]. intros x Hx. exact Hx.
  Qed.
  Lemma drained_P s : bs_P s -> bs_P (drained s).
  Proof.
    intros HS. unfold drained. assert (H : forall r s, Forall (fun pb : peer * block => P (snd pb)) r -> bs_P s -> bs_P (fold_left (fun s pb => send_block (fst pb) (snd pb) s) r s)).
    { clear. induction r as [|[q b] r IH]; intros s HR HS; [exact HS|]. inversion HR as [|? ? H1 H2]; subst. cbn [fold_left fst snd]. apply IH; [exact H2|].
      destruct HS as [K1 K2 K3]. split; try assumption. unfold send_block. cbn [b_peers with_peers]. apply at_P; [|exact K2]. intros x Hx.
      unfold msg_P in *. cbn [l_message with_message m_add_block m_blocks]. apply Forall_app. auto. }
    specialize (H (b_ready s) s (bp_ready _ HS) HS). destruct H as [K1 K2 K3]. split; try assumption. constructor.
  Qed.
  Lemma wantlist_P w : forall m, msg_P m -> msg_P (fold_left (fun m x => m_want_block (fst x) (snd x) m) w m).
  Proof. induction w as [|x w IH]; intros m Hm; [exact Hm|]. cbn [fold_left]. apply IH. exact Hm. Qed.
  Lemma P_step s o s' a : bstep s o = Some (s', a) -> op_P o -> bs_P s -> bs_P s' /\ match a with Some x => act_P x | None => True end.
  Proof.
    intros H HO HS. destruct o as [q|q b|c0 pr|c0|q k|q k|q k m|q k|order]; cbn [Bitswap.step op_P] in *.
    - injection H as <- <-. split; [|exact Logic.I]. unfold connect. destruct (existsb _ _); [exact HS|]. destruct HS as [K1 K2 K3]. split; try assumption.
      cbn [push b_events with_events with_targets]. apply Forall_app. split; [exact K1|]. repeat constructor.
    - injection H as <- <-. split; [|exact Logic.I]. destruct HS as [K1 K2 K3]. split; try assumption. cbn [b_ready with_ready]. apply Forall_app. split; [exact K3|]. repeat constructor; apply HO.
    - injection H as <- <-. split; [|exact Logic.I]. destruct HS as [K1 K2 K3]. split; try assumption; cbn [want_block b_peers b_wanted with_wanted with_peers].
      apply each_P; [|exact K2]. intros x Hx. exact Hx.
    - injection H as <- <-. split; [|exact Logic.I]. destruct HS as [K1 K2 K3]. split; try assumption; cbn [cancel_block b_peers b_wanted with_wanted with_peers].
      apply each_P; [|exact K2]. intros x Hx. exact Hx.
    - assert (s' = established q s /\ a = None) as [-> ->] by (split; congruence). split; [|exact Logic.I]. destruct HS as [K1 K2 K3].
      assert (HP : Forall (fun pl : peer * ledger => msg_P (l_message (snd pl))) (b_peers (established q s))).
      { rewrite established_peers. unfold mset. constructor; [constructor|]. apply Forall_forall. intros x Hx. unfold mdel in Hx. apply filter_In in Hx as [Hx _]. rewrite Forall_forall in K2. apply K2. exact Hx. }
      unfold established, send_want_list in *. cbn [b_wanted with_peers with_stats] in *. destruct (is_empty (b_wanted s)); split; try assumption.
      cbn [b_events push with_events with_peers with_stats]. apply Forall_app. split; [exact K1|]. constructor; [|constructor]. apply wantlist_P. constructor.
    - assert (s' = closed q s /\ a = None) as [-> ->] by (split; congruence). split; [|exact Logic.I]. destruct HS as [K1 K2 K3]. split; try assumption.
      unfold closed. cbn [b_peers with_peers]. apply Forall_forall. intros x Hx. unfold mdel in Hx. apply filter_In in Hx as [Hx _]. rewrite Forall_forall in K2. apply K2. exact Hx.
    - destruct (received q m s) as [s1|] eqn:E; [|discriminate]. injection H as <- <-. split; [|exact Logic.I]. apply received_shape in E as (l & f & e & Hl & -> & Hf & He & _).
      apply receive_blocks_P; [exact HO|]. destruct HS as [K1 K2 K3]. split; try assumption; cbn [b_events b_peers with_events with_peers].
      + apply Forall_app. split; [exact K1|]. apply Forall_forall. intros x Hx. destruct (He _ Hx) as [(c & ->)|(c & z & ->)]; exact Logic.I.
      + apply at_P; [|exact K2]. intros x Hx. rewrite (proj1 (Hf x)). exact Hx.
    - injection H as <- <-. split; [exact HS|exact Logic.I].
    - destruct (poll order s) as [s1 a1] eqn:E. injection H as <- <-. apply drained_P in HS. unfold poll in E. fold (drained s) in E. destruct (b_events (drained s)) as [|x r] eqn:Ee.
      + destruct (poll_peers_shape order (drained s)) as [[E1 _]|(q & l & sent & st & _ & H2 & _ & E1 & _)]; rewrite E1 in E; pose proof (f_equal snd E) as Ea; apply (f_equal fst) in E; cbn [fst snd] in *; subst s1 a1; [auto|].
        destruct HS as [K1 K2 K3]. split; [split; try assumption; cbn [b_peers with_stats with_peers]; apply at_P; [|exact K2]; intros; constructor|].
        cbn [act_P]. unfold get_peer in H2. apply (mget_in _ N.eqb_spec) in H2. rewrite Forall_forall in K2. apply (K2 _ H2).
      + pose proof (f_equal snd E) as Ea; apply (f_equal fst) in E; cbn [fst snd] in *; subst s1 a1. destruct HS as [K1 K2 K3]. rewrite Ee in K1. inversion K1 as [|? ? Kx Kr]; subst.
        split; [split; assumption|exact Kx].
  Qed.
  Lemma bs_P0 : bs_P bitswap0.
  Proof. split; constructor. Qed.
End Kept.

(** * The keys of the registry *)
Section Keys.
  Context {K V : Type}.
  Variable keqb : K -> K -> bool.
  Hypothesis keqb_spec : forall a b, reflect (a = b) (keqb a b).
  Variable Q : K -> Prop.
  Definition keys_ok (s : @Subs.state K V) : Prop :=
    Forall (fun x => Q (fst x)) (tab s) /\ Forall (fun x => Q (fst (fst (snd x)))) (creating s) /\
    Forall (fun x => Q (fst (snd x))) (futs s) /\ Forall (fun x => Q (fst (fst (fst (snd x))))) (dropping s).
  Lemma get_Q {A B} (eqb : A -> A -> bool) (R : A * B -> Prop) (l : list (A * B)) : Forall R l -> forall k v, mget eqb k l = Some v -> exists k', R (k', v).
  Proof.
    intros H k v. induction H as [|[k1 v1] l Hx _ IH]; [discriminate|]. cbn [mget]. destruct (eqb k k1); [|exact IH]. intros [= ->]. eauto.
  Qed.
  Lemma get_Q2 {A B} (eqb : A -> A -> bool) (R : B -> Prop) (l : list (A * B)) : Forall (fun x => R (snd x)) l -> forall k v, mget eqb k l = Some v -> R v.
  Proof. intros H k v E. destruct (get_Q eqb _ l H k v E) as [k' Hk]. exact Hk. Qed.
  Lemma del_Q {A B} (eqb : A -> A -> bool) (R : A * B -> Prop) (l : list (A * B)) k : Forall R l -> Forall R (mdel eqb k l).
  Proof. intros H. unfold mdel. apply Forall_forall. intros x Hx. apply filter_In in Hx as [Hx _]. rewrite Forall_forall in H. apply H. exact Hx. Qed.
  Lemma set_Q {A B} (eqb : A -> A -> bool) (R : A * B -> Prop) (l : list (A * B)) k v : R (k, v) -> Forall R l -> Forall R (mset eqb k v l).
  Proof. intros Hk H. constructor; [exact Hk|]. apply del_Q. exact H. Qed.
  Lemma keys_step debug s (a : act K V) : keys_ok s -> match a with Begin k _ => Q k | _ => True end ->
    keys_ok (fst (Subs.step keqb debug s a)) /\ Forall Q (unwants (snd (Subs.step keqb debug s a))).
  Proof.
    intros (H1 & H2 & H3 & H4) Ha. destruct a as [k n|i|i w|k v|i|i| |]; cbn [Subs.step].
    - split; [repeat split; try assumption; constructor; assumption|]. cbn [snd unwants]. destruct (flag s); [|constructor]. cbn. destruct n; repeat constructor; exact Ha.
    - destruct (mget ieqb i (creating s)) as [[[k n] late]|] eqn:E; [|repeat split; try assumption; constructor].
      pose proof (get_Q2 ieqb (fun v => Q (fst (fst v))) _ H2 _ _ E) as Hk. cbn in Hk. split; [|constructor]. repeat split; cbn; try assumption.
      + apply set_Q; assumption.
      + apply del_Q. exact H2.
      + apply set_Q; assumption.
    - destruct (mget ieqb i (futs s)) as [[k cl]|] eqn:E; [|repeat split; try assumption; constructor].
      pose proof (get_Q2 ieqb (fun v => Q (fst v)) _ H3 _ _ E) as Hk. cbn in Hk. destruct (mget keqb k (tab s)) as [m|] eqn:Em; [|repeat split; try assumption; constructor].
      destruct (mget ieqb i m) as [[v|w' n|]|]; [| | |repeat split; try assumption; constructor]; (split; [|constructor]); repeat split; cbn; try assumption.
      + destruct (mdel ieqb i m); [apply del_Q|apply set_Q]; assumption.
      + apply set_Q; assumption.
      + apply set_Q; assumption.
      + destruct (mdel ieqb i m); [apply del_Q|apply set_Q]; assumption.
      + apply set_Q; assumption.
    - destruct (mget keqb k (tab s)) as [m|] eqn:Em; [|repeat split; try assumption; constructor]. split; [|constructor]. repeat split; cbn; try assumption.
      apply set_Q; [|exact H1]. cbn. apply (mget_in _ keqb_spec) in Em. rewrite Forall_forall in H1. apply (H1 _ Em).
    - destruct (mget ieqb i (futs s)) as [[k cl]|] eqn:E; [|repeat split; try assumption; constructor].
      pose proof (get_Q2 ieqb (fun v => Q (fst v)) _ H3 _ _ E) as Hk. cbn in Hk. destruct cl; [split; [|constructor]; repeat split; cbn; try assumption; apply del_Q; exact H3|].
      destruct (mget keqb k (tab s)) as [m|] eqn:Em; (split; [|constructor]); repeat split; cbn; try assumption; try (apply del_Q; exact H3).
      + destruct (mdel ieqb i m); [apply del_Q|apply set_Q]; assumption.
      + destruct (mget ieqb i m) as [[v|w' n|]|]; try assumption. constructor; assumption.
    - destruct (mget ieqb i (dropping s)) as [[[[k n] w] last]|] eqn:E; [|repeat split; try assumption; constructor].
      pose proof (get_Q2 ieqb (fun v => Q (fst (fst (fst v)))) _ H4 _ _ E) as Hk. cbn in Hk. split.
      + repeat split; cbn; try assumption. apply del_Q. exact H4.
      + cbn. destruct (last && n); repeat constructor; exact Hk.
    - split; [|constructor]. repeat split; assumption.
    - destruct (flag s && negb (took s)); [|repeat split; try assumption; constructor]. split; [repeat split; try assumption; constructor|].
      cbn [snd unwants]. apply Forall_forall. intros k Hk. apply in_flat_map in Hk as (x & Hx & Hk). apply in_flat_map in Hx as ([k1 m] & Hm & Hx).
      apply in_map_iff in Hx as ([i sb] & <- & Hi). cbn [fst snd] in Hk. rewrite Forall_forall in H1. pose proof (H1 _ Hm) as Hq. cbn in Hq.
      destruct sb as [v|w n|]; cbn in Hk; try (destruct Hk; fail). destruct n; [destruct Hk as [<-|[]]; exact Hq|destruct Hk].
  Qed.
  Definition past_ok (p : list (act K V)) : Prop := Forall (fun a => match a with Begin k _ => Q k | _ => True end) p.
  Lemma keys_run debug p : past_ok p -> keys_ok (Subs.run keqb debug p).
  Proof.
    induction 1 as [|a p Ha _ IH]; [repeat split; constructor|]. cbn [Subs.run]. apply keys_step; assumption.
  Qed.
  Lemma unwants_ok debug p (a : act K V) : past_ok p -> match a with Begin k _ => Q k | _ => True end -> Forall Q (unwants (effect_of keqb debug p a)).
  Proof. intros Hp Ha. unfold effect_of. apply keys_step; [apply keys_run; exact Hp|exact Ha]. Qed.
End Keys.

(** * The repo of a node *)
Section Repo.
  Variable debug : bool.
  Variable Q : cid -> Prop.
  Definition get_Qd (x : getst) : Prop := match x with Missing c | Starting c _ | Subscribed c _ => Q c | _ => True end.
  Definition repo_Q (s : gp) : Prop := Forall get_Qd (gets s) /\ past_ok Q (past s).
  Lemma set_nth_Q {A} (R : A -> Prop) n a (l : list A) : R a -> Forall R l -> Forall R (set_nth n a l).
  Proof. intros Ha H. revert n. induction H as [|x l Hx Hl IH]; intros [|n]; cbn; constructor; auto. Qed.
  Lemma nth_Q {A} (R : A -> Prop) n a (l : list A) : Forall R l -> nth_error l n = Some a -> R a.
  Proof. intros H E. apply nth_error_In in E. rewrite Forall_forall in H. auto. Qed.
  Lemma repo_Q_step s a : repo_Q s -> match a with Look c => Q c | _ => True end -> repo_Q (fst (gstep debug s a)).
  Proof.
    intros [H1 H2] Ha. destruct a as [c|g|g|g w|g|g|b|t|c| |]; cbn [gstep]; try (split; assumption).
    - unfold mem_get. destruct (mget repo_cid_eqb c (store s)); (split; [|exact H2]); cbn [fst gets]; apply Forall_app; split; try assumption; repeat constructor. exact Ha.
    - destruct (nth_error (gets s) g) as [[c| | | |]|] eqn:Eg; try (split; assumption). pose proof (nth_Q _ _ _ _ H1 Eg) as Hc. cbn in Hc.
      rewrite begin_ans. split; cbn [fst gets past]; [apply set_nth_Q; assumption|constructor; assumption].
    - destruct (nth_error (gets s) g) as [[|c i| | |]|] eqn:Eg; try (split; assumption). pose proof (nth_Q _ _ _ _ H1 Eg) as Hc. cbn in Hc.
      split; cbn [fst gets past]; [apply set_nth_Q; assumption|constructor; [exact Logic.I|assumption]].
    - destruct (nth_error (gets s) g) as [[| |c i| |]|] eqn:Eg; try (split; assumption). cbn zeta.
      destruct (ans _) as [| | |[]| |]; split; cbn [fst gets past]; try (constructor; [exact Logic.I|assumption]); try assumption; apply set_nth_Q; try assumption; exact Logic.I.
    - destruct (nth_error (gets s) g) as [[| |c i| |]|] eqn:Eg; try (split; assumption).
      split; cbn [fst gets past]; [apply set_nth_Q; [exact Logic.I|assumption]|constructor; [exact Logic.I|assumption]].
    - destruct (nth_error (gets s) g) as [[| | | |i]|] eqn:Eg; try (split; assumption). split; cbn [fst gets past]; [assumption|constructor; [exact Logic.I|assumption]].
    - unfold mem_put. destruct (mget repo_cid_eqb _ (store s)); split; assumption.
    - destruct (nth_error (puts s) t) as [[b [|]|]|]; try (split; assumption). split; cbn [fst gets past]; [assumption|constructor; [exact Logic.I|assumption]].
    - split; cbn [fst gets past]; [assumption|constructor; [exact Logic.I|assumption]].
    - split; cbn [fst gets past]; [assumption|constructor; [exact Logic.I|assumption]].
  Qed.
  Lemma repo_Q_run h : Forall (fun a => match a with Look c => Q c | _ => True end) h -> repo_Q (grun debug h).
  Proof.
    induction h as [|a h IH] using rev_ind; intros H; [split; constructor|]. apply Forall_app in H as [H Ha]. inversion Ha; subst. rewrite grun_snoc. apply repo_Q_step; auto.
  Qed.
  Lemma notices_Q s a : repo_Q s -> Forall Q (notices debug s a).
  Proof.
    intros [H1 H2]. destruct a as [c|g|g|g w|g|g|b|t|c| |]; cbn [notices]; try constructor.
    - destruct (nth_error (gets s) g) as [[c| | | |]|] eqn:Eg; try constructor. apply (unwants_ok _ cid_eqb_spec); [exact H2|]. exact (nth_Q _ _ _ _ H1 Eg).
    - destruct (nth_error (gets s) g) as [[| | | |i]|] eqn:Eg; try constructor. apply (unwants_ok _ cid_eqb_spec); [exact H2|exact Logic.I].
    - apply (unwants_ok _ cid_eqb_spec); [exact H2|exact Logic.I].
  Qed.
End Repo.

(** * All nodes *)
Lemma in_without {A} i (l : list A) x : In x (without i l) -> In x l.
Proof. unfold without. rewrite <- (firstn_skipn i l) at 3. rewrite !in_app_iff. intros [H|H]; [auto|]. right. revert H. destruct (skipn i l) eqn:E.
  - assert (skipn (S i) l = []) as ->; [|auto]. revert l E. induction i as [|i IH]; intros [|y l]; cbn; try discriminate; auto. intros E. apply (IH l). exact E.
  - assert (skipn (S i) l = l0) as ->; [|right; assumption]. revert l E. induction i as [|i IH]; intros [|y l]; cbn; try discriminate; [congruence|]. intros E. apply (IH l). exact E.
Qed.
Lemma without_other {A} i (l : list A) x : In x l -> nth_error l i = Some x \/ In x (without i l).
Proof.
  unfold without. revert i. induction l as [|y l IH]; intros i; [intros []|]. intros [->|H]; destruct i as [|i]; cbn; auto.
  destruct (IH i H) as [E|E]; auto.
Qed.
Lemma set_same n x w : w_node (set_node n x w) n = x.
Proof. cbn. rewrite N.eqb_refl. reflexivity. Qed.
Lemma set_other n x w m : m <> n -> w_node (set_node n x w) m = w_node w m.
Proof. intros H. cbn. destruct (N.eqb_spec m n); congruence. Qed.

Section World.
  Variable hasher : N -> option (bytes -> bytes).
  Variable debug : bool.
  Variable Q : cid -> Prop.
  Variable P : block -> Prop.
  Variable B : bitswap -> Prop.
  Variable H : message -> Prop.
  Hypothesis P_Q : forall b, P b -> Q (b_cid b).
  Hypothesis B0 : B bitswap0.
  Definition op_Q (o : op) : Prop := match o with OWant c z => Q c /\ is_i32 z | OCancel c => Q c | _ => True end.
  Hypothesis B_step : forall s o s' a, bstep s o = Some (s', a) -> op_Q o -> op_P P o -> B s -> B s' /\ match a with Some (Notify _ m) => H m | _ => True end.
  Hypothesis send_ok : forall m m', H m -> msg_P P m -> blen (to_bytes m) < u64_max1 -> upgrade_inbound hasher (upgrade_outbound m) = Some m' -> msg_P P m'.

  Definition gok (a : gact) : Prop := match a with StorePut b => P (from_repo b) | Look c => Q c | _ => True end.
  Definition event_ok (e : repo_event) : Prop := match e with EWant c | EUnwant c | ENew c => Q c end.
  Definition task_ok (t : task) : Prop := match t with TStore b => P b | TServe _ _ => True | TAnnounce c => Q c end.
  Record node_ok (x : node) : Prop := {
    k_bs : bs_P P (n_bs x); k_B : B (n_bs x);
    k_repo : exists hg, n_repo x = grun debug hg /\ Forall gok hg;
    k_chan : Forall event_ok (n_chan x); k_tasks : Forall task_ok (n_tasks x) }.
  Definition flying (s : bytes) : Prop := exists m, s = upgrade_outbound m /\ H m /\ msg_P P m /\ blen (to_bytes m) < u64_max1.
  Definition world_ok (w : world) : Prop := (forall n, node_ok (w_node w n)) /\ Forall (fun x => flying (snd x)) (w_net w).
  Definition op_fine (o : wop) : Prop :=
    match o with
    | WRepo _ a => gok a
    | WForge _ _ bs => forall m, upgrade_inbound hasher bs = Some m -> msg_P P m
    | _ => True
    end.
  Lemma look_fine hg : Forall gok hg -> Forall (fun a => match a with Look c => Q c | _ => True end) hg.
  Proof. intros HF. eapply Forall_impl; [|exact HF]. intros []; cbn; auto. Qed.
  Lemma stored_P x c b : node_ok x -> mget repo_cid_eqb c (store (n_repo x)) = Some b -> P (from_repo b).
  Proof.
    intros [_ _ (hg & -> & HF) _ _] E. destruct (found_hash debug hg c b E) as [_ Hi]. rewrite Forall_forall in HF. apply (HF _ Hi).
  Qed.
  Lemma step_bs x o s' a : node_ok x -> bstep (n_bs x) o = Some (s', a) -> op_Q o -> op_P P o ->
    node_ok (with_bs s' x) /\ match a with Some y => act_P P y | None => True end /\ match a with Some (Notify _ m) => H m | _ => True end.
  Proof.
    intros [K1 K2 K3 K4 K5] E HQ HP. destruct (P_step P _ _ _ _ E HP K1) as [L1 L2]. destruct (B_step _ _ _ _ E HQ HP K2) as [L3 L4].
    split; [|auto]. split; assumption.
  Qed.
  Lemma hear_ok x p s : node_ok x -> (forall m, upgrade_inbound hasher s = Some m -> msg_P P m) -> node_ok (node_hear hasher x p s).
  Proof.
    intros Hx Hs. unfold node_hear. destruct (upgrade_inbound hasher s) as [m|]; [|exact Hx]. destruct (received p m (n_bs x)) as [s'|] eqn:E; [|exact Hx].
    apply (step_bs x (OReceived p 0 m) s' None Hx); cbn [Bitswap.step op_Q op_P]; [rewrite E; reflexivity|exact Logic.I|apply Hs; reflexivity].
  Qed.
  Lemma set_ok n x w : world_ok w -> node_ok x -> world_ok (set_node n x w).
  Proof. intros [H1 H2] Hx. split; [|exact H2]. intros m. cbn. destruct (m =? n); auto. Qed.
  Lemma flying_read s m : flying s -> upgrade_inbound hasher s = Some m -> msg_P P m.
  Proof. intros (m0 & -> & H1 & H2 & H3) E. eapply send_ok; eassumption. Qed.
  Lemma repo_step_ok hg x a : n_repo x = grun debug hg -> Forall gok hg -> gok a -> exists hg', fst (gstep debug (n_repo x) a) = grun debug hg' /\ Forall gok hg'.
  Proof. intros -> HF Ha. exists (hg ++ [a]). rewrite grun_snoc. split; [reflexivity|]. apply Forall_app. auto. Qed.
  Lemma world_step w o : world_ok w -> op_fine o -> world_ok (fst (wstep hasher debug w o)).
  Proof.
    intros HW Ho. destruct HW as [HN HF]. assert (HW : world_ok w) by (split; assumption).
    destruct o as [n a|n g|n|n i|n order|n p|n p|i|i|n p bs]; cbn [wstep op_fine] in *.
    - destruct (node_repo debug (w_node w n) a) as [x o] eqn:E. cbn [fst]. apply set_ok; [exact HW|]. unfold node_repo in E.
      destruct (match a with PollG g _ => negb (existsb (Nat.eqb g) (n_asked (w_node w n))) | _ => false end); [injection E as <- <-; apply HN|].
      destruct (gstep debug (n_repo (w_node w n)) a) as [r o'] eqn:Eg. injection E as <- <-. destruct (HN n) as [K1 K2 (hg & Er & Hg) K4 K5].
      split; cbn [n_bs n_repo n_chan n_tasks]; try assumption.
      + destruct (repo_step_ok hg _ a Er Hg Ho) as (hg' & E & Hg'). rewrite Eg in E. eauto.
      + apply Forall_app. split; [exact K4|]. apply Forall_map. eapply Forall_impl; [|apply (notices_Q debug Q)]; [intros; assumption|].
        rewrite Er. apply repo_Q_run. apply look_fine. exact Hg.
      + apply Forall_app. split; [exact K5|]. destruct a; cbn [announces]; try constructor. destruct (nth_error (puts (n_repo (w_node w n))) t) as [[b [|]|]|] eqn:Et; repeat constructor.
        cbn [task_ok]. rewrite Er in Et. apply (g_puts _ _ (grun_gi debug hg)) in Et. rewrite Forall_forall in Hg. exact (P_Q _ (Hg _ Et)).
    - cbn [fst]. apply set_ok; [exact HW|]. unfold node_ask. destruct (nth_error (gets (n_repo (w_node w n))) g) as [[| |c i| |]|] eqn:E; try apply HN.
      destruct (existsb _ _); [apply HN|]. destruct (HN n) as [K1 K2 (hg & Er & Hg) K4 K5]. split; cbn [n_bs n_repo n_chan n_tasks with_chan with_asked]; eauto.
      apply Forall_app. split; [exact K4|]. repeat constructor. cbn. destruct (repo_Q_run debug Q hg (look_fine _ Hg)) as [HG _]. rewrite <- Er in HG. exact (nth_Q _ _ _ _ HG E).
    - cbn [fst]. apply set_ok; [exact HW|]. unfold node_back. destruct (n_chan (w_node w n)) as [|e r] eqn:Ec; [apply HN|].
      pose proof (HN n) as Hn. pose proof (k_chan _ Hn) as Hc. rewrite Ec in Hc. inversion Hc as [|? ? He Hr]; subst.
      assert (G : forall s', node_ok (with_bs s' (w_node w n)) -> node_ok (with_chan r (with_bs s' (w_node w n)))) by (intros s' [J1 J2 J3 J4 J5]; split; assumption).
      destruct e as [c|c|c]; apply G.
      + apply (step_bs _ (OWant c 1) _ None Hn); [reflexivity| |exact Logic.I]. split; [exact He|]. unfold is_i32. lia.
      + apply (step_bs _ (OCancel c) _ None Hn); [reflexivity| |exact Logic.I]. exact He.
      + apply (step_bs _ (OCancel c) _ None Hn); [reflexivity| |exact Logic.I]. exact He.
    - cbn [fst]. apply set_ok; [exact HW|]. unfold node_task. destruct (nth_error (n_tasks (w_node w n)) i) as [t|] eqn:Et; [|apply HN]. cbn zeta.
      pose proof (nth_Q _ _ _ _ (k_tasks _ (HN n)) Et) as Ht.
      assert (Hn : node_ok (with_tasks (without i (n_tasks (w_node w n))) (w_node w n))).
      { destruct (HN n) as [J1 J2 J3 J4 J5]. split; try assumption. cbn [n_tasks with_tasks]. apply Forall_forall. intros y Hy. apply in_without in Hy. rewrite Forall_forall in J5. auto. }
      set (x := with_tasks (without i (n_tasks (w_node w n))) (w_node w n)) in *. clearbody x. destruct t as [b|p c|c].
      + destruct Hn as [J1 J2 (hg & Er & Hg) J4 J5]. split; try assumption. cbn [n_repo with_repo]. apply (repo_step_ok hg x); try assumption. cbn [gok]. destruct b. exact Ht.
      + unfold mem_get. destruct (mget repo_cid_eqb c (store (n_repo x))) as [b|] eqn:E; [|exact Hn].
        apply (step_bs _ (OQueue p (from_repo b)) _ None Hn); [reflexivity|exact Logic.I|]. cbn [op_P]. eapply stored_P; eassumption.
      + destruct Hn as [J1 J2 J3 J4 J5]. split; try assumption. cbn [n_chan with_chan]. apply Forall_app. split; [exact J4|]. repeat constructor. exact Ht.
    - destruct (node_poll n (w_node w n) order) as [x l] eqn:E. cbn [fst]. unfold node_poll in E. destruct (poll order (n_bs (w_node w n))) as [b a] eqn:Ep.
      destruct (step_bs (w_node w n) (OPoll order) b a (HN n)) as (Hn & Ha & Hm); [cbn [Bitswap.step]; rewrite Ep; reflexivity|exact Logic.I|exact Logic.I|].
      assert (G : node_ok x /\ Forall (fun y => flying (snd y)) l).
      { destruct a as [[p|p m|[p k|p c z|p c]]|]; injection E as <- <-; try (split; [exact Hn|constructor]).
        - split; [exact Hn|]. destruct (get_peer p b); [|constructor]. destruct (blen (to_bytes m) <? u64_max1) eqn:El; [|constructor]. apply N.ltb_lt in El.
          repeat constructor. exists m. auto.
        - split; [|constructor]. destruct Hn as [J1 J2 J3 J4 J5]. split; try assumption. cbn [n_tasks with_tasks]. apply Forall_app. split; [exact J5|]. repeat constructor. exact Ha.
        - split; [|constructor]. destruct Hn as [J1 J2 J3 J4 J5]. split; try assumption. cbn [n_tasks with_tasks]. apply Forall_app. split; [exact J5|]. repeat constructor. }
      destruct G as [G1 G2]. apply set_ok; [|exact G1]. split; [exact HN|]. cbn [w_net]. apply Forall_app. auto.
    - cbn [fst]. apply set_ok; [exact HW|]. apply (step_bs _ (OEstablished p 0) _ None (HN n)); [reflexivity|exact Logic.I|exact Logic.I].
    - cbn [fst]. apply set_ok; [exact HW|]. apply (step_bs _ (OClosed p 0) _ None (HN n)); [reflexivity|exact Logic.I|exact Logic.I].
    - destruct (nth_error (w_net w) i) as [[[p n] s]|] eqn:E; [|exact HW]. destruct (is_up w n p); [|exact HW]. cbn [fst]. pose proof (nth_Q _ _ _ _ HF E) as Hs. cbn [snd] in Hs.
      apply set_ok; [|apply hear_ok; [apply HN|intros m Em; eapply flying_read; eassumption]].
      split; [exact HN|]. cbn [w_net]. apply Forall_forall. intros y Hy. apply in_without in Hy. rewrite Forall_forall in HF. auto.
    - cbn [fst]. split; [exact HN|]. cbn [w_net]. apply Forall_forall. intros y Hy. apply in_without in Hy. rewrite Forall_forall in HF. auto.
    - destruct (is_up w n p); [|exact HW]. cbn [fst]. apply set_ok; [exact HW|]. apply hear_ok; [apply HN|exact Ho].
  Qed.
  Lemma wrun_snoc h o : wrun hasher debug (h ++ [o]) = fst (wstep hasher debug (wrun hasher debug h) o).
  Proof. unfold wrun. rewrite fold_left_app. reflexivity. Qed.
  Lemma world_run h : Forall op_fine h -> world_ok (wrun hasher debug h).
  Proof.
    induction h as [|o h IH] using rev_ind; intros HF.
    - split; [|constructor]. intros n. split; cbn; try constructor; try (constructor; fail); auto. exists []. split; [reflexivity|constructor].
    - apply Forall_app in HF as [HF Ho]. inversion Ho; subst. rewrite wrun_snoc. apply world_step; auto.
  Qed.
End World.
