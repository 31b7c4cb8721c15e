(** Lemmas about [Bitswap]. *)
From Coq Require Import Permutation.
From Verif Require Import Base Wire Cid FMap BitswapMsg BitswapMsgSpec BitswapMsgProofs Bitswap BitswapSpec.
Local Open Scope N_scope.

(** * Maps of ledgers *)
Lemma get_each f p l : mget N.eqb p (each_ledger f l) = option_map f (mget N.eqb p l).
Proof. induction l as [|[q x] l IH]; cbn; [reflexivity|]. destruct (p =? q); [reflexivity|exact IH]. Qed.
Lemma get_at q f p l : mget N.eqb p (at_ledger q f l) = if p =? q then option_map f (mget N.eqb p l) else mget N.eqb p l.
Proof.
  induction l as [|[r x] l IH]; cbn [at_ledger map mget fst snd]; [destruct (p =? q); reflexivity|].
  destruct (N.eqb_spec q r) as [->|Hq]; cbn [mget fst snd]; destruct (N.eqb_spec p r) as [->|Hp]; try exact IH.
  - reflexivity.
  - destruct (N.eqb_spec r q); [congruence|reflexivity].
Qed.
Lemma keys_each f l : map fst (each_ledger f l) = map fst l.
Proof. unfold each_ledger. rewrite map_map. reflexivity. Qed.
Lemma keys_at q f l : map fst (at_ledger q f l) = map fst l.
Proof. unfold at_ledger. rewrite map_map. apply map_ext. intros [r x]. cbn. destruct (q =? r); reflexivity. Qed.

(** * Histories *)
Lemma run_app s h1 h2 : run s (h1 ++ h2) =
  match run s h1 with
  | Some (s1, t1) => match run s1 h2 with Some (s2, t2) => Some (s2, t1 ++ t2) | None => None end
  | None => None
  end.
Proof.
  revert s. induction h1 as [|o h1 IH]; intros s; cbn [app run]; [destruct (run s h2) as [[? ?]|]; reflexivity|].
  destruct (step s o) as [[s' a]|]; [|reflexivity]. rewrite IH. destruct (run s' h1) as [[s1 t1]|]; [|reflexivity].
  destruct (run s1 h2) as [[s2 t2]|]; reflexivity.
Qed.
Lemma run_snoc s h o s' t : run s (h ++ [o]) = Some (s', t) ->
  exists s1 t1 a, run s h = Some (s1, t1) /\ step s1 o = Some (s', a) /\ t = t1 ++ [(o, a)].
Proof.
  rewrite run_app. destruct (run s h) as [[s1 t1]|]; [|discriminate]. cbn [run].
  destruct (step s1 o) as [[s2 a]|] eqn:E; [|discriminate]. intros [= <- <-]. eauto 6.
Qed.

Lemma messages_app p a b : messages_to p (a ++ b) = messages_to p a ++ messages_to p b.
Proof. induction a as [|x a IH]; cbn; [reflexivity|]. destruct x; try exact IH. destruct (p =? p0); cbn; rewrite IH; reflexivity. Qed.
Lemma handed_app p t1 t2 acc : handed_out p acc (t1 ++ t2) = handed_out p (handed_out p acc t1) t2.
Proof. revert acc. induction t1 as [|[o a] t1 IH]; intros acc; cbn; [reflexivity|]. destruct o, a; apply IH. Qed.

(** * What a peer believes *)
Definition belief (s : bitswap) (acc : list message) (p : peer) (c : cid) : option Z :=
  believes (acc ++ waiting p s) c.
Definition agrees (s : bitswap) (acc : peer -> list message) : Prop :=
  forall p l, get_peer p s = Some l -> forall c, belief s (acc p) p c = mget cid_eqb c (b_wanted s).

Lemma believes_app a b c : believes (a ++ b) c = fold_left (believes_step c) b (believes a c).
Proof. unfold believes. apply fold_left_app. Qed.
Lemma belief_eq s acc p l c : get_peer p s = Some l ->
  belief s acc p c = believes_step c (believes (acc ++ messages_to p (b_events s)) c) (l_message l).
Proof. intros H. unfold belief, waiting. rewrite H, app_assoc, believes_app. reflexivity. Qed.

Lemma existsb_cid c l : existsb (cid_eqb c) l = true <-> In c l.
Proof.
  rewrite existsb_exists. split; [intros (x & H & E); destruct (cid_eqb_spec c x); [subst; exact H|discriminate]|].
  intros H. exists c. split; [exact H|]. destruct (cid_eqb_spec c c); congruence.
Qed.
Lemma step_want c x c0 pr m : believes_step c x (m_want_block c0 pr m) = if cid_eqb c c0 then Some pr else believes_step c x m.
Proof.
  unfold believes_step, wants, m_want_block. cbn [m_want m_cancel]. rewrite (mget_mset _ cid_eqb_spec).
  destruct (cid_eqb c c0); reflexivity.
Qed.
Lemma step_cancel c x c0 m : wants m c0 = None -> believes_step c x (m_cancel_block c0 m) = if cid_eqb c c0 then None else believes_step c x m.
Proof.
  intros H. unfold believes_step, m_cancel_block. unfold wants in *. cbn [m_want m_cancel].
  destruct (cid_eqb_spec c c0) as [->|Hn].
  - rewrite H. assert (existsb (cid_eqb c0) (set_insert c0 (m_cancel m)) = true) as -> by (apply existsb_cid, in_set_insert; auto). reflexivity.
  - destruct (mget cid_eqb c (m_want m)); [reflexivity|].
    destruct (existsb (cid_eqb c) (m_cancel m)) eqn:E.
    + apply existsb_cid in E. assert (existsb (cid_eqb c) (set_insert c0 (m_cancel m)) = true) as -> by (apply existsb_cid, in_set_insert; auto). reflexivity.
    + destruct (existsb (cid_eqb c) (set_insert c0 (m_cancel m))) eqn:E2; [|reflexivity].
      apply existsb_cid, in_set_insert in E2 as [E2|E2]; [congruence|]. apply existsb_cid in E2. congruence.
Qed.
Lemma step_add_block c x b m : believes_step c x (m_add_block b m) = believes_step c x m.
Proof. reflexivity. Qed.
Lemma step_empty c x : believes_step c x message0 = x.
Proof. reflexivity. Qed.
Lemma wantlist_message w c : NoDup (mkeys w) ->
  wants (fold_left (fun m x => m_want_block (fst x) (snd x) m) w message0) c = mget cid_eqb c w.
Proof.
  assert (H : forall m, NoDup (mkeys w) -> wants (fold_left (fun m x => m_want_block (fst x) (snd x) m) w m) c
     = match mget cid_eqb c w with Some p => Some p | None => wants m c end).
  { induction w as [|[c0 p0] w IH]; intros m HN; [reflexivity|]. inversion HN as [|? ? Hx HN']; subst. cbn [fold_left fst snd mget].
    rewrite IH by exact HN'. unfold wants at 1, m_want_block. cbn [m_want]. rewrite (mget_mset _ cid_eqb_spec).
    destruct (cid_eqb_spec c c0) as [->|]; [|reflexivity]. assert (mget cid_eqb c0 w = None) as -> by (apply (mget_none _ cid_eqb_spec); exact Hx). reflexivity. }
  intros HN. rewrite H by exact HN. destruct (mget cid_eqb c w); reflexivity.
Qed.
Lemma wantlist_message_cancel w : m_cancel (fold_left (fun m x => m_want_block (fst x) (snd x) m) w message0) = [].
Proof.
  assert (H : forall m, m_cancel (fold_left (fun m x => m_want_block (fst x) (snd x) m) w m) = m_cancel m) by (induction w as [|x w IH]; intros m; cbn; [|rewrite IH]; reflexivity).
  apply H.
Qed.
Lemma wantlist_message_blocks w : m_blocks (fold_left (fun m x => m_want_block (fst x) (snd x) m) w message0) = [].
Proof.
  assert (H : forall m, m_blocks (fold_left (fun m x => m_want_block (fst x) (snd x) m) w m) = m_blocks m) by (induction w as [|x w IH]; intros m; cbn; [|rewrite IH]; reflexivity).
  apply H.
Qed.

(** ** The operations *)
Lemma want_agrees c0 pr s acc : agrees s acc -> agrees (want_block c0 pr s) acc.
Proof.
  intros A p l Hp c. unfold want_block, get_peer in Hp. cbn [b_peers with_wanted with_peers] in Hp. rewrite get_each in Hp.
  destruct (mget N.eqb p (b_peers s)) as [l0|] eqn:E; [|discriminate]. injection Hp as <-.
  erewrite belief_eq by (unfold want_block, get_peer; cbn [b_peers with_wanted with_peers]; rewrite get_each, E; reflexivity).
  cbn [l_message with_message b_wanted b_events want_block with_wanted with_peers]. rewrite step_want, (mget_mset _ cid_eqb_spec).
  destruct (cid_eqb c c0); [reflexivity|]. specialize (A p l0 E c). rewrite (belief_eq _ _ _ _ _ E) in A. exact A.
Qed.
Lemma cancel_agrees c0 s acc : agrees s acc -> (forall p l, In (p, l) (b_peers s) -> wants (l_message l) c0 = None) -> agrees (cancel_block c0 s) acc.
Proof.
  intros A HC p l Hp c. unfold cancel_block, get_peer in Hp. cbn [b_peers with_wanted with_peers] in Hp. rewrite get_each in Hp.
  destruct (mget N.eqb p (b_peers s)) as [l0|] eqn:E; [|discriminate]. injection Hp as <-.
  erewrite belief_eq by (unfold cancel_block, get_peer; cbn [b_peers with_wanted with_peers]; rewrite get_each, E; reflexivity).
  cbn [l_message with_message b_wanted b_events cancel_block with_wanted with_peers].
  rewrite step_cancel by (eapply HC; eapply (mget_in _ N.eqb_spec); exact E). rewrite (mget_mdel _ cid_eqb_spec).
  destruct (cid_eqb c c0); [reflexivity|]. specialize (A p l0 E c). rewrite (belief_eq _ _ _ _ _ E) in A. exact A.
Qed.
Lemma agrees_transfer s s' acc : agrees s acc -> b_wanted s' = b_wanted s ->
  (forall p, messages_to p (b_events s') = messages_to p (b_events s)) ->
  (forall p l', get_peer p s' = Some l' -> exists l, get_peer p s = Some l /\ forall c x, believes_step c x (l_message l') = believes_step c x (l_message l)) ->
  agrees s' acc.
Proof.
  intros A HW HE HP p l' Hp c. destruct (HP p l' Hp) as (l & Hl & HS).
  rewrite (belief_eq _ _ _ _ _ Hp), HE, HS, HW. specialize (A p l Hl c). rewrite (belief_eq _ _ _ _ _ Hl) in A. exact A.
Qed.
Lemma push_agrees a s acc : (forall p m, a <> Notify p m) -> agrees s acc -> agrees (push a s) acc.
Proof.
  intros Ha A. eapply agrees_transfer; [exact A|reflexivity| |].
  - intros p. cbn [push b_events with_events]. rewrite messages_app. destruct a; cbn; try apply app_nil_r. exfalso. eapply Ha. reflexivity.
  - intros p l H. exists l. split; [exact H|reflexivity].
Qed.
Lemma at_agrees q f s acc : (forall l c x, believes_step c x (l_message (f l)) = believes_step c x (l_message l)) ->
  agrees s acc -> agrees (with_peers (at_ledger q f (b_peers s)) s) acc.
Proof.
  intros Hf A. eapply agrees_transfer; [exact A|reflexivity|reflexivity|]. intros p l' Hp. unfold get_peer in *. cbn [b_peers with_peers] in Hp.
  rewrite get_at in Hp. destruct (mget N.eqb p (b_peers s)) as [l|]; [|destruct (p =? q); discriminate]. exists l. split; [reflexivity|].
  destruct (p =? q); injection Hp as <-; [apply Hf|reflexivity].
Qed.
Lemma fold_agrees {A} (f : bitswap -> A -> bitswap) l acc (H : forall s x, In x l -> agrees s acc -> agrees (f s x) acc) :
  forall s, agrees s acc -> agrees (fold_left f l s) acc.
Proof.
  induction l as [|x l IH]; intros s A0; [exact A0|]. cbn [fold_left]. apply IH; [intros; apply H; [right|]; assumption|].
  apply H; [left; reflexivity|exact A0].
Qed.

(** A received message, apart from its blocks: the ledger of the sender and events. *)
Lemma receive_cancels_shape p cs : forall s, exists f e, fold_left (receive_cancel p) cs s = with_events (b_events s ++ e) (with_peers (at_ledger p f (b_peers s)) s) /\
  (forall l, l_message (f l) = l_message l /\ l_sent (f l) = l_sent l) /\ (forall a, In a e -> exists c, a = Report (ReceivedCancel p c)) /\
  (forall l c, mget cid_eqb c (l_received (f l)) = if existsb (cid_eqb c) cs then None else mget cid_eqb c (l_received l)) /\
  e = map (fun c => Report (ReceivedCancel p c)) cs.
Proof.
  induction cs as [|c0 cs IH]; intros s.
  { exists (fun l => l), []. repeat split; try (intros ? []). cbn. rewrite app_nil_r. unfold at_ledger.
    rewrite (map_ext _ (fun x => x)) by (intros [q l]; destruct (p =? fst (q, l)); reflexivity). rewrite map_id. destruct s; reflexivity. }
  cbn [fold_left]. destruct (IH (receive_cancel p s c0)) as (f & e & E & Hf & He & Hr & Hm).
  exists (fun l => f (mk_ledger (l_sent l) (mdel cid_eqb c0 (l_received l)) (l_message l))), (Report (ReceivedCancel p c0) :: e).
  split; [|split; [|split; [|split]]].
  - rewrite E. unfold receive_cancel, push. cbn [b_events b_peers with_events with_peers]. rewrite <- app_assoc. cbn [app]. unfold at_ledger. rewrite map_map.
    rewrite (map_ext (fun x => if p =? fst (if p =? fst x then _ else x) then _ else _)
      (fun pl => if p =? fst pl then (fst pl, f (mk_ledger (l_sent (snd pl)) (mdel cid_eqb c0 (l_received (snd pl))) (l_message (snd pl)))) else pl)).
    + reflexivity.
    + intros [q l]. cbn [fst snd]. destruct (p =? q) eqn:Eq; cbn [fst snd]; rewrite Eq; reflexivity.
  - intros l. destruct (Hf (mk_ledger (l_sent l) (mdel cid_eqb c0 (l_received l)) (l_message l))) as [-> ->]. auto.
  - intros a [<-|H]; eauto.
  - intros l c. rewrite Hr. cbn [l_received]. rewrite (mget_mdel _ cid_eqb_spec). cbn [existsb].
    destruct (cid_eqb c c0), (existsb (cid_eqb c) cs); reflexivity.
  - rewrite Hm. reflexivity.
Qed.
Lemma receive_wants_shape p ws : forall s, exists f e, fold_left (receive_want p) ws s = with_events (b_events s ++ e) (with_peers (at_ledger p f (b_peers s)) s) /\
  (forall l, l_message (f l) = l_message l /\ l_sent (f l) = l_sent l) /\ (forall a, In a e -> exists c z, a = Report (ReceivedWant p c z)) /\
  (NoDup (map fst ws) -> forall l c, mget cid_eqb c (l_received (f l)) = match mget cid_eqb c ws with Some z => Some z | None => mget cid_eqb c (l_received l) end) /\
  e = map (fun w => Report (ReceivedWant p (fst w) (snd w))) ws.
Proof.
  induction ws as [|[c0 z0] ws IH]; intros s.
  { exists (fun l => l), []. repeat split; try (intros ? []). cbn. rewrite app_nil_r. unfold at_ledger.
    rewrite (map_ext _ (fun x => x)) by (intros [q l]; destruct (p =? fst (q, l)); reflexivity). rewrite map_id. destruct s; reflexivity. }
  cbn [fold_left]. destruct (IH (receive_want p s (c0, z0))) as (f & e & E & Hf & He & Hr & Hm).
  exists (fun l => f (mk_ledger (l_sent l) (mset cid_eqb c0 z0 (l_received l)) (l_message l))), (Report (ReceivedWant p c0 z0) :: e).
  split; [|split; [|split; [|split]]].
  - rewrite E. unfold receive_want, push. cbn [b_events b_peers with_events with_peers fst snd]. rewrite <- app_assoc. cbn [app]. unfold at_ledger. rewrite map_map.
    rewrite (map_ext (fun x => if p =? fst (if p =? fst x then _ else x) then _ else _)
      (fun pl => if p =? fst pl then (fst pl, f (mk_ledger (l_sent (snd pl)) (mset cid_eqb c0 z0 (l_received (snd pl))) (l_message (snd pl)))) else pl)).
    + reflexivity.
    + intros [q l]. cbn [fst snd]. destruct (p =? q) eqn:Eq; cbn [fst snd]; rewrite Eq; reflexivity.
  - intros l. destruct (Hf (mk_ledger (l_sent l) (mset cid_eqb c0 z0 (l_received l)) (l_message l))) as [-> ->]. auto.
  - intros a [<-|H]; [eauto|]. auto.
  - intros HN l c. inversion HN as [|? ? Hx HN']; subst. cbn [map fst] in *. rewrite (Hr HN'). cbn [l_received mget]. rewrite (mget_mset _ cid_eqb_spec).
    destruct (cid_eqb_spec c c0) as [->|]; [|reflexivity]. assert (mget cid_eqb c0 ws = None) as -> by (apply (mget_none _ cid_eqb_spec); exact Hx). reflexivity.
  - rewrite Hm. reflexivity.
Qed.

Lemma events_agrees e s acc : (forall a, In a e -> forall p m, a <> Notify p m) -> agrees s acc -> agrees (with_events (b_events s ++ e) s) acc.
Proof.
  intros He A. eapply agrees_transfer; [exact A|reflexivity| |].
  - intros p. cbn [b_events with_events]. rewrite messages_app. replace (messages_to p e) with (@nil message); [apply app_nil_r|].
    induction e as [|a e IH]; [reflexivity|]. cbn. destruct a; try (apply IH; intros; apply He; right; assumption).
    exfalso. eapply He; [left; reflexivity|reflexivity].
  - intros p l H. exists l. split; [exact H|reflexivity].
Qed.
Definition unwanted (own : list (cid * Z)) (w : cid * Z) : bool := match mget cid_eqb (fst w) own with Some _ => false | None => true end.
Lemma unwanted_get own c ws : mget cid_eqb c own = None -> mget cid_eqb c (filter (unwanted own) ws) = mget cid_eqb c ws.
Proof.
  intros Hc. induction ws as [|[c1 z1] w IH]; [reflexivity|]. unfold unwanted at 1. cbn [filter mget fst].
  destruct (cid_eqb_spec c c1) as [<-|Hn].
  - rewrite Hc. cbn [mget]. destruct (cid_eqb_spec c c); [reflexivity|congruence].
  - destruct (mget cid_eqb c1 own); [exact IH|]. cbn [mget]. destruct (cid_eqb_spec c c1); [congruence|]. exact IH.
Qed.
Lemma unwanted_none own c z ws : mget cid_eqb c own = Some z -> mget cid_eqb c (filter (unwanted own) ws) = None.
Proof.
  intros Hc. induction ws as [|[c1 z1] w IH]; [reflexivity|]. unfold unwanted at 1. cbn [filter fst].
  destruct (mget cid_eqb c1 own) eqn:Ec1; [exact IH|]. cbn [mget]. destruct (cid_eqb_spec c c1) as [->|]; [congruence|exact IH].
Qed.
Lemma unwanted_nodup own ws : NoDup (map fst ws) -> NoDup (map fst (filter (unwanted own) ws)).
Proof.
  intros HN. induction ws as [|[c1 z1] w IH]; [constructor|]. inversion HN as [|? ? H1 H2]; subst. cbn [filter]. destruct (unwanted own (c1, z1)); [|apply IH; exact H2].
  cbn [map fst]. constructor; [|apply IH; exact H2]. intros Hi. apply H1. apply in_map_iff in Hi as (y & Ey & Hy). apply filter_In in Hy. apply in_map_iff. exists y. tauto.
Qed.
(** The state after the cancels and wants of a message, before its blocks. *)
Lemma received_shape p m s s' : received p m s = Some s' ->
  exists l f e, get_peer p s = Some l /\ s' = fold_left (receive_block p) (m_blocks m) (with_events (b_events s ++ e) (with_peers (at_ledger p f (b_peers s)) s)) /\
  (forall l, l_message (f l) = l_message l /\ l_sent (f l) = l_sent l) /\
  (forall a, In a e -> (exists c, a = Report (ReceivedCancel p c)) \/ exists c z, a = Report (ReceivedWant p c z)) /\
  (NoDup (map fst (m_want m)) -> forall l c, mget cid_eqb c (b_wanted s) = None ->
     mget cid_eqb c (l_received (f l)) = believes_step c (mget cid_eqb c (l_received l)) m) /\
  (NoDup (map fst (m_want m)) -> forall l c z, mget cid_eqb c (b_wanted s) = Some z ->
     mget cid_eqb c (l_received (f l)) = if existsb (cid_eqb c) (m_cancel m) then None else mget cid_eqb c (l_received l)) /\
  e = map (fun c => Report (ReceivedCancel p c)) (m_cancel m) ++
      map (fun w => Report (ReceivedWant p (fst w) (snd w))) (filter (unwanted (b_wanted s)) (m_want m)).
Proof.
  unfold received. destruct (get_peer p s) as [l|] eqn:El; [|discriminate]. intros [= <-].
  assert (EF : filter (fun w : cid * Z => negb (existsb (fun c => cid_eqb c (fst w)) (map fst (local_wantlist s)))) (m_want m)
    = filter (unwanted (b_wanted s)) (m_want m)).
  { apply filter_ext. intros [c z]. unfold unwanted. cbn [fst]. unfold local_wantlist. induction (b_wanted s) as [|[c1 z1] w IH]; [reflexivity|]. cbn [map existsb mget fst].
    destruct (cid_eqb_spec c1 c) as [->|Hn], (cid_eqb_spec c c) as [_|]; try congruence; cbn [orb negb].
    - reflexivity.
    - destruct (cid_eqb_spec c c1); [congruence|]. exact IH. }
  rewrite EF. clear EF. set (ws := filter _ (m_want m)).
  destruct (receive_cancels_shape p (m_cancel m) s) as (f1 & e1 & E1 & F1 & A1 & R1 & M1).
  destruct (receive_wants_shape p ws (fold_left (receive_cancel p) (m_cancel m) s)) as (f2 & e2 & E2 & F2 & A2 & R2 & M2).
  exists l, (fun l => f2 (f1 l)), (e1 ++ e2). split; [reflexivity|]. split; [|split; [|split; [|split; [|split]]]].
  - rewrite E2, E1. cbn [b_events b_peers with_events with_peers]. rewrite <- app_assoc. f_equal. unfold with_peers, with_events. cbn. f_equal.
    unfold at_ledger. rewrite map_map. apply map_ext. intros [q x]. cbn [fst snd]. destruct (p =? q) eqn:Eq; cbn [fst snd]; rewrite Eq; reflexivity.
  - intros x. destruct (F2 (f1 x)) as [-> ->]. apply F1.
  - intros a Ha. apply in_app_or in Ha as [Ha|Ha]; auto.
  - intros HN x c Hc. rewrite (R2 (unwanted_nodup _ _ HN)), R1. unfold ws. rewrite unwanted_get by exact Hc.
    unfold believes_step, wants. destruct (mget cid_eqb c (m_want m)); reflexivity.
  - intros HN x c z Hc. rewrite (R2 (unwanted_nodup _ _ HN)), R1. unfold ws. rewrite (unwanted_none _ _ _ _ Hc). reflexivity.
  - rewrite M1, M2. reflexivity.
Qed.
Lemma wants_cancel_msg m c c0 : wants (m_cancel_block c0 m) c = wants m c.
Proof. reflexivity. Qed.
Lemma blocks_agrees p bs acc : forall s, agrees s acc -> (forall b, In b bs -> forall q l, In (q, l) (b_peers s) -> wants (l_message l) (b_cid b) = None) ->
  agrees (fold_left (receive_block p) bs s) acc.
Proof.
  induction bs as [|b bs IH]; intros s A HC; [exact A|]. cbn [fold_left]. apply IH.
  - unfold receive_block. apply push_agrees; [discriminate|]. apply cancel_agrees; [exact A|]. intros q l. apply HC. left. reflexivity.
  - intros b' Hb q l Hl. unfold receive_block, push, cancel_block in Hl. cbn [b_peers with_events with_wanted with_peers] in Hl.
    apply in_map_iff in Hl as ([q' l'] & [= <- <-] & Hl). cbn [l_message with_message snd]. rewrite wants_cancel_msg. eapply HC; [right; exact Hb|exact Hl].
Qed.
Lemma received_agrees p k m s s' acc : received p m s = Some s' -> careful_step s (OReceived p k m) -> agrees s acc -> agrees s' acc.
Proof.
  intros H HC A. apply received_shape in H as (l & f & e & Hl & -> & Hf & He & _). apply blocks_agrees.
  - set (s1 := with_peers (at_ledger p f (b_peers s)) s). change (b_events s) with (b_events s1). apply events_agrees.
    + intros a Ha q x E. subst a. destruct (He _ Ha) as [(c & [=])|(c & z & [=])].
    + apply at_agrees; [|exact A]. intros x c y. destruct (Hf x) as [-> _]. reflexivity.
  - intros b Hb q x Hx. cbn [b_peers with_events with_peers] in Hx. apply in_map_iff in Hx as ([q' x'] & E & Hx'). cbn [fst snd] in E.
    assert (l_message x = l_message x') as ->. { destruct (p =? q'); injection E as <- <-; [apply Hf|reflexivity]. }
    eapply HC; [exact Hb|exact Hx'].
Qed.

Lemma send_blocks_agrees l acc : forall s, agrees s acc -> agrees (fold_left (fun s pb => send_block (fst pb) (snd pb) s) l s) acc.
Proof. apply fold_agrees. intros s [q b] _ A. cbn [fst snd]. apply at_agrees; [|exact A]. reflexivity. Qed.
Lemma send_blocks_same l : forall s, b_events (fold_left (fun s pb => send_block (fst pb) (snd pb) s) l s) = b_events s /\
  b_wanted (fold_left (fun s pb => send_block (fst pb) (snd pb) s) l s) = b_wanted s /\
  b_stats (fold_left (fun s pb => send_block (fst pb) (snd pb) s) l s) = b_stats s /\
  map fst (b_peers (fold_left (fun s pb => send_block (fst pb) (snd pb) s) l s)) = map fst (b_peers s).
Proof.
  induction l as [|[q b] l IH]; intros s; [auto|]. cbn [fold_left fst snd]. destruct (IH (send_block q b s)) as (-> & -> & -> & ->).
  unfold send_block. cbn [b_events b_wanted b_stats b_peers with_peers]. rewrite keys_at. auto.
Qed.
Definition drained (s : bitswap) : bitswap := with_ready [] (fold_left (fun s pb => send_block (fst pb) (snd pb) s) (b_ready s) s).
Lemma drained_agrees s acc : agrees s acc -> agrees (drained s) acc.
Proof. intros A. eapply agrees_transfer; [apply send_blocks_agrees; exact A|reflexivity|reflexivity|]. intros p l H. exists l. split; [exact H|reflexivity]. Qed.

(** The action of [poll_peers]: the queued message of one of the peers. *)
Lemma poll_peers_shape order s : (poll_peers order s = (s, None) /\ forall p l, In p order -> get_peer p s = Some l -> message_empty (l_message l) = true) \/
  exists p l sent st, In p order /\ get_peer p s = Some l /\ message_empty (l_message l) = false /\
   poll_peers order s = (with_stats st (with_peers (at_ledger p (fun _ => mk_ledger sent (l_received l) message0) (b_peers s)) s), Some (Notify p (l_message l))) /\
   (forall q, mget N.eqb q st = None -> mget N.eqb q (b_stats s) = None).
Proof.
  induction order as [|p order IH]; [left; split; [reflexivity|intros ? ? []]|]. cbn [poll_peers]. destruct (get_peer p s) as [l|] eqn:El.
  - unfold ledger_send. destruct (message_empty (l_message l)) eqn:Em.
    + destruct IH as [[-> H]|(p' & l' & sent & st & H1 & H2 & H3 & H4)].
      * left. split; [reflexivity|]. intros q x [<-|Hq] Hx; [congruence|]. eapply H; eassumption.
      * right. exists p', l', sent, st. split; [right; exact H1|]. auto.
    + right. eexists p, l, _, _. split; [left; reflexivity|]. split; [exact El|]. split; [exact Em|]. split; [reflexivity|].
      intros q. destruct (mget N.eqb p (b_stats s)) as [n|] eqn:En; [|auto]. rewrite (mget_mset _ N.eqb_spec).
      destruct (N.eqb_spec q p) as [->|]; [discriminate|auto].
  - destruct IH as [[-> H]|(p' & l' & sent & st & H1 & H2 & H3 & H4)].
    + left. split; [reflexivity|]. intros q x [<-|Hq] Hx; [congruence|]. eapply H; eassumption.
    + right. exists p', l', sent, st. split; [right; exact H1|]. auto.
Qed.
Definition after_action (acc : peer -> list message) (a : option action) (p : peer) : list message :=
  match a with Some a => acc p ++ messages_to p [a] | None => acc p end.
Lemma poll_agrees order s s' a acc : poll order s = (s', a) -> agrees s acc -> agrees s' (after_action acc a).
Proof.
  intros H A. apply drained_agrees in A. unfold poll in H. fold (drained s) in H. set (d := drained s) in *.
  destruct (b_events d) as [|e r] eqn:Ee.
  - destruct (poll_peers_shape order d) as [[E _]|(p & l & sent & st & H1 & H2 & H3 & H4 & _)].
    + rewrite E in H. injection H as <- <-. exact A.
    + rewrite H4 in H. pose proof (f_equal fst H) as Hs'. pose proof (f_equal snd H) as Ha. cbn [fst snd] in Hs', Ha. subst s' a. clear H. intros q x Hq c.
      assert (EQ : get_peer q (with_stats st (with_peers (at_ledger p (fun _ => mk_ledger sent (l_received l) message0) (b_peers d)) d))
        = if q =? p then Some (mk_ledger sent (l_received l) message0) else get_peer q d).
      { unfold get_peer. cbn [b_peers with_stats with_peers]. rewrite get_at. destruct (N.eqb_spec q p) as [->|]; [|reflexivity]. unfold get_peer in H2. rewrite H2. reflexivity. }
      rewrite EQ in Hq. destruct (N.eqb_spec q p) as [->|Hn].
      * injection Hq as <-. rewrite (belief_eq _ _ _ _ _ EQ). cbn [b_events b_wanted with_stats with_peers l_message]. rewrite step_empty, Ee, app_nil_r.
        unfold after_action. cbn [messages_to]. rewrite N.eqb_refl, believes_app. cbn [fold_left].
        specialize (A p l H2 c). rewrite (belief_eq _ _ _ _ _ H2), Ee in A. cbn [messages_to] in A. rewrite app_nil_r in A. exact A.
      * rewrite (belief_eq _ _ _ x) by (rewrite EQ; exact Hq). cbn [b_events b_wanted with_stats with_peers]. unfold after_action. cbn [messages_to].
        destruct (N.eqb_spec q p); [congruence|]. rewrite app_nil_r. specialize (A q x Hq c). rewrite (belief_eq _ _ _ _ _ Hq) in A. exact A.
  - injection H as <- <-. intros q x Hq c. unfold get_peer in Hq. cbn [b_peers with_events] in Hq. rewrite (belief_eq _ _ _ x) by exact Hq. cbn [b_events b_wanted with_events].
    unfold after_action. specialize (A q x Hq c). rewrite (belief_eq _ _ _ _ _ Hq), Ee in A. rewrite <- app_assoc, <- messages_app. exact A.
Qed.
Lemma established_agrees q k s acc : NoDup (mkeys (b_wanted s)) -> careful_step s (OEstablished q k) -> agrees s acc ->
  agrees (established q s) (fun p => if p =? q then [] else acc p).
Proof.
  intros HN HC A p l Hp c. cbn [careful_step] in HC. unfold waiting in HC. apply app_eq_nil in HC as [HC1 HC2].
  assert (EQ : get_peer p (established q s) = if p =? q then Some ledger0 else get_peer p s).
  { unfold established, send_want_list, get_peer. cbn [b_wanted with_peers with_stats]. destruct (is_empty (b_wanted s)); cbn [b_peers push with_events with_peers with_stats]; apply (mget_mset _ N.eqb_spec). }
  assert (EW : b_wanted (established q s) = b_wanted s).
  { unfold established, send_want_list. cbn [b_wanted with_peers with_stats]. destruct (is_empty (b_wanted s)); reflexivity. }
  assert (EE : messages_to p (b_events (established q s)) = messages_to p (b_events s) ++
     if (p =? q) && negb (is_empty (b_wanted s)) then [fold_left (fun m w => m_want_block (fst w) (snd w) m) (b_wanted s) message0] else []).
  { unfold established, send_want_list. cbn [b_wanted with_peers with_stats]. destruct (is_empty (b_wanted s)); cbn [b_events push with_events with_peers with_stats negb].
    - rewrite andb_false_r, app_nil_r. reflexivity.
    - rewrite messages_app. cbn [messages_to]. rewrite andb_true_r. destruct (p =? q); reflexivity. }
  rewrite (belief_eq _ _ _ l _ Hp), EW, EE. rewrite EQ in Hp. destruct (N.eqb_spec p q) as [->|Hn].
  - injection Hp as <-. rewrite HC1. cbn [app andb ledger0 l_message]. rewrite step_empty. destruct (b_wanted s) as [|w ws] eqn:Ew; [reflexivity|].
    rewrite <- Ew in *. replace (is_empty (b_wanted s)) with false by (rewrite Ew; reflexivity). cbn [negb]. unfold believes. cbn [fold_left]. unfold believes_step.
    rewrite wantlist_message by exact HN. rewrite wantlist_message_cancel. cbn [existsb]. destruct (mget cid_eqb c (b_wanted s)); reflexivity.
  - cbn [andb]. rewrite app_nil_r. specialize (A p l Hp c). rewrite (belief_eq _ _ _ _ _ Hp) in A. exact A.
Qed.
Lemma closed_agrees q s acc : agrees s acc -> agrees (closed q s) acc.
Proof.
  intros A. eapply agrees_transfer; [exact A|reflexivity|reflexivity|]. intros p l Hp. unfold get_peer, closed in Hp. cbn [b_peers with_peers] in Hp.
  rewrite (mget_mdel _ N.eqb_spec) in Hp. destruct (p =? q); [discriminate|]. exists l. split; [exact Hp|reflexivity].
Qed.

(** ** The want list of the node *)
Lemma receive_blocks_wanted p bs c : forall s, mget cid_eqb c (b_wanted (fold_left (receive_block p) bs s)) =
  if existsb (fun b => cid_eqb c (b_cid b)) bs then None else mget cid_eqb c (b_wanted s).
Proof.
  induction bs as [|b bs IH]; intros s; [reflexivity|]. cbn [fold_left existsb]. rewrite IH. unfold receive_block, push, cancel_block.
  cbn [b_wanted with_events with_wanted with_peers]. rewrite (mget_mdel _ cid_eqb_spec). destruct (cid_eqb c (b_cid b)), (existsb (fun b => cid_eqb c (b_cid b)) bs); reflexivity.
Qed.
Lemma receive_blocks_nodup p bs : forall s, NoDup (mkeys (b_wanted s)) -> NoDup (mkeys (b_wanted (fold_left (receive_block p) bs s))).
Proof.
  induction bs as [|b bs IH]; intros s H; [exact H|]. cbn [fold_left]. apply IH. unfold receive_block, push, cancel_block. cbn [b_wanted with_events with_wanted with_peers].
  apply mdel_nodup. exact H.
Qed.
Lemma poll_wanted order s s' a : poll order s = (s', a) -> b_wanted s' = b_wanted s.
Proof.
  intros H. unfold poll in H. fold (drained s) in H. assert (E : b_wanted (drained s) = b_wanted s) by apply send_blocks_same.
  destruct (b_events (drained s)).
  - destruct (poll_peers_shape order (drained s)) as [[E1 _]|(p & l & sent & st & _ & _ & _ & E1 & _)]; rewrite E1 in H; injection H as <- _; exact E.
  - injection H as <- _. exact E.
Qed.
Lemma wanted_is s o s' a : step s o = Some (s', a) -> NoDup (mkeys (b_wanted s)) ->
  NoDup (mkeys (b_wanted s')) /\ forall c, mget cid_eqb c (b_wanted s') = wanted_step c (mget cid_eqb c (b_wanted s)) o.
Proof.
  intros H HN. destruct o as [p|p b|c0 pr|c0|p k|p k|p k m|p k|order]; cbn [step] in H.
  - injection H as <- _. unfold connect. destruct (existsb _ _); cbn; auto.
  - injection H as <- _. cbn. auto.
  - injection H as <- _. cbn [want_block b_wanted with_wanted wanted_step]. split; [apply (mset_nodup _ cid_eqb_spec); exact HN|]. intros c. apply (mget_mset _ cid_eqb_spec).
  - injection H as <- _. cbn [cancel_block b_wanted with_wanted wanted_step]. split; [apply mdel_nodup; exact HN|]. intros c. apply (mget_mdel _ cid_eqb_spec).
  - injection H as <- _. cbn [wanted_step]. unfold established, send_want_list. cbn [b_wanted with_peers with_stats]. destruct (is_empty (b_wanted s)); cbn; auto.
  - injection H as <- _. cbn. auto.
  - destruct (received p m s) as [s1|] eqn:E; [|discriminate]. injection H as <- _. apply received_shape in E as (l & f & e & _ & -> & _).
    split; [apply receive_blocks_nodup; exact HN|]. intros c. rewrite receive_blocks_wanted. reflexivity.
  - injection H as <- _. auto.
  - destruct (poll order s) as [s1 a1] eqn:E. injection H as <- _. rewrite (poll_wanted _ _ _ _ E). auto.
Qed.
Lemma wanted_inv h s t : run bitswap0 h = Some (s, t) -> NoDup (mkeys (b_wanted s)) /\ forall c, mget cid_eqb c (b_wanted s) = wanted_after h c.
Proof.
  revert s t. induction h as [|o h IH] using rev_ind; intros s t H; [injection H as <- <-; split; [constructor|reflexivity]|].
  apply run_snoc in H as (s1 & t1 & a & H1 & H2 & ->). destruct (IH _ _ H1) as [HN HW]. destruct (wanted_is _ _ _ _ H2 HN) as [HN' HW'].
  split; [exact HN'|]. intros c. rewrite HW', HW. unfold wanted_after. rewrite fold_left_app. reflexivity.
Qed.

(** ** All histories *)
Lemma careful_snoc h o : careful (h ++ [o]) -> careful h /\ forall s t, run bitswap0 h = Some (s, t) -> careful_step s o.
Proof.
  intros H. split.
  - intros h1 o' h2 s t E. apply (H h1 o' (h2 ++ [o])). rewrite E, <- app_assoc. reflexivity.
  - intros s t E. exact (H h o [] s t eq_refl E).
Qed.
Lemma agrees_ext s acc acc' : agrees s acc -> (forall p, acc p = acc' p) -> agrees s acc'.
Proof. intros A E p l Hp c. rewrite <- E. eapply A. exact Hp. Qed.
Lemma agrees_inv h : careful h -> forall s t, run bitswap0 h = Some (s, t) -> agrees s (fun p => handed_out p [] t).
Proof.
  induction h as [|o h IH] using rev_ind; intros HC s t H.
  { injection H as <- <-. intros p l Hp. discriminate. }
  apply careful_snoc in HC as [HC HO]. apply run_snoc in H as (s1 & t1 & a & H1 & H2 & ->). specialize (IH HC _ _ H1). specialize (HO _ _ H1).
  destruct (wanted_inv _ _ _ H1) as [HN _].
  destruct o as [p|p b|c0 pr|c0|p k|p k|p k m|p k|order]; cbn [step] in H2.
  - injection H2 as <- <-. apply (agrees_ext _ (fun q => handed_out q [] t1)); [|intros q; rewrite handed_app; reflexivity]. unfold connect. destruct (existsb _ _); [exact IH|].
    apply push_agrees; [discriminate|]. eapply agrees_transfer; [exact IH|reflexivity|reflexivity|]. intros q l Hq. exists l. split; [exact Hq|reflexivity].
  - injection H2 as <- <-. apply (agrees_ext _ (fun q => handed_out q [] t1)); [|intros q; rewrite handed_app; reflexivity]. eapply agrees_transfer; [exact IH|reflexivity|reflexivity|]. intros q l Hq. exists l. split; [exact Hq|reflexivity].
  - injection H2 as <- <-. apply (agrees_ext _ (fun q => handed_out q [] t1)); [|intros q; rewrite handed_app; reflexivity]. apply want_agrees. exact IH.
  - injection H2 as <- <-. apply (agrees_ext _ (fun q => handed_out q [] t1)); [|intros q; rewrite handed_app; reflexivity]. apply cancel_agrees; [exact IH|exact HO].
  - injection H2 as <- <-. apply (agrees_ext _ (fun q => if q =? p then [] else handed_out q [] t1)); [|intros q; rewrite handed_app; reflexivity]. eapply established_agrees; [exact HN|exact HO|exact IH].
  - injection H2 as <- <-. apply (agrees_ext _ (fun q => handed_out q [] t1)); [|intros q; rewrite handed_app; reflexivity]. apply closed_agrees. exact IH.
  - destruct (received p m s1) as [s2|] eqn:E; [|discriminate]. injection H2 as <- <-. apply (agrees_ext _ (fun q => handed_out q [] t1)); [|intros q; rewrite handed_app; reflexivity].
    eapply received_agrees; [exact E|exact HO|exact IH].
  - injection H2 as <- <-. apply (agrees_ext _ (fun q => handed_out q [] t1)); [|intros q; rewrite handed_app; reflexivity]. exact IH.
  - destruct (poll order s1) as [s2 a2] eqn:E. injection H2 as <- <-. eapply agrees_ext; [eapply poll_agrees; [exact E|exact IH]|].
    intros q. rewrite handed_app. unfold after_action. destruct a2; reflexivity.
Qed.
