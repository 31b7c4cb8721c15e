(** Lemmas about two bitswap nodes: the messages of one are readable by the other, and the other
    learns from them what the first wants. *)
From Verif Require Import Base Wire Cid FMap BitswapMsg BitswapMsgSpec BitswapMsgProofs Bitswap BitswapSpec BitswapProofs BitswapMore.
Local Open Scope N_scope.

(** * Messages of a node *)
Section Honest.
Variable hasher : N -> option (bytes -> bytes).
Notation honest := (honest hasher).
Definition want_ok (w : cid * Z) : Prop := wf_cid (fst w) /\ is_i32 (snd w).
Definition block_ok (b : block) : Prop := wf_cid (b_cid b) /\ digest_of hasher b.
Lemma mset_in {V} (k : cid) (v : V) m x : In x (mset cid_eqb k v m) -> x = (k, v) \/ In x m.
Proof.
  unfold mset. intros [<-|H]; [auto|]. unfold mdel in H. apply filter_In in H. tauto.
Qed.
Lemma honest0 : honest message0.
Proof. split; [repeat split; constructor|constructor]. Qed.
Lemma honest_want c z m : wf_cid c -> is_i32 z -> honest m -> honest (m_want_block c z m).
Proof.
  intros Hc Hz [(H1 & H2 & H3) HB]. split; [|exact HB]. unfold m_want_block. split; [apply (mset_nodup _ cid_eqb_spec); exact H1|]. split; [|exact H3].
  cbn [m_want]. apply Forall_forall. intros x Hx. apply mset_in in Hx as [->|Hx]; [auto|]. rewrite Forall_forall in H2. apply H2. exact Hx.
Qed.
Lemma honest_cancel c m : wf_cid c -> honest m -> honest (m_cancel_block c m).
Proof.
  intros Hc [(H1 & H2 & H3 & H4 & H5) HB]. split; [|exact HB]. unfold m_cancel_block. repeat split; try assumption; cbn [m_cancel]; unfold set_insert; destruct (existsb (cid_eqb c) (m_cancel m)) eqn:E; try assumption.
  - constructor; [|exact H3]. intros Hi. apply existsb_cid in Hi. congruence.
  - constructor; assumption.
Qed.
Lemma honest_add b m : block_ok b -> honest m -> honest (m_add_block b m).
Proof.
  intros [Hb Hd] [(H1 & H2 & H3 & H4 & H5) HB]. unfold m_add_block. split; [repeat split; try assumption; cbn [m_blocks]|cbn [m_blocks]]; apply Forall_app; split; try assumption; constructor; auto.
Qed.
Lemma honest_wantlist w : forall m, Forall want_ok w -> honest m -> honest (fold_left (fun m x => m_want_block (fst x) (snd x) m) w m).
Proof. induction w as [|x w IH]; intros m HW Hm; [exact Hm|]. inversion HW as [|? ? [H1 H2] H3]; subst. cbn [fold_left]. apply IH; [exact H3|]. apply honest_want; assumption. Qed.

Definition action_ok (a : action) : Prop := match a with Notify _ m => honest m | _ => True end.
Record state_ok (s : bitswap) : Prop := {
  ok_events : Forall action_ok (b_events s);
  ok_peers : Forall (fun pl => honest (l_message (snd pl))) (b_peers s);
  ok_wanted : Forall want_ok (b_wanted s);
  ok_ready : Forall (fun pb => block_ok (snd pb)) (b_ready s) }.
Lemma each_ok f l : (forall x, honest (l_message x) -> honest (l_message (f x))) -> Forall (fun pl : peer * ledger => honest (l_message (snd pl))) l ->
  Forall (fun pl : peer * ledger => honest (l_message (snd pl))) (each_ledger f l).
Proof. intros Hf H. unfold each_ledger. apply Forall_map. eapply Forall_impl; [|exact H]. intros [q x] Hx. apply Hf. exact Hx. Qed.
Lemma at_ok q f l : (forall x, honest (l_message x) -> honest (l_message (f x))) -> Forall (fun pl : peer * ledger => honest (l_message (snd pl))) l ->
  Forall (fun pl : peer * ledger => honest (l_message (snd pl))) (at_ledger q f l).
Proof. intros Hf H. unfold at_ledger. apply Forall_map. eapply Forall_impl; [|exact H]. intros [r x] Hx. cbn [fst snd] in *. destruct (q =? r); cbn [snd]; auto. Qed.
Lemma cancel_ok c s : wf_cid c -> state_ok s -> state_ok (cancel_block c s).
Proof.
  intros Hc [H1 H2 H3 H4]. split; try assumption; cbn [cancel_block b_peers b_wanted with_wanted with_peers].
  - apply each_ok; [|exact H2]. intros x Hx. apply honest_cancel; assumption.
  - unfold mdel. apply Forall_forall. intros x Hx. apply filter_In in Hx as [Hx _]. rewrite Forall_forall in H3. apply H3. exact Hx.
Qed.
Lemma receive_blocks_ok p bs : forall s, Forall (fun b => wf_cid (b_cid b)) bs -> state_ok s -> state_ok (fold_left (receive_block p) bs s).
Proof.
  induction bs as [|b bs IH]; intros s HB HS; [exact HS|]. inversion HB as [|? ? H1 H2]; subst. cbn [fold_left]. apply IH; [exact H2|].
  pose proof (cancel_ok _ _ H1 HS) as [K1 K2 K3 K4]. split; try assumption. unfold receive_block, push. cbn [b_events with_events]. apply Forall_app. split; [exact K1|]. repeat constructor.
Qed.
Lemma drained_ok s : state_ok s -> state_ok (drained s).
Proof.
  intros HS. unfold drained. assert (H : forall r s, Forall (fun pb : peer * block => block_ok (snd pb)) r -> state_ok s -> state_ok (fold_left (fun s pb => send_block (fst pb) (snd pb) s) r s)).
  { clear. induction r as [|[q b] r IH]; intros s HR HS; [exact HS|]. inversion HR as [|? ? H1 H2]; subst. cbn [fold_left fst snd]. apply IH; [exact H2|].
    destruct HS as [K1 K2 K3 K4]. split; try assumption. unfold send_block. cbn [b_peers with_peers]. apply at_ok; [|exact K2]. intros x Hx. apply honest_add; assumption. }
  specialize (H (b_ready s) s (ok_ready _ HS) HS). destruct H as [K1 K2 K3 K4]. split; try assumption. constructor.
Qed.
Lemma step_ok s o s' a : step s o = Some (s', a) -> op_ok hasher o -> state_ok s -> state_ok s' /\ match a with Some x => action_ok x | None => True end.
Proof.
  intros H HO HS. destruct o as [q|q b|c0 pr|c0|q k|q k|q k m|q k|order]; cbn [step op_ok] in *.
  - injection H as <- <-. split; [|exact Logic.I]. unfold connect. destruct (existsb _ _); [exact HS|]. destruct HS as [K1 K2 K3 K4]. split; try assumption.
    cbn [push b_events with_events with_targets]. apply Forall_app. split; [exact K1|]. repeat constructor.
  - injection H as <- <-. split; [|exact Logic.I]. destruct HS as [K1 K2 K3 K4]. split; try assumption. cbn [b_ready with_ready]. apply Forall_app. split; [exact K4|]. repeat constructor; apply HO.
  - injection H as <- <-. split; [|exact Logic.I]. destruct HO as [Hc Hz], HS as [K1 K2 K3 K4]. split; try assumption; cbn [want_block b_peers b_wanted with_wanted with_peers].
    + apply each_ok; [|exact K2]. intros x Hx. apply honest_want; assumption.
    + apply Forall_forall. intros x Hx. apply mset_in in Hx as [->|Hx]; [split; assumption|]. rewrite Forall_forall in K3. apply K3. exact Hx.
  - injection H as <- <-. split; [|exact Logic.I]. apply cancel_ok; assumption.
  - assert (s' = established q s /\ a = None) as [-> ->] by (split; congruence). split; [|exact Logic.I]. destruct HS as [K1 K2 K3 K4].
    assert (HP : Forall (fun pl : peer * ledger => honest (l_message (snd pl))) (b_peers (established q s))).
    { rewrite established_peers. unfold mset. constructor; [exact honest0|]. apply Forall_forall. intros x Hx. unfold mdel in Hx. apply filter_In in Hx as [Hx _]. rewrite Forall_forall in K2. apply K2. exact Hx. }
    unfold established, send_want_list in *. cbn [b_wanted with_peers with_stats] in *. destruct (is_empty (b_wanted s)); split; try assumption.
    cbn [b_events push with_events with_peers with_stats]. apply Forall_app. split; [exact K1|]. constructor; [|constructor]. apply honest_wantlist; [exact K3|exact honest0].
  - assert (s' = closed q s /\ a = None) as [-> ->] by (split; congruence). split; [|exact Logic.I]. destruct HS as [K1 K2 K3 K4]. split; try assumption.
    unfold closed. cbn [b_peers with_peers]. apply Forall_forall. intros x Hx. unfold mdel in Hx. apply filter_In in Hx as [Hx _]. rewrite Forall_forall in K2. apply K2. exact Hx.
  - destruct (received q m s) as [s1|] eqn:E; [|discriminate]. injection H as <- <-. split; [|exact Logic.I]. apply received_shape in E as (l & f & e & Hl & -> & Hf & He & _).
    apply receive_blocks_ok; [exact HO|]. destruct HS as [K1 K2 K3 K4]. split; try assumption; cbn [b_events b_peers with_events with_peers].
    + apply Forall_app. split; [exact K1|]. apply Forall_forall. intros x Hx. destruct (He _ Hx) as [(c & ->)|(c & z & ->)]; exact Logic.I.
    + apply at_ok; [|exact K2]. intros x Hx. rewrite (proj1 (Hf x)). exact Hx.
  - injection H as <- <-. split; [exact HS|exact Logic.I].
  - destruct (poll order s) as [s1 a1] eqn:E. injection H as <- <-. apply drained_ok in HS. unfold poll in E. fold (drained s) in E. destruct (b_events (drained s)) as [|x r] eqn:Ee.
    + destruct (poll_peers_shape order (drained s)) as [[E1 _]|(q & l & sent & st & _ & H2 & _ & E1 & _)]; rewrite E1 in E; pose proof (f_equal snd E) as Ea; apply (f_equal fst) in E; cbn [fst snd] in *; subst s1 a1; [auto|].
      destruct HS as [K1 K2 K3 K4]. split; [split; try assumption; cbn [b_peers with_stats with_peers]; apply at_ok; [|exact K2]; intros; exact honest0|].
      cbn [action_ok]. unfold get_peer in H2. apply (mget_in _ N.eqb_spec) in H2. rewrite Forall_forall in K2. apply (K2 _ H2).
    + pose proof (f_equal snd E) as Ea; apply (f_equal fst) in E; cbn [fst snd] in *; subst s1 a1. destruct HS as [K1 K2 K3 K4]. rewrite Ee in K1. inversion K1 as [|? ? Kx Kr]; subst.
      split; [split; assumption|exact Kx].
Qed.
Definition trace_ok (t : list (op * option action)) : Prop := Forall (fun x => match snd x with Some a => action_ok a | None => True end) t.
Lemma run_ok h : forall s s' t, run s h = Some (s', t) -> Forall (op_ok hasher) h -> state_ok s -> state_ok s' /\ trace_ok t.
Proof.
  induction h as [|o h IH]; intros s s' t H HO HS; [injection H as <- <-; split; [exact HS|constructor]|]. cbn [run] in H.
  destruct (step s o) as [[s1 a]|] eqn:E; [|discriminate]. destruct (run s1 h) as [[s2 t2]|] eqn:E2; [|discriminate]. injection H as <- <-.
  inversion HO as [|? ? H1 H2]; subst. destruct (step_ok _ _ _ _ E H1 HS) as [K1 K2]. destruct (IH _ _ _ E2 H2 K1) as [K3 K4]. split; [exact K3|]. constructor; assumption.
Qed.
Lemma handed_ok p t : forall acc, trace_ok t -> Forall honest acc -> Forall honest (handed_out p acc t).
Proof.
  induction t as [|[o a] t IH]; intros acc HT HA; [exact HA|]. inversion HT as [|? ? H1 H2]; subst. cbn [snd] in H1.
  assert (HM : forall x, a = Some x -> Forall honest (acc ++ messages_to p [x])).
  { intros x ->. apply Forall_app. split; [exact HA|]. destruct x as [q|q m|e]; cbn [messages_to]; try constructor. destruct (p =? q); repeat constructor; apply H1. }
  destruct o, a; cbn [handed_out]; apply IH; auto; destruct (p =? p0); auto.
Qed.
End Honest.

(** * The other side *)
Lemma same_step c x m m' : same_message m m' -> believes_step c x m = believes_step c x m'.
Proof.
  intros (H1 & H2 & _). unfold believes_step. rewrite <- H1. destruct (wants m c); [reflexivity|].
  assert (E : existsb (cid_eqb c) (m_cancel m) = existsb (cid_eqb c) (m_cancel m')); [|rewrite E; reflexivity].
  apply eq_true_iff_eq. rewrite !existsb_cid. apply H2.
Qed.
Lemma wanted_never c h : never_wants c h -> forall w, w = None -> fold_left (wanted_step c) h w = None.
Proof.
  induction 1 as [|o h H _ IH]; intros w Hw; [exact Hw|]. cbn [fold_left]. apply IH. subst w. destruct o; cbn [wanted_step]; try reflexivity.
  - destruct (cid_eqb_spec c c0); [congruence|reflexivity].
  - destruct (cid_eqb c c0); reflexivity.
  - destruct (existsb _ _); reflexivity.
Qed.
Lemma peer_wantlist_step p s o s' a w : step s o = Some (s', a) -> stays p [o] -> peer_wantlist p s = Some w ->
  Forall (fun m => NoDup (map fst (m_want m))) (messages_from p [o]) ->
  exists w', peer_wantlist p s' = Some w' /\
   forall c, mget cid_eqb c (b_wanted s) = None -> mget cid_eqb c w' = fold_left (believes_step c) (messages_from p [o]) (mget cid_eqb c w).
Proof.
  intros H HS HW HM. apply Forall_inv in HS.
  assert (Same : (match o with OReceived _ _ _ => False | _ => True end) -> peer_wantlist p s' = peer_wantlist p s -> exists w', peer_wantlist p s' = Some w' /\
     forall c, mget cid_eqb c (b_wanted s) = None -> mget cid_eqb c w' = fold_left (believes_step c) (messages_from p [o]) (mget cid_eqb c w)).
  { intros Ho E. rewrite HW in E. exists w. split; [exact E|]. intros c _. destruct o; try reflexivity. contradiction. }
  destruct o as [q|q b|c0 pr|c0|q k|q k|q k m|q k|order]; cbn [step] in H.
  - apply Same; [exact Logic.I|]. injection H as <- _. unfold connect. destruct (existsb _ _); reflexivity.
  - apply Same; [exact Logic.I|]. injection H as <- _. reflexivity.
  - apply Same; [exact Logic.I|]. injection H as <- _. unfold peer_wantlist, want_block, get_peer. cbn [b_peers with_wanted with_peers]. rewrite get_each. destruct (mget N.eqb p (b_peers s)); reflexivity.
  - apply Same; [exact Logic.I|]. injection H as <- _. unfold peer_wantlist, cancel_block, get_peer. cbn [b_peers with_wanted with_peers]. rewrite get_each. destruct (mget N.eqb p (b_peers s)); reflexivity.
  - apply Same; [exact Logic.I|]. assert (s' = established q s) by congruence. subst s'. unfold peer_wantlist, get_peer. rewrite established_peers, (mget_mset _ N.eqb_spec). destruct (N.eqb_spec p q); [congruence|reflexivity].
  - apply Same; [exact Logic.I|]. assert (s' = closed q s) by congruence. subst s'. unfold peer_wantlist, get_peer, closed. cbn [b_peers with_peers]. rewrite (mget_mdel _ N.eqb_spec). destruct (N.eqb_spec p q); [congruence|reflexivity].
  - destruct (received q m s) as [s1|] eqn:E; [|discriminate]. injection H as <- _. unfold messages_from in *. cbn [map concat] in *. rewrite app_nil_r in *. destruct (N.eqb_spec p q) as [->|Hn].
    + destruct (peer_wantlist_received _ _ _ _ _ E HW (Forall_inv HM)) as (w' & E1 & E2). exists w'. split; [exact E1|]. intros c Hc. rewrite E2. unfold local_wantlist. rewrite Hc. reflexivity.
    + exists w. split; [|reflexivity]. apply received_shape in E as (l & f & e & Hl & -> & _). unfold peer_wantlist in *. rewrite receive_blocks_received. unfold get_peer in *. cbn [b_peers with_events with_peers].
      rewrite get_at. destruct (N.eqb_spec p q); [congruence|exact HW].
  - apply Same; [exact Logic.I|]. injection H as <- _. reflexivity.
  - apply Same; [exact Logic.I|]. destruct (poll order s) as [s1 a1] eqn:E. injection H as <- _.
    assert (ED : peer_wantlist p (drained s) = peer_wantlist p s).
    { unfold peer_wantlist, drained, get_peer. cbn [b_peers with_ready]. generalize (b_ready s) as r. intros r. clear. revert s. induction r as [|[q b] r IH]; intros s; [reflexivity|].
      cbn [fold_left fst snd]. rewrite IH. unfold send_block. cbn [b_peers with_peers]. rewrite get_at. destruct (p =? q), (mget N.eqb p (b_peers s)); reflexivity. }
    rewrite <- ED. unfold poll in E. fold (drained s) in E. destruct (b_events (drained s)) as [|x r] eqn:Ee.
    + destruct (poll_peers_shape order (drained s)) as [[E1 _]|(q & l & sent & st & _ & H2 & _ & E1 & _)]; rewrite E1 in E; apply (f_equal fst) in E; cbn [fst] in *; subst s1; [reflexivity|].
      unfold peer_wantlist, get_peer in *. cbn [b_peers with_stats with_peers]. rewrite get_at. destruct (N.eqb_spec p q) as [->|]; [|reflexivity]. rewrite H2. reflexivity.
    + apply (f_equal fst) in E; cbn [fst] in *; subst s1. reflexivity.
Qed.
Lemma peer_wantlist_run p c h2 : forall h1 s1 t1 s t w, run bitswap0 h1 = Some (s1, t1) -> run s1 h2 = Some (s, t) -> stays p h2 -> peer_wantlist p s1 = Some w ->
  Forall (fun m => NoDup (map fst (m_want m))) (messages_from p h2) -> wanted_after h1 c = None -> never_wants c h2 ->
  exists w', peer_wantlist p s = Some w' /\ mget cid_eqb c w' = fold_left (believes_step c) (messages_from p h2) (mget cid_eqb c w).
Proof.
  induction h2 as [|o h IH]; intros h1 s1 t1 s t w R1 R2 HS HW HM HN HV; [injection R2 as <- <-; exists w; split; [exact HW|reflexivity]|].
  cbn [run] in R2. destruct (step s1 o) as [[s2 a]|] eqn:E; [|discriminate]. destruct (run s2 h) as [[s3 t3]|] eqn:E3; [|discriminate]. injection R2 as <- <-.
  inversion HS as [|? ? HS1 HS2]; subst. inversion HV as [|? ? HV1 HV2]; subst.
  change (messages_from p (o :: h)) with ((match o with OReceived q _ m => if p =? q then [m] else [] | _ => [] end) ++ messages_from p h) in *.
  apply Forall_app in HM as [HM1 HM2].
  assert (EM : messages_from p [o] = match o with OReceived q _ m => if p =? q then [m] else [] | _ => [] end) by (unfold messages_from; cbn [map concat]; apply app_nil_r).
  rewrite <- EM in *. destruct (peer_wantlist_step p _ _ _ _ w E) as (w1 & E1 & E2); [constructor; [exact HS1|constructor]|exact HW|exact HM1|].
  pose proof (wanted_inv _ _ _ R1) as [_ HI].
  destruct (IH (h1 ++ [o]) s2 (t1 ++ [(o, a)]) s3 t3 w1) as (w' & E4 & E5); try assumption.
  - rewrite run_app, R1. cbn [run]. rewrite E. reflexivity.
  - unfold wanted_after. rewrite fold_left_app. fold (wanted_after h1 c). rewrite HN. apply (wanted_never c [o]); [constructor; [exact HV1|constructor]|reflexivity].
  - exists w'. split; [exact E4|]. rewrite E5, fold_left_app. f_equal. apply E2. rewrite HI. exact HN.
Qed.
