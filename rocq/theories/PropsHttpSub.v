(** C67: subscriptions over HTTP. *)
From Verif Require Import Base FMap Pubsub PubsubSpec PubsubProofs HttpSub HttpSubSpec HttpSubProofs.
Local Open Scope N_scope.

(** Two messages, and a history in which two clients listen to topic 5. *)
Definition ma : msg := mk_msg 1 [104] [0] [5].
Definition mb : msg := mk_msg 2 [105] [1] [5; 6].
Definition begin5 : list hop := [HRequest 1 5; HServe].
Definition both5 : list hop := begin5 ++ [HFlood (FMessage ma); HPoll; HRequest 2 5].
Definition talk5 : list hop := [HShovel 0; HRead 1; HFlood (FMessage mb); HPoll; HShovel 0; HRead 1; HRead 2].

Lemma stock_c t c s : entry t s = Some c -> stock t s = stockc c s.
Proof. intros E. unfold stock, stockc, hold. rewrite E. destruct (task_of c s) as [[u x]|]; [|reflexivity]. destruct x; reflexivity. Qed.
Lemma starts_at r t h s : starts r t h s -> exists c x, hinv s /\ entry t s = Some c /\ response_of r s = Some (mk_response c (length (log c s)) false true) /\ unsent r s = [] /\ task_of c s = Some (t, x).
Proof.
  intros (tr & o & H). pose proof (hrun_inv _ _ _ _ hinv0 H) as V. pose proof (hrun_trace _ _ _ _ H) as Eh. rewrite map_app in Eh. cbn [map fst] in Eh. rewrite <- Eh in H. apply hrun_snoc in H as (s1 & tr1 & a & H & E & Et). apply app_inj_tail in Et as [_ Ea]. injection Ea as <-.
  pose proof (hrun_inv _ _ _ _ hinv0 H) as V1. destruct (joined_new r t s1 o s V1 E) as (c & R & En). destruct (proj1 (v_entry s V t c) En) as (x & Hx & _). exists c, x. split; [exact V|]. split; [exact En|]. split; [exact R|]. split; [|exact Hx]. unfold unsent. rewrite R. cbn [re_pos re_chan]. apply skipn_all.
Qed.

(** Whatever requests, background tasks and the node do, in any order, no assertion of the node
    fails and no background task finds its topic missing from the map. *)
Theorem c67_no_assert : forall h, exists s tr, hrun http0 h = Some (s, tr) /\ forall o t, ~ In (o, Unreachable t) tr.
Proof.
  intros h. destruct (hrun_ok h http0 hinv0) as (s & tr & H & _). exists s, tr. split; [exact H|]. intros o t X. destruct (hrun_in _ _ _ _ _ _ H X) as (h1 & h2 & s1 & tr1 & s2 & tr2 & _ & H1 & E & _). exact (unreachable_never _ _ _ _ t (hrun_inv _ _ _ _ hinv0 H1) E eq_refl).
Qed.
Print Assumptions c67_no_assert.
Example c67_no_assert_case : exists s tr, hrun http0 (both5 ++ talk5) = Some (s, tr) /\ length tr = 12%nat.
Proof. eexists _, _. split; [vm_compute; reflexivity|]. vm_compute. reflexivity. Qed.

(** A response that is not dropped gives, in order and without gaps, what its topic's task had still
    to read when the request was accepted and every message floodsub returns for the topic from
    then on; what is missing is still on its way.  This is so as long as nobody else unsubscribes
    the topic and its task does not panic. *)
Theorem c67_delivery : forall r t h1 s1 tr1 h2 s2 tr2,
  starts r t h1 s1 -> hrun http0 h1 = Some (s1, tr1) -> hrun s1 h2 = Some (s2, tr2) ->
  left_alone t (h1 ++ h2) -> unharmed t (tr1 ++ tr2) -> kept r h2 ->
  lines r tr2 ++ unsent r s2 ++ stock t s2 ++ coming t s2 = stock t s1 ++ coming t s1 ++ for_topic t (hfloods h2).
Proof.
  intros r t h1 s1 tr1 h2 s2 tr2 St H1 H2 L U K. destruct (starts_at _ _ _ _ St) as (c & x & V & En & R & Un & Hx).
  assert (S0 : steady t s1) by (eapply steady_run; [exact hinv0|apply steady0|exact H1|intros X; apply L; apply in_app_iff; left; exact X]).
  assert (S1 : sound_tasks t s1) by (eapply sound_run; [exact hinv0| |exact H1|intros o X; apply (U o); apply in_app_iff; left; exact X]; intros d y; discriminate).
  destruct (exact_run c t r h2 s1 x _ s2 tr2 V S0 S1 Hx R eq_refl eq_refl H2) as (G1 & G2); [intros X; apply L; apply in_app_iff; right; exact X|intros o X; apply (U o); apply in_app_iff; right; exact X|exact K|].
  assert (En2 : entry t s2 = Some c) by (apply (v_entry s2 (hrun_inv _ _ _ _ V H2)); exact G1). rewrite (stock_c _ _ _ En), (stock_c _ _ _ En2), G2, Un. reflexivity.
Qed.
Print Assumptions c67_delivery.
Example c67_delivery_case : exists s1 tr1 s2 tr2, starts 2 5 both5 s1 /\ hrun http0 both5 = Some (s1, tr1) /\ hrun s1 talk5 = Some (s2, tr2) /\
  unharmed 5 (tr1 ++ tr2) /\ lines 1 tr2 = [ma; mb] /\ lines 2 tr2 = [ma] /\ unsent 2 s2 = [mb].
Proof. eexists _, _, _, _. split; [exists [(HRequest 1 5, Done); (HServe, Joined 1 5); (HFlood (FMessage ma), Done); (HPoll, Done)], (HRequest 2 5); vm_compute; reflexivity|]. split; [vm_compute; reflexivity|]. split; [vm_compute; reflexivity|]. split; [intros o X; cbn [app In] in X; decompose [or] X; try discriminate; contradiction|]. vm_compute. auto. Qed.
Example c67_delivery_case_alone : left_alone 5 (both5 ++ talk5) /\ kept 2 talk5.
Proof. split; vm_compute; intros X; decompose [or] X; try discriminate; contradiction. Qed.

(** Whatever happens, a response gives nothing but those messages, each at most once and in order. *)
Theorem c67_part : forall r t h1 s1 h2 s2 tr2,
  starts r t h1 s1 -> hrun s1 h2 = Some (s2, tr2) ->
  part_of (lines r tr2) (stock t s1 ++ coming t s1 ++ for_topic t (hfloods h2)).
Proof.
  intros r t h1 s1 h2 s2 tr2 St H2. destruct (starts_at _ _ _ _ St) as (c & x & V & En & R & Un & Hx).
  destruct (flow_run c t h2 s1 x s2 tr2 V Hx H2) as (x' & Hx' & d & L1 & P & F). destruct (F r _ R eq_refl) as (y' & _ & _ & G). rewrite Un in G. cbn [app] in G. rewrite (stock_c _ _ _ En). eapply part_left. eapply part_left. rewrite G. exact P.
Qed.
Print Assumptions c67_part.
Example c67_part_case : exists s1 s2 tr2, starts 1 5 begin5 s1 /\
  hrun s1 [HFlood (FMessage ma); HPoll; HUnsubscribe 5; HFlood (FMessage mb); HPoll; HShovel 0; HRead 1; HShovel 0; HRead 1] = Some (s2, tr2) /\ lines 1 tr2 = [ma].
Proof. eexists _, _, _. split; [exists [(HRequest 1 5, Done)], HServe; vm_compute; reflexivity|]. split; [vm_compute; reflexivity|]. vm_compute. reflexivity. Qed.

(** Responses of a topic give the same messages: from the moment the second is accepted, the first
    gives what it had still to give then, and after that exactly what the second gives. *)
Theorem c67_agree : forall r1 r2 t h1 s1 tr1 h2 s2 tr2,
  starts r2 t h1 s1 -> hrun http0 h1 = Some (s1, tr1) -> joined r1 t tr1 -> kept r1 h1 -> hrun s1 h2 = Some (s2, tr2) ->
  lines r1 tr2 ++ unsent r1 s2 = unsent r1 s1 ++ lines r2 tr2 ++ unsent r2 s2.
Proof.
  intros r1 r2 t h1 s1 tr1 h2 s2 tr2 St H1 J K H2. destruct (starts_at _ _ _ _ St) as (c & x & V & En & R & Un & Hx). pose proof (told_run _ _ _ H1) as T.
  destruct (to_joined _ _ T _ _ J) as (y & z & Hy & Hz). assert (Ho : re_open y = true) by (destruct (re_open y) eqn:Eo; [reflexivity|]; exfalso; apply K; pose proof (to_open _ _ T _ _ Hy Eo) as X; rewrite (hrun_trace _ _ _ _ H1) in X; exact X).
  assert (Hc : re_chan y = c). { destruct (v_open s1 V _ _ Hy Ho) as (t' & z' & Hz' & Hs). rewrite Hz in Hz'. injection Hz' as <- <-. assert (entry t s1 = Some (re_chan y)) by (apply (v_entry s1 V); eauto). congruence. }
  destruct (flow_run c t h2 s1 x s2 tr2 V Hx H2) as (x' & Hx' & d & L1 & P & F). destruct (F r1 _ Hy Hc) as (y1 & _ & _ & G1). destruct (F r2 _ R eq_refl) as (y2 & _ & _ & G2). rewrite Un in G2. cbn [app] in G2. rewrite G1, G2. reflexivity.
Qed.
Print Assumptions c67_agree.
Example c67_agree_case : exists s1 tr1 s2 tr2, starts 2 5 both5 s1 /\ hrun http0 both5 = Some (s1, tr1) /\ joined 1 5 tr1 /\ hrun s1 talk5 = Some (s2, tr2) /\ lines 1 tr2 = [ma; mb].
Proof.
  eexists _, _, _, _. split; [exists [(HRequest 1 5, Done); (HServe, Joined 1 5); (HFlood (FMessage ma), Done); (HPoll, Done)], (HRequest 2 5); vm_compute; reflexivity|]. split; [vm_compute; reflexivity|].
  split; [exists HServe; right; left; reflexivity|]. split; [vm_compute; reflexivity|]. vm_compute. reflexivity.
Qed.

(** Reading a response that was not dropped gives the next message; nothing yet if there is none; an
    error if it is more than 16 behind, and then nothing more for ever.  Its channel is never
    closed under it. *)
Theorem c67_read : forall h s tr r t,
  hrun http0 h = Some (s, tr) -> joined r t tr -> kept r h ->
  exists s' a, hstep s (HRead r) = Some (s', a) /\
    (In (HRead r, TooSlow) tr -> a = Finished) /\
    (~ In (HRead r, TooSlow) tr ->
       match unsent r s with
       | [] => a = NotYet
       | m :: _ => a = if (16 <? length (unsent r s))%nat then TooSlow else Line m
       end).
Proof.
  intros h s tr r t H J K. pose proof (told_run _ _ _ H) as T. pose proof (hrun_inv _ _ _ _ hinv0 H) as V.
  destruct (to_joined _ _ T _ _ J) as (y & z & Hy & Hz). assert (Ho : re_open y = true) by (destruct (re_open y) eqn:Eo; [reflexivity|]; exfalso; apply K; pose proof (to_open _ _ T _ _ Hy Eo) as X; rewrite (hrun_trace _ _ _ _ H) in X; exact X).
  pose proof (to_over _ _ T _ _ Hy) as Ov. cbn [hstep]. unfold read_response. rewrite Hy, Ho. cbn [negb]. destruct (re_over y) eqn:Eov.
  - exists s, Finished. split; [reflexivity|]. split; [reflexivity|]. intros X. exfalso. apply X. apply Ov. reflexivity.
  - assert (NT : ~ In (HRead r, TooSlow) tr) by (intros X; apply Ov in X; discriminate). pose proof (v_pos s V _ _ Hy) as [Lp _].
    assert (Eu : unsent r s = skipn (re_pos y) (log (re_chan y) s)) by (unfold unsent; rewrite Hy; reflexivity). rewrite Eu. cbv zeta. destruct (nth_error (log (re_chan y) s) (re_pos y)) as [m|] eqn:En.
    + rewrite (skipn_nth _ _ _ En). assert (El : length (m :: skipn (S (re_pos y)) (log (re_chan y) s)) = (length (log (re_chan y) s) - re_pos y)%nat) by (rewrite <- (skipn_nth _ _ _ En), skipn_length; reflexivity). rewrite El. unfold capacity.
      destruct (16 <? length (log (re_chan y) s) - re_pos y)%nat; eexists _, _; (split; [reflexivity|]); (split; [contradiction|intros _; reflexivity]).
    + apply nth_error_None in En. rewrite skipn_all2 by exact En. rewrite (has_tx_open r y s V Hy Ho). eexists _, _. split; [reflexivity|]. split; [contradiction|reflexivity].
Qed.
Print Assumptions c67_read.
Definition flood17 : list hop := concat (map (fun _ => [HFlood (FMessage ma); HPoll; HShovel 0]) (seq 0 17)).
Example c67_read_case : exists s tr, hrun http0 (begin5 ++ flood17) = Some (s, tr) /\ joined 1 5 tr /\ length (unsent 1 s) = 17%nat /\ ~ In (HRead 1, TooSlow) tr.
Proof. eexists _, _. split; [vm_compute; reflexivity|]. split; [exists HServe; right; left; reflexivity|]. split; [vm_compute; reflexivity|]. intros X. cbn [In] in X. decompose [or] X; try discriminate; contradiction. Qed.

(** A second request for a topic somebody listens to is accepted at once, without the node. *)
Theorem c67_shared : forall h s tr r t r2,
  hrun http0 h = Some (s, tr) -> joined r t tr -> kept r h -> h_locked s = false -> (forall u, ~ In (HRequest r2 u) h) ->
  exists s', hstep s (HRequest r2 t) = Some (s', Joined r2 t) /\ h_node s' = h_node s /\ h_calls s' = h_calls s.
Proof.
  intros h s tr r t r2 H J K Lk N2. pose proof (told_run _ _ _ H) as T. pose proof (hrun_inv _ _ _ _ hinv0 H) as V.
  destruct (to_joined _ _ T _ _ J) as (y & z & Hy & Hz). assert (Ho : re_open y = true) by (destruct (re_open y) eqn:Eo; [reflexivity|]; exfalso; apply K; pose proof (to_open _ _ T _ _ Hy Eo) as X; rewrite (hrun_trace _ _ _ _ H) in X; exact X).
  assert (Hc : entry t s = Some (re_chan y)). { destruct (v_open s V _ _ Hy Ho) as (t' & z' & Hz' & Hs). rewrite Hz in Hz'. injection Hz' as <- <-. apply (v_entry s V). eauto. }
  pose proof (unasked_run _ _ _ _ H N2) as Un. pose proof (unasked_calls _ _ Un) as F2. destruct Un as [F1 _].
 cbn [hstep]. unfold request. rewrite Lk, F1, F2, Hc. eexists. split; [reflexivity|]. split; reflexivity.
Qed.
Print Assumptions c67_shared.
Example c67_shared_case : exists s tr, hrun http0 (begin5 ++ talk5) = Some (s, tr) /\ joined 1 5 tr /\ h_locked s = false.
Proof. eexists _, _. split; [vm_compute; reflexivity|]. split; [exists HServe; right; left; reflexivity|]. vm_compute. reflexivity. Qed.

(** When the node has to be asked, the request is accepted, or it panics if the node is still
    subscribed to the topic; and then an earlier subscription is on its way out. *)
Theorem c67_request : forall h s tr t r q,
  hrun http0 h = Some (s, tr) -> h_calls s = (t, ByRequest r) :: q ->
  exists s' a, hstep s HServe = Some (s', a) /\
    (In t (subscribed_topics (h_node s)) -> a = RequestPanicked r t /\ leaving t s) /\
    (~ In t (subscribed_topics (h_node s)) -> a = Joined r t).
Proof.
  intros h s tr t r q H Q. pose proof (hrun_inv _ _ _ _ hinv0 H) as V. pose proof (v_streams s V) as N1. pose proof (si_inv _ _ N1) as I1.
  destruct (v_by_request s V t r) as [En _]; [rewrite Q; left; reflexivity|].
  cbn [hstep]. unfold serve. rewrite Q, (subscribe_shape t _ I1). destruct (cur t (h_node s)) as [k|] eqn:Ec.
  - eexists _, _. split; [reflexivity|]. split; [|intros X; exfalso; apply X; apply cur_topics; congruence]. intros _. split; [reflexivity|]. destruct (i_cur _ I1 _ _ Ec) as (y & Hy & Ht).
    destruct (st_alive y) eqn:Ea.
    + left. destruct (si_alive _ _ N1 _ _ Hy Ea) as (c & u & Hc). destruct (si_held _ _ N1 _ _ _ Hc) as (z & Hz & Hzt & _). assert (Eu : u = t) by congruence. rewrite Eu in Hc. unfold hold in Hc. destruct (task_of c s) as [[v x]|] eqn:Ex; [|discriminate]. destruct (holds x) as [j|] eqn:Ej; [|discriminate]. injection Hc as -> ->.
      destruct (stays x) eqn:Es; [exfalso; assert (X : entry t s = Some c) by (apply (v_entry s V); exists x; split; [exact Ex|exact Es]); congruence|]. destruct x as [j|j b|j|j p|p]; try discriminate. cbn [stays] in Es. subst p. injection Ej as ->. exists c, k. exact Ex.
    + right. rewrite <- Ht. apply (si_off _ _ N1 k y Hy); [rewrite Ht; exact Ec|exact Ea].
  - eexists _, _. split; [reflexivity|]. split; [intros X; apply cur_topics in X; congruence|reflexivity].
Qed.
Print Assumptions c67_request.
Example c67_request_case : exists s tr, hrun http0 [HRequest 1 5] = Some (s, tr) /\ h_calls s = [(5, ByRequest 1)] /\ subscribed_topics (h_node s) = [].
Proof. eexists _, _. split; [vm_compute; reflexivity|]. vm_compute. auto. Qed.

(** So a request fails, with a panic, if it comes when the last response of the topic was dropped
    and the node has not yet been told; the request that comes after it is no better off until
    the node is polled. *)
Theorem c67_request_refuted : exists h s tr, hrun http0 h = Some (s, tr) /\ left_alone 5 h /\ unharmed 5 tr /\
  In (HServe, RequestPanicked 2 5) tr /\ In (HServe, RequestPanicked 3 5) tr.
Proof.
  exists (begin5 ++ [HClose 1; HTimeout 0; HLock 0; HRequest 2 5; HServe; HLeave 0; HRequest 3 5; HServe]). eexists _, _. split; [vm_compute; reflexivity|].
  split; [vm_compute; intros X; decompose [or] X; try discriminate; contradiction|]. split; [intros o X; cbn [In] in X; decompose [or] X; try discriminate; contradiction|]. vm_compute. tauto.
Qed.
Print Assumptions c67_request_refuted.
(** The same happens when a client gives up while its request waits for the node: the stream goes to
    nobody, and the next request panics, though no response for the topic was ever there. *)
Theorem c67_cancel_refuted : exists h s tr, hrun http0 h = Some (s, tr) /\ left_alone 5 h /\ unharmed 5 tr /\
  (forall r, ~ joined r 5 tr) /\ In (HServe, RequestPanicked 2 5) tr.
Proof.
  exists [HRequest 1 5; HCancel 1; HServe; HRequest 2 5; HServe]. eexists _, _. split; [vm_compute; reflexivity|].
  split; [vm_compute; intros X; decompose [or] X; try discriminate; contradiction|]. split; [intros o X; cbn [In] in X; decompose [or] X; try discriminate; contradiction|].
  split; [intros r (o & X); cbn [In] in X; decompose [or] X; try discriminate; contradiction|]. vm_compute. tauto.
Qed.
Print Assumptions c67_cancel_refuted.

(** No background task panics, as long as nobody else unsubscribes the topic and no request for it
    comes between the end of the wait and the look at the map.  Without the second condition it is
    false, below. *)
Theorem c67_no_panic_partial : forall t h s tr, hrun http0 h = Some (s, tr) -> calm t h -> left_alone t h -> unharmed t tr.
Proof. intros t h s tr H C L. exact (proj2 (calm_run t h s tr H C L)). Qed.
Print Assumptions c67_no_panic_partial.
Example c67_no_panic_case : exists s tr, hrun http0 ([HRequest 1 5; HServe; HClose 1; HTimeout 0; HLock 0; HLeave 0; HPoll; HRequest 2 5; HServe]) = Some (s, tr) /\ calm 5 [HRequest 1 5; HServe; HClose 1; HTimeout 0; HLock 0; HLeave 0; HPoll; HRequest 2 5; HServe] /\ joined 2 5 tr.
Proof.
  eexists _, _. split; [vm_compute; reflexivity|]. split; [|exists HServe; vm_compute; tauto]. intros h1 r h2 s1 tr1 E H.
  do 8 (destruct h1 as [|? h1]; [injection E; intros; subst; try discriminate; vm_compute in H; injection H as <- <-; intros (c & k & X & Y); vm_compute in X; try discriminate; injection X as <-; vm_compute in Y; discriminate|injection E as <- E]).
  destruct h1 as [|? h1]; [discriminate|]. destruct h1; discriminate.
Qed.

(** Once a background task has panicked, its topic is lost for ever: requests for it are accepted,
    and get nothing. *)
Theorem c67_lost : forall h s tr o t h2 s2 tr2,
  hrun http0 h = Some (s, tr) -> In (o, TaskPanicked t) tr -> hrun s h2 = Some (s2, tr2) ->
  (forall r, joined r t tr2 -> lines r tr2 = []) /\
  (forall r, h_locked s2 = false -> (forall u, ~ In (HRequest r u) (h ++ h2)) -> exists s3, hstep s2 (HRequest r t) = Some (s3, Joined r t) /\ h_calls s3 = h_calls s2).
Proof.
  intros h s tr o t h2 s2 tr2 H P H2. pose proof (hrun_inv _ _ _ _ hinv0 H) as V. pose proof (hrun_inv _ _ _ _ V H2) as V2.
  assert (D : exists c x, task_of c s = Some (t, x) /\ panicked x = true).
  { destruct (hrun_in _ _ _ _ _ _ H P) as (a1 & a2 & s3 & t3 & s4 & t4 & _ & G1 & G2 & G3 & _). pose proof (hrun_inv _ _ _ _ hinv0 G1) as V3. destruct (panic_leaves _ _ _ _ V3 G2) as (c & x & X1 & X2). destruct (dead_run c t a2 _ _ _ _ (hstep_inv _ _ _ _ V3 G2) X1 X2 G3) as (_ & x' & Y). exists c, x'. exact Y. }
  destruct D as (c & x & Hx & Hp). split.
  - intros r (p & J). destruct (hrun_in _ _ _ _ _ _ H2 J) as (a1 & a2 & s3 & t3 & s4 & t4 & _ & G1 & G2 & G3 & ->). pose proof (hrun_inv _ _ _ _ V G1) as V3. pose proof (hstep_inv _ _ _ _ V3 G2) as V4.
    destruct (dead_run c t a1 _ _ _ _ V Hx Hp G1) as (_ & x3 & X3 & P3). destruct (dead_step c t x3 _ _ _ _ V3 X3 P3 G2) as (_ & x4 & X4 & P4). destruct (dead_run c t a2 _ _ _ _ V4 X4 P4 G3) as (L5 & _).
    destruct (joined_new r t s3 p s4 V3 G2) as (d & R & En). assert (d = c). { assert (entry t s4 = Some c) by (apply (v_entry s4 V4); exists x4; split; [exact X4|]; destruct x4; try discriminate; exact P4). congruence. } subst d.
    destruct (flow_run c t a2 s4 x4 s2 t4 V4 X4 G3) as (x' & _ & e & L1 & _ & F). destruct (F r _ R eq_refl) as (y' & _ & _ & G). rewrite L5 in L1. assert (e = []) by (apply (app_inv_head (log c s4)); rewrite app_nil_r; symmetry; exact L1). subst e.
    unfold unsent at 2 in G. rewrite R in G. cbn [re_pos re_chan] in G. rewrite skipn_all in G. cbn [app] in G. apply app_eq_nil in G as [G _].
    change ((p, Joined r t) :: t4) with ([(p, Joined r t)] ++ t4). rewrite !lines_app, G, (lines_none r a1 s s3 t3 V G1 (joined_fresh _ _ _ _ _ V3 G2)). unfold lines. cbn [map concat app]. destruct p; reflexivity.
  - intros r Lk F. destruct (dead_run c t h2 _ _ _ _ V Hx Hp H2) as (_ & x2 & X2 & P2). assert (En : entry t s2 = Some c) by (apply (v_entry s2 V2); exists x2; split; [exact X2|]; destruct x2; try discriminate; exact P2).
    assert (R2 : hrun http0 (h ++ h2) = Some (s2, tr ++ tr2)) by (rewrite hrun_app, H, H2; reflexivity). pose proof (unasked_run _ _ _ _ R2 F) as Un. pose proof (unasked_calls _ _ Un) as F2. destruct Un as [F1 _].
    cbn [hstep]. unfold request. rewrite Lk, F1, F2, En. eexists. split; reflexivity.
Qed.
Print Assumptions c67_lost.

(** And this happens when a request comes at the wrong moment: the client of request 2 is told that
    it is subscribed, nobody unsubscribes the topic, and whatever happens then it never gets a
    message, and neither does anyone after it. *)
Definition too_early : list hop := begin5 ++ [HClose 1; HTimeout 0; HRequest 2 5; HLock 0; HServe].
Theorem c67_resubscribe_refuted : exists s tr, hrun http0 too_early = Some (s, tr) /\ left_alone 5 too_early /\ joined 2 5 tr /\ kept 2 too_early /\
  In (HServe, TaskPanicked 5) tr /\
  forall h2 s2 tr2, hrun s h2 = Some (s2, tr2) -> lines 2 tr2 = [] /\ forall r, joined r 5 tr2 -> lines r tr2 = [].
Proof.
  eexists _, _. split; [vm_compute; reflexivity|]. split; [vm_compute; intros X; decompose [or] X; try discriminate; contradiction|]. split; [exists (HRequest 2 5); vm_compute; tauto|].
  split; [vm_compute; intros X; decompose [or] X; try discriminate; contradiction|]. split; [vm_compute; tauto|]. intros h2 s2 tr2 H2.
  destruct (hrun_ok too_early http0 hinv0) as (s & tr & H & V). assert (Es : (s, tr) = (s, tr)) by reflexivity. vm_compute in H. injection H as Es1 Es2. rewrite Es1 in H2. split.
  - assert (Hx : exists x, task_of 0 s = Some (5, x) /\ panicked x = true) by (rewrite <- Es1; vm_compute; eauto). destruct Hx as (x & Hx & Hp).
    assert (R : exists y, response_of 2 s = Some y /\ re_chan y = 0 /\ unsent 2 s = []) by (rewrite <- Es1; eexists; vm_compute; auto). destruct R as (y & R1 & R2 & R3).
    destruct (flow_run 0 5 h2 s x s2 tr2 V Hx H2) as (x' & _ & e & L1 & _ & F). destruct (F 2 _ R1 R2) as (y' & _ & _ & G). destruct (dead_run 0 5 h2 _ _ _ _ V Hx Hp H2) as (L5 & _). rewrite L5 in L1. assert (e = []) by (apply (app_inv_head (log 0 s)); rewrite app_nil_r; symmetry; exact L1). subst e. rewrite R3 in G. apply app_eq_nil in G as [G _]. exact G.
  - intros r J. assert (H : hrun http0 too_early = Some (s, tr)) by (rewrite <- Es1, <- Es2; vm_compute; reflexivity). assert (P : In (HServe, TaskPanicked 5) tr) by (rewrite <- Es2; vm_compute; tauto). exact (proj1 (c67_lost _ _ _ _ _ _ _ _ H P H2) r J).
Qed.
Print Assumptions c67_resubscribe_refuted.

(** When every response of a topic was dropped, the task takes the topic off the map and the node is
    unsubscribed at its next poll; the next request is then accepted again. *)
Theorem c67_cleanup : forall h s tr t c k,
  hrun http0 h = Some (s, tr) -> left_alone t h -> unheard t s ->
  entry t s = Some c -> task_of c s = Some (t, Reading k) -> h_locked s = false -> h_calls s = [] ->
  exists s' tr', hrun s [HTimeout c; HLock c; HLeave c; HPoll] = Some (s', tr') /\
    ~ In t (subscribed_topics (h_node s')) /\ entry t s' = None /\
    forall r, (forall u, ~ In (HRequest r u) h) -> exists s'', hrun s' [HRequest r t; HServe] = Some (s'', [(HRequest r t, Done); (HServe, Joined r t)]).
Proof.
  intros h s tr t c k H L Uh En Hc Lk Cl. pose proof (hrun_inv _ _ _ _ hinv0 H) as V. pose proof (v_streams s V) as N1.
  assert (R0 : receivers c s = O). { apply receivers_none; [exact V|]. intros r x Hr Ho Hn. pose proof (Uh c r x En Hr Hn). congruence. }
  assert (St : steady t s) by (eapply steady_run; [exact hinv0|apply steady0|exact H|exact L]).
  pose proof (hold_task c t (Reading k) k s Hc eq_refl) as Hd. pose proof (sn_cur _ _ _ St _ _ Hd) as Hcur. destruct (si_held _ _ N1 _ _ _ Hd) as (y & Hy & Hyt & Hya). assert (Hon : st_on_drop y = true) by (apply (si_on _ _ N1 k y Hy); [rewrite Hyt; exact Hcur|exact Hya]).
  set (hs := [HTimeout c; HLock c; HLeave c; HPoll]). destruct (hrun_ok hs s V) as (s' & tr' & H' & V'). exists s', tr'. split; [exact H'|].
  assert (G : exists n d a, step (drop_stream k (h_node s)) OPoll = Some (n, APolled a) /\ polled (drop_stream k (h_node s)) n d a /\ h_node s' = n /\ h_calls s' = [] /\ h_locked s' = false /\ entry t s' = None).
  { pose proof (sinv_drop _ _ _ _ _ N1 Hd) as N2. destruct (poll_shape _ (si_inv _ _ N2)) as (n & d & a & E1 & P). exists n, d, a. cbn [step]. rewrite E1. split; [reflexivity|]. split; [exact P|].
    unfold hs in H'. cbn [hrun hstep] in H'. unfold time_out in H'. rewrite Hc, R0 in H'.
    set (s1 := set_task c t (Locking k true) s) in H'. assert (T1 : task_of c s1 = Some (t, Locking k true)) by (unfold s1; rewrite task_set, N.eqb_refl; reflexivity).
    unfold lock in H'. rewrite T1 in H'. change (h_locked s1) with (h_locked s) in H'. rewrite Lk in H'. change (entry t s1) with (entry t s) in H'. rewrite En in H'. change (receivers c s1) with (receivers c s) in H'. rewrite R0 in H'.
    set (s2 := set_task c t (Leaving k false) (on_entries (mdel N.eqb t (h_entries s1)) s1)) in H'. assert (T2 : task_of c s2 = Some (t, Leaving k false)) by (unfold s2; rewrite task_set, N.eqb_refl; reflexivity).
    unfold leave in H'. rewrite T2 in H'. unfold node_does in H'. rewrite drop_does in H'. change (h_node s2) with (h_node s) in H'.
    set (s3 := set_task c t (Gone false) (on_node (drop_stream k (h_node s)) s2)) in H'. change (h_node s3) with (drop_stream k (h_node s)) in H'. cbn [step] in H'. rewrite E1 in H'. injection H' as <- _.
    split; [reflexivity|]. split; [exact Cl|]. split; [exact Lk|]. unfold entry. cbn [h_entries on_node]. change (mget N.eqb t (mdel N.eqb t (h_entries s)) = None). rewrite (mget_mdel _ N.eqb_spec), N.eqb_refl. reflexivity. }
  destruct G as (n & d & a & E1 & P & En' & Cl' & Lk' & Ent'). assert (Gone5 : cur t (h_node s') = None). { rewrite En'. apply (p_gone _ _ _ _ P). rewrite (unsubs_drop _ _ _ Hy Hya), Hon, Hyt. apply in_app_iff. right. left. reflexivity. }
  split; [rewrite cur_topics; congruence|]. split; [exact Ent'|]. intros r F.
  assert (R2 : hrun http0 (h ++ hs) = Some (s', tr ++ tr')) by (rewrite hrun_app, H, H'; reflexivity). assert (F' : forall u, ~ In (HRequest r u) (h ++ hs)). { intros u X. apply in_app_iff in X as [X|X]; [exact (F u X)|]. unfold hs in X. cbn [In] in X. decompose [or] X; try discriminate; contradiction. }
  pose proof (unasked_run _ _ _ _ R2 F') as Un. pose proof (unasked_calls _ _ Un) as F2. destruct Un as [F1 _].
  cbn [hrun hstep]. unfold request. rewrite Lk', F1, F2, Ent', Cl'. cbn [app]. unfold serve. cbn [h_calls on_locked on_calls h_node]. rewrite (subscribe_shape t _ (si_inv _ _ (v_streams s' V'))), Gone5. eexists. reflexivity.
Qed.
Print Assumptions c67_cleanup.
Example c67_cleanup_case : exists s tr, hrun http0 (begin5 ++ [HClose 1]) = Some (s, tr) /\ entry 5 s = Some 0 /\ task_of 0 s = Some (5, Reading 0) /\ h_locked s = false /\ h_calls s = [] /\ receivers 0 s = O.
Proof. eexists _, _. split; [vm_compute; reflexivity|]. vm_compute. auto 6. Qed.
