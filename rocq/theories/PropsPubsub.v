(** Properties C44, C45 and C60: publish and subscribe. *)
From Coq Require Import Permutation.
From Verif Require Import Base FMap Pubsub PubsubSpec PubsubProofs.
Local Open Scope N_scope.

(** * Histories used as examples *)
Definition m1 := mk_msg 7 [1] [0] [5].
Definition m2 := mk_msg 8 [2] [0] [5; 6].
Definition m3 := mk_msg 9 [3] [0] [5; 6; 5].
Definition busy : list op :=
  [ OSubscribe 5; OFlood (FMessage m1); OSubscribe 6; OFlood (FSubscribed 7 5); OFlood (FAction 3); OPoll; OFlood (FMessage m2); OPoll; ONext 0;
    ODrop 1; OPoll; OFlood (FMessage m2); OFlood (FSubscribed 8 6); OFlood (FUnsubscribed 7 5); OFlood (FSubscribed 8 5); OPoll; ONext 0; ONext 0 ].

(** * C44 *)
(** None of the assertions in subscribing, unsubscribing and polling ever fails. *)
Theorem c44_no_panic : forall h, exists s tr, run pubsub0 h = Some (s, tr).
Proof. intros h. destruct (run_total h pubsub0 inv0) as (s & tr & E & _). eauto. Qed.
Print Assumptions c44_no_panic.

(** Subscribing is refused exactly when the topic is subscribed, and then it is; so there is one
    stream that is subscribed for each topic. *)
Theorem c44_one_per_topic : forall h s tr t s' a,
  run pubsub0 h = Some (s, tr) -> step s (OSubscribe t) = Some (s', a) ->
  (a = ASubscribed None <-> In t (subscribed_topics s)) /\ In t (subscribed_topics s') /\ NoDup (subscribed_topics s') /\
  (forall k, a = ASubscribed (Some k) -> forall u, ~ In (OSubscribe u, ASubscribed (Some k)) tr).
Proof.
  intros h s tr t s' a H E. pose proof (traced_of _ _ _ H) as T. pose proof (t_inv _ _ T) as I. pose proof (step_inv _ _ _ _ I E) as I'. split; [|split; [|split]].
  - cbn [step] in E. rewrite (subscribe_shape t s I) in E. rewrite cur_topics. destruct (cur t s); injection E as <- <-; split; congruence.
  - rewrite cur_topics. cbn [step] in E. rewrite (subscribe_shape t s I) in E. destruct (cur t s) eqn:Ec; injection E as <- <-; [congruence|]. rewrite cur_created, N.eqb_refl. discriminate.
  - exact (i_nodup s' I').
  - intros k -> u Hu. apply (t_got _ _ T) in Hu as (x & Hx & _). pose proof (i_next s I _ _ Hx) as L. cbn [step] in E. rewrite (subscribe_shape t s I) in E. destruct (cur t s); [discriminate|]. injection E as _ <-. lia.
Qed.
Print Assumptions c44_one_per_topic.
Example c44_one_per_topic_case : exists s tr, run pubsub0 busy = Some (s, tr) /\ subscribed_topics s = [5] /\
  option_map snd (step s (OSubscribe 5)) = Some (ASubscribed None) /\ option_map snd (step s (OSubscribe 6)) = Some (ASubscribed (Some 2)).
Proof. eexists _, _. vm_compute. repeat split. Qed.

(** Take any history that ends with a subscription, and any continuation in which the stream is not
    dropped and the topic stays subscribed, without a new subscription.  Then what was read from the
    stream, what it has still to give and what is still to come is, in order, what was still to come
    at the subscription and what came since, each message once for each time it names the topic. *)
Theorem c44_delivery : forall h1 t s1 tr1 k h2 s2 tr2,
  run pubsub0 (h1 ++ [OSubscribe t]) = Some (s1, tr1) -> last tr1 (OPoll, ANone) = (OSubscribe t, ASubscribed (Some k)) ->
  run s1 h2 = Some (s2, tr2) -> ~ In (ODrop k) h2 ->
  In t (subscribed_topics s2) -> (forall j, ~ In (OSubscribe t, ASubscribed (Some j)) tr2) ->
  read k tr2 ++ unread k s2 ++ for_topic t (backlog s2) = for_topic t (backlog s1) ++ for_topic t (floods h2).
Proof.
  intros h1 t s1 tr1 k h2 s2 tr2 H1 L H2 D C F. apply run_snoc in H1 as (s0 & t0 & a & H0 & E & ->). rewrite last_last in L. injection L as ->.
  pose proof (t_inv _ _ (traced_of _ _ _ H0)) as I. pose proof (step_inv _ _ _ _ I E) as I1. cbn [step] in E. rewrite (subscribe_shape t s0 I) in E. destruct (cur t s0) eqn:Ec; [discriminate|]. injection E as E1 E2.
  assert (G : get_stream k s1 = Some (mk_stream t [] true true)) by (rewrite <- E1, get_created, <- E2, N.eqb_refl; reflexivity).
  assert (Hd : held t k s1). { split; [exact I1| |eexists; split; [exact G|auto]]. rewrite <- E1, cur_created, N.eqb_refl. congruence. }
  destruct (held_run t k h2 s1 s2 tr2 Hd H2 D F) as (_ & R); [apply cur_topics; exact C|]. rewrite R, (unread_get _ _ _ G). reflexivity.
Qed.
Print Assumptions c44_delivery.
(** If the poll at the end had nothing to return, nothing is still to come. *)
Theorem c44_delivered : forall h1 t s1 tr1 k h2 s2 tr2,
  run pubsub0 (h1 ++ [OSubscribe t]) = Some (s1, tr1) -> last tr1 (OPoll, ANone) = (OSubscribe t, ASubscribed (Some k)) ->
  run s1 (h2 ++ [OPoll]) = Some (s2, tr2) -> last tr2 (OPoll, ANone) = (OPoll, APolled None) -> ~ In (ODrop k) h2 ->
  In t (subscribed_topics s2) -> (forall j, ~ In (OSubscribe t, ASubscribed (Some j)) tr2) ->
  read k tr2 ++ unread k s2 = for_topic t (backlog s1) ++ for_topic t (floods h2).
Proof.
  intros h1 t s1 tr1 k h2 s2 tr2 H1 L H2 L2 D C F. pose proof (c44_delivery _ _ _ _ _ _ _ _ H1 L H2) as R. assert (X : ~ In (ODrop k) (h2 ++ [OPoll])). { rewrite in_app_iff. intros [X|[[=]|[]]]; exact (D X). }
  specialize (R X C F). assert (I1 : inv s1) by exact (t_inv _ _ (traced_of _ _ _ H1)). apply run_snoc in H2 as (s0 & t0 & a & H0 & E & ->). rewrite last_last in L2. injection L2 as ->.
  pose proof (run_inv _ _ _ _ I1 H0) as I0. cbn [step] in E. destruct (poll_shape s0 I0) as (s' & d & b & E1 & P). rewrite E1 in E. injection E as -> ->.
  unfold backlog in R at 1. rewrite (p_idle _ _ _ _ P eq_refl) in R. cbn [for_topic map concat] in R. rewrite app_nil_r, floods_snoc in R. cbn [floods map concat] in R. rewrite app_nil_r in R. exact R.
Qed.
Print Assumptions c44_delivered.
Example c44_delivery_case : exists s1 tr1 s2 tr2,
  run pubsub0 [OSubscribe 5] = Some (s1, tr1) /\ last tr1 (OPoll, ANone) = (OSubscribe 5, ASubscribed (Some 0)) /\ run s1 (tl busy ++ [OPoll]) = Some (s2, tr2) /\ last tr2 (OPoll, ANone) = (OPoll, APolled None) /\
  ~ In (ODrop 0) (tl busy) /\ In 5 (subscribed_topics s2) /\ (forall j, ~ In (OSubscribe 5, ASubscribed (Some j)) tr2) /\ read 0 tr2 = [m1; m2; m2].
Proof.
  eexists _, _, _, _. split; [vm_compute; reflexivity|]. split; [vm_compute; reflexivity|]. split; [vm_compute; reflexivity|]. split; [vm_compute; reflexivity|]. split; [|split; [|split]].
  - vm_compute. intuition discriminate.
  - vm_compute. auto.
  - intros j. vm_compute. intuition discriminate.
  - vm_compute. reflexivity.
Qed.

(** Altogether, the streams of a topic are given each message at most once: what was read from
    distinct streams of the topic is a part of what came for it, counting repetitions. *)
Theorem c44_at_most_once : forall h s tr t ks,
  run pubsub0 h = Some (s, tr) -> NoDup ks -> (forall k, In k ks -> In (OSubscribe t, ASubscribed (Some k)) tr) ->
  exists rest, Permutation (flat_map (fun k => read k tr) ks ++ rest) (for_topic t (floods h)).
Proof.
  intros h s tr t ks H N A. pose proof (traced_of _ _ _ H) as T. destruct (gave_all h s tr t ks H N) as (rest & P).
  - intros k Hk x Hx. apply A in Hk. apply (t_got _ _ T) in Hk as (y & Hy & E). congruence.
  - destruct (flat_lost (gave tr s) (fun k => read k tr) ks) as (L & PL); [intros k _; eexists; reflexivity|].
    exists (L ++ for_topic t (backlog s) ++ rest). rewrite <- P, <- PL, <- !app_assoc. reflexivity.
Qed.
Print Assumptions c44_at_most_once.
(** In particular a stream gives only messages that came and that name its topic. *)
Theorem c44_own_topic : forall h s tr t k m,
  run pubsub0 h = Some (s, tr) -> In (OSubscribe t, ASubscribed (Some k)) tr -> In m (read k tr) -> In (OFlood (FMessage m)) h /\ In t (m_topics m).
Proof.
  intros h s tr t k m H A Hm. destruct (c44_at_most_once h s tr t [k] H) as (rest & P).
  - constructor; [intros []|constructor].
  - intros j [<-|[]]. exact A.
  - assert (X : In m (for_topic t (floods h))). { eapply Permutation_in; [exact P|]. apply in_app_iff. left. cbn [flat_map]. rewrite app_nil_r. exact Hm. }
    unfold for_topic in X. apply in_concat in X as (l & X1 & X2). apply in_map_iff in X1 as (e & <- & X1). destruct e as [m'|p u|p u|n]; try destruct X2. unfold named in X2. apply in_map_iff in X2 as (u & E & X2). subst m'. apply filter_In in X2 as [X2 X3]. apply N.eqb_eq in X3. subst u.
    split; [|exact X2]. unfold floods in X1. apply in_concat in X1 as (l & X1 & X3). apply in_map_iff in X1 as (o & <- & X1). destruct o; try destruct X3 as []; [|destruct H0]. subst e. exact X1.
Qed.
Print Assumptions c44_own_topic.
Example c44_own_topic_case : exists s tr, run pubsub0 busy = Some (s, tr) /\ In (OSubscribe 5, ASubscribed (Some 0)) tr /\ In m2 (read 0 tr) /\ NoDup [0; 1] /\ floods busy <> [].
Proof. eexists _, _. split; [vm_compute; reflexivity|]. split; [vm_compute; auto|]. split; [vm_compute; auto|]. split; [|discriminate]. constructor; [intros [[=]|[]]|]. constructor; [intros []|constructor]. Qed.

(** After a topic was unsubscribed its earlier streams give only what they had been given. *)
Theorem c44_after_unsubscribe : forall h1 t s1 tr1 k h2 s2 tr2,
  run pubsub0 (h1 ++ [OUnsubscribe t]) = Some (s1, tr1) -> In (OSubscribe t, ASubscribed (Some k)) tr1 -> run s1 h2 = Some (s2, tr2) ->
  exists rest, unread k s1 = read k tr2 ++ rest.
Proof.
  intros h1 t s1 tr1 k h2 s2 tr2 H1 K H2. pose proof (traced_of _ _ _ H1) as T1. destruct (quiet_run k h2 s1 s2 tr2) as (_ & l & E); [|exact H2|exists (unread k s2 ++ l); exact E].
  pose proof (t_inv _ _ T1) as I1. apply (t_got _ _ T1) in K as (x & Hx & Ht). split; [exact I1|]. split; [|eapply (i_next s1 I1); exact Hx].
  intros u Hu. destruct (i_cur s1 I1 _ _ Hu) as (y & Hy & E). assert (y = x) by congruence. subst y. assert (u = t) by congruence. subst u.
  apply run_snoc in H1 as (s0 & t0 & a & H0 & E2 & ->). cbn [step] in E2. rewrite (unsubscribe_shape t s0 (t_inv _ _ (traced_of _ _ _ H0))) in E2. injection E2 as <- <-. destruct (cur t s0) eqn:Ec; [|congruence]. rewrite cur_removed in Hu. match type of Hu with context [?a =? ?b] => destruct (N.eqb_spec a b) as [X|X] end; [discriminate|congruence].
Qed.
Print Assumptions c44_after_unsubscribe.
(** When a stream has ended it gives nothing more. *)
Theorem c44_end_is_final : forall h1 s1 tr1 k h2 s2 tr2,
  run pubsub0 (h1 ++ [ONext k]) = Some (s1, tr1) -> last tr1 (OPoll, ANone) = (ONext k, ANext Ended) -> run s1 h2 = Some (s2, tr2) -> read k tr2 = [].
Proof.
  intros h1 s1 tr1 k h2 s2 tr2 H1 L H2. pose proof (traced_of _ _ _ H1) as T1. pose proof (t_inv _ _ T1) as I1. apply run_snoc in H1 as (s0 & t0 & a & H0 & E & ->). rewrite last_last in L. injection L as ->.
  pose proof (t_inv _ _ (traced_of _ _ _ H0)) as I0. cbn [step] in E. destruct (next_of k s0) as [s' n] eqn:En. injection E as -> ->. unfold next_of in En.
  destruct (get_stream k s0) as [x|] eqn:Ex; [|discriminate]. destruct (st_alive x); cbn [negb] in En; [|discriminate]. destruct (st_queue x); [|discriminate]. destruct (has_sender k s0) eqn:Es; [discriminate|]. injection En as <-.
  edestruct (quiet_run k h2) as (_ & l & E); [|exact H2|].
  - split; [exact I1|]. split; [|exact (i_next s0 I0 _ _ Ex)]. intros u Hu. assert (X : has_sender k s0 = true) by (apply has_sender_cur; [exact I0|exists u; exact Hu]). congruence.
  - unfold unread in E at 1. rewrite get_set, N.eqb_refl in E. cbn [st_queue] in E. destruct (read k tr2); [reflexivity|discriminate].
Qed.
Print Assumptions c44_end_is_final.
Example c44_ends_case : exists s1 tr1 s2 tr2, run pubsub0 [OSubscribe 5; OFlood (FMessage m1); OPoll; OUnsubscribe 5] = Some (s1, tr1) /\ In (OSubscribe 5, ASubscribed (Some 0)) tr1 /\
  run s1 [OFlood (FMessage m2); OPoll; ONext 0; ONext 0] = Some (s2, tr2) /\ read 0 tr2 = [m1] /\ last tr2 (OPoll, ANone) = (ONext 0, ANext Ended).
Proof. eexists _, _, _, _. split; [vm_compute; reflexivity|]. split; [vm_compute; auto|]. split; [vm_compute; reflexivity|]. vm_compute. auto. Qed.

(** A message that names a topic twice is delivered twice. *)
Theorem c44_exactly_once_refuted : exists h s tr,
  run pubsub0 (OSubscribe 5 :: h) = Some (s, tr) /\ floods h = [FMessage m3] /\ read 0 tr = [m3; m3].
Proof. exists [OFlood (FMessage m3); OPoll; ONext 0; ONext 0], (fst (match run pubsub0 [OSubscribe 5; OFlood (FMessage m3); OPoll; ONext 0; ONext 0] with Some x => x | None => (pubsub0, []) end)). eexists. vm_compute. auto. Qed.
Print Assumptions c44_exactly_once_refuted.
(** If no message names a topic twice, [for_topic] lists each message that names the topic once. *)
Theorem c44_for_topic : forall t es, (forall m, In (FMessage m) es -> NoDup (m_topics m)) ->
  for_topic t es = concat (map (fun e => match e with FMessage m => if existsb (N.eqb t) (m_topics m) then [m] else [] | _ => [] end) es).
Proof.
  intros t es H. unfold for_topic. f_equal. apply map_ext_in. intros e He. destruct e as [m| | |]; try reflexivity. specialize (H m He). unfold named. clear He. induction (m_topics m) as [|u ts IH]; [reflexivity|].
  apply NoDup_cons_iff in H as [H1 H2]. cbn [filter existsb]. destruct (N.eqb_spec t u) as [E|]; [|cbn [orb]; apply IH; exact H2]. subst u. cbn [orb map].
  assert (X : filter (N.eqb t) ts = []); [|rewrite X; reflexivity]. destruct (filter (N.eqb t) ts) as [|v vs] eqn:Ef; [reflexivity|]. exfalso. apply H1. assert (Hv : In v (filter (N.eqb t) ts)) by (rewrite Ef; left; reflexivity). apply filter_In in Hv as [Hv Ev]. apply N.eqb_eq in Ev. subst v. exact Hv.
Qed.
Print Assumptions c44_for_topic.
Example c44_for_topic_case : forall m, In (FMessage m) (floods busy) -> NoDup (m_topics m).
Proof. intros m. cbn. intros [E|[E|[E|[E|[E|[E|[E|[E|[]]]]]]]]]; try discriminate; injection E as <-; cbn; repeat (constructor; [cbn; intuition discriminate|]); constructor. Qed.

(** * C45 *)
(** A subscription made when every earlier stream of the topic was read to its end, or was dropped
    before the last poll, lasts until it is itself dropped or the topic is unsubscribed. *)
Theorem c45_partial : forall h1 s1 tr1 t s1' k h2 s2 tr2,
  run pubsub0 h1 = Some (s1, tr1) -> all_over t tr1 -> step s1 (OSubscribe t) = Some (s1', ASubscribed (Some k)) ->
  undisturbed t k h2 -> run s1' h2 = Some (s2, tr2) ->
  In t (subscribed_topics s2) /\ ~ In (ONext k, ANext Ended) tr2 /\ (forall j, ~ In (OSubscribe t, ASubscribed (Some j)) tr2) /\
  read k tr2 ++ unread k s2 ++ for_topic t (backlog s2) = for_topic t (backlog s1) ++ for_topic t (floods h2).
Proof.
  intros h1 s1 tr1 t s1' k h2 s2 tr2 H1 A E U H2. destruct (sole_of _ _ _ _ _ (traced_of _ _ _ H1) A E) as (S & E1 & E2). destruct (sole_run _ _ _ _ _ _ S U H2) as (S2 & R1 & R2 & R3).
  split; [apply cur_topics; rewrite (so_cur _ _ _ S2); discriminate|]. split; [exact R1|]. split; [intros j Hj; specialize (R2 _ Hj); discriminate|]. rewrite R3, E1, E2. reflexivity.
Qed.
Print Assumptions c45_partial.
Example c45_partial_case : exists s1 tr1 s1' s2 tr2,
  run pubsub0 [OSubscribe 5; ODrop 0; OPoll; OSubscribe 5; OUnsubscribe 5; ONext 1] = Some (s1, tr1) /\ all_over 5 tr1 /\ step s1 (OSubscribe 5) = Some (s1', ASubscribed (Some 2)) /\
  undisturbed 5 2 [ODrop 0; ODrop 1; OFlood (FMessage m1); OPoll; ONext 2; ONext 2] /\ run s1' [ODrop 0; ODrop 1; OFlood (FMessage m1); OPoll; ONext 2; ONext 2] = Some (s2, tr2) /\ read 2 tr2 = [m1].
Proof.
  eexists _, _, _, _, _. split; [vm_compute; reflexivity|]. split.
  - intros k Hk. vm_compute in Hk. destruct Hk as [E|[E|[E|[E|[E|[E|[]]]]]]]; try discriminate; injection E as <-; vm_compute; reflexivity.
  - split; [vm_compute; reflexivity|]. split; [repeat (constructor; [split; discriminate|]); constructor|]. split; vm_compute; reflexivity.
Qed.
(** In general it does not last: dropping a stream of an earlier subscription, ended by unsubscribing
    and not read to its end, ends the new one at the next poll. *)
Theorem c45_refuted : exists h s tr, run pubsub0 h = Some (s, tr) /\
  h = [OSubscribe 5; OUnsubscribe 5; OSubscribe 5; ODrop 0; OPoll; ONext 1] /\
  In (OSubscribe 5, ASubscribed (Some 1)) tr /\ In (ONext 1, ANext Ended) tr /\ ~ In 5 (subscribed_topics s).
Proof. eexists _, _, _. split; [|split; [reflexivity|]]; [vm_compute; reflexivity|]. split; [vm_compute; auto|]. split; [vm_compute; auto 9|]. vm_compute. tauto. Qed.
Print Assumptions c45_refuted.
(** It is enough to drop first and to subscribe before the poll. *)
Theorem c45_drop_then_subscribe_refuted : exists h s tr, run pubsub0 h = Some (s, tr) /\
  h = [OSubscribe 5; OUnsubscribe 5; ODrop 0; OSubscribe 5; OPoll; ONext 1] /\
  In (OSubscribe 5, ASubscribed (Some 1)) tr /\ In (ONext 1, ANext Ended) tr /\ ~ In 5 (subscribed_topics s).
Proof. eexists _, _, _. split; [|split; [reflexivity|]]; [vm_compute; reflexivity|]. split; [vm_compute; auto 9|]. split; [vm_compute; auto 9|]. vm_compute. tauto. Qed.
Print Assumptions c45_drop_then_subscribe_refuted.

(** Dropping an open stream unsubscribes its topic at the next poll at the latest. *)
Theorem c45_dropped : forall h1 s1 tr1 t k h2 s2 tr2,
  run pubsub0 h1 = Some (s1, tr1) -> In (OSubscribe t, ASubscribed (Some k)) tr1 -> status_of k tr1 = Open ->
  run s1 (ODrop k :: h2 ++ [OPoll]) = Some (s2, tr2) -> ~ In OPoll h2 ->
  ~ In t (subscribed_topics s2) /\ exists s3 j, step s2 (OSubscribe t) = Some (s3, ASubscribed (Some j)).
Proof.
  intros h1 s1 tr1 t k h2 s2 tr2 H1 K O H2 NP. pose proof (traced_of _ _ _ H1) as T1.
  assert (R : run pubsub0 (h1 ++ ODrop k :: h2) <> None). { destruct (run_total (h1 ++ ODrop k :: h2) pubsub0 inv0) as (? & ? & -> & _). discriminate. }
  change (ODrop k :: h2 ++ [OPoll]) with ((ODrop k :: h2) ++ [OPoll]) in H2. apply run_snoc in H2 as (s & tr & a & H2 & E & ->). pose proof (traced_run _ _ _ _ _ T1 H2) as T.
  assert (D : forall l st, st = Dropped -> (forall x, In x l -> fst x <> OPoll) -> fold_left (status_step k) l st = Dropped).
  { induction l as [|x l IH]; intros st -> A; [reflexivity|]. cbn [fold_left]. apply IH; [|intros y Hy; apply A; right; exact Hy]. pose proof (A x (in_eq _ _)) as Hx. destruct x as [o b]. cbn in Hx. destruct o; try reflexivity. congruence. }
  assert (Fst : forall h s s' tr, run s h = Some (s', tr) -> map fst tr = h).
  { induction h as [|o h IH]; intros z z' trz Hz; cbn [run] in Hz; [injection Hz as <- <-; reflexivity|]. destruct (step z o) as [[z1 b]|]; [|discriminate]. destruct (run z1 h) as [[z2 t2]|] eqn:E2; [|discriminate]. injection Hz as <- <-. cbn [map fst]. rewrite (IH _ _ _ E2). reflexivity. }
  assert (S : status_of k (tr1 ++ tr) = Dropped).
  { unfold status_of. rewrite fold_left_app. fold (status_of k tr1). rewrite O. pose proof (Fst _ _ _ _ H2) as F. destruct tr as [|x tr]; [discriminate|]. cbn [map] in F. injection F as F1 F2. destruct x as [o b]. cbn in F1. subst o. cbn [fold_left status_step]. rewrite N.eqb_refl. apply D; [reflexivity|].
    intros x Hx Ex. apply NP. rewrite <- F2, <- Ex. apply in_map. exact Hx. }
  pose proof (t_inv _ _ T) as I. cbn [step] in E. destruct (poll_shape s I) as (s' & d & b & E1 & P). rewrite E1 in E. injection E as -> <-.
  assert (Hu : In t (ps_unsubs s)). { apply (t_unsubs _ _ T). assert (X : In (OSubscribe t, ASubscribed (Some k)) (tr1 ++ tr)) by (apply in_app_iff; auto). apply (t_got _ _ T) in X as (x & Hx & Ht). exists k, x. auto. }
  pose proof (p_gone _ _ _ _ P _ Hu) as G. split; [rewrite cur_topics; congruence|]. exists (created t s2), (ps_next s2). cbn [step]. rewrite (subscribe_shape t s2 (p_inv _ _ _ _ P)), G. reflexivity.
Qed.
Print Assumptions c45_dropped.
Example c45_dropped_case : exists s1 tr1 s2 tr2, run pubsub0 busy = Some (s1, tr1) /\ In (OSubscribe 5, ASubscribed (Some 0)) tr1 /\ status_of 0 tr1 = Open /\
  run s1 (ODrop 0 :: [OSubscribe 5; OFlood (FMessage m1)] ++ [OPoll]) = Some (s2, tr2) /\ In (OSubscribe 5, ASubscribed None) tr2 /\ subscribed_topics s2 = [].
Proof. eexists _, _, _, _. split; [vm_compute; reflexivity|]. split; [vm_compute; auto|]. split; [vm_compute; reflexivity|]. split; [vm_compute; reflexivity|]. vm_compute. auto. Qed.

(** * C60 *)
(** After any history, the peers listed for a topic are those that subscribed to it and did not
    unsubscribe since, according to the announcements handled so far; the known peers are those
    listed for some topic; and those are the peers messages are sent to. *)
Theorem c60_peers : forall h s tr, run pubsub0 h = Some (s, tr) -> exists es,
  floods h = es ++ backlog s /\
  (forall p t, In p (subscribed_peers t s) <-> said p t es = true) /\
  (forall p, In p (known_peers s) <-> exists t, said p t es = true) /\
  (forall p, In p (ps_view s) <-> In p (known_peers s)) /\
  NoDup (known_peers s) /\ (forall t, NoDup (subscribed_peers t s)).
Proof.
  intros h s tr H. destruct (pinv_run h s tr H) as (es & E & [P1 P2 P3 P4]). exists es. split; [exact E|].
  assert (Kn : forall p, In p (known_peers s) <-> mget N.eqb p (ps_peers s) <> None).
  { intros p. unfold known_peers. destruct (mget N.eqb p (ps_peers s)) as [l|] eqn:Ep.
    - split; [discriminate|]. intros _. apply (mget_in _ N.eqb_spec) in Ep. apply in_map_iff. exists (p, l). auto.
    - apply (mget_none _ N.eqb_spec) in Ep. unfold mkeys in Ep. split; [intros X; contradiction|congruence]. }
  split; [|split; [|split; [|split]]].
  - intros p t. rewrite P3. unfold subscribed_peers. rewrite in_map_iff. split.
    + intros ([q l] & <- & X). apply filter_In in X as [X1 X2]. exists l. split; [apply (in_mget _ N.eqb_spec); assumption|]. apply existsb_N. exact X2.
    + intros (l & X1 & X2). exists (p, l). split; [reflexivity|]. apply filter_In. split; [apply (mget_in _ N.eqb_spec); exact X1|]. apply existsb_N. exact X2.
  - intros p. rewrite Kn. destruct (mget N.eqb p (ps_peers s)) as [l|] eqn:Ep.
    + split; [|discriminate]. intros _. destruct (P2 _ _ Ep) as [_ X]. destruct l as [|t l]; [congruence|]. exists t. apply P3. exists (t :: l). split; [exact Ep|left; reflexivity].
    + split; [congruence|]. intros (t & X). apply P3 in X as (l & X & _). congruence.
  - intros p. rewrite Kn. apply P4.
  - exact P1.
  - intros t. unfold subscribed_peers. clear - P1. induction (ps_peers s) as [|[p l] r IH]; [constructor|]. cbn [map fst] in P1. apply NoDup_cons_iff in P1 as [N1 N2]. cbn [filter snd]. destruct (existsb (N.eqb t) l); [|apply IH; exact N2]. cbn [map fst]. constructor; [|apply IH; exact N2].
    intros X. apply N1. apply in_map_iff in X as (y & Y1 & Y2). apply filter_In in Y2 as [Y2 _]. apply in_map_iff. exists y. auto.
Qed.
Print Assumptions c60_peers.
Example c60_peers_case : exists s tr, run pubsub0 busy = Some (s, tr) /\ known_peers s = [8] /\ subscribed_peers 5 s = [8] /\ subscribed_peers 6 s = [8] /\ backlog s = [].
Proof. eexists _, _. split; [vm_compute; reflexivity|]. vm_compute. auto. Qed.
(** After a poll that had nothing to return, all announcements have been handled. *)
Theorem c60_idle : forall h s tr, run pubsub0 (h ++ [OPoll]) = Some (s, tr) -> last tr (OPoll, ANone) = (OPoll, APolled None) -> backlog s = [].
Proof.
  intros h s tr H L. apply run_snoc in H as (s0 & t0 & a & H0 & E & ->). rewrite last_last in L. injection L as ->. pose proof (t_inv _ _ (traced_of _ _ _ H0)) as I.
  cbn [step] in E. destruct (poll_shape s0 I) as (s' & d & b & E1 & P). rewrite E1 in E. injection E as -> ->. exact (p_idle _ _ _ _ P eq_refl).
Qed.
Print Assumptions c60_idle.
Example c60_idle_case : exists s tr, run pubsub0 (busy ++ [OPoll]) = Some (s, tr) /\ last tr (OPoll, ANone) = (OPoll, APolled None).
Proof. eexists _, _. split; vm_compute; reflexivity. Qed.
(** Every other thing floodsub wants done is returned from a poll once, in order. *)
Theorem c60_actions : forall h s tr, run pubsub0 h = Some (s, tr) -> returned tr ++ actions (backlog s) = actions (floods h).
Proof. apply actions_run. Qed.
Print Assumptions c60_actions.
Example c60_actions_case : exists s tr, run pubsub0 busy = Some (s, tr) /\ returned tr = [3].
Proof. eexists _, _. split; vm_compute; reflexivity. Qed.
