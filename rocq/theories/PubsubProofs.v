(** Lemmas about [Pubsub]. *)
From Coq Require Import Permutation.
From Verif Require Import Base FMap Pubsub PubsubSpec.
Local Open Scope N_scope.

Definition cur (t : topic) (s : pubsub) : option serial := mget N.eqb t (ps_streams s).

Lemma existsb_N x l : existsb (N.eqb x) l = true <-> In x l.
Proof. rewrite existsb_exists. split; [intros (y & H & E); apply N.eqb_eq in E; subst; exact H|]. intros H. exists x. split; [exact H|apply N.eqb_refl]. Qed.
Lemma run_app s h1 h2 : run s (h1 ++ h2) =
  match run s h1 with
  | Some (s1, t1) => match run s1 h2 with Some (s2, t2) => Some (s2, t1 ++ t2) | None => None end
  | None => None
  end.
Proof.
  revert s. induction h1 as [|o h1 IH]; intros s; cbn [app run]; [destruct (run s h2) as [[? ?]|]; reflexivity|].
  destruct (step s o) as [[s1 a]|]; [|reflexivity]. rewrite IH. destruct (run s1 h1) as [[s2 t2]|]; [|reflexivity]. destruct (run s2 h2) as [[? ?]|]; reflexivity.
Qed.
Lemma run_snoc s h o s' t : run s (h ++ [o]) = Some (s', t) ->
  exists s1 t1 a, run s h = Some (s1, t1) /\ step s1 o = Some (s', a) /\ t = t1 ++ [(o, a)].
Proof.
  rewrite run_app. destruct (run s h) as [[s1 t1]|]; [|discriminate]. cbn [run]. destruct (step s1 o) as [[s2 a]|] eqn:E; [|discriminate].
  intros [= <- <-]. exists s1, t1, a. auto.
Qed.

(** * The invariant *)
Record inv (s : pubsub) : Prop := {
  i_nodup : NoDup (map fst (ps_streams s));
  i_flood : forall t, In t (ps_flood s) <-> cur t s <> None;
  i_cur : forall t k, cur t s = Some k -> exists x, get_stream k s = Some x /\ st_topic x = t;
  i_next : forall k x, get_stream k s = Some x -> k < ps_next s }.
Lemma inv0 : inv pubsub0.
Proof. split; cbn; [constructor| |discriminate|discriminate]. intros t. split; [intros []|congruence]. Qed.

(** Unsubscribing: of all the state only the senders and the topics of floodsub change. *)
Definition removed (t : topic) (s : pubsub) : pubsub :=
  with_flood (filter (fun x => negb (t =? x)) (ps_flood s)) (with_streams (mdel N.eqb t (ps_streams s)) s).
Lemma unsub_ok t s k : inv s -> cur t s = Some k -> flood_unsubscribe t (with_streams (mdel N.eqb t (ps_streams s)) s) = Some (removed t s).
Proof.
  intros I H. unfold flood_unsubscribe. cbn [ps_flood with_streams]. assert (E : existsb (N.eqb t) (ps_flood s) = true); [|rewrite E; reflexivity].
  apply existsb_N. apply (i_flood s I). congruence.
Qed.
Lemma cur_removed t u s : cur u (removed t s) = if u =? t then None else cur u s.
Proof. unfold cur, removed. cbn [ps_streams with_flood with_streams]. apply (mget_mdel _ N.eqb_spec). Qed.
Lemma inv_removed t s : inv s -> inv (removed t s).
Proof.
  intros [I1 I2 I3 I4]. split.
  - apply (mdel_nodup N.eqb). exact I1.
  - intros u. rewrite cur_removed. unfold removed. cbn [ps_flood with_flood]. rewrite filter_In, I2. destruct (N.eqb_spec u t) as [->|Hn].
    + rewrite N.eqb_refl. split; [intros [_ [=]]|congruence].
    + destruct (N.eqb_spec t u); [congruence|]. tauto.
  - intros u k. rewrite cur_removed. destruct (u =? t); [discriminate|]. apply I3.
  - exact I4.
Qed.
Lemma unsubscribe_shape t s : inv s -> unsubscribe t s = Some (match cur t s with Some _ => removed t s | None => s end, match cur t s with Some _ => true | None => false end).
Proof.
  intros I. unfold unsubscribe. fold (cur t s). destruct (cur t s) as [k|] eqn:E; [|reflexivity]. rewrite (unsub_ok _ _ _ I E). reflexivity.
Qed.
(** The state with some topics unsubscribed, as far as they were subscribed. *)
Fixpoint removed_all (ts : list topic) (s : pubsub) : pubsub :=
  match ts with
  | [] => s
  | t :: r => removed_all r (match cur t s with Some _ => removed t s | None => s end)
  end.
Lemma drain_shape ts : forall s, inv s -> drain ts s = Some (removed_all ts s) /\ inv (removed_all ts s).
Proof.
  induction ts as [|t ts IH]; intros s I; [cbn; auto|]. cbn [drain removed_all]. rewrite (unsubscribe_shape t s I). apply IH. destruct (cur t s); [apply inv_removed|]; exact I.
Qed.
Lemma removed_all_same ts : forall s, ps_peers (removed_all ts s) = ps_peers s /\ ps_view (removed_all ts s) = ps_view s /\ ps_unsubs (removed_all ts s) = ps_unsubs s /\
  ps_events (removed_all ts s) = ps_events s /\ ps_all (removed_all ts s) = ps_all s /\ ps_next (removed_all ts s) = ps_next s.
Proof.
  induction ts as [|t ts IH]; intros s; [cbn; auto 6|]. cbn [removed_all]. destruct (cur t s); [|apply IH]. destruct (IH (removed t s)) as (-> & -> & -> & -> & -> & ->). auto 6.
Qed.
Lemma cur_removed_all ts u : forall s, cur u (removed_all ts s) = if existsb (N.eqb u) ts then None else cur u s.
Proof.
  induction ts as [|t ts IH]; intros s; [reflexivity|]. cbn [removed_all existsb]. rewrite IH. destruct (existsb (N.eqb u) ts); [rewrite orb_true_r; reflexivity|]. rewrite orb_false_r.
  destruct (cur t s) eqn:E; [apply cur_removed|]. destruct (N.eqb_spec u t); congruence.
Qed.

(** * Delivering *)
Definition enqueue (k : serial) (m : msg) (x : stream) (s : pubsub) : pubsub := set_stream k (mk_stream (st_topic x) (st_queue x ++ [m]) true (st_on_drop x)) s.
Lemma get_set k x s k' : get_stream k' (set_stream k x s) = if k' =? k then Some x else get_stream k' s.
Proof. unfold get_stream, set_stream. cbn [ps_all with_all]. apply (mget_mset _ N.eqb_spec). Qed.
Lemma inv_set k x y s : inv s -> get_stream k s = Some x -> st_topic y = st_topic x -> inv (set_stream k y s).
Proof.
  intros [I1 I2 I3 I4] H Ht. split; [exact I1|exact I2| |].
  - intros u k' Hc. destruct (I3 _ _ Hc) as (z & Hz & Hu). rewrite get_set. destruct (N.eqb_spec k' k) as [->|]; [|eauto]. assert (z = x) by congruence. subst z. exists y. split; [reflexivity|congruence].
  - intros k' z. rewrite get_set. destruct (N.eqb_spec k' k) as [->|]; [intros _; eapply I4; exact H|apply I4].
Qed.
(** What delivering does to a stream: a stream whose topic is not named, that is not current or was
    dropped keeps its queue; the current one gets the message once for each time. *)
Lemma deliver_shape m ts : forall s, inv s -> exists s', deliver m ts s = Some s' /\ inv s' /\
  ps_peers s' = ps_peers s /\ ps_view s' = ps_view s /\ ps_unsubs s' = ps_unsubs s /\ ps_events s' = ps_events s /\ ps_next s' = ps_next s /\
  (forall u, cur u s' = cur u s \/ (cur u s' = None /\ exists k x, cur u s = Some k /\ get_stream k s = Some x /\ st_alive x = false)) /\
  (forall k x, get_stream k s = Some x -> get_stream k s' =
     Some (if match cur (st_topic x) s with Some k' => k =? k' | None => false end && st_alive x
           then mk_stream (st_topic x) (st_queue x ++ map (fun _ => m) (filter (N.eqb (st_topic x)) ts)) true (st_on_drop x) else x)) /\
  (forall k, get_stream k s = None -> get_stream k s' = None).
Proof.
  induction ts as [|t ts IH]; intros s I.
  - exists s. cbn [deliver filter map]. repeat (split; [first [exact I|reflexivity]|]). split; [auto|]. split; [|auto].
    intros k x H. rewrite H. f_equal. destruct (_ && st_alive x) eqn:E; [|reflexivity]. apply andb_prop in E as [_ E]. rewrite app_nil_r. destruct x. cbn in *. subst. reflexivity.
  - cbn [deliver]. fold (cur t s). destruct (cur t s) as [k0|] eqn:Ec.
    + destruct (i_cur s I _ _ Ec) as (x0 & Hx0 & Ht0). rewrite Hx0. destruct (st_alive x0) eqn:Ea.
      * set (s1 := set_stream k0 _ s). assert (I1 : inv s1) by (eapply inv_set; [exact I|exact Hx0|reflexivity]).
        destruct (IH s1 I1) as (s' & -> & I' & H1 & H2 & H3 & H4 & H5 & H6 & H7 & H8). exists s'. split; [reflexivity|]. split; [exact I'|].
        repeat (split; [assumption|]). split; [|split].
        { intros u. destruct (H6 u) as [E|(E & k & x & E1 & E2 & E3)]; [left; exact E|]. right. split; [exact E|]. exists k. unfold s1 in E2. rewrite get_set in E2.
          destruct (N.eqb_spec k k0) as [->|]; [injection E2 as <-; discriminate|]. exists x. auto. }
        { intros k x Hx. assert (Hx1 : get_stream k s1 = Some (if k =? k0 then mk_stream (st_topic x0) (st_queue x0 ++ [m]) true (st_on_drop x0) else x)) by (unfold s1; rewrite get_set; destruct (k =? k0); [reflexivity|exact Hx]).
          rewrite (H7 _ _ Hx1). destruct (N.eqb_spec k k0) as [->|Hn].
          - assert (x0 = x) by congruence. subst x0. cbn [st_topic st_alive st_queue st_on_drop]. change (cur (st_topic x) s1) with (cur (st_topic x) s). rewrite Ht0, Ec, N.eqb_refl, Ea. cbn [andb filter map].
            rewrite N.eqb_refl. cbn [map]. rewrite <- app_assoc. reflexivity.
          - change (cur (st_topic x) s1) with (cur (st_topic x) s). cbn [filter]. destruct (N.eqb_spec (st_topic x) t) as [E|]; [|reflexivity].
            rewrite E, Ec. destruct (N.eqb_spec k k0); [congruence|]. reflexivity. }
        { intros k Hk. apply H8. unfold s1. rewrite get_set. destruct (N.eqb_spec k k0) as [->|]; [congruence|exact Hk]. }
      * rewrite (unsub_ok _ _ _ I Ec). pose proof (inv_removed t s I) as I1.
        destruct (IH _ I1) as (s' & -> & I' & H1 & H2 & H3 & H4 & H5 & H6 & H7 & H8). exists s'. split; [reflexivity|]. split; [exact I'|].
        repeat (split; [assumption|]). split; [|split].
        { intros u. destruct (H6 u) as [E|(E & k & x & E1 & E2 & E3)].
          - rewrite cur_removed in E. destruct (N.eqb_spec u t) as [Hut|]; [rewrite Hut in *|left; exact E]. right. split; [exact E|]. exists k0, x0. auto.
          - rewrite cur_removed in E1. destruct (N.eqb_spec u t) as [->|]; [discriminate|]. right. split; [exact E|]. exists k, x. auto. }
        { intros k x Hx. rewrite (H7 k x Hx). rewrite cur_removed. destruct (N.eqb_spec (st_topic x) t) as [E|Hn].
          - cbn [andb]. rewrite E, Ec. destruct (N.eqb_spec k k0) as [->|]; [|reflexivity]. assert (x0 = x) by congruence. subst x0. rewrite Ea. reflexivity.
          - cbn [filter]. destruct (N.eqb_spec (st_topic x) t); [congruence|]. reflexivity. }
        { intros k Hk. apply H8. exact Hk. }
    + destruct (IH s I) as (s' & -> & I' & H1 & H2 & H3 & H4 & H5 & H6 & H7 & H8). exists s'. split; [reflexivity|]. split; [exact I'|].
      repeat (split; [assumption|]). split; [|exact H8]. intros k x Hx. rewrite (H7 k x Hx). cbn [filter]. destruct (N.eqb_spec (st_topic x) t) as [E|]; [|reflexivity].
      rewrite E, Ec. reflexivity.
Qed.

(** * Peers *)
Definition same_streams (s s' : pubsub) : Prop :=
  ps_streams s' = ps_streams s /\ ps_flood s' = ps_flood s /\ ps_unsubs s' = ps_unsubs s /\ ps_events s' = ps_events s /\ ps_all s' = ps_all s /\ ps_next s' = ps_next s.
Lemma peer_sub_same p t s : same_streams s (peer_subscribed p t s).
Proof. unfold peer_subscribed, view_add. destruct (existsb (N.eqb p) (ps_view s)); repeat split. Qed.
Lemma peer_unsub_same p t s : same_streams s (peer_unsubscribed p t s).
Proof. unfold peer_unsubscribed. destruct (mget N.eqb p (ps_peers s)) as [ts|]; [|repeat split]. destruct (match position t ts with Some i => swap_remove i ts | None => ts end); repeat split. Qed.
Lemma same_inv s s' : same_streams s s' -> inv s -> inv s'.
Proof.
  intros (H1 & H2 & H3 & H4 & H5 & H6) [I1 I2 I3 I4]. split; unfold cur, get_stream in *; rewrite ?H1, ?H2, ?H5, ?H6; assumption.
Qed.

(** * Handling events *)
(** One event, without taking it off the queue. *)
Definition handled (e : fevent) (s : pubsub) : option pubsub :=
  match e with
  | FMessage m => deliver m (m_topics m) s
  | FSubscribed p t => Some (peer_subscribed p t s)
  | FUnsubscribed p t => Some (peer_unsubscribed p t s)
  | FAction _ => Some s
  end.
Fixpoint handled_all (es : list fevent) (s : pubsub) : option pubsub :=
  match es with
  | [] => Some s
  | e :: r => match handled e s with Some s => handled_all r s | None => None end
  end.
Lemma handle_shape es : forall s s' a, handle es s = Some (s', a) ->
  exists done s1, es = done ++ ps_events s' /\ handled_all done s = Some s1 /\ s' = with_events (ps_events s') s1 /\ (a = None -> ps_events s' = []).
Proof.
  induction es as [|e es IH]; intros s s' a H; cbn [handle] in H.
  - injection H as <- <-. exists [], s. auto.
  - destruct e as [m|p t|p t|n].
    + destruct (deliver m (m_topics m) s) as [s1|] eqn:E; [|discriminate]. destruct (IH _ _ _ H) as (d & s2 & E1 & E2 & E3 & E4).
      exists (FMessage m :: d), s2. cbn [app handled_all handled]. rewrite E. split; [congruence|auto].
    + destruct (IH _ _ _ H) as (d & s2 & E1 & E2 & E3 & E4). exists (FSubscribed p t :: d), s2. cbn [app handled_all handled]. split; [congruence|auto].
    + destruct (IH _ _ _ H) as (d & s2 & E1 & E2 & E3 & E4). exists (FUnsubscribed p t :: d), s2. cbn [app handled_all handled]. split; [congruence|auto].
    + injection H as <- <-. exists [FAction n], s. repeat split; auto. discriminate.
Qed.
Lemma handle_total es : forall s, inv s -> exists s' a, handle es s = Some (s', a).
Proof.
  induction es as [|e es IH]; intros s I; cbn [handle]; [eauto|]. destruct e as [m|p t|p t|n]; [|apply IH|apply IH|eauto].
  - destruct (deliver_shape m (m_topics m) s I) as (s1 & -> & I1 & _). apply IH. exact I1.
  - eapply same_inv; [apply peer_sub_same|exact I].
  - eapply same_inv; [apply peer_unsub_same|exact I].
Qed.
(** What handling does to streams. *)
Record handled_rel (es : list fevent) (s s' : pubsub) : Prop := {
  h_inv : inv s';
  h_unsubs : ps_unsubs s' = ps_unsubs s;
  h_events : ps_events s' = ps_events s;
  h_next : ps_next s' = ps_next s;
  h_cur : forall u, cur u s' = cur u s \/ (cur u s' = None /\ exists k x, cur u s = Some k /\ get_stream k s = Some x /\ st_alive x = false);
  h_none : forall k, get_stream k s = None -> get_stream k s' = None;
  h_get : forall k x, get_stream k s = Some x -> get_stream k s' =
     Some (if match cur (st_topic x) s with Some k' => k =? k' | None => false end && st_alive x
           then mk_stream (st_topic x) (st_queue x ++ for_topic (st_topic x) es) true (st_on_drop x) else x) }.
Lemma handled_all_rel es : forall s s', inv s -> handled_all es s = Some s' -> handled_rel es s s'.
Proof.
  induction es as [|e es IH]; intros s s' I H; cbn [handled_all] in H.
  - injection H as <-. split; auto. intros k x Hx. rewrite Hx. f_equal. destruct (_ && st_alive x) eqn:E; [|reflexivity]. apply andb_prop in E as [_ E]. cbn. rewrite app_nil_r. destruct x. cbn in *. subst. reflexivity.
  - destruct (handled e s) as [s1|] eqn:E; [|discriminate].
    assert (R1 : handled_rel [e] s s1).
    { destruct e as [m|p t|p t|n]; cbn [handled] in E.
      - destruct (deliver_shape m (m_topics m) s I) as (s2 & E2 & I2 & H1 & H2 & H3 & H4 & H5 & H6 & H7 & H8). assert (s2 = s1) by congruence. subst s2. split; auto.
        intros k x Hx. rewrite (H7 k x Hx). unfold for_topic, named. cbn [map concat]. rewrite app_nil_r. reflexivity.
      - injection E as <-. destruct (peer_sub_same p t s) as (H1 & H2 & H3 & H4 & H5 & H6). split; auto.
        + eapply same_inv; [apply peer_sub_same|exact I].
        + intros u. left. unfold cur. rewrite H1. reflexivity.
        + intros k. unfold get_stream. rewrite H5. auto.
        + intros k x Hx. unfold get_stream in *. rewrite H5, Hx. f_equal. destruct (_ && st_alive x) eqn:Ea; [|reflexivity]. apply andb_prop in Ea as [_ Ea]. cbn. rewrite app_nil_r. destruct x. cbn in *. subst. reflexivity.
      - injection E as <-. destruct (peer_unsub_same p t s) as (H1 & H2 & H3 & H4 & H5 & H6). split; auto.
        + eapply same_inv; [apply peer_unsub_same|exact I].
        + intros u. left. unfold cur. rewrite H1. reflexivity.
        + intros k. unfold get_stream. rewrite H5. auto.
        + intros k x Hx. unfold get_stream in *. rewrite H5, Hx. f_equal. destruct (_ && st_alive x) eqn:Ea; [|reflexivity]. apply andb_prop in Ea as [_ Ea]. cbn. rewrite app_nil_r. destruct x. cbn in *. subst. reflexivity.
      - injection E as <-. split; auto. intros k x Hx. rewrite Hx. f_equal. destruct (_ && st_alive x) eqn:Ea; [|reflexivity]. apply andb_prop in Ea as [_ Ea]. cbn. rewrite app_nil_r. destruct x. cbn in *. subst. reflexivity. }
    pose proof (IH _ _ (h_inv _ _ _ R1) H) as R2. destruct R1 as [A1 A2 A3 A4 A5 A6 A7], R2 as [B1 B2 B3 B4 B5 B6 B7]. split; try congruence; auto.
    + intros u. destruct (B5 u) as [Eb|(Eb & k & x & C1 & C2 & C3)].
      * rewrite Eb. apply A5.
      * right. split; [exact Eb|]. destruct (A5 u) as [Ea|(Ea & _)]; [|congruence]. rewrite Ea in C1. exists k. destruct (get_stream k s) as [y|] eqn:Ey; [|rewrite (A6 k Ey) in C2; discriminate].
        exists y. split; [exact C1|]. split; [reflexivity|]. rewrite (A7 _ _ Ey) in C2. injection C2 as <-. destruct (_ && st_alive y) eqn:Eq; [discriminate|exact C3].
    + intros k x Hx. specialize (A7 k x Hx). unfold for_topic in *. cbn [map concat] in *. rewrite app_nil_r in A7.
      destruct (match cur (st_topic x) s with Some k' => k =? k' | None => false end && st_alive x) eqn:Eq.
      * rewrite (B7 _ _ A7). cbn [st_topic st_alive st_queue st_on_drop]. destruct (cur (st_topic x) s) as [k'|] eqn:Ec; [|discriminate]. apply andb_prop in Eq as [Ek Ea]. apply N.eqb_eq in Ek. subst k'.
        destruct (A5 (st_topic x)) as [E5|(_ & k' & x' & F1 & F2 & F3)].
        -- rewrite E5, Ec, N.eqb_refl. cbn [andb]. rewrite <- app_assoc. reflexivity.
        -- assert (k' = k) by congruence. subst k'. congruence.
      * rewrite (B7 _ _ A7). f_equal. destruct (A5 (st_topic x)) as [E5|(E5 & _)]; rewrite E5; [rewrite Eq; reflexivity|reflexivity].
Qed.
(** Polling. *)
Record polled (s s' : pubsub) (done : list fevent) (a : option N) : Prop := {
  p_inv : inv s';
  p_events : ps_events s = done ++ ps_events s';
  p_idle : a = None -> ps_events s' = [];
  p_unsubs : ps_unsubs s' = [];
  p_next : ps_next s' = ps_next s;
  p_cur : forall u, cur u s' = cur u s \/ (cur u s' = None /\ (In u (ps_unsubs s) \/ exists k x, cur u s = Some k /\ get_stream k s = Some x /\ st_alive x = false));
  p_gone : forall u, In u (ps_unsubs s) -> cur u s' = None;
  p_none : forall k, get_stream k s = None -> get_stream k s' = None;
  p_get : forall k x, get_stream k s = Some x -> get_stream k s' =
     Some (if match cur (st_topic x) s with Some k' => k =? k' | None => false end && st_alive x && negb (existsb (N.eqb (st_topic x)) (ps_unsubs s))
           then mk_stream (st_topic x) (st_queue x ++ for_topic (st_topic x) done) true (st_on_drop x) else x);
  p_said : handled_all done (removed_all (ps_unsubs s) (with_unsubs [] s)) = Some (with_events (ps_events s) s') }.
Lemma poll_shape s : inv s -> exists s' done a, poll s = Some (s', a) /\ polled s s' done a.
Proof.
  intros I. unfold poll. assert (I0 : inv (with_unsubs [] s)) by (destruct I; split; assumption).
  destruct (drain_shape (ps_unsubs s) _ I0) as [-> I1]. set (s1 := removed_all (ps_unsubs s) (with_unsubs [] s)) in *.
  destruct (removed_all_same (ps_unsubs s) (with_unsubs [] s)) as (M1 & M2 & M3 & M4 & M5 & M6). fold s1 in M1, M2, M3, M4, M5, M6. cbn [ps_peers ps_view ps_unsubs ps_events ps_all ps_next with_unsubs] in *.
  destruct (handle_total (ps_events s1) s1 I1) as (s' & a & E). exists s'. destruct (handle_shape _ _ _ _ E) as (d & s2 & E1 & E2 & E3 & E4). exists d, a. split; [exact E|].
  pose proof (handled_all_rel _ _ _ I1 E2) as [R1 R2 R3 R4 R5 R6 R7].
  assert (C1 : forall u, cur u s1 = if existsb (N.eqb u) (ps_unsubs s) then None else cur u s) by (intros u; apply (cur_removed_all (ps_unsubs s) u (with_unsubs [] s))).
  assert (G1 : forall k, get_stream k s1 = get_stream k s) by (intros k; unfold get_stream; rewrite M5; reflexivity).
  assert (CS : forall u, cur u s' = cur u s2) by (intros u; rewrite E3; reflexivity).
  assert (GS : forall k, get_stream k s' = get_stream k s2) by (intros k; rewrite E3; reflexivity).
  split.
  - rewrite E3. destruct R1. split; assumption.
  - rewrite <- M4. exact E1.
  - exact E4.
  - rewrite E3. cbn [ps_unsubs with_events]. rewrite R2, M3. reflexivity.
  - rewrite E3. cbn [ps_next with_events]. congruence.
  - intros u. rewrite CS. destruct (R5 u) as [Eu|(Eu & k & x & F1 & F2 & F3)].
    + rewrite Eu, C1. destruct (existsb (N.eqb u) (ps_unsubs s)) eqn:Ex; [|auto]. right. split; [reflexivity|]. left. apply existsb_N. exact Ex.
    + right. split; [exact Eu|]. rewrite C1 in F1. destruct (existsb (N.eqb u) (ps_unsubs s)); [discriminate|]. right. exists k, x. rewrite G1 in F2. auto.
  - intros u Hu. rewrite CS. apply existsb_N in Hu. destruct (R5 u) as [Eu|(Eu & _)]; [rewrite Eu, C1, Hu; reflexivity|exact Eu].
  - intros k Hk. rewrite GS. apply R6. rewrite G1. exact Hk.
  - intros k x Hx. rewrite GS, (R7 k x) by (rewrite G1; exact Hx). rewrite C1. destruct (existsb (N.eqb (st_topic x)) (ps_unsubs s)); [rewrite andb_false_r; reflexivity|]. rewrite andb_true_r. reflexivity.
  - fold s1. rewrite E2. f_equal. rewrite <- M4, <- R3, E3. destruct s2. reflexivity.
Qed.

(** * Steps *)
Definition created (t : topic) (s : pubsub) : pubsub :=
  with_next (ps_next s + 1) (with_all (mset N.eqb (ps_next s) (mk_stream t [] true true) (ps_all s))
    (with_streams (mset N.eqb t (ps_next s) (ps_streams s)) (with_flood (ps_flood s ++ [t]) s))).
Lemma subscribe_shape t s : inv s -> subscribe t s = Some (match cur t s with Some _ => (s, None) | None => (created t s, Some (ps_next s)) end).
Proof.
  intros I. unfold subscribe. fold (cur t s). destruct (cur t s) eqn:E; [reflexivity|]. unfold flood_subscribe. assert (X : existsb (N.eqb t) (ps_flood s) = false); [|rewrite X; reflexivity].
  destruct (existsb (N.eqb t) (ps_flood s)) eqn:X; [|reflexivity]. apply existsb_N in X. apply (i_flood s I) in X. congruence.
Qed.
Lemma cur_created t u s : cur u (created t s) = if u =? t then Some (ps_next s) else cur u s.
Proof. unfold cur, created. cbn [ps_streams with_next with_all with_streams]. apply (mget_mset _ N.eqb_spec). Qed.
Lemma get_created t k s : get_stream k (created t s) = if k =? ps_next s then Some (mk_stream t [] true true) else get_stream k s.
Proof. unfold get_stream, created. cbn [ps_all with_next with_all]. apply (mget_mset _ N.eqb_spec). Qed.
Lemma inv_created t s : inv s -> cur t s = None -> inv (created t s).
Proof.
  intros [I1 I2 I3 I4] H. split.
  - apply (mset_nodup _ N.eqb_spec). exact I1.
  - intros u. rewrite cur_created. unfold created. cbn [ps_flood with_next with_all with_streams with_flood]. rewrite in_app_iff, I2. cbn [In]. destruct (N.eqb_spec u t) as [E|]; [subst; split; [discriminate|auto]|].
    split; [intros [?|[?|[]]]; congruence|auto].
  - intros u k. rewrite cur_created, get_created. destruct (N.eqb_spec u t) as [E|].
    + intros [= <-]. rewrite N.eqb_refl. eexists. split; [reflexivity|]. symmetry. exact E.
    + intros Hc. destruct (I3 _ _ Hc) as (x & Hx & Ht). destruct (N.eqb_spec k (ps_next s)) as [E|]; [subst; specialize (I4 _ _ Hx); lia|]. eauto.
  - intros k x. rewrite get_created. unfold created. cbn [ps_next with_next]. destruct (N.eqb_spec k (ps_next s)); [intros _; lia|]. intros Hx. specialize (I4 _ _ Hx). lia.
Qed.
Lemma inv_unsubs l s : inv s -> inv (with_unsubs l s).
Proof. intros [I1 I2 I3 I4]. split; assumption. Qed.
Lemma inv_events l s : inv s -> inv (with_events l s).
Proof. intros [I1 I2 I3 I4]. split; assumption. Qed.
Lemma inv_drop k s : inv s -> inv (drop_stream k s).
Proof.
  intros I. unfold drop_stream. destruct (get_stream k s) as [x|] eqn:E; [|exact I]. destruct (st_alive x); [|exact I].
  assert (I1 : inv (set_stream k (mk_stream (st_topic x) [] false false) s)) by (eapply inv_set; [exact I|exact E|reflexivity]).
  destruct (st_on_drop x); [apply inv_unsubs|]; exact I1.
Qed.
Lemma inv_next_of k s : inv s -> inv (fst (next_of k s)).
Proof.
  intros I. unfold next_of. destruct (get_stream k s) as [x|] eqn:E; [|exact I]. destruct (negb (st_alive x)); [exact I|]. destruct (st_queue x).
  - destruct (has_sender k s); [exact I|]. cbn [fst]. eapply inv_set; [exact I|exact E|reflexivity].
  - cbn [fst]. eapply inv_set; [exact I|exact E|reflexivity].
Qed.
Lemma step_total s o : inv s -> exists s' a, step s o = Some (s', a) /\ inv s'.
Proof.
  intros I. destruct o as [t|t|k|k|e|]; cbn [step].
  - rewrite (subscribe_shape t s I). destruct (cur t s) eqn:E; [eauto|]. do 2 eexists. split; [reflexivity|]. apply inv_created; assumption.
  - rewrite (unsubscribe_shape t s I). do 2 eexists. split; [reflexivity|]. destruct (cur t s); [apply inv_removed|]; exact I.
  - do 2 eexists. split; [reflexivity|]. apply inv_drop. exact I.
  - pose proof (inv_next_of k s I). destruct (next_of k s). eauto.
  - do 2 eexists. split; [reflexivity|]. apply inv_events. exact I.
  - destruct (poll_shape s I) as (s' & d & a & -> & P). exists s', (APolled a). split; [reflexivity|]. exact (p_inv _ _ _ _ P).
Qed.
Lemma step_inv s o s' a : inv s -> step s o = Some (s', a) -> inv s'.
Proof. intros I H. destruct (step_total s o I) as (s1 & a1 & E & I1). congruence. Qed.
Lemma run_total h : forall s, inv s -> exists s' t, run s h = Some (s', t) /\ inv s'.
Proof.
  induction h as [|o h IH]; intros s I; cbn [run]; [eauto|]. destruct (step_total s o I) as (s1 & a & -> & I1). destruct (IH s1 I1) as (s' & t & -> & I'). eauto.
Qed.
Lemma run_inv s h s' t : inv s -> run s h = Some (s', t) -> inv s'.
Proof. intros I H. destruct (run_total h s I) as (s1 & t1 & E & I1). congruence. Qed.

Lemma has_sender_cur k s : inv s -> (has_sender k s = true <-> exists t, cur t s = Some k).
Proof.
  intros I. unfold has_sender. rewrite existsb_exists. split.
  - intros ([t k'] & H & E). apply N.eqb_eq in E. cbn in E. subst k'. exists t. unfold cur. eapply (in_mget _ N.eqb_spec); [apply (i_nodup s I)|exact H].
  - intros (t & H). exists (t, k). split; [eapply (mget_in _ N.eqb_spec); exact H|apply N.eqb_refl].
Qed.

(** * A stream that is the only one of its topic that can end it *)
Record sole (t : topic) (k : serial) (s : pubsub) : Prop := {
  so_inv : inv s;
  so_cur : cur t s = Some k;
  so_alive : exists x, get_stream k s = Some x /\ st_topic x = t /\ st_alive x = true;
  so_unsubs : ~ In t (ps_unsubs s);
  so_others : forall k' x, get_stream k' s = Some x -> st_topic x = t -> k' <> k -> st_on_drop x = false }.
Lemma for_topic_app t a b : for_topic t (a ++ b) = for_topic t a ++ for_topic t b.
Proof. unfold for_topic. rewrite map_app, concat_app. reflexivity. Qed.
Lemma unread_get k s x : get_stream k s = Some x -> unread k s = st_queue x.
Proof. unfold unread. intros ->. reflexivity. Qed.
Lemma sole_step t k s o s' a : sole t k s -> o <> OUnsubscribe t -> o <> ODrop k -> step s o = Some (s', a) ->
  sole t k s' /\ (o = ONext k -> a <> ANext Ended) /\ (o = OSubscribe t -> a = ASubscribed None) /\
  read k [(o, a)] ++ unread k s' ++ for_topic t (backlog s') = unread k s ++ for_topic t (backlog s) ++ for_topic t (floods [o]).
Proof.
  intros [I Hc (x & Hx & Ht & Ha) Hu Ho] N1 N2 H. pose proof (step_inv _ _ _ _ I H) as I'.
  destruct o as [u|u|j|j|e|]; cbn [step] in H.
  - rewrite (subscribe_shape u s I) in H. destruct (N.eqb_spec u t) as [Eu|Hn].
    + subst u. rewrite Hc in H. injection H as <- <-. split; [split; eauto|]. split; [discriminate|]. split; [reflexivity|]. cbn. rewrite app_nil_r. reflexivity.
    + assert (G : forall y, get_stream y (created u s) = if y =? ps_next s then Some (mk_stream u [] true true) else get_stream y s) by (intros; apply get_created).
      assert (L : k < ps_next s) by (eapply (i_next s I); exact Hx).
      destruct (cur u s) eqn:Ec; injection H as <- <-.
      * split; [split; eauto|]. split; [discriminate|]. split; [reflexivity|]. cbn. rewrite app_nil_r. reflexivity.
      * split; [split|].
        -- exact I'.
        -- rewrite cur_created. destruct (N.eqb_spec t u); [congruence|exact Hc].
        -- exists x. rewrite G. destruct (N.eqb_spec k (ps_next s)); [lia|auto].
        -- exact Hu.
        -- intros k' y. rewrite G. destruct (N.eqb_spec k' (ps_next s)); [|apply Ho]. intros [= <-] E _. cbn in E. congruence.
        -- split; [discriminate|]. split; [congruence|]. unfold read, floods, unread. cbn [map concat app for_topic]. rewrite G. destruct (N.eqb_spec k (ps_next s)); [lia|]. rewrite app_nil_r. reflexivity.
  - rewrite (unsubscribe_shape u s I) in H. injection H as <- <-. assert (Hn : u <> t) by congruence.
    split; [split|].
    + exact I'.
    + destruct (cur u s); [|exact Hc]. rewrite cur_removed. destruct (N.eqb_spec t u); congruence.
    + exists x. destruct (cur u s); auto.
    + destruct (cur u s); exact Hu.
    + destruct (cur u s); exact Ho.
    + split; [discriminate|]. split; [discriminate|]. cbn. rewrite app_nil_r. destruct (cur u s); reflexivity.
  - injection H as <- <-. assert (Hn : j <> k) by congruence. unfold drop_stream in *.
    destruct (get_stream j s) as [y|] eqn:Ej; [|split; [split; eauto|split; [discriminate|split; [discriminate|cbn; rewrite app_nil_r; reflexivity]]]].
    destruct (st_alive y) eqn:Ey; [|split; [split; eauto|split; [discriminate|split; [discriminate|cbn; rewrite app_nil_r; reflexivity]]]].
    set (s1 := set_stream j (mk_stream (st_topic y) [] false false) s) in *.
    assert (G : forall z, get_stream z s1 = if z =? j then Some (mk_stream (st_topic y) [] false false) else get_stream z s) by (intros; apply get_set).
    assert (F : forall z, get_stream z (if st_on_drop y then with_unsubs (ps_unsubs s1 ++ [st_topic y]) s1 else s1) = get_stream z s1) by (intros z; destruct (st_on_drop y); reflexivity).
    split; [split|].
    + exact I'.
    + destruct (st_on_drop y); exact Hc.
    + exists x. rewrite F, G. destruct (N.eqb_spec k j); [congruence|auto].
    + destruct (st_on_drop y) eqn:Ed; [|exact Hu]. cbn [ps_unsubs with_unsubs]. rewrite in_app_iff. intros [E|[E|[]]]; [exact (Hu E)|]. rewrite (Ho _ _ Ej E Hn) in Ed. discriminate.
    + intros k' z. rewrite F, G. destruct (N.eqb_spec k' j); [intros [= <-]; reflexivity|apply Ho].
    + split; [discriminate|]. split; [discriminate|]. unfold read, floods, unread. cbn [map concat app for_topic]. rewrite F, G. destruct (N.eqb_spec k j); [congruence|]. rewrite app_nil_r. destruct (st_on_drop y); reflexivity.
  - destruct (next_of j s) as [s1 n] eqn:En. injection H as <- <-. unfold next_of in En.
    assert (Triv : s1 = s -> n <> Ended -> (forall m, n <> Next m) -> sole t k s1 /\ (ONext j = ONext k -> ANext n <> ANext Ended) /\ (ONext j = OSubscribe t -> ANext n = ASubscribed None) /\
      read k [(ONext j, ANext n)] ++ unread k s1 ++ for_topic t (backlog s1) = unread k s ++ for_topic t (backlog s) ++ for_topic t (floods [ONext j])).
    { intros -> E1 E2. split; [split; eauto|]. split; [congruence|]. split; [discriminate|]. destruct n; [edestruct E2; reflexivity|congruence|]. cbn. rewrite app_nil_r. reflexivity. }
    destruct (get_stream j s) as [y|] eqn:Ej; [|injection En as <- <-; apply Triv; [reflexivity|discriminate|discriminate]].
    destruct (st_alive y) eqn:Ey; cbn [negb] in En; [|injection En as <- <-; apply Triv; [reflexivity|discriminate|discriminate]].
    destruct (st_queue y) as [|m q] eqn:Eq.
    + destruct (has_sender j s) eqn:Es; [injection En as <- <-; apply Triv; [reflexivity|discriminate|discriminate]|]. injection En as <- <-.
      assert (Hn : j <> k). { intros ->. assert (E : has_sender k s = true) by (apply has_sender_cur; [exact I|eauto]). congruence. }
      split; [split|].
      * exact I'.
      * exact Hc.
      * exists x. rewrite get_set. destruct (N.eqb_spec k j); [congruence|auto].
      * exact Hu.
      * intros k' z. rewrite get_set. destruct (N.eqb_spec k' j); [intros [= <-]; reflexivity|apply Ho].
      * split; [congruence|]. split; [discriminate|]. unfold read, floods, unread. cbn [map concat app for_topic]. rewrite get_set. destruct (N.eqb_spec k j); [congruence|]. rewrite app_nil_r. reflexivity.
    + injection En as <- <-. split; [split|].
      * exact I'.
      * exact Hc.
      * rewrite get_set. destruct (N.eqb_spec k j) as [E|]; [|eauto]. subst j. assert (y = x) by congruence. subst y. eexists. split; [reflexivity|]. auto.
      * exact Hu.
      * intros k' z. rewrite get_set. destruct (N.eqb_spec k' j) as [E|]; [|apply Ho]. subst k'. intros [= <-]. apply (Ho _ _ Ej).
      * split; [discriminate|]. split; [discriminate|]. unfold read, floods, unread. cbn [map concat app for_topic]. rewrite get_set. destruct (N.eqb_spec k j) as [E|].
        -- subst j. rewrite Ej. cbn [st_queue]. rewrite Eq, !app_nil_r. reflexivity.
        -- rewrite !app_nil_r. reflexivity.
  - injection H as <- <-. split; [split; eauto|]. split; [discriminate|]. split; [discriminate|]. unfold read, floods, unread, backlog. cbn [map concat app ps_events with_events]. rewrite for_topic_app. reflexivity.
  - destruct (poll_shape s I) as (s1 & d & b & E & P). rewrite E in H. injection H as <- <-.
    assert (Q : get_stream k s1 = Some (mk_stream t (st_queue x ++ for_topic t d) true (st_on_drop x))).
    { rewrite (p_get _ _ _ _ P _ _ Hx). rewrite Ht, Hc, N.eqb_refl, Ha. destruct (existsb (N.eqb t) (ps_unsubs s)) eqn:Ex; [apply existsb_N in Ex; contradiction|reflexivity]. }
    split; [split|].
    + exact I'.
    + destruct (p_cur _ _ _ _ P t) as [Ec|(_ & [Ec|(k' & x' & F1 & F2 & F3)])]; [congruence|contradiction|]. assert (k' = k) by congruence. subst k'. congruence.
    + eexists. split; [exact Q|]. auto.
    + rewrite (p_unsubs _ _ _ _ P). intros [].
    + intros k' y Hy Ey Hn. destruct (get_stream k' s) as [z|] eqn:Ez; [|rewrite (p_none _ _ _ _ P _ Ez) in Hy; discriminate].
      rewrite (p_get _ _ _ _ P _ _ Ez) in Hy. injection Hy as <-. specialize (Ho _ _ Ez). destruct (_ && _); apply Ho; assumption.
    + split; [discriminate|]. split; [discriminate|]. unfold read, floods, backlog. cbn [map concat app]. rewrite (unread_get _ _ _ Q), (unread_get _ _ _ Hx). cbn [st_queue]. rewrite (p_events _ _ _ _ P), for_topic_app, app_nil_r, <- app_assoc. reflexivity.
Qed.
Lemma read_app k a b : read k (a ++ b) = read k a ++ read k b.
Proof. unfold read. rewrite map_app, concat_app. reflexivity. Qed.
Lemma sole_run t k h : forall s s' tr, sole t k s -> undisturbed t k h -> run s h = Some (s', tr) ->
  sole t k s' /\ ~ In (ONext k, ANext Ended) tr /\ (forall a, In (OSubscribe t, a) tr -> a = ASubscribed None) /\
  read k tr ++ unread k s' ++ for_topic t (backlog s') = unread k s ++ for_topic t (backlog s) ++ for_topic t (floods h).
Proof.
  induction h as [|o h IH]; intros s s' tr S U H; cbn [run] in H.
  - injection H as <- <-. split; [exact S|]. split; [intros []|]. split; [intros a []|]. cbn. rewrite app_nil_r. reflexivity.
  - destruct (step s o) as [[s1 a]|] eqn:E; [|discriminate]. destruct (run s1 h) as [[s2 t2]|] eqn:E2; [|discriminate]. injection H as <- <-.
    apply Forall_cons_iff in U as [[U1 U2] U]. destruct (sole_step _ _ _ _ _ _ S U1 U2 E) as (S1 & A1 & A2 & A3). destruct (IH _ _ _ S1 U E2) as (S2 & B1 & B2 & B3).
    split; [exact S2|]. split; [|split].
    + intros [F|F]; [|exact (B1 F)]. injection F as F1 F2. exact (A1 F1 F2).
    + intros b [F|F]; [injection F as F1 F2; subst b; auto|exact (B2 _ F)].
    + change ((o, a) :: t2) with ([(o, a)] ++ t2). change (o :: h) with ([o] ++ h). unfold floods. rewrite read_app, map_app, concat_app. fold (floods [o]). fold (floods h). rewrite for_topic_app, <- app_assoc, B3, !app_assoc. rewrite <- (app_assoc (read k [(o,a)])), A3. rewrite !app_assoc. reflexivity.
Qed.

(** * Streams and the trace *)
Record traced (s : pubsub) (tr : list (op * answer)) : Prop := {
  t_inv : inv s;
  t_got : forall t k, In (OSubscribe t, ASubscribed (Some k)) tr <-> exists x, get_stream k s = Some x /\ st_topic x = t;
  t_absent : forall k, get_stream k s = None -> status_of k tr = Absent;
  t_open : forall k x, get_stream k s = Some x -> (st_on_drop x = true <-> status_of k tr = Open) /\ (status_of k tr = Open -> st_alive x = true) /\ status_of k tr <> Absent;
  t_unsubs : forall t, In t (ps_unsubs s) <-> exists k x, get_stream k s = Some x /\ st_topic x = t /\ status_of k tr = Dropped }.
Lemma status_snoc k tr x : status_of k (tr ++ [x]) = status_step k (status_of k tr) x.
Proof. unfold status_of. rewrite fold_left_app. reflexivity. Qed.
Lemma traced0 : traced pubsub0 [].
Proof. split; [apply inv0| | | |]; cbn; try discriminate; [|auto|]. - intros t k. split; [intros []|intros (x & [=] & _)]. - intros t. split; [intros []|intros (k & x & [=] & _)]. Qed.
(** A step that changes neither which streams there are nor their status. *)
Lemma traced_same s tr s' o a : traced s tr -> inv s' -> (forall k, status_step k (status_of k tr) (o, a) = status_of k tr) ->
  (forall t k, (o, a) <> (OSubscribe t, ASubscribed (Some k))) -> ps_unsubs s' = ps_unsubs s ->
  (forall k, get_stream k s = None -> get_stream k s' = None) ->
  (forall k x, get_stream k s = Some x -> exists y, get_stream k s' = Some y /\ st_topic y = st_topic x /\ st_alive y = st_alive x /\ st_on_drop y = st_on_drop x) ->
  traced s' (tr ++ [(o, a)]).
Proof.
  intros [T0 T1 T2 T3 T4] I Hs Hn Hu Hg1 Hg2.
  assert (S : forall k, status_of k (tr ++ [(o, a)]) = status_of k tr) by (intros k; rewrite status_snoc; apply Hs).
  assert (G : forall k y, get_stream k s' = Some y -> exists x, get_stream k s = Some x /\ st_topic y = st_topic x /\ st_alive y = st_alive x /\ st_on_drop y = st_on_drop x).
  { intros k y Hy. destruct (get_stream k s) as [x|] eqn:E; [|rewrite (Hg1 _ E) in Hy; discriminate]. exists x. split; [reflexivity|]. destruct (Hg2 _ _ E) as (z & Hz & W). assert (z = y) by congruence. subst z. exact W. }
  split; [exact I| | | |].
  - intros t k. rewrite in_app_iff. cbn [In]. rewrite T1. split.
    + intros [(x & Hx & Ht)|[E|[]]]; [|exfalso; eapply Hn; exact E]. destruct (Hg2 _ _ Hx) as (y & Hy & W & _). exists y. split; [exact Hy|congruence].
    + intros (y & Hy & Ht). left. destruct (G _ _ Hy) as (x & Hx & W & _). exists x. split; [exact Hx|congruence].
  - intros k Hk. rewrite S. apply T2. destruct (get_stream k s) as [x|] eqn:E; [|reflexivity]. destruct (Hg2 _ _ E) as (y & Hy & _). congruence.
  - intros k y Hy. rewrite S. destruct (G _ _ Hy) as (x & Hx & W1 & W2 & W3). rewrite W2, W3. apply T3. exact Hx.
  - intros t. rewrite Hu, T4. split.
    + intros (k & x & Hx & Ht & E). destruct (Hg2 _ _ Hx) as (y & Hy & W & _). exists k, y. rewrite S. split; [exact Hy|]. split; [congruence|exact E].
    + intros (k & y & Hy & Ht & E). rewrite S in E. destruct (G _ _ Hy) as (x & Hx & W & _). exists k, x. split; [exact Hx|]. split; [congruence|exact E].
Qed.
Lemma traced_step s tr o s' a : traced s tr -> step s o = Some (s', a) -> traced s' (tr ++ [(o, a)]).
Proof.
  intros T H. pose proof (step_inv _ _ _ _ (t_inv _ _ T) H) as I'. pose proof (t_inv _ _ T) as I. destruct o as [t|t|k|k|e|]; cbn [step] in H.
  - rewrite (subscribe_shape t s I) in H. destruct (cur t s) eqn:Ec; injection H as <- <-.
    + eapply traced_same; eauto; try discriminate. intros k. cbn. destruct (status_of k tr); reflexivity.
    + destruct T as [T0 T1 T2 T3 T4]. set (n := ps_next s) in *.
      assert (Hn : get_stream n s = None). { destruct (get_stream n s) eqn:E; [|reflexivity]. pose proof (i_next s I _ _ E). unfold n in *. lia. }
      assert (S : forall k, status_of k (tr ++ [(OSubscribe t, ASubscribed (Some n))]) = if k =? n then Open else status_of k tr).
      { intros k. rewrite status_snoc. destruct (N.eqb_spec k n) as [E|Hk].
        - subst k. rewrite (T2 n Hn). cbn. rewrite N.eqb_refl. reflexivity.
        - apply N.eqb_neq in Hk. unfold status_step. destruct (status_of k tr); try reflexivity. rewrite Hk. reflexivity. }
      assert (G : forall k, get_stream k (created t s) = if k =? n then Some (mk_stream t [] true true) else get_stream k s) by (intros k; apply get_created).
      split; [exact I'| | | |].
      * intros u k. rewrite in_app_iff, G. cbn [In]. destruct (N.eqb_spec k n) as [E|Hk].
        -- subst k. split.
           ++ intros [E|[E|[]]]; [apply T1 in E as (x & E & _); congruence|]. injection E as ->. eexists. split; reflexivity.
           ++ intros (x & [= <-] & E). cbn in E. subst u. auto.
        -- rewrite T1. split; [intros [E|[E|[]]]; [exact E|]|auto]. injection E as E1 E2. exfalso. apply Hk. symmetry. exact E2.
      * intros k. rewrite G, S. destruct (k =? n); [discriminate|apply T2].
      * intros k x. rewrite G, S. destruct (k =? n); [|apply T3]. intros [= <-]. cbn. split; [tauto|]. split; [reflexivity|discriminate].
      * intros u. change (ps_unsubs (created t s)) with (ps_unsubs s). rewrite T4. split; intros (k & x & E1 & E2 & E3).
        -- exists k, x. rewrite G, S. destruct (N.eqb_spec k n) as [E|]; [subst; congruence|auto].
        -- rewrite G, S in *. destruct (N.eqb_spec k n); [discriminate|eauto].
  - rewrite (unsubscribe_shape t s I) in H. injection H as <- <-. eapply traced_same; eauto; try discriminate.
    + intros k. cbn. destruct (status_of k tr); reflexivity.
    + destruct (cur t s); reflexivity.
    + destruct (cur t s); auto.
    + intros k x Hx. exists x. destruct (cur t s); auto.
  - injection H as <- <-. unfold drop_stream in *.
    assert (Triv : (get_stream k s = None \/ exists x, get_stream k s = Some x /\ st_alive x = false) -> traced s (tr ++ [(ODrop k, ANone)])).
    { intros Hk. eapply traced_same; eauto; try discriminate. intros j. destruct (status_of j tr) eqn:E; cbn [status_step]; try reflexivity. destruct (N.eqb_spec j k) as [Ej|]; [|reflexivity]. subst j. exfalso.
      destruct Hk as [Hk|(x & Hx & Ha)]; [rewrite (t_absent _ _ T _ Hk) in E; discriminate|]. destruct (t_open _ _ T _ _ Hx) as (_ & F & _). specialize (F E). congruence. }
    destruct (get_stream k s) as [x|] eqn:Ek; [|apply Triv; auto]. destruct (st_alive x) eqn:Ea; [|apply Triv; eauto].
    clear Triv. set (s1 := set_stream k (mk_stream (st_topic x) [] false false) s) in *.
    assert (G : forall z, get_stream z (if st_on_drop x then with_unsubs (ps_unsubs s1 ++ [st_topic x]) s1 else s1) = if z =? k then Some (mk_stream (st_topic x) [] false false) else get_stream z s).
    { intros z. destruct (st_on_drop x); unfold s1; apply get_set. }
    destruct T as [T0 T1 T2 T3 T4]. destruct (T3 _ _ Ek) as (O1 & O2 & O3).
    assert (S : forall j, status_of j (tr ++ [(ODrop k, ANone)]) = if (j =? k) && st_on_drop x then Dropped else status_of j tr).
    { intros j. rewrite status_snoc. unfold status_step. destruct (N.eqb_spec j k) as [Ej|]; cbn [andb]; [|destruct (status_of j tr); reflexivity]. subst j. destruct (st_on_drop x) eqn:Ed.
      - destruct O1 as [O1 _]. rewrite (O1 eq_refl). reflexivity.
      - destruct (status_of k tr); try reflexivity. destruct O1 as [_ O1]. discriminate (O1 eq_refl). }
    split; [exact I'| | | |].
    + intros u j. rewrite in_app_iff, G. cbn [In]. rewrite T1. destruct (N.eqb_spec j k) as [E|].
      * subst j. split; [intros [(y & Hy & E)|[[=]|[]]]|intros (y & [= <-] & E)]; [|left; exists x; split; assumption]. eexists. split; [reflexivity|]. cbn. congruence.
      * split; [intros [E|[[=]|[]]]; exact E|auto].
    + intros j. rewrite G, S. destruct (N.eqb_spec j k); [discriminate|]. cbn [andb]. apply T2.
    + intros j y. rewrite G, S. destruct (N.eqb_spec j k) as [E|]; cbn [andb]; [|apply T3]. subst j. intros [= <-]. cbn [st_on_drop st_alive]. destruct (st_on_drop x) eqn:Ed.
      * split; [split; discriminate|]. split; discriminate.
      * split; [split; [discriminate|]|split; [|exact O3]]; intros E; apply O1 in E; discriminate.
    + intros u. destruct (st_on_drop x) eqn:Ed.
      * cbn [ps_unsubs with_unsubs]. rewrite in_app_iff. change (ps_unsubs s1) with (ps_unsubs s). rewrite T4. cbn [In]. split.
        -- intros [(j & y & E1 & E2 & E3)|[E|[]]].
           ++ exists j. rewrite G, S, andb_true_r. destruct (N.eqb_spec j k) as [E|]; [|exists y; auto]. subst j. eexists. split; [reflexivity|]. split; [cbn; congruence|reflexivity].
           ++ exists k. rewrite G, S, N.eqb_refl. eexists. split; [reflexivity|]. auto.
        -- intros (j & y & E1 & E2 & E3). rewrite G in E1. rewrite S, andb_true_r in E3. destruct (N.eqb_spec j k); [|left; eauto]. right. left. injection E1 as <-. exact E2.
      * change (ps_unsubs s1) with (ps_unsubs s). rewrite T4. split; intros (j & y & E1 & E2 & E3).
        -- exists j. rewrite G, S, andb_false_r. destruct (N.eqb_spec j k) as [E|]; [|eauto]. subst j. eexists. split; [reflexivity|]. cbn. split; [congruence|exact E3].
        -- exists j. rewrite G in E1. rewrite S, andb_false_r in E3. destruct (N.eqb_spec j k) as [E|]; [|eauto]. subst j. exists x. injection E1 as <-. auto.
  - destruct (next_of k s) as [s1 n] eqn:En. injection H as <- <-. unfold next_of in En.
    assert (Triv : s1 = s -> n <> Ended -> traced s1 (tr ++ [(ONext k, ANext n)])).
    { intros -> Hn. eapply traced_same; eauto; try discriminate. intros j. cbn. destruct (status_of j tr), n; try reflexivity; congruence. }
    destruct (get_stream k s) as [x|] eqn:Ek; [|injection En as <- <-; apply Triv; [reflexivity|discriminate]].
    destruct (st_alive x) eqn:Ea; cbn [negb] in En; [|injection En as <- <-; apply Triv; [reflexivity|discriminate]].
    destruct (st_queue x) as [|m q] eqn:Eq.
    + destruct (has_sender k s); [injection En as <- <-; apply Triv; [reflexivity|discriminate]|]. injection En as <- <-. clear Triv.
      destruct T as [T0 T1 T2 T3 T4]. destruct (T3 _ _ Ek) as (O1 & O2 & O3).
      assert (S : forall j, status_of j (tr ++ [(ONext k, ANext Ended)]) = if (j =? k) && st_on_drop x then Over else status_of j tr).
      { intros j. rewrite status_snoc. unfold status_step. destruct (N.eqb_spec j k) as [Ej|]; cbn [andb]; [|destruct (status_of j tr); reflexivity]. subst j. destruct (st_on_drop x) eqn:Ed.
        - destruct O1 as [O1 _]. rewrite (O1 eq_refl). reflexivity.
        - destruct (status_of k tr); try reflexivity. destruct O1 as [_ O1]. discriminate (O1 eq_refl). }
      assert (G : forall z, get_stream z (set_stream k (mk_stream (st_topic x) [] true false) s) = if z =? k then Some (mk_stream (st_topic x) [] true false) else get_stream z s) by (intros; apply get_set).
      split; [exact I'| | | |].
      * intros u j. rewrite in_app_iff, G. cbn [In]. rewrite T1. destruct (N.eqb_spec j k) as [E|].
        -- subst j. split; [intros [(y & Hy & E)|[[=]|[]]]|intros (y & [= <-] & E)]; [|left; exists x; split; assumption]. eexists. split; [reflexivity|]. cbn. congruence.
        -- split; [intros [E|[[=]|[]]]; exact E|auto].
      * intros j. rewrite G, S. destruct (N.eqb_spec j k); [discriminate|]. cbn [andb]. apply T2.
      * intros j y. rewrite G, S. destruct (N.eqb_spec j k) as [E|]; cbn [andb]; [|apply T3]. subst j. intros [= <-]. cbn [st_on_drop st_alive]. destruct (st_on_drop x) eqn:Ed.
        -- split; [split; discriminate|]. split; discriminate.
        -- split; [split; [discriminate|]|split; [|exact O3]]; [|reflexivity]. intros E; apply O1 in E; discriminate.
      * intros u. change (ps_unsubs (set_stream k _ s)) with (ps_unsubs s). rewrite T4. split; intros (j & y & E1 & E2 & E3).
        -- exists j. rewrite G, S. destruct (N.eqb_spec j k) as [E|]; [|eauto]. subst j. eexists. split; [reflexivity|]. assert (y = x) by congruence. subst y. cbn. split; [exact E2|].
           destruct (st_on_drop x) eqn:Ed; [|exact E3]. destruct O1 as [O1 _]. rewrite (O1 eq_refl) in E3. discriminate.
        -- exists j. rewrite G in E1. rewrite S in E3. destruct (N.eqb_spec j k) as [E|]; [|eauto]. subst j. exists x. injection E1 as <-. destruct (st_on_drop x); [discriminate|]. auto.
    + injection En as <- <-. eapply traced_same; eauto; try discriminate.
      * intros j. cbn. destruct (status_of j tr); reflexivity.
      * intros j Hj. rewrite get_set. destruct (N.eqb_spec j k); [congruence|exact Hj].
      * intros j y Hy. rewrite get_set. destruct (N.eqb_spec j k) as [E|]; [|eauto]. subst j. assert (y = x) by congruence. subst y. eexists. split; [reflexivity|]. auto.
  - injection H as <- <-. eapply traced_same; eauto; try discriminate. intros j. cbn. destruct (status_of j tr); reflexivity.
  - destruct (poll_shape s I) as (s1 & d & b & E & P). rewrite E in H. injection H as <- <-.
    assert (S : forall j, status_of j (tr ++ [(OPoll, APolled b)]) = match status_of j tr with Dropped => Over | st => st end) by (intros j; rewrite status_snoc; cbn; destruct (status_of j tr); reflexivity).
    assert (G : forall k x, get_stream k s = Some x -> exists y, get_stream k s1 = Some y /\ st_topic y = st_topic x /\ st_alive y = st_alive x /\ st_on_drop y = st_on_drop x).
    { intros k x Hx. eexists. split; [exact (p_get _ _ _ _ P _ _ Hx)|]. destruct (_ && st_alive x && _) eqn:Ex; [|auto]. apply andb_prop in Ex as [Ex _]. apply andb_prop in Ex as [_ Ex]. rewrite Ex. auto. }
    assert (G' : forall k y, get_stream k s1 = Some y -> exists x, get_stream k s = Some x /\ st_topic y = st_topic x /\ st_alive y = st_alive x /\ st_on_drop y = st_on_drop x).
    { intros k y Hy. destruct (get_stream k s) as [x|] eqn:Ex; [|rewrite (p_none _ _ _ _ P _ Ex) in Hy; discriminate]. exists x. split; [reflexivity|]. destruct (G _ _ Ex) as (z & Hz & W). assert (z = y) by congruence. subst z. exact W. }
    destruct T as [T0 T1 T2 T3 T4]. split; [exact I'| | | |].
    + intros u k. rewrite in_app_iff. cbn [In]. rewrite T1. split.
      * intros [(x & Hx & Ht)|[[=]|[]]]. destruct (G _ _ Hx) as (y & Hy & W & _). exists y. split; [exact Hy|congruence].
      * intros (y & Hy & Ht). left. destruct (G' _ _ Hy) as (x & Hx & W & _). exists x. split; [exact Hx|congruence].
    + intros k Hk. rewrite S. rewrite T2; [reflexivity|]. destruct (get_stream k s) as [x|] eqn:Ex; [|reflexivity]. destruct (G _ _ Ex) as (y & Hy & _). congruence.
    + intros k y Hy. rewrite S. destruct (G' _ _ Hy) as (x & Hx & W1 & W2 & W3). rewrite W2, W3. destruct (T3 _ _ Hx) as (O1 & O2 & O3). destruct (status_of k tr); (split; [|split]); try exact O1; try exact O2; try discriminate; try congruence; split; intros E1; [apply O1 in E1|]; discriminate.
    + intros u. rewrite (p_unsubs _ _ _ _ P). split; [intros []|]. intros (k & y & _ & _ & E3). rewrite S in E3. destruct (status_of k tr); discriminate.
Qed.
Lemma traced_run h : forall s tr0 s' tr, traced s tr0 -> run s h = Some (s', tr) -> traced s' (tr0 ++ tr).
Proof.
  induction h as [|o h IH]; intros s tr0 s' tr T H; cbn [run] in H.
  - injection H as <- <-. rewrite app_nil_r. exact T.
  - destruct (step s o) as [[s1 a]|] eqn:E; [|discriminate]. destruct (run s1 h) as [[s2 t2]|] eqn:E2; [|discriminate]. injection H as <- <-.
    pose proof (IH _ _ _ _ (traced_step _ _ _ _ _ T E) E2) as R. rewrite <- app_assoc in R. exact R.
Qed.
Lemma traced_of h s tr : run pubsub0 h = Some (s, tr) -> traced s tr.
Proof. apply (traced_run h pubsub0 []). apply traced0. Qed.

(** A subscription made when all earlier streams of the topic are over. *)
Lemma sole_of s tr t s' k : traced s tr -> all_over t tr -> step s (OSubscribe t) = Some (s', ASubscribed (Some k)) -> sole t k s' /\ unread k s' = [] /\ backlog s' = backlog s.
Proof.
  intros T A H. pose proof (step_inv _ _ _ _ (t_inv _ _ T) H) as I'. pose proof (t_inv _ _ T) as I. cbn [step] in H. rewrite (subscribe_shape t s I) in H. destruct (cur t s) eqn:Ec; [discriminate|].
  injection H as <- <-. set (n := ps_next s) in *. assert (G : forall k, get_stream k (created t s) = if k =? n then Some (mk_stream t [] true true) else get_stream k s) by (intros k; apply get_created).
  split; [split|].
  - exact I'.
  - rewrite cur_created, N.eqb_refl. reflexivity.
  - rewrite G, N.eqb_refl. eexists. split; [reflexivity|]. auto.
  - change (ps_unsubs (created t s)) with (ps_unsubs s). intros Hu. apply (t_unsubs _ _ T) in Hu as (k & x & E1 & E2 & E3). rewrite A in E3; [discriminate|]. apply (t_got _ _ T). eauto.
  - intros k x. rewrite G. destruct (N.eqb_spec k n) as [E|]; [congruence|]. intros E1 E2 _. destruct (st_on_drop x) eqn:Ed; [|reflexivity]. apply (t_open _ _ T _ _ E1) in Ed. rewrite A in Ed; [discriminate|]. apply (t_got _ _ T). eauto.
  - split; [|reflexivity]. unfold unread. rewrite G, N.eqb_refl. reflexivity.
Qed.

(** * What streams are given altogether *)
Lemma floods_snoc h o : floods (h ++ [o]) = floods h ++ floods [o].
Proof. unfold floods. rewrite map_app, concat_app. reflexivity. Qed.
Lemma flat_same {A} (f g : serial -> list A) ks : (forall k, In k ks -> g k = f k) -> flat_map g ks = flat_map f ks.
Proof. induction ks as [|k ks IH]; intros H; [reflexivity|]. cbn [flat_map]. rewrite (H k) by apply in_eq. rewrite IH; [reflexivity|]. intros j Hj. apply H. right. exact Hj. Qed.
Lemma flat_one {A} (f g : serial -> list A) k0 d ks : NoDup ks -> (forall k, In k ks -> k <> k0 -> g k = f k) -> g k0 = f k0 ++ d -> In k0 ks -> Permutation (flat_map g ks) (flat_map f ks ++ d).
Proof.
  induction ks as [|k ks IH]; intros N H E Hi; [destruct Hi|]. apply NoDup_cons_iff in N as [N1 N2]; cbn [flat_map]. destruct Hi as [->|Hi].
  - rewrite E, <- !app_assoc. apply Permutation_app_head. rewrite (flat_same f g ks). + apply Permutation_app_comm. + intros j Hj. apply H; [right; exact Hj|]. intros ->. contradiction.
  - rewrite (H k); [|apply in_eq|intros ->; contradiction]. rewrite <- app_assoc. apply Permutation_app_head. apply IH; auto. intros j Hj. apply H. right. exact Hj.
Qed.
Lemma flat_lost {A} (f g : serial -> list A) ks : (forall k, In k ks -> exists l, f k = g k ++ l) -> exists L, Permutation (flat_map g ks ++ L) (flat_map f ks).
Proof.
  induction ks as [|k ks IH]; intros H; [exists []; reflexivity|]. destruct (H k (in_eq _ _)) as (l & E). destruct IH as (L & P); [intros j Hj; apply H; right; exact Hj|].
  exists (l ++ L). cbn [flat_map]. rewrite E, <- P, <- !app_assoc. apply Permutation_app_head. rewrite !app_assoc. apply Permutation_app_tail. apply Permutation_app_comm.
Qed.
Lemma perm4 {A} (b f l r : list A) : Permutation (b ++ f ++ l ++ r) (l ++ b ++ r ++ f).
Proof. rewrite (app_assoc b f), Permutation_app_swap_app, <- app_assoc. apply Permutation_app_head, Permutation_app_head, Permutation_app_comm. Qed.
Definition gave (tr : list (op * answer)) (s : pubsub) (k : serial) : list msg := read k tr ++ unread k s.
Definition topic_is (t : topic) (s : pubsub) (k : serial) : Prop := forall x, get_stream k s = Some x -> st_topic x = t.
(** A step other than a poll gives nothing. *)
Lemma gave_step s tr o s' a k : inv s -> (get_stream k s = None -> read k tr = []) -> step s o = Some (s', a) -> o <> OPoll -> exists l, gave tr s k = gave (tr ++ [(o, a)]) s' k ++ l.
Proof.
  intros I Hr H Ho. unfold gave. rewrite read_app. destruct o as [t|t|j|j|e|]; cbn [step] in H; [| | | | |congruence].
  - rewrite (subscribe_shape t s I) in H. exists []. rewrite app_nil_r. cbn. rewrite app_nil_r. destruct (cur t s); injection H as <- <-; [reflexivity|].
    unfold unread. rewrite get_created. destruct (N.eqb_spec k (ps_next s)) as [E|]; [|reflexivity]. destruct (get_stream k s) eqn:Ek; [|reflexivity]. pose proof (i_next s I _ _ Ek). lia.
  - rewrite (unsubscribe_shape t s I) in H. injection H as <- <-. exists []. cbn. rewrite !app_nil_r. destruct (cur t s); reflexivity.
  - injection H as <- <-. cbn [read map concat]. rewrite app_nil_r. unfold drop_stream. destruct (get_stream j s) as [y|] eqn:Ej; [|exists []; rewrite app_nil_r; reflexivity].
    destruct (st_alive y); [|exists []; rewrite app_nil_r; reflexivity].
    assert (G : unread k (if st_on_drop y then with_unsubs (ps_unsubs (set_stream j (mk_stream (st_topic y) [] false false) s) ++ [st_topic y]) (set_stream j (mk_stream (st_topic y) [] false false) s) else set_stream j (mk_stream (st_topic y) [] false false) s) = if k =? j then [] else unread k s).
    { unfold unread. destruct (st_on_drop y); [change (get_stream k (with_unsubs ?l ?z)) with (get_stream k z)|]; rewrite get_set; destruct (k =? j); reflexivity. }
    rewrite G. destruct (N.eqb_spec k j) as [E|]; [|exists []; rewrite app_nil_r; reflexivity]. exists (unread k s). rewrite !app_nil_r. reflexivity.
  - destruct (next_of j s) as [s1 n] eqn:En. injection H as <- <-. unfold next_of in En. exists []. rewrite app_nil_r.
    destruct (get_stream j s) as [y|] eqn:Ej; [|injection En as <- <-; cbn; rewrite app_nil_r; reflexivity].
    destruct (st_alive y); cbn [negb] in En; [|injection En as <- <-; cbn; rewrite app_nil_r; reflexivity].
    destruct (st_queue y) as [|m q] eqn:Eq.
    + destruct (has_sender j s); [injection En as <- <-; cbn; rewrite app_nil_r; reflexivity|]. injection En as <- <-. cbn [read map concat]. rewrite app_nil_r. unfold unread. rewrite get_set. destruct (N.eqb_spec k j) as [E|]; [|reflexivity]. subst j. rewrite Ej, Eq. reflexivity.
    + injection En as <- <-. unfold read at 3. cbn [map concat]. unfold unread. rewrite get_set. destruct (N.eqb_spec k j) as [E|]; rewrite ?app_nil_r; [|reflexivity]. subst j. rewrite Ej, Eq. cbn [st_queue]. rewrite <- app_assoc. reflexivity.
  - injection H as <- <-. exists []. rewrite app_nil_r. cbn. rewrite app_nil_r. reflexivity.
Qed.
Lemma read_got h s tr k : run pubsub0 h = Some (s, tr) -> get_stream k s = None -> read k tr = [].
Proof.
  revert s tr. induction h as [|o h IH] using rev_ind; intros s tr H G.
  - injection H as <- <-. reflexivity.
  - apply run_snoc in H as (s1 & t1 & a & H1 & H2 & ->). pose proof (t_inv _ _ (traced_of _ _ _ H1)) as I.
    assert (G1 : get_stream k s1 = None).
    { pose proof (traced_of _ _ _ H1) as T1. pose proof (traced_step _ _ _ _ _ T1 H2) as T2. destruct (get_stream k s1) as [x|] eqn:E; [|reflexivity]. assert (X : In (OSubscribe (st_topic x), ASubscribed (Some k)) t1) by (apply (t_got _ _ T1); eauto).
      assert (Y : In (OSubscribe (st_topic x), ASubscribed (Some k)) (t1 ++ [(o, a)])) by (apply in_app_iff; auto). apply (t_got _ _ T2) in Y as (y & Y & _). congruence. }
    rewrite read_app, (IH _ _ H1 G1). cbn [app]. destruct o as [t|t|j|j|e|]; try reflexivity. unfold read. cbn [map concat]. rewrite app_nil_r. cbn [step] in H2. destruct (next_of j s1) as [s2 n] eqn:En. injection H2 as <- <-. destruct n; try reflexivity.
    destruct (N.eqb_spec k j) as [E|]; [|reflexivity]. subst j. unfold next_of in En. rewrite G1 in En. discriminate.
Qed.
Lemma gave_all h : forall s tr t ks, run pubsub0 h = Some (s, tr) -> NoDup ks -> (forall k, In k ks -> topic_is t s k) ->
  exists rest, Permutation (flat_map (gave tr s) ks ++ for_topic t (backlog s) ++ rest) (for_topic t (floods h)).
Proof.
  induction h as [|o h IH] using rev_ind; intros s tr t ks H N A.
  - injection H as <- <-. exists []. cbn. rewrite app_nil_r. rewrite (flat_same (fun _ => [])); [|reflexivity]. assert (E : flat_map (fun _ : serial => @nil msg) ks = []) by (induction ks; [reflexivity|cbn; apply IHks; [apply NoDup_cons_iff in N; tauto|intros j Hj; apply A; right; exact Hj]]). rewrite E. reflexivity.
  - apply run_snoc in H as (s1 & t1 & a & H1 & H2 & ->). pose proof (traced_of _ _ _ H1) as T1. pose proof (t_inv _ _ T1) as I. pose proof (traced_step _ _ _ _ _ T1 H2) as T2.
    assert (A1 : forall k, In k ks -> topic_is t s1 k).
    { intros k Hk x Hx. assert (X : In (OSubscribe (st_topic x), ASubscribed (Some k)) t1) by (apply (t_got _ _ T1); eauto). assert (Y : In (OSubscribe (st_topic x), ASubscribed (Some k)) (t1 ++ [(o, a)])) by (apply in_app_iff; auto).
      apply (t_got _ _ T2) in Y as (y & Y & E). rewrite <- E. apply (A _ Hk _ Y). }
    destruct (IH _ _ t ks H1 N A1) as (rest & P). rewrite floods_snoc, for_topic_app.
    assert (D : o = OPoll \/ o <> OPoll) by (destruct o; auto; right; discriminate). destruct D as [->|Ho].
    + cbn [step] in H2. destruct (poll_shape s1 I) as (s2 & d & b & E & Q). rewrite E in H2. injection H2 as <- <-. change (for_topic t (floods [OPoll])) with (@nil msg). rewrite app_nil_r.
      assert (Rd : forall k, read k (t1 ++ [(OPoll, APolled b)]) = read k t1) by (intros k; rewrite read_app; cbn; rewrite app_nil_r; reflexivity).
      assert (Un : forall k, ~ (exists x, get_stream k s1 = Some x /\ cur (st_topic x) s1 = Some k /\ st_alive x = true /\ ~ In (st_topic x) (ps_unsubs s1)) -> unread k s2 = unread k s1).
      { intros k Hk. unfold unread. destruct (get_stream k s1) as [x|] eqn:Ex; [|rewrite (p_none _ _ _ _ Q _ Ex); reflexivity]. rewrite (p_get _ _ _ _ Q _ _ Ex).
        destruct (_ && st_alive x && _) eqn:Ec; [|reflexivity]. exfalso. apply Hk. exists x. split; [reflexivity|]. apply andb_prop in Ec as [Ec E3]. apply andb_prop in Ec as [E1 E2]. destruct (cur (st_topic x) s1) as [k'|]; [|discriminate]. apply N.eqb_eq in E1. subst k'.
        split; [reflexivity|]. split; [exact E2|]. intros Hi. apply existsb_N in Hi. rewrite Hi in E3. discriminate. }
      rewrite (p_events _ _ _ _ Q : backlog s1 = d ++ backlog s2), for_topic_app in P.
      destruct (cur t s1) as [k0|] eqn:Ec.
      * destruct (i_cur s1 I _ _ Ec) as (x0 & Hx0 & Ht0).
        destruct (in_dec N.eq_dec k0 ks) as [Hi|Hi].
        -- assert (Oth : forall k, In k ks -> k <> k0 -> gave (t1 ++ [(OPoll, APolled b)]) s2 k = gave t1 s1 k).
           { intros k Hk Hn. unfold gave. rewrite Rd, Un; [reflexivity|]. intros (x & E1 & E2 & _). rewrite (A1 k Hk x E1), Ec in E2. congruence. }
           destruct (st_alive x0 && negb (existsb (N.eqb t) (ps_unsubs s1))) eqn:Eb.
           ++ exists rest. rewrite (flat_one (gave t1 s1) (gave (t1 ++ [(OPoll, APolled b)]) s2) k0 (for_topic t d) ks N Oth).
              ** rewrite <- !app_assoc. rewrite <- app_assoc in P. exact P.
              ** unfold gave. rewrite Rd, <- app_assoc. f_equal. rewrite (unread_get _ _ _ Hx0), (unread_get _ _ _ (p_get _ _ _ _ Q _ _ Hx0)). rewrite Ht0, Ec, N.eqb_refl. cbn [andb]. rewrite Eb. reflexivity.
              ** exact Hi.
           ++ exists (for_topic t d ++ rest). rewrite (flat_same (gave t1 s1)).
              ** rewrite <- P. apply Permutation_app_head. rewrite !app_assoc. apply Permutation_app_tail. apply Permutation_app_comm.
              ** intros k Hk. destruct (N.eq_dec k k0) as [->|Hn]; [|apply Oth; assumption]. unfold gave. rewrite Rd, Un; [reflexivity|]. intros (x & E1 & E2 & E3 & E4). assert (x = x0) by congruence. subst x. rewrite Ht0, E3 in *. cbn [andb] in Eb.
                 destruct (existsb (N.eqb t) (ps_unsubs s1)) eqn:Ex; [|discriminate]. apply existsb_N in Ex. contradiction.
        -- exists (for_topic t d ++ rest). rewrite (flat_same (gave t1 s1)).
           ++ rewrite <- P. apply Permutation_app_head. rewrite !app_assoc. apply Permutation_app_tail. apply Permutation_app_comm.
           ++ intros k Hk. unfold gave. rewrite Rd, Un; [reflexivity|]. intros (x & E1 & E2 & _). rewrite (A1 k Hk x E1), Ec in E2. injection E2 as ->. contradiction.
      * exists (for_topic t d ++ rest). rewrite (flat_same (gave t1 s1)).
        -- rewrite <- P. apply Permutation_app_head. rewrite !app_assoc. apply Permutation_app_tail. apply Permutation_app_comm.
        -- intros k Hk. unfold gave. rewrite Rd, Un; [reflexivity|]. intros (x & E1 & E2 & _). rewrite (A1 k Hk x E1), Ec in E2. discriminate.
    + destruct (flat_lost (gave t1 s1) (gave (t1 ++ [(o, a)]) s) ks) as (L & PL).
      { intros k _. eapply gave_step; eauto. intros G. eapply read_got; eauto. }
      exists (L ++ rest). assert (B : for_topic t (backlog s) = for_topic t (backlog s1) ++ for_topic t (floods [o])).
      { destruct o as [u|u|j|j|e|]; cbn [step] in H2; unfold floods; cbn [map concat app]; rewrite ?app_nil_r; try congruence.
        - rewrite (subscribe_shape u s1 I) in H2. destruct (cur u s1); injection H2 as <- <-; reflexivity.
        - rewrite (unsubscribe_shape u s1 I) in H2. injection H2 as <- <-. destruct (cur u s1); reflexivity.
        - injection H2 as <- <-. unfold drop_stream. destruct (get_stream j s1) as [y|]; [|reflexivity]. destruct (st_alive y); [|reflexivity]. destruct (st_on_drop y); reflexivity.
        - destruct (next_of j s1) as [s2 n] eqn:En. injection H2 as <- <-. unfold next_of in En. destruct (get_stream j s1) as [y|]; [|injection En as <- <-; reflexivity]. destruct (negb (st_alive y)); [injection En as <- <-; reflexivity|].
          destruct (st_queue y); [destruct (has_sender j s1)|]; injection En as <- <-; reflexivity.
        - injection H2 as <- <-. unfold backlog. cbn [ps_events with_events]. rewrite for_topic_app. reflexivity. }
      rewrite B, <- P, <- PL, <- !app_assoc. apply Permutation_app_head.
      apply perm4.
Qed.

(** * A stream that lost its sender *)
Definition quiet (k : serial) (s : pubsub) : Prop := inv s /\ (forall u, cur u s <> Some k) /\ k < ps_next s.
Lemma next_mono s o s' a : inv s -> step s o = Some (s', a) -> ps_next s <= ps_next s'.
Proof.
  intros I H. destruct o as [t|t|j|j|e|]; cbn [step] in H.
  - rewrite (subscribe_shape t s I) in H. destruct (cur t s); injection H as <- <-; [lia|]. unfold created. cbn [ps_next with_next]. lia.
  - rewrite (unsubscribe_shape t s I) in H. injection H as <- <-. destruct (cur t s); [unfold removed; cbn [ps_next with_flood with_streams]|]; lia.
  - injection H as <- <-. unfold drop_stream. destruct (get_stream j s) as [y|]; [|lia]. destruct (st_alive y); [|lia]. destruct (st_on_drop y); cbn [ps_next with_unsubs set_stream with_all]; lia.
  - destruct (next_of j s) as [s2 n] eqn:En. injection H as <- <-. unfold next_of in En. destruct (get_stream j s) as [y|]; [|injection En as <- <-; lia]. destruct (negb (st_alive y)); [injection En as <- <-; lia|].
    destruct (st_queue y); [destruct (has_sender j s)|]; injection En as <- <-; cbn [ps_next set_stream with_all]; lia.
  - injection H as <- <-. cbn [ps_next with_events]. lia.
  - destruct (poll_shape s I) as (s2 & d & b & E & Q). rewrite E in H. injection H as <- <-. rewrite (p_next _ _ _ _ Q). lia.
Qed.
Lemma cur_step s o s' a u k : inv s -> step s o = Some (s', a) -> cur u s' = Some k -> cur u s = Some k \/ (k = ps_next s /\ o = OSubscribe u).
Proof.
  intros I H. destruct o as [t|t|j|j|e|]; cbn [step] in H.
  - rewrite (subscribe_shape t s I) in H. destruct (cur t s); injection H as <- <-; [auto|]. rewrite cur_created. destruct (N.eqb_spec u t) as [->|]; [|auto]. intros [= <-]. auto.
  - rewrite (unsubscribe_shape t s I) in H. injection H as <- <-. destruct (cur t s); [|auto]. rewrite cur_removed. destruct (u =? t); [discriminate|auto].
  - injection H as <- <-. unfold drop_stream. destruct (get_stream j s) as [y|]; [|auto]. destruct (st_alive y); [|auto]. destruct (st_on_drop y); auto.
  - destruct (next_of j s) as [s2 n] eqn:En. injection H as <- <-. unfold next_of in En. destruct (get_stream j s) as [y|]; [|injection En as <- <-; auto]. destruct (negb (st_alive y)); [injection En as <- <-; auto|].
    destruct (st_queue y); [destruct (has_sender j s)|]; injection En as <- <-; auto.
  - injection H as <- <-. auto.
  - destruct (poll_shape s I) as (s2 & d & b & E & Q). rewrite E in H. injection H as <- <-. destruct (p_cur _ _ _ _ Q u) as [Ec|(Ec & _)]; rewrite Ec; [auto|discriminate].
Qed.
Lemma quiet_step k s o s' a : quiet k s -> step s o = Some (s', a) -> quiet k s' /\ exists l, unread k s = read k [(o, a)] ++ unread k s' ++ l.
Proof.
  intros (I & C & L) H. split.
  - split; [eapply step_inv; eauto|]. split; [|pose proof (next_mono _ _ _ _ I H); lia]. intros u Hu. destruct (cur_step _ _ _ _ _ _ I H Hu) as [E|(E & _)]; [exact (C _ E)|lia].
  - assert (D : o = OPoll \/ o <> OPoll) by (destruct o; auto; right; discriminate). destruct D as [->|Ho].
    + cbn [step] in H. destruct (poll_shape s I) as (s2 & d & b & E & Q). rewrite E in H. injection H as <- <-. exists []. rewrite app_nil_r. cbn. unfold unread. destruct (get_stream k s) as [x|] eqn:Ex; [|rewrite (p_none _ _ _ _ Q _ Ex); reflexivity].
      rewrite (p_get _ _ _ _ Q _ _ Ex). destruct (cur (st_topic x) s) as [k'|] eqn:Ec; [|reflexivity]. destruct (N.eqb_spec k k') as [->|]; [|reflexivity]. exfalso. exact (C _ Ec).
    + destruct (gave_step s [] o s' a k I (fun _ => eq_refl) H Ho) as (l & E). exists l. unfold gave in E. cbn [app] in E. rewrite <- app_assoc in E. exact E.
Qed.
Lemma quiet_run k h : forall s s' tr, quiet k s -> run s h = Some (s', tr) -> quiet k s' /\ exists l, unread k s = read k tr ++ unread k s' ++ l.
Proof.
  induction h as [|o h IH]; intros s s' tr Q H; cbn [run] in H.
  - injection H as <- <-. split; [exact Q|]. exists []. rewrite app_nil_r. reflexivity.
  - destruct (step s o) as [[s1 a]|] eqn:E; [|discriminate]. destruct (run s1 h) as [[s2 t2]|] eqn:E2; [|discriminate]. injection H as <- <-.
    destruct (quiet_step _ _ _ _ _ Q E) as (Q1 & l1 & E3). destruct (IH _ _ _ Q1 E2) as (Q2 & l2 & E4). split; [exact Q2|]. exists (l2 ++ l1).
    change ((o, a) :: t2) with ([(o, a)] ++ t2). rewrite read_app, E3, E4, <- !app_assoc. reflexivity.
Qed.

(** * Peers *)
Lemma position_none t l : position t l = None <-> ~ In t l.
Proof.
  induction l as [|x l IH]; cbn [position In]; [tauto|]. destruct (N.eqb_spec x t) as [->|Hn]; [split; [discriminate|intros H; exfalso; auto]|].
  destruct (position t l); cbn [option_map]; [|tauto]. split; [discriminate|]. intros H. exfalso. assert (X : ~ In t l) by tauto. apply IH in X. discriminate.
Qed.
Lemma position_split t l : forall i, position t l = Some i -> exists a b, l = a ++ t :: b /\ length a = i.
Proof.
  induction l as [|x l IH]; intros i H; cbn [position] in H; [discriminate|]. destruct (N.eqb_spec x t) as [->|Hn]; [injection H as <-; exists [], l; auto|].
  destruct (position t l) as [j|]; [|discriminate]. injection H as <-. destruct (IH j eq_refl) as (a & b & -> & E). exists (x :: a), b. cbn. auto.
Qed.
Lemma swap_remove_perm t l i : position t l = Some i -> Permutation l (t :: swap_remove i l).
Proof.
  intros H. destruct (position_split _ _ _ H) as (a & b & -> & E). subst i. unfold swap_remove. rewrite app_length. cbn [length].
  destruct b as [|y b] using rev_ind.
  - cbn [length]. replace (length a + 1 - 1)%nat with (length a) by lia. rewrite Nat.eqb_refl. rewrite firstn_app, Nat.sub_diag, firstn_all. cbn [firstn]. rewrite app_nil_r. apply Permutation_sym, Permutation_cons_append.
  - clear IHb. rewrite app_length. cbn [length]. destruct (Nat.eqb_spec (length a) (length a + S (length b + 1) - 1)); [lia|].
    rewrite firstn_app, Nat.sub_diag, firstn_all. cbn [firstn]. rewrite app_nil_r.
    replace (a ++ t :: b ++ [y]) with ((a ++ t :: b) ++ [y]) by (rewrite <- app_assoc; reflexivity). rewrite last_last, removelast_last.
    rewrite skipn_app. replace (skipn (length a + 1) a) with (@nil topic) by (symmetry; apply skipn_all2; lia). replace (length a + 1 - length a)%nat with 1%nat by lia. cbn [skipn app].
    rewrite <- app_assoc. cbn [app]. apply Permutation_sym. etransitivity; [|apply Permutation_middle]. apply perm_skip. apply Permutation_app_head. apply Permutation_cons_append.
Qed.
Record pinv (s : pubsub) (es : list fevent) : Prop := {
  pi_nodup : NoDup (map fst (ps_peers s));
  pi_topics : forall p ts, mget N.eqb p (ps_peers s) = Some ts -> NoDup ts /\ ts <> [];
  pi_said : forall p t, said p t es = true <-> exists ts, mget N.eqb p (ps_peers s) = Some ts /\ In t ts;
  pi_view : forall p, In p (ps_view s) <-> mget N.eqb p (ps_peers s) <> None }.
Lemma pinv0 : pinv pubsub0 [].
Proof. split; cbn; [constructor|discriminate| |]. - intros p t. split; [discriminate|intros (ts & [=] & _)]. - intros p. split; [intros []|congruence]. Qed.
Lemma said_snoc p t es e : said p t (es ++ [e]) = said_step p t (said p t es) e.
Proof. unfold said. rewrite fold_left_app. reflexivity. Qed.
Lemma pinv_same s s' es : ps_peers s' = ps_peers s -> ps_view s' = ps_view s -> pinv s es -> pinv s' es.
Proof. intros E1 E2 [P1 P2 P3 P4]. split; rewrite ?E1, ?E2; assumption. Qed.
Lemma nodup_snoc {A} (l : list A) x : NoDup l -> ~ In x l -> NoDup (l ++ [x]).
Proof. intros N H. apply (Permutation_NoDup (l := x :: l)); [apply Permutation_cons_append|]. constructor; assumption. Qed.
Lemma pinv_sub p t s es : pinv s es -> pinv (peer_subscribed p t s) (es ++ [FSubscribed p t]).
Proof.
  intros [P1 P2 P3 P4]. unfold peer_subscribed.
  assert (Ep : ps_peers (view_add p s) = ps_peers s) by (unfold view_add; destruct (existsb (N.eqb p) (ps_view s)); reflexivity). rewrite Ep.
  assert (Ev : forall q, In q (ps_view (view_add p s)) <-> q = p \/ In q (ps_view s)).
  { intros q. unfold view_add. destruct (existsb (N.eqb p) (ps_view s)) eqn:E; cbn [ps_view with_view In]; [|intuition congruence]. apply existsb_N in E. split; [auto|intros [->|H]; assumption]. }
  set (ts := match mget N.eqb p (ps_peers s) with Some ts => ts | None => [] end). set (ts' := if existsb (N.eqb t) ts then ts else ts ++ [t]).
  assert (Hts : forall u, In u ts <-> exists l, mget N.eqb p (ps_peers s) = Some l /\ In u l).
  { intros u. unfold ts. destruct (mget N.eqb p (ps_peers s)) as [l|]; [|split; [intros []|intros (l & [=] & _)]]. split; [eauto|intros (l' & [= <-] & H); exact H]. }
  assert (Nts : NoDup ts). { unfold ts. destruct (mget N.eqb p (ps_peers s)) as [l|] eqn:E; [|constructor]. apply (P2 _ _ E). }
  assert (I' : forall u, In u ts' <-> In u ts \/ u = t).
  { intros u. unfold ts'. destruct (existsb (N.eqb t) ts) eqn:E; [apply existsb_N in E|rewrite in_app_iff; cbn [In]; intuition congruence]. split; [auto|intros [H| ->]; assumption]. }
  assert (N' : NoDup ts' /\ ts' <> []).
  { unfold ts'. destruct (existsb (N.eqb t) ts) eqn:E.
    - apply existsb_N in E. split; [exact Nts|]. intros E2. rewrite E2 in E. destruct E.
    - split; [|destruct ts; discriminate]. apply nodup_snoc; [exact Nts|]. intros Hi. apply existsb_N in Hi. congruence. }
  clearbody ts'. split; cbn [ps_peers ps_view with_peers].
  - apply (mset_nodup _ N.eqb_spec). exact P1.
  - intros q l. rewrite (mget_mset _ N.eqb_spec). destruct (q =? p); [intros [= <-]; exact N'|apply P2].
  - intros q u. rewrite said_snoc. cbn [said_step]. rewrite (mget_mset _ N.eqb_spec). destruct (N.eqb_spec q p) as [E|]; cbn [andb]; [|apply P3]. subst q. destruct (N.eqb_spec u t) as [E|Hn].
    + subst u. split; [|reflexivity]. intros _. exists ts'. split; [reflexivity|]. apply I'. auto.
    + rewrite P3. rewrite <- Hts. split; [intros H; exists ts'; split; [reflexivity|]; apply I'; auto|]. intros (l & [= <-] & H). apply I' in H as [H|H]; [exact H|contradiction].
  - intros q. rewrite Ev, (mget_mset _ N.eqb_spec), P4. destruct (N.eqb_spec q p) as [E|]; [subst; split; [discriminate|auto]|]. intuition congruence.
Qed.
Lemma pinv_unsub p t s es : pinv s es -> pinv (peer_unsubscribed p t s) (es ++ [FUnsubscribed p t]).
Proof.
  intros [P1 P2 P3 P4]. unfold peer_unsubscribed. destruct (mget N.eqb p (ps_peers s)) as [ts|] eqn:Ep.
  - destruct (P2 _ _ Ep) as [N1 N2]. set (ts' := match position t ts with Some i => swap_remove i ts | None => ts end).
    assert (I' : forall u, In u ts' <-> In u ts /\ u <> t).
    { intros u. unfold ts'. destruct (position t ts) as [i|] eqn:Ei.
      - pose proof (swap_remove_perm _ _ _ Ei) as P. assert (N3 : NoDup (t :: swap_remove i ts)) by (eapply Permutation_NoDup; [exact P|exact N1]). apply NoDup_cons_iff in N3 as [N3 _]. split.
        + intros H. split; [eapply Permutation_in; [symmetry; exact P|right; exact H]|intros ->; contradiction].
        + intros [H Hn]. eapply Permutation_in in H; [|exact P]. destruct H as [E|H]; [congruence|exact H].
      - apply position_none in Ei. split; [|tauto]. intros H. split; [exact H|intros ->; contradiction]. }
    assert (N' : NoDup ts'). { unfold ts'. destruct (position t ts) as [i|] eqn:Ei; [|exact N1]. pose proof (swap_remove_perm _ _ _ Ei) as P. assert (N3 : NoDup (t :: swap_remove i ts)) by (eapply Permutation_NoDup; [exact P|exact N1]). apply NoDup_cons_iff in N3. tauto. }
    assert (S : forall u, said p u (es ++ [FUnsubscribed p t]) = true <-> In u ts').
    { intros u. rewrite said_snoc. cbn [said_step]. rewrite N.eqb_refl. cbn [andb]. rewrite I'. destruct (N.eqb_spec u t) as [E|Hn]; [subst; split; [discriminate|tauto]|]. rewrite P3. split; [intros (l & E & H)|intros [H _]; eauto]. split; [congruence|exact Hn]. }
    assert (S' : forall q u, q <> p -> said q u (es ++ [FUnsubscribed p t]) = said q u es). { intros q u Hq. rewrite said_snoc. cbn [said_step]. destruct (N.eqb_spec q p); [contradiction|reflexivity]. }
    destruct ts' as [|t0 ts0] eqn:Et.
    + split; cbn [ps_peers ps_view with_peers with_view view_remove].
      * apply (mdel_nodup N.eqb). exact P1.
      * intros q l. rewrite (mget_mdel _ N.eqb_spec). destruct (q =? p); [discriminate|apply P2].
      * intros q u. rewrite (mget_mdel _ N.eqb_spec). destruct (N.eqb_spec q p) as [E|Hq]; [subst q; rewrite S; split; [intros []|intros (l & [=] & _)]|]. rewrite S' by exact Hq. apply P3.
      * intros q. rewrite (mget_mdel _ N.eqb_spec), filter_In, P4. destruct (N.eqb_spec q p) as [E|Hq].
        -- subst q. rewrite N.eqb_refl. split; [intros [_ [=]]|congruence].
        -- destruct (N.eqb_spec p q); [congruence|]. tauto.
    + split; cbn [ps_peers ps_view with_peers].
      * apply (mset_nodup _ N.eqb_spec). exact P1.
      * intros q l. rewrite (mget_mset _ N.eqb_spec). destruct (q =? p); [intros [= <-]; split; [exact N'|discriminate]|apply P2].
      * intros q u. rewrite (mget_mset _ N.eqb_spec). destruct (N.eqb_spec q p) as [E|Hq]; [subst q; rewrite S; split; [eauto|intros (l & [= <-] & H); exact H]|]. rewrite S' by exact Hq. apply P3.
      * intros q. rewrite (mget_mset _ N.eqb_spec), P4. destruct (N.eqb_spec q p) as [E|Hq]; [subst q; rewrite Ep; split; discriminate|reflexivity].
  - split; auto. intros q u. rewrite said_snoc. cbn [said_step]. destruct (N.eqb_spec q p) as [E|]; cbn [andb]; [|apply P3]. subst q. destruct (N.eqb_spec u t); [|apply P3]. rewrite Ep. split; [discriminate|intros (l & [=] & _)].
Qed.
Lemma pinv_handled d : forall s s' es, inv s -> pinv s es -> handled_all d s = Some s' -> pinv s' (es ++ d).
Proof.
  induction d as [|e d IH]; intros s s' es I P H; cbn [handled_all] in H.
  - injection H as <-. rewrite app_nil_r. exact P.
  - destruct (handled e s) as [s1|] eqn:E; [|discriminate]. change (e :: d) with ([e] ++ d). rewrite app_assoc. apply (IH s1).
    + apply (h_inv [e] s). apply handled_all_rel; [exact I|]. cbn [handled_all]. rewrite E. reflexivity.
    + destruct e as [m|p t|p t|n]; cbn [handled] in E.
      * destruct (deliver_shape m (m_topics m) s I) as (s2 & E2 & _ & E3 & E4 & _). assert (s2 = s1) by congruence. subst s2. apply (pinv_same s s1 _ E3 E4).
        destruct P as [P1 P2 P3 P4]. split; auto. intros p t. rewrite said_snoc. apply P3.
      * injection E as <-. apply pinv_sub. exact P.
      * injection E as <-. apply pinv_unsub. exact P.
      * injection E as <-. destruct P as [P1 P2 P3 P4]. split; auto. intros p t. rewrite said_snoc. apply P3.
    + exact H.
Qed.
Lemma pinv_run h : forall s tr, run pubsub0 h = Some (s, tr) -> exists es, floods h = es ++ backlog s /\ pinv s es.
Proof.
  induction h as [|o h IH] using rev_ind; intros s tr H.
  - injection H as <- <-. exists []. split; [reflexivity|apply pinv0].
  - apply run_snoc in H as (s1 & t1 & a & H1 & H2 & ->). pose proof (t_inv _ _ (traced_of _ _ _ H1)) as I. destruct (IH _ _ H1) as (es & E & P). rewrite floods_snoc, E. unfold backlog.
    destruct o as [u|u|j|j|e|]; cbn [step] in H2; unfold floods; cbn [map concat app]; rewrite ?app_nil_r.
    + exists es. rewrite (subscribe_shape u s1 I) in H2. destruct (cur u s1); injection H2 as <- <-; (split; [reflexivity|apply (pinv_same s1); [reflexivity|reflexivity|exact P]]).
    + exists es. rewrite (unsubscribe_shape u s1 I) in H2. injection H2 as <- <-. destruct (cur u s1); (split; [reflexivity|apply (pinv_same s1); [reflexivity|reflexivity|exact P]]).
    + exists es. injection H2 as <- <-. unfold drop_stream. destruct (get_stream j s1) as [y|]; [|auto]. destruct (st_alive y); [|auto]. destruct (st_on_drop y); (split; [reflexivity|apply (pinv_same s1); [reflexivity|reflexivity|exact P]]).
    + exists es. destruct (next_of j s1) as [s2 n] eqn:En. injection H2 as <- <-. unfold next_of in En. destruct (get_stream j s1) as [y|]; [|injection En as <- <-; auto]. destruct (negb (st_alive y)); [injection En as <- <-; auto|].
      destruct (st_queue y); [destruct (has_sender j s1)|]; injection En as <- <-; (split; [reflexivity|apply (pinv_same s1); [reflexivity|reflexivity|exact P]]).
    + exists es. injection H2 as <- <-. cbn [ps_events with_events]. rewrite <- app_assoc. split; [reflexivity|apply (pinv_same s1); [reflexivity|reflexivity|exact P]].
    + destruct (poll_shape s1 I) as (s2 & d & b & E2 & Q). rewrite E2 in H2. injection H2 as <- <-. exists (es ++ d). unfold backlog. rewrite (p_events _ _ _ _ Q), <- app_assoc. split; [reflexivity|].
      pose proof (p_said _ _ _ _ Q) as Hs. destruct (removed_all_same (ps_unsubs s1) (with_unsubs [] s1)) as (M1 & M2 & _). destruct (drain_shape (ps_unsubs s1) (with_unsubs [] s1) (inv_unsubs [] s1 I)) as [_ I1].
      assert (P1 : pinv (removed_all (ps_unsubs s1) (with_unsubs [] s1)) es) by (apply (pinv_same s1); assumption).
      pose proof (pinv_handled _ _ _ _ I1 P1 Hs) as P2. apply (pinv_same (with_events (ps_events s1) s2)); [reflexivity|reflexivity|exact P2].
Qed.

(** * A stream while it is the one subscribed *)
Record held (t : topic) (k : serial) (s : pubsub) : Prop := {
  he_inv : inv s;
  he_cur : cur t s = Some k;
  he_alive : exists x, get_stream k s = Some x /\ st_topic x = t /\ st_alive x = true }.
Lemma held_step t k s o s' a : held t k s -> o <> ODrop k -> step s o = Some (s', a) -> cur t s' = Some k ->
  held t k s' /\
  read k [(o, a)] ++ unread k s' ++ for_topic t (backlog s') = unread k s ++ for_topic t (backlog s) ++ for_topic t (floods [o]).
Proof.
  intros [I Hc (x & Hx & Ht & Ha)] N2 H Hc'. pose proof (step_inv _ _ _ _ I H) as I'.
  destruct o as [u|u|j|j|e|]; cbn [step] in H.
  - rewrite (subscribe_shape u s I) in H. assert (L : k < ps_next s) by (eapply (i_next s I); exact Hx). unfold read, floods, unread. cbn [map concat app for_topic]. rewrite !app_nil_r. destruct (cur u s) eqn:Ec; injection H as <- <-.
    + split; [split; eauto|reflexivity].
    + rewrite get_created. destruct (N.eqb_spec k (ps_next s)) as [E|Hn]; [lia|]. split; [|reflexivity]. split; [exact I'|exact Hc'|]. exists x. rewrite get_created. destruct (N.eqb_spec k (ps_next s)); [lia|auto].
  - rewrite (unsubscribe_shape u s I) in H. injection H as <- <-. unfold read, floods, unread. cbn [map concat app for_topic]. rewrite !app_nil_r. split; [|destruct (cur u s); reflexivity]. split; [exact I'|exact Hc'|]. exists x. destruct (cur u s); auto.
  - injection H as <- <-. assert (Hn : j <> k) by congruence. unfold drop_stream in *. unfold read, floods, unread. cbn [map concat app for_topic]. rewrite !app_nil_r.
    destruct (get_stream j s) as [y|] eqn:Ej; [|split; [split; eauto|reflexivity]]. destruct (st_alive y) eqn:Ey; [|split; [split; eauto|reflexivity]].
    set (s1 := set_stream j (mk_stream (st_topic y) [] false false) s) in *.
    assert (G : get_stream k (if st_on_drop y then with_unsubs (ps_unsubs s1 ++ [st_topic y]) s1 else s1) = get_stream k s).
    { assert (F : get_stream k s1 = get_stream k s) by (unfold s1; rewrite get_set; destruct (N.eqb_spec k j); [congruence|reflexivity]). destruct (st_on_drop y); exact F. }
    split; [split; [exact I'|exact Hc'|exists x; rewrite G; auto]|]. rewrite G. destruct (st_on_drop y); reflexivity.
  - destruct (next_of j s) as [s1 n] eqn:En. injection H as <- <-. unfold next_of in En.
    assert (Triv : s1 = s -> (forall m, n <> Next m) -> held t k s1 /\ read k [(ONext j, ANext n)] ++ unread k s1 ++ for_topic t (backlog s1) = unread k s ++ for_topic t (backlog s) ++ for_topic t (floods [ONext j])).
    { intros -> E2. split; [split; eauto|]. destruct n; [edestruct E2; reflexivity| |]; cbn; rewrite app_nil_r; reflexivity. }
    destruct (get_stream j s) as [y|] eqn:Ej; [|injection En as <- <-; apply Triv; [reflexivity|discriminate]].
    destruct (st_alive y) eqn:Ey; cbn [negb] in En; [|injection En as <- <-; apply Triv; [reflexivity|discriminate]].
    destruct (st_queue y) as [|m q] eqn:Eq.
    + destruct (has_sender j s) eqn:Es; [injection En as <- <-; apply Triv; [reflexivity|discriminate]|]. injection En as <- <-.
      assert (Hn : j <> k). { intros ->. assert (E : has_sender k s = true) by (apply has_sender_cur; [exact I|eauto]). congruence. }
      split; [split; [exact I'|exact Hc'|]|].
      * exists x. rewrite get_set. destruct (N.eqb_spec k j); [congruence|auto].
      * unfold read, floods, unread. cbn [map concat app for_topic]. rewrite get_set. destruct (N.eqb_spec k j); [congruence|]. rewrite app_nil_r. reflexivity.
    + injection En as <- <-. split; [split; [exact I'|exact Hc'|]|].
      * rewrite get_set. destruct (N.eqb_spec k j) as [E|]; [|eauto]. subst j. assert (y = x) by congruence. subst y. eexists. split; [reflexivity|]. auto.
      * unfold read, floods, unread. cbn [map concat app for_topic]. rewrite get_set. destruct (N.eqb_spec k j) as [E|].
        -- subst j. rewrite Ej. cbn [st_queue]. rewrite Eq, !app_nil_r. reflexivity.
        -- rewrite !app_nil_r. reflexivity.
  - injection H as <- <-. split; [split; eauto|]. unfold read, floods, unread, backlog. cbn [map concat app ps_events with_events]. rewrite for_topic_app. reflexivity.
  - destruct (poll_shape s I) as (s1 & d & b & E & P). rewrite E in H. injection H as <- <-.
    assert (Hu : ~ In t (ps_unsubs s)). { intros Hu. rewrite (p_gone _ _ _ _ P _ Hu) in Hc'. discriminate. }
    assert (Q : get_stream k s1 = Some (mk_stream t (st_queue x ++ for_topic t d) true (st_on_drop x))).
    { rewrite (p_get _ _ _ _ P _ _ Hx). rewrite Ht, Hc, N.eqb_refl, Ha. destruct (existsb (N.eqb t) (ps_unsubs s)) eqn:Ex; [apply existsb_N in Ex; contradiction|reflexivity]. }
    split; [split; [exact I'|exact Hc'|]|].
    + eexists. split; [exact Q|]. auto.
    + unfold read, floods, backlog. cbn [map concat app]. rewrite (unread_get _ _ _ Q), (unread_get _ _ _ Hx). cbn [st_queue]. rewrite (p_events _ _ _ _ P), for_topic_app, app_nil_r, <- app_assoc. reflexivity.
Qed.
Lemma cur_none_run t h : forall s s' tr, inv s -> cur t s = None -> run s h = Some (s', tr) -> (forall j, ~ In (OSubscribe t, ASubscribed (Some j)) tr) -> cur t s' = None.
Proof.
  induction h as [|o h IH]; intros s s' tr I C H F; cbn [run] in H; [congruence|]. destruct (step s o) as [[s1 a]|] eqn:E; [|discriminate]. destruct (run s1 h) as [[s2 t2]|] eqn:E2; [|discriminate]. injection H as <- <-.
  apply (IH s1 s2 t2); [eapply step_inv; eauto| |exact E2|intros j Hj; apply (F j); right; exact Hj].
  destruct (cur t s1) as [k|] eqn:Ek; [|reflexivity]. exfalso. destruct (cur_step _ _ _ _ _ _ I E Ek) as [X|(-> & ->)]; [congruence|]. cbn [step] in E. rewrite (subscribe_shape t s I), C in E. injection E as <- <-. eapply F. left. reflexivity.
Qed.
Lemma held_run t k h : forall s s' tr, held t k s -> run s h = Some (s', tr) -> ~ In (ODrop k) h -> (forall j, ~ In (OSubscribe t, ASubscribed (Some j)) tr) -> cur t s' <> None ->
  held t k s' /\ read k tr ++ unread k s' ++ for_topic t (backlog s') = unread k s ++ for_topic t (backlog s) ++ for_topic t (floods h).
Proof.
  induction h as [|o h IH]; intros s s' tr S H U F C; cbn [run] in H.
  - injection H as <- <-. split; [exact S|]. cbn. rewrite app_nil_r. reflexivity.
  - destruct (step s o) as [[s1 a]|] eqn:E; [|discriminate]. destruct (run s1 h) as [[s2 t2]|] eqn:E2; [|discriminate]. injection H as <- <-.
    assert (F2 : forall j, ~ In (OSubscribe t, ASubscribed (Some j)) t2) by (intros j Hj; apply (F j); right; exact Hj).
    pose proof (he_inv _ _ _ S) as I. pose proof (he_cur _ _ _ S) as Hc. pose proof (step_inv _ _ _ _ I E) as I1.
    assert (C1 : cur t s1 = Some k).
    { destruct (cur t s1) as [j|] eqn:Ej; [|exfalso; apply C; exact (cur_none_run t h _ _ _ I1 Ej E2 F2)]. destruct (cur_step _ _ _ _ _ _ I E Ej) as [X|(-> & ->)]; [congruence|]. cbn [step] in E. rewrite (subscribe_shape t s I), Hc in E. injection E as <- <-. congruence. }
    destruct (held_step t k s o s1 a S) as (S1 & A3); [intros ->; apply U; left; reflexivity|exact E|exact C1|]. destruct (IH _ _ _ S1 E2) as (S2 & B3); [intros X; apply U; right; exact X|exact F2|exact C|].
    split; [exact S2|].
    change ((o, a) :: t2) with ([(o, a)] ++ t2). change (o :: h) with ([o] ++ h). unfold floods. rewrite read_app, map_app, concat_app. fold (floods [o]). fold (floods h). rewrite for_topic_app, <- app_assoc, B3, !app_assoc. rewrite <- (app_assoc (read k [(o,a)])), A3. rewrite !app_assoc. reflexivity.
Qed.
Lemma cur_topics t s : In t (subscribed_topics s) <-> cur t s <> None.
Proof.
  unfold subscribed_topics, cur. rewrite (mget_none _ N.eqb_spec). destruct (in_dec N.eq_dec t (map fst (ps_streams s))) as [H|H]; [split; [|auto]|split; [contradiction|intros X; exfalso; apply X; exact H]].
  intros _ X. exact (X H).
Qed.

(** * What is returned *)
Lemma handle_actions es : forall s s' a, handle es s = Some (s', a) -> actions es = match a with Some n => [n] | None => [] end ++ actions (ps_events s').
Proof.
  induction es as [|e es IH]; intros s s' a H; cbn [handle] in H; [injection H as <- <-; reflexivity|]. unfold actions. cbn [map concat]. fold (actions es). destruct e as [m|p t|p t|n].
  - destruct (deliver m (m_topics m) s); [|discriminate]. exact (IH _ _ _ H).
  - exact (IH _ _ _ H).
  - exact (IH _ _ _ H).
  - injection H as <- <-. reflexivity.
Qed.
Lemma poll_actions s s' a : inv s -> poll s = Some (s', a) -> actions (ps_events s) = match a with Some n => [n] | None => [] end ++ actions (ps_events s').
Proof.
  intros I H. unfold poll in H. destruct (drain_shape (ps_unsubs s) (with_unsubs [] s) (inv_unsubs [] s I)) as [D _]. rewrite D in H.
  destruct (removed_all_same (ps_unsubs s) (with_unsubs [] s)) as (_ & _ & _ & M & _). rewrite M in H. exact (handle_actions _ _ _ _ H).
Qed.
Lemma actions_app a b : actions (a ++ b) = actions a ++ actions b.
Proof. unfold actions. rewrite map_app, concat_app. reflexivity. Qed.
Lemma returned_app a b : returned (a ++ b) = returned a ++ returned b.
Proof. unfold returned. rewrite map_app, concat_app. reflexivity. Qed.
Lemma actions_run h : forall s tr, run pubsub0 h = Some (s, tr) -> returned tr ++ actions (backlog s) = actions (floods h).
Proof.
  induction h as [|o h IH] using rev_ind; intros s tr H; [injection H as <- <-; reflexivity|].
  apply run_snoc in H as (s1 & t1 & a & H1 & H2 & ->). pose proof (t_inv _ _ (traced_of _ _ _ H1)) as I. pose proof (IH _ _ H1) as E. rewrite floods_snoc, actions_app, returned_app, <- E. unfold backlog.
  destruct o as [u|u|j|j|e|]; cbn [step] in H2; unfold floods; cbn [map concat app]; rewrite ?app_nil_r.
  - rewrite (subscribe_shape u s1 I) in H2. destruct (cur u s1); injection H2 as <- <-; cbn; rewrite ?app_nil_r; reflexivity.
  - rewrite (unsubscribe_shape u s1 I) in H2. injection H2 as <- <-. destruct (cur u s1); cbn; rewrite ?app_nil_r; reflexivity.
  - injection H2 as <- <-. unfold drop_stream. destruct (get_stream j s1) as [y|]; [|cbn; rewrite ?app_nil_r; reflexivity]. destruct (st_alive y); [|cbn; rewrite ?app_nil_r; reflexivity]. destruct (st_on_drop y); cbn; rewrite ?app_nil_r; reflexivity.
  - destruct (next_of j s1) as [s2 n] eqn:En. injection H2 as <- <-. unfold next_of in En. cbn. rewrite !app_nil_r. destruct (get_stream j s1) as [y|]; [|injection En as <- <-; auto]. destruct (negb (st_alive y)); [injection En as <- <-; auto|].
    destruct (st_queue y); [destruct (has_sender j s1)|]; injection En as <- <-; reflexivity.
  - injection H2 as <- <-. cbn [ps_events with_events]. rewrite actions_app. cbn [returned map concat]. rewrite app_nil_r, app_assoc. reflexivity.
  - destruct (poll s1) as [[s2 b]|] eqn:Ep; [|discriminate]. injection H2 as <- <-. rewrite (poll_actions _ _ _ I Ep). unfold returned at 2. cbn [map concat]. rewrite <- !app_assoc. destruct b; reflexivity.
Qed.
