(** Property C48: taking addresses apart and putting them together. *)
From Verif Require Import Base Wire Cid FMap Addr AddrProofs.
Local Open Scope N_scope.

(** An address without peer id contains none, and is the address it was made of. *)
Theorem c48_without_peer a :
  without_peer a <> APanic /\
  (forall b, without_peer a = AOk b <-> b = a /\ forall h, ~ In (PP2p h) a) /\
  (forall e, without_peer a = AErr e <-> e = ContainsP2p /\ exists h, In (PP2p h) a).
Proof.
  unfold without_peer. destruct (existsb is_p2p a) eqn:E.
  - apply existsb_p2p in E. destruct E as (h & E). split; [discriminate|]. split; intros x; split.
    + discriminate.
    + intros [_ H]. exfalso. eapply H; eauto.
    + intros [= <-]. eauto.
    + intros [-> _]. reflexivity.
  - assert (N : forall h, ~ In (PP2p h) a). { intros h H. assert (X : existsb is_p2p a = true) by (apply existsb_p2p; eauto). congruence. }
    split; [discriminate|]. split; intros x; split.
    + intros [= <-]. auto.
    + intros [-> _]. reflexivity.
    + discriminate.
    + intros [_ (h & H)]. exfalso. eapply N; eauto.
Qed.
Print Assumptions c48_without_peer.

(** The peer id found is the first of the address and a valid one, and the rest has neither peer ids
    nor relay markers: it is what remains of the address without them, in order. *)
Theorem c48_split debug a w : split_peer debug a = AOk w ->
  (exists u v, a = u ++ PP2p (wp_peer w) :: v /\ forall h, ~ In (PP2p h) u) /\
  valid_peer (wp_peer w) = true /\
  (forall h, ~ In (PP2p h) (wp_addr w)) /\ ~ In PCircuit (wp_addr w) /\
  wp_addr w = filter (fun p => match p with PP2p _ | PCircuit => false | _ => true end) a.
Proof.
  unfold split_peer. destruct (find is_p2p a) as [x|] eqn:E; [|discriminate]. destruct (find_p2p_some _ _ E) as (h & u & v & -> & -> & Hu).
  destruct (debug && _); [discriminate|]. destruct (valid_peer h) eqn:V; [|discriminate]. intros [= <-]. cbn [wp_peer wp_addr].
  split; [eauto|]. split; [exact V|]. split; [|split].
  - intros h' H. destruct (plain_in _ _ H) as (H1 & _). eapply H1; eauto.
  - intros H. destruct (plain_in _ _ H) as (_ & H1 & _). apply H1. reflexivity.
  - apply filter_ext. intros p. destruct p; reflexivity.
Qed.
Print Assumptions c48_split.

(** When the conversion fails or panics. *)
Theorem c48_split_fails debug a :
  (split_peer debug a = AErr MissingP2p <-> forall h, ~ In (PP2p h) a) /\
  (split_peer debug a = APanic <->
     debug = true /\ (exists h, In (PP2p h) a) /\ exists b x, a = b ++ [x] /\ (forall h, x <> PP2p h) /\ x <> PCircuit) /\
  (split_peer debug a = AErr InvalidPeerId <->
     split_peer debug a <> APanic /\ exists u h v, a = u ++ PP2p h :: v /\ (forall h', ~ In (PP2p h') u) /\ valid_peer h = false) /\
  split_peer debug a <> AErr ContainsP2p.
Proof.
  unfold split_peer. destruct (find is_p2p a) as [x|] eqn:E.
  - destruct (find_p2p_some _ _ E) as (h & u & v & -> & Ea & Hu).
    assert (Hin : In (PP2p h) a) by (subst a; apply in_elt).
    assert (Hl : exists b y, a = b ++ [y]). { subst a. destruct (exists_last (l := u ++ PP2p h :: v)) as (b & y & Eb); [destruct u; discriminate|]. eauto. }
    destruct Hl as (b & y & Eb).
    assert (El : last a PCircuit = y) by (rewrite Eb; apply last_last). rewrite El.
    assert (HP : debug && negb (is_p2p y || is_circuit y) = true <->
        debug = true /\ (exists h, In (PP2p h) a) /\ exists b x, a = b ++ [x] /\ (forall h, x <> PP2p h) /\ x <> PCircuit).
    { rewrite andb_true_iff, negb_true_iff. split.
      - intros [-> Hy]. split; [auto|]. split; [eauto|]. exists b, y. split; [auto|]. split; [intros h' ->|intros ->]; discriminate Hy.
      - intros (-> & _ & b' & y' & Eb' & H1 & H2). split; [auto|]. rewrite Eb in Eb'. apply app_inj_tail in Eb'. destruct Eb' as [_ ->].
        destruct y'; try reflexivity; exfalso; [eapply H1|apply H2]; reflexivity. }
    destruct (debug && negb (is_p2p y || is_circuit y)).
    + split; [split; [discriminate|intros H; exfalso; eapply H; eauto]|]. split; [split; auto; intros _; apply HP; reflexivity|].
      split; [split; [discriminate|intros [H _]; contradiction]|discriminate].
    + destruct (valid_peer h) eqn:V.
      * split; [split; [discriminate|intros H; exfalso; eapply H; eauto]|]. split; [split; [discriminate|intros H; apply HP in H; discriminate]|].
        split; [split; [discriminate|]|discriminate]. intros (_ & u' & h' & v' & Ea' & Hu' & V'). exfalso.
        rewrite Ea', find_p2p_at in E by exact Hu'. injection E as ->. congruence.
      * split; [split; [discriminate|intros H; exfalso; eapply H; eauto]|]. split; [split; [discriminate|intros H; apply HP in H; discriminate]|].
        split; [split; [intros _|reflexivity]|discriminate]. split; [discriminate|]. exists u, h, v. auto.
  - pose proof (proj1 (find_p2p_none a) E) as N. split; [split; auto|]. split; [split; [discriminate|intros (_ & (h & H) & _); exfalso; eapply N; eauto]|].
    split; [split; [discriminate|]|discriminate]. intros (_ & u & h & v & -> & _). exfalso. eapply (N h). apply in_elt.
Qed.
Print Assumptions c48_split_fails.

(** Joining and splitting again gives the parts, when the rest has no peer id (no
    [MultiaddrWithoutPeerId] has) and no relay marker. *)
Theorem c48_join_split debug w : (forall h, ~ In (PP2p h) (wp_addr w)) -> ~ In PCircuit (wp_addr w) -> valid_peer (wp_peer w) = true ->
  split_peer debug (join_peer w) = AOk w.
Proof.
  intros H1 H2 V. unfold split_peer, join_peer. rewrite find_p2p_at by exact H1. rewrite last_last. cbn [is_p2p orb negb]. rewrite andb_false_r, V.
  change (fun p => negb (is_p2p p || is_circuit p)) with plain_proto. rewrite filter_app, filter_plain by assumption. cbn [filter plain_proto is_p2p orb negb]. rewrite app_nil_r.
  destruct w; reflexivity.
Qed.
Print Assumptions c48_join_split.

(** Splitting and joining gives the address back exactly when it ends in its only peer id and has no
    relay marker. *)
Theorem c48_split_join debug a w : split_peer debug a = AOk w ->
  (join_peer w = a <-> exists rest h, a = rest ++ [PP2p h] /\ (forall h', ~ In (PP2p h') rest) /\ ~ In PCircuit rest).
Proof.
  intros H. destruct (c48_split _ _ _ H) as (_ & V & H1 & H2 & _). split.
  - intros <-. exists (wp_addr w), (wp_peer w). auto.
  - intros (rest & h & -> & N1 & N2). assert (V' : valid_peer h = true).
    { revert H. unfold split_peer. rewrite find_p2p_at by exact N1. destruct (debug && _); [discriminate|]. destruct (valid_peer h); [auto|discriminate]. }
    pose proof (c48_join_split debug (mk_wp rest h) N1 N2 V') as E. unfold join_peer in E. cbn [wp_addr wp_peer] in E. rewrite E in H. injection H as <-.
    reflexivity.
Qed.
Print Assumptions c48_split_join.

Definition peer_a : multihash := Build_multihash 18 (repeat 7 32).
Definition peer_b : multihash := Build_multihash 0 [8; 1; 18; 2; 9; 9].
Definition plain_addr : multiaddr := [PIp4 2130706433; PTcp 4001].
Example ex_split : split_peer true (plain_addr ++ [PP2p peer_a]) = AOk (mk_wp plain_addr peer_a) /\
  join_peer (mk_wp plain_addr peer_a) = plain_addr ++ [PP2p peer_a] /\ without_peer plain_addr = AOk plain_addr /\
  without_peer (plain_addr ++ [PP2p peer_a]) = AErr ContainsP2p /\ split_peer true plain_addr = AErr MissingP2p.
Proof. repeat split; vm_compute; reflexivity. Qed.
Example ex_split_fails : split_peer true (PP2p peer_a :: plain_addr) = APanic /\
  split_peer false (PP2p peer_a :: plain_addr) = AOk (mk_wp plain_addr peer_a) /\
  split_peer true (plain_addr ++ [PP2p (Build_multihash 0 (repeat 1 43))]) = AErr InvalidPeerId.
Proof. repeat split; vm_compute; reflexivity. Qed.

(** False in general.  The address of a peer behind a relay, /…/p2p/R/p2p-circuit/p2p/T, becomes the
    address of the relay: the target is gone. *)
Theorem c48_relay_refuted : exists a w target, split_peer true a = AOk w /\ last a PCircuit = PP2p target /\
  wp_peer w <> target /\ join_peer w <> a.
Proof.
  exists (plain_addr ++ [PP2p peer_a; PCircuit; PP2p peer_b]), (mk_wp plain_addr peer_a), peer_b.
  split; [vm_compute; reflexivity|]. split; [reflexivity|]. split; [discriminate|discriminate].
Qed.
Print Assumptions c48_relay_refuted.

(** And an address without peer id which has a relay marker loses it when it gets a peer id, is turned
    into text or a multiaddress and taken apart again. *)
Theorem c48_circuit_refuted : exists a w, without_peer a = AOk a /\ w = mk_wp a peer_a /\
  exists w', split_peer true (join_peer w) = AOk w' /\ w' <> w /\ join_peer w' <> join_peer w.
Proof.
  exists (plain_addr ++ [PCircuit]). eexists. split; [reflexivity|]. split; [reflexivity|].
  exists (mk_wp plain_addr peer_a). split; [vm_compute; reflexivity|]. split; discriminate.
Qed.
Print Assumptions c48_circuit_refuted.

(** The text of an address with peer id is the text of the joined address. *)
Theorem c48_text text peer_text w : (forall h, text (PP2p h) = [47; 112; 50; 112; 47] ++ peer_text h) ->
  show_with_peer text peer_text w = show_addr text (join_peer w).
Proof. intros H. unfold show_with_peer, show_addr, join_peer. rewrite map_app, concat_app. cbn [map concat]. rewrite app_nil_r, H. reflexivity. Qed.
Print Assumptions c48_text.
