(** Properties C46 and C47: connections and connect requests.  A history is the list of the calls,
    polls and drops with what was answered; [run debug h s]: the history is possible, without a panic,
    and leaves [s]. *)
From Coq Require Import Permutation.
From Verif Require Import Base Wire Cid FMap Addr AddrProofs PropsAddr BlockSpec SubsSpec Subs SubsProofs Swarm SwarmSpec SwarmProofs SwarmConnProofs.
Local Open Scope N_scope.

(** * C46: the lists describe the open connections *)

(** The addresses listed for a peer are exactly those of its open connections, as many times as there
    are connections to each. *)
Theorem c46_connections_to debug h s : run debug h s -> legal (map fst h) ->
  forall p, Permutation (connections_to s p) (addresses_of p (open_after (map fst h))).
Proof. intros H Hl p. apply (proj2 (open_inv debug h s H Hl)). Qed.
Print Assumptions c46_connections_to.

(** The list of connections has every connected peer exactly once, with an address it is connected at. *)
Theorem c46_connections debug h s now : run debug h s -> legal (map fst h) ->
  NoDup (map (fun x => wp_peer (fst x)) (connections now s)) /\
  (forall w r, In (w, r) (connections now s) -> In (wp_peer w, wp_addr w) (open_after (map fst h))) /\
  (forall p a, In (p, a) (open_after (map fst h)) -> exists w r, In (w, r) (connections now s) /\ wp_peer w = p).
Proof.
  intros H Hl. destruct (open_inv debug h s H Hl) as [[G1 G2] P]. unfold connections. cbn zeta. set (c := core_of s) in *.
  set (f := fun pl : peer * list multiaddr => match snd pl with
                      | [] => []
                      | a :: _ => [(mk_wp a (fst pl), match mget peqb (fst pl) (c_rtt c) with
                                                      | Some d => Some d
                                                      | None => option_map (fun t => now - t) (mget peqb (fst pl) (c_times c))
                                                      end)]
                      end).
  change (flat_map _ (c_open c)) with (flat_map f (c_open c)).
  assert (Hin : forall w r, In (w, r) (flat_map f (c_open c)) -> exists l, mget peqb (wp_peer w) (c_open c) = Some (wp_addr w :: l)).
  { intros w r Hi. apply in_flat_map in Hi as ([p l] & Hp & Hi). unfold f in Hi. cbn [fst snd] in Hi. destruct l as [|a l]; [contradiction|].
    destruct Hi as [[= <- _]|[]]. exists l. cbn [wp_peer wp_addr]. apply (in_mget _ peqb_spec); assumption. }
  split; [|split].
  - unfold mkeys in G1. clear -G1. induction (c_open c) as [|[p l] m IH]; cbn [flat_map map]; [constructor|]. cbn [map fst] in G1. apply NoDup_cons_iff in G1 as [G1 G2]. specialize (IH G2).
    unfold f at 1. cbn [fst snd]. destruct l as [|a l]; [exact IH|]. cbn [app map fst wp_peer]. constructor; [|exact IH].
    intros Hi. apply G1. apply in_map_iff in Hi as ([w r] & E & Hi). cbn [fst] in E. apply in_flat_map in Hi as ([q l'] & Hq & Hi). unfold f in Hi. cbn [fst snd] in Hi.
    destruct l'; [contradiction|]. destruct Hi as [[= <- _]|[]]. cbn [wp_peer] in E. subst q. apply in_map_iff. exists (p, m0 :: l'). auto.
  - intros w r Hi. destruct (Hin w r Hi) as (l & E). apply addresses_in. apply (Permutation_in _ (P (wp_peer w))). unfold at_peer. fold c. rewrite E. left. reflexivity.
  - intros p a Hi. apply addresses_in in Hi. apply (Permutation_in _ (Permutation_sym (P p))) in Hi. unfold at_peer in Hi. fold c in Hi.
    destruct (mget peqb p (c_open c)) as [[|b l]|] eqn:E; try contradiction. apply (mget_in _ peqb_spec) in E.
    eexists (mk_wp b p), _. split; [|reflexivity]. apply in_flat_map. exists (p, b :: l). split; [exact E|]. left. reflexivity.
Qed.
Print Assumptions c46_connections.

(** When no two connections are open to one address, disconnecting finds the peer connected at the
    address, and only then; the peer id given plays no role. *)
Theorem c46_disconnect_partial debug h s : run debug h s -> legal (map fst h) -> distinct (map fst h) ->
  forall w q, disconnect s w = Some q <-> In (q, wp_addr w) (open_after (map fst h)).
Proof. intros H Hl Hd w q. apply (proj2 (conns_inv debug h s H Hl Hd)). Qed.
Print Assumptions c46_disconnect_partial.

(** The peers: those seen connecting or added, and not removed since; closing removes none. *)
Theorem c46_peers debug h s : run debug h s -> NoDup (peers s) /\ forall p, In p (peers s) <-> known p (rev (map fst h)) = true.
Proof. apply peers_inv. Qed.
Print Assumptions c46_peers.

(** The round trip time shown is the last one reported for the peer, ever. *)
Theorem c46_rtt debug h s now w r d : run debug h s -> In (w, r) (connections now s) -> last_rtt (wp_peer w) (rev (map fst h)) = Some d -> r = Some d.
Proof.
  intros H Hi Hr. rewrite <- (rtt_inv debug h s H) in Hr. unfold connections in Hi. apply in_flat_map in Hi as ([p l] & _ & Hi). cbn [fst snd] in Hi.
  destruct l as [|a l]; [contradiction|]. destruct Hi as [[= <- <-]|[]]. cbn [wp_peer] in Hr. rewrite Hr. reflexivity.
Qed.
Print Assumptions c46_rtt.

(** Panics: none in release builds; none in any build for legal histories with distinct addresses and
    no connect requests. *)
Theorem c46_no_panic_release s o :
  match o with
  | Established p e | Closed p e => endpoint_ok p e
  | DialFailed _ (Transport l) => forall d e, In (d, e) l -> exists p a, d = a ++ [PP2p p] /\ bare a /\ valid_peer p = true
  | _ => True
  end -> step false s o <> None.
Proof. apply release_no_panic. reflexivity. Qed.
Theorem c46_no_panic debug h s o : run debug h s -> (forall w t a, ~ In (Connect w t, a) h) ->
  legal (map fst h ++ [o]) -> distinct (map fst h ++ [o]) -> step debug s o <> None.
Proof. apply quiet_no_panic. Qed.
Print Assumptions c46_no_panic_release.
Print Assumptions c46_no_panic.

(** ** Cases *)
Definition pa : peer := peer_a.
Definition pb : peer := peer_b.
Definition addr1 : multiaddr := [PIp4 2130706433; PTcp 4001].
Definition addr2 : multiaddr := [PIp4 2130706433; PTcp 4002].
Definition dial1 p := Dialer (addr1 ++ [PP2p p]).
Definition dial2 p := Dialer (addr2 ++ [PP2p p]).
Lemma exec_run debug h s rs : exec debug init h = Some (s, rs) -> run debug (combine h rs) s.
Proof. intros E. apply (run_exec debug h init [] s rs) in E; [|constructor]. exact (proj1 E). Qed.
Ltac ended := match goal with E : [] = _ ++ _ :: _ |- _ => symmetry in E; apply app_eq_nil in E as [_ E]; discriminate end.
Lemma bare1 : bare addr1. Proof. split; [intros h|]; intros [H|[H|[]]]; discriminate. Qed.
Lemma bare2 : bare addr2. Proof. split; [intros h|]; intros [H|[H|[]]]; discriminate. Qed.
Lemma ok1 p : valid_peer p = true -> endpoint_ok p (dial1 p).
Proof. intros V. exists addr1. auto using bare1. Qed.
Lemma ok2 p : valid_peer p = true -> endpoint_ok p (dial2 p).
Proof. intros V. exists addr2. auto using bare2. Qed.
Lemma legal_of h o : legal h -> match o with
  | Established p e => endpoint_ok p e
  | Closed p e => endpoint_ok p e /\ In (p, remote e) (open_after h)
  | DialFailed _ (Transport l) => forall d e, In (d, e) l -> exists p a, d = a ++ [PP2p p] /\ bare a /\ valid_peer p = true
  | _ => True
  end -> legal (h ++ [o]).
Proof.
  intros H Ho h1 o1 h2 E. destruct h2 as [|x h2 _] using rev_ind.
  - apply app_inj_tail in E as [<- <-]. exact Ho.
  - rewrite app_comm_cons, app_assoc in E. apply app_inj_tail in E as [-> _]. apply (H h1 o1 h2). reflexivity.
Qed.
Lemma legal_nil : legal [].
Proof. intros h1 o h2 E. ended. Qed.
Definition conn_history : list op :=
  [Established pa (dial1 pa); Established pb (Listener addr2); SetRtt pa 5; Closed pa (dial1 pa)].
Example ex_connections : exists s rs, exec true init conn_history = Some (s, rs) /\
  legal conn_history /\ distinct conn_history /\
  connections 9 s = [(mk_wp addr2 pb, None)] /\ disconnect s (mk_wp addr2 pa) = Some pb /\ connections_to s pa = [] /\ peers s = [pb; pa].
Proof.
  eexists _, _. split; [vm_compute; reflexivity|]. split; [|split].
  - change conn_history with (((([] ++ [Established pa (dial1 pa)]) ++ [Established pb (Listener addr2)]) ++ [SetRtt pa 5]) ++ [Closed pa (dial1 pa)]).
    apply legal_of; [apply legal_of; [apply legal_of; [apply legal_of; [apply legal_nil|]|]|]|].
    + apply ok1. reflexivity.
    + exact (proj1 bare2).
    + exact I.
    + split; [apply ok1; reflexivity|]. left. reflexivity.
  - intros h1 p e h2 E q. unfold conn_history in E. destruct h1 as [|o1 h1]; [intros []|]. cbn [app] in E. apply (f_equal (@tl op)) in E as E1. apply (f_equal (@hd_error op)) in E as E2. cbn [tl hd_error] in E1, E2. injection E2 as <-. clear E.
    destruct h1 as [|o2 h1]; cbn [app] in E1; [inversion E1; subst; intros [X|[]]; discriminate|]. inversion E1 as [[X E]]. clear X E1.
    destruct h1 as [|o3 h1]; [discriminate|]. cbn [app] in E. inversion E as [[X E1]]. clear X E. destruct h1 as [|o4 h1]; [discriminate|]. cbn [app] in E1. inversion E1 as [[X E]]. ended.
  - repeat split; vm_compute; reflexivity.
Qed.

(** False as stated: two connections to one address.  After one of them closes the other is listed
    but cannot be disconnected, and when it closes too a debug build panics. *)
Theorem c46_shared_address_refuted : exists h s rs, exec true init h = Some (s, rs) /\ legal h /\
  connections_to s pa = [addr1] /\ connections 0 s = [(mk_wp addr1 pa, None)] /\ disconnect s (mk_wp addr1 pa) = None /\
  legal (h ++ [Closed pa (dial1 pa)]) /\ step true s (Closed pa (dial1 pa)) = None.
Proof.
  set (h := [Established pa (dial1 pa); Established pa (dial1 pa); Closed pa (dial1 pa)]). exists h. eexists _, _. split; [vm_compute; reflexivity|].
  assert (L : legal h).
  { change h with ((([] ++ [Established pa (dial1 pa)]) ++ [Established pa (dial1 pa)]) ++ [Closed pa (dial1 pa)]).
    apply legal_of; [apply legal_of; [apply legal_of; [apply legal_nil|]|]|].
    - apply ok1. reflexivity.
    - apply ok1. reflexivity.
    - split; [apply ok1; reflexivity|]. left. reflexivity. }
  split; [exact L|]. split; [vm_compute; reflexivity|]. split; [vm_compute; reflexivity|]. split; [vm_compute; reflexivity|]. split; [|vm_compute; reflexivity].
  apply legal_of; [exact L|]. split; [apply ok1; reflexivity|]. left. reflexivity.
Qed.
Print Assumptions c46_shared_address_refuted.

(** False as stated: a peer all of whose connections are closed is still listed as a peer, and a
    connected one is not after its ping timed out. *)
Theorem c46_peers_refuted :
  (exists h s rs, exec true init h = Some (s, rs) /\ legal h /\ open_after h = [] /\ In pa (peers s)) /\
  (exists h s rs, exec true init h = Some (s, rs) /\ legal h /\ In (pa, addr1) (open_after h) /\ peers s = []).
Proof.
  split.
  - set (h := [Established pa (dial1 pa); Closed pa (dial1 pa)]). exists h. eexists _, _. split; [vm_compute; reflexivity|]. split; [|split; [reflexivity|left; reflexivity]].
    change h with (([] ++ [Established pa (dial1 pa)]) ++ [Closed pa (dial1 pa)]).
    apply legal_of; [apply legal_of; [apply legal_nil|]|]; [apply ok1; reflexivity|]. split; [apply ok1; reflexivity|]. left. reflexivity.
  - set (h := [Established pa (dial1 pa); RemovePeer pa]). exists h. eexists _, _. split; [vm_compute; reflexivity|]. split; [|split; [left; reflexivity|reflexivity]].
    change h with (([] ++ [Established pa (dial1 pa)]) ++ [RemovePeer pa]).
    apply legal_of; [apply legal_of; [apply legal_nil|]|]; [apply ok1; reflexivity|]. exact I.
Qed.
Print Assumptions c46_peers_refuted.

(** A time measured on a connection long closed is shown for a new one. *)
Theorem c46_stale_rtt_refuted : exists h s rs, exec true init h = Some (s, rs) /\
  h = [Established pa (dial1 pa); SetRtt pa 77; Closed pa (dial1 pa); Established pa (dial2 pa)] /\
  connections 0 s = [(mk_wp addr2 pa, Some 77)].
Proof. eexists _, _, _. split; [|split; [reflexivity|]]; vm_compute; reflexivity. Qed.
Print Assumptions c46_stale_rtt_refuted.

(** * C47: connect requests *)

(** Refused exactly when there is an open connection to the peer at the address. *)
Theorem c47_already debug h s w t : run debug h s -> legal (map fst h) ->
  (snd (connect debug s w t) = AAlready <-> In (wp_peer w, wp_addr w) (open_after (map fst h))).
Proof.
  intros H Hl. destruct (open_inv debug h s H Hl) as [_ P]. rewrite <- addresses_in.
  assert (E : In (wp_addr w) (addresses_of (wp_peer w) (open_after (map fst h))) <-> existsb (addr_eqb (wp_addr w)) (at_peer (wp_peer w) (c_open (core_of s))) = true).
  { rewrite existsb_exists. split.
    - intros Hi. apply (Permutation_in _ (Permutation_sym (P _))) in Hi. exists (wp_addr w). split; [exact Hi|]. destruct (addr_eqb_spec (wp_addr w) (wp_addr w)); congruence.
    - intros (a & Hi & Ea). destruct (addr_eqb_spec (wp_addr w) a) as [->|]; [|discriminate]. apply (Permutation_in _ (P _)). exact Hi. }
  rewrite E. unfold connect. destruct (existsb _ _); cbn [snd]; [tauto|].
  destruct (Subs.step wp_eqb debug (reg s) (Begin w false)) as [g e]. destruct (Subs.step wp_eqb debug g _) as [g2 e2]. cbn [snd]. split; discriminate.
Qed.
Print Assumptions c47_already.

(** Every accepted request makes one dial of its peer, in order. *)
Theorem c47_dials debug h s : run debug h s -> flat_map requested h = flat_map dialed h ++ c_dials (core_of s).
Proof. apply dials_inv. Qed.
Print Assumptions c47_dials.

(** The network asks for the addresses of a peer: it gets those of the requests made since it last
    asked or a connection was made. *)
Fixpoint not_handed_out (p : peer) (past : list (op * reply)) : list with_peer :=     (* latest first *)
  match past with
  | [] => []
  | (Connect w _, AFuture _) :: r => not_handed_out p r ++ (if mh_eqb p (wp_peer w) then [w] else [])
  | (Handout q, _) :: r | (Established q _, _) :: r => if mh_eqb p q then [] else not_handed_out p r
  | (Addrs, AListing l) :: r => if existsb (mh_eqb p) (map fst l) then [] else not_handed_out p r
  | _ :: r => not_handed_out p r
  end.
Lemma handout_all_exact ps : forall l c0 c, handout_all ps c0 = (c, l) -> forall p,
  at_peer p (c_wait c) = if existsb (mh_eqb p) (map fst l) then [] else at_peer p (c_wait c0).
Proof.
  induction ps as [|x ps IH]; intros l c0 c E p; cbn [handout_all] in E; [inversion E; subst; reflexivity|].
  destruct (handout x c0) as [c1 l1] eqn:E1. destruct (handout_all ps c1) as [c2 l2] eqn:E2. inversion E; subst. rewrite (IH _ _ _ E2 p). destruct (handout_at _ _ _ _ E1) as (A1 & _).
  rewrite A1. cbn [map fst existsb]. fold (peqb p x). destruct (peqb p x); cbn [orb]; [|reflexivity].
  match goal with |- (if ?b then _ else _) = _ => destruct b; reflexivity end.
Qed.
Theorem c47_handout debug h s p : run debug h s ->
  exists s', step debug s (Handout p) = Some (s', AAddrs (map join_peer (not_handed_out p (rev h)))).
Proof.
  intros H. cbn [step]. unfold handout. eexists. repeat f_equal. clear -H. revert p. induction H as [|h s o s' a H IH Hs]; intros p; [reflexivity|].
  rewrite rev_app_distr. cbn [rev app]. unfold Swarm.step in Hs. destruct o as [w now|q| |q e|q e|q e|q|q|q d| |i k|i]; cbn [not_handed_out].
  - unfold connect in Hs. destruct (existsb _ _); [injection Hs as <- <-; apply IH|].
    destruct (Subs.step wp_eqb debug (reg s) (Begin w false)) as [g e]. destruct (Subs.step wp_eqb debug g _) as [g2 e2]. injection Hs as <- <-. cbn [core_of c_wait].
    rewrite at_mset. fold (peqb p (wp_peer w)). destruct (peqb_spec p (wp_peer w)) as [E|]; [rewrite E, IH; reflexivity|]. rewrite app_nil_r. apply IH.
  - destruct (handout q (core_of s)) as [c l] eqn:E. injection Hs as <- <-. destruct (handout_at _ _ _ _ E) as (A1 & _). cbn [core_of]. rewrite A1. fold (peqb p q). destruct (peqb p q); auto.
  - destruct (handout_all (c_peers (core_of s)) (core_of s)) as [c l] eqn:E. injection Hs as <- <-. cbn [core_of].
    rewrite <- IH. exact (handout_all_exact _ _ _ _ E p).
  - destruct (established debug s q e) as [s1|] eqn:E; [|discriminate]. injection Hs as <- <-. destruct (established_shape _ _ _ _ _ E) as (x & _ & _ & Ec). rewrite Ec. cbn [c_wait].
    rewrite at_mdel. fold (peqb p q). destruct (peqb p q); auto.
  - destruct (closed debug s q e) as [s1|] eqn:E; [|discriminate]. injection Hs as <- <-. destruct (closed_shape _ _ _ _ _ E) as (x & _ & _ & _ & Ec). rewrite Ec. cbn [c_wait]. apply IH.
  - destruct (dial_failed debug s q e) as [s1|] eqn:E; [|discriminate]. injection Hs as <- <-. destruct (dial_failed_shape _ _ _ _ _ E) as (_ & Ec). rewrite Ec. unfold with_out. cbn [c_wait]. apply IH.
  - injection Hs as <- <-. apply IH.
  - injection Hs as <- <-. apply IH.
  - injection Hs as <- <-. apply IH.
  - destruct (c_dials (core_of s)); injection Hs as <- <-; apply IH.
  - destruct (Subs.step wp_eqb debug (reg s) (Poll i k)) as [g e]. injection Hs as <- <-. apply IH.
  - destruct (Subs.step wp_eqb debug (reg s) (DropFut i)) as [g e]. destruct (Subs.step wp_eqb debug g (DropNotify i)) as [g2 e2]. injection Hs as <- <-. apply IH.
Qed.
Print Assumptions c47_handout.

(** A request is over once a connection to the peer is made, or, after its address was handed out,
    once the dial ended with the error of that address, the wrong peer or the loss of the connection:
    its future, unless dropped, is ready; the first poll yields a result, and one that is true. *)
Theorem c47_completes_partial debug h1 w t i a o r b s k : run debug (h1 ++ (Connect w t, AFuture i) :: a ++ (o, r) :: b) s ->
  target_ok w -> (forall q, ~ In (FutDrop i, q) (a ++ (o, r) :: b)) ->
  (exists e, o = Established (wp_peer w) e) \/ (dial_over w o /\ exists x, In x a /\ asked_for (wp_peer w) x) ->
  exists s' x, step debug s (FutPoll i k) = Some (s', AFut (OReady x)) /\
    ((forall j q, ~ In (FutPoll i j, q) (a ++ b)) -> exists v, x = AVal v /\ result_is_true debug w (a ++ [(o, r)]) v).
Proof.
  intros H Tw D Hend. destruct (request_completes _ _ _ _ _ _ _ _ _ _ H D Tw Hend) as (L & v & T & X). destruct (poll_of debug s L i k T) as (s' & Hp).
  destruct X as [[E Htrue]|[Hd (j & q & Hq)]].
  - rewrite E in Hp. cbn [poll_answer] in Hp. exists s', (AVal v). split; [exact Hp|]. intros _. eauto.
  - unfold decided in Hd. destruct (SubsSpec.life_of wp_eqb L i); try contradiction; cbn [poll_answer] in Hp; eexists s', _; (split; [exact Hp|]); intros N; exfalso; eapply N; exact Hq.
Qed.
Print Assumptions c47_completes_partial.

(** Whatever a future yields has happened since the request was made; success means that the very
    address was connected. *)
Theorem c47_results_are_true debug h1 w t i h2 s k s' v : run debug (h1 ++ (Connect w t, AFuture i) :: h2) s ->
  step debug s (FutPoll i k) = Some (s', AFut (OReady (AVal v))) -> (forall q, ~ In (FutDrop i, q) h2) ->
  result_is_true debug w h2 v.
Proof.
  intros H Hp D. destruct (request_phase _ _ _ _ _ _ _ H D) as (L & T & X). destruct (poll_of debug s L i k T) as (s2 & Hp2). rewrite Hp in Hp2. injection Hp2 as <- E.
  destruct X as [[(q & Hk) _]|[(r & Hr & Htrue)|(Hc & _)]].
  - rewrite Hk in E. discriminate.
  - rewrite Hr in E. injection E as ->. exact Htrue.
  - rewrite Hc in E. discriminate.
Qed.
Print Assumptions c47_results_are_true.

(** Success: the address was handed out, nothing else about it was reported, and it got connected. *)
Theorem c47_succeeds debug h1 w t i a r b s k : run debug (h1 ++ (Connect w t, AFuture i) :: a ++ (Established (wp_peer w) (Dialer (wp_addr w ++ [PP2p (wp_peer w)])), r) :: b) s ->
  target_ok w -> (forall q, ~ In (FutDrop i, q) (a ++ b)) -> (forall k q, ~ In (FutPoll i k, q) b) ->
  (forall o q, In (o, q) a -> silent debug w o) -> (exists x, In x a /\ asked_for (wp_peer w) x) ->
  exists s', step debug s (FutPoll i k) = Some (s', AFut (OReady (AVal COk))).
Proof.
  intros H Tw D P S Ask. destruct (request_succeeds _ _ _ _ _ _ _ _ _ H D P Tw S Ask) as (L & T & E). destruct (poll_of debug s L i k T) as (s' & Hp).
  rewrite E in Hp. eauto.
Qed.
Print Assumptions c47_succeeds.

(** And a request about whose target nothing is reported stays pending, whatever else happens. *)
Theorem c47_stays_pending debug h1 w t i h2 s k : run debug (h1 ++ (Connect w t, AFuture i) :: h2) s ->
  (forall q, ~ In (FutDrop i, q) h2) -> (forall o q, In (o, q) h2 -> silent debug w o) ->
  exists s', step debug s (FutPoll i k) = Some (s', AFut OPending).
Proof.
  intros H D S. destruct (request_silent _ _ _ _ _ _ _ H D S) as (L & q & T & E & _). destruct (poll_of debug s L i k T) as (s' & Hp). rewrite E in Hp. eauto.
Qed.
Print Assumptions c47_stays_pending.

(** ** Cases *)
Definition target1 := mk_wp addr1 pa.
Definition target2 := mk_wp addr2 pa.
Lemma target1_ok : target_ok target1. Proof. split; [exact bare1|reflexivity]. Qed.
Lemma target2_ok : target_ok target2. Proof. split; [exact bare2|reflexivity]. Qed.
Example ex_connect : exists s, exec true init [Connect target1 0; PollDial; Handout pa; FutPoll 0 7; Established pa (dial1 pa); FutPoll 0 7] =
  Some (s, [AFuture 0; ADial pa; AAddrs [addr1 ++ [PP2p pa]]; AFut OPending; ADone; AFut (OReady (AVal COk))]).
Proof. eexists. vm_compute. reflexivity. Qed.
Example ex_connect_fails : exists s, exec true init [Connect target1 0; Connect target2 1; PollDial; Handout pa;
    DialFailed (Some pa) (Transport [(addr2 ++ [PP2p pa], 4); (addr1 ++ [PP2p pa], 3)]); FutPoll 0 7; FutPoll 1 7] =
  Some (s, [AFuture 0; AFuture 1; ADial pa; AAddrs [addr1 ++ [PP2p pa]; addr2 ++ [PP2p pa]]; ADone; AFut (OReady (AVal (CFailed 3))); AFut (OReady (AVal (CFailed 4)))]).
Proof. eexists. vm_compute. reflexivity. Qed.
(** The hypotheses of [c47_completes_partial] and of [c47_succeeds]. *)
Example ex_completes : exists s r, run true ([] ++ (Connect target1 0, AFuture 0) :: [(PollDial, ADial pa); (Handout pa, AAddrs [addr1 ++ [PP2p pa]])] ++ (Established pa (dial1 pa), r) :: []) s /\
  (exists x, In x [(PollDial, ADial pa); (Handout pa, AAddrs [addr1 ++ [PP2p pa]])] /\ asked_for (wp_peer target1) x) /\
  (forall o q, In (o, q) [(PollDial, ADial pa); (Handout pa, AAddrs [addr1 ++ [PP2p pa]])] -> silent true target1 o).
Proof.
  eexists _, ADone. split; [|split].
  - apply (exec_run true [Connect target1 0; PollDial; Handout pa; Established pa (dial1 pa)] _ [AFuture 0; ADial pa; AAddrs [addr1 ++ [PP2p pa]]; ADone]). vm_compute. reflexivity.
  - eexists. split; [right; left; reflexivity|reflexivity].
  - intros o q [[= <- <-]|[[= <- <-]|[]]]; exact I.
Qed.

(** False as stated: the dial ends with another error (no address, a condition not met, banned,
    aborted): the request is pending for ever. *)
Theorem c47_other_error_refuted : exists h s rs, exec true init h = Some (s, rs) /\
  h = [Connect target1 0; PollDial; Handout pa; DialFailed (Some pa) OtherError] /\ c_dials (core_of s) = [] /\
  forall h2 s2, run true (combine h rs ++ h2) s2 -> (forall q, ~ In (FutDrop 0, q) h2) -> (forall o q, In (o, q) h2 -> silent true target1 o) ->
    exists s3, step true s2 (FutPoll 0 7) = Some (s3, AFut OPending).
Proof.
  eexists _, _, _. split; [|split; [reflexivity|]]. { vm_compute. reflexivity. } split; [reflexivity|].
  intros h2 s2 H D S. cbn [combine] in H.
  refine (c47_stays_pending true [] target1 0 0 ([(PollDial, ADial pa); (Handout pa, AAddrs [addr1 ++ [PP2p pa]]); (DialFailed (Some pa) OtherError, ADone)] ++ h2) s2 7 _ _ _).
  - exact H.
  - intros q Hq. apply in_app_iff in Hq as [Hq|Hq]; [|exact (D q Hq)]. destruct Hq as [[=]|[[=]|[[=]|[]]]].
  - intros o q Hq. apply in_app_iff in Hq as [Hq|Hq]; [|exact (S o q Hq)]. destruct Hq as [[= <- <-]|[[= <- <-]|[[= <- <-]|[]]]]; exact I.
Qed.
Print Assumptions c47_other_error_refuted.

(** False as stated: a second address requested while the first is being dialed.  The second dial is
    refused (the peer is being dialed), the first ends without the second address: pending. *)
Theorem c47_second_request_refuted : exists h s rs, exec true init h = Some (s, rs) /\
  h = [Connect target1 0; PollDial; Handout pa; Connect target2 1; PollDial; DialFailed (Some pa) OtherError;
       DialFailed (Some pa) (Transport [(addr1 ++ [PP2p pa], 3)]); FutPoll 0 7; FutPoll 1 7] /\
  rs = [AFuture 0; ADial pa; AAddrs [addr1 ++ [PP2p pa]]; AFuture 1; ADial pa; ADone; ADone; AFut (OReady (AVal (CFailed 3))); AFut OPending] /\
  c_dials (core_of s) = [].
Proof. eexists _, _, _. split; [|split; [reflexivity|split; [reflexivity|]]]; vm_compute; reflexivity. Qed.
Print Assumptions c47_second_request_refuted.

(** False as stated: listing the addresses of the peers between the request and the dial takes the
    address away; the dial gets none, fails, and the request is pending. *)
Theorem c47_addrs_refuted : exists s, exec true init [AddPeer pa; Connect target1 0; Addrs; PollDial; Handout pa; DialFailed (Some pa) OtherError; FutPoll 0 7] =
  Some (s, [ADone; AFuture 0; AListing [(pa, [addr1 ++ [PP2p pa]])]; ADial pa; AAddrs []; ADone; AFut OPending]).
Proof. eexists. vm_compute. reflexivity. Qed.
Print Assumptions c47_addrs_refuted.

(** Two requests for one address: connecting finishes them twice, which panics in debug builds. *)
Theorem c47_same_address_panics_refuted : exists s rs, exec true init [Connect target1 0; Connect target1 1; PollDial; Handout pa] = Some (s, rs) /\
  step true s (Established pa (dial1 pa)) = None /\
  exists s', exec false init [Connect target1 0; Connect target1 1; PollDial; Handout pa; Established pa (dial1 pa); FutPoll 0 7; FutPoll 1 7] =
    Some (s', [AFuture 0; AFuture 1; ADial pa; AAddrs [addr1 ++ [PP2p pa]; addr1 ++ [PP2p pa]]; ADone; AFut (OReady (AVal COk)); AFut (OReady (AVal COk))]).
Proof. eexists _, _. split; [vm_compute; reflexivity|]. split; [vm_compute; reflexivity|]. eexists. vm_compute. reflexivity. Qed.
Print Assumptions c47_same_address_panics_refuted.

(** A request answered with an error although its very address is connected: it was dialed for
    another reason before the request's address was asked for. *)
Theorem c47_connected_but_failed_refuted : exists s, exec true init [Connect target1 0; Established pa (dial1 pa); FutPoll 0 7] =
    Some (s, [AFuture 0; ADone; AFut (OReady (AVal CAnother))]) /\ connections_to s pa = [addr1].
Proof. eexists. split; vm_compute; reflexivity. Qed.
Print Assumptions c47_connected_but_failed_refuted.
