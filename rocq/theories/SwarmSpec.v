(** Specification for C46 and C47: what the history of connections says, without the bookkeeping. *)
From Verif Require Import Base Wire Cid FMap Addr Swarm.
Local Open Scope N_scope.

(** An address which has neither peer ids nor relay markers. *)
Definition bare (a : multiaddr) : Prop := (forall h, ~ In (PP2p h) a) /\ ~ In PCircuit a.
(** The endpoints the network reports: dialed addresses end in the id of the peer, the others have none. *)
Definition endpoint_ok (p : peer) (e : endpoint) : Prop :=
  match e with
  | Dialer d => exists a, d = a ++ [PP2p p] /\ bare a /\ valid_peer p = true
  | Listener a => forall h, ~ In (PP2p h) a
  end.
(** The address of the other side. *)
Definition remote (e : endpoint) : multiaddr := match e with Dialer d => removelast d | Listener a => a end.

(** The connections open after a history. *)
Definition conn_eqb (x y : peer * multiaddr) : bool := mh_eqb (fst x) (fst y) && addr_eqb (snd x) (snd y).
Fixpoint remove_one (x : peer * multiaddr) (l : list (peer * multiaddr)) : list (peer * multiaddr) :=
  match l with [] => [] | y :: r => if conn_eqb x y then r else y :: remove_one x r end.
Definition open_step (l : list (peer * multiaddr)) (o : op) : list (peer * multiaddr) :=
  match o with
  | Established p e => l ++ [(p, remote e)]
  | Closed p e => remove_one (p, remote e) l
  | _ => l
  end.
Definition open_after (h : list op) : list (peer * multiaddr) := fold_left open_step h [].
Definition addresses_of (p : peer) (l : list (peer * multiaddr)) : list multiaddr :=
  map snd (filter (fun x : peer * multiaddr => mh_eqb p (fst x)) l).

(** Only open connections are closed. *)
Definition legal (h : list op) : Prop :=
  forall h1 o h2, h = h1 ++ o :: h2 ->
  match o with
  | Established p e => endpoint_ok p e
  | Closed p e => endpoint_ok p e /\ In (p, remote e) (open_after h1)
  | DialFailed _ (Transport l) => forall d e, In (d, e) l -> exists p a, d = a ++ [PP2p p] /\ bare a /\ valid_peer p = true
  | _ => True
  end.
(** No two connections are open to the same address at the same time. *)
Definition distinct (h : list op) : Prop :=
  forall h1 p e h2, h = h1 ++ Established p e :: h2 -> forall q, ~ In (q, remote e) (open_after h1).

(** The peers known: seen connecting or added, and not removed since. *)
Fixpoint known (p : peer) (past : list op) : bool :=    (* latest first *)
  match past with
  | [] => false
  | Established q _ :: r | AddPeer q :: r => mh_eqb p q || known p r
  | RemovePeer q :: r => negb (mh_eqb p q) && known p r
  | _ :: r => known p r
  end.
(** The last round trip time reported. *)
Fixpoint last_rtt (p : peer) (past : list op) : option N :=
  match past with
  | [] => None
  | SetRtt q d :: r => if mh_eqb p q then Some d else last_rtt p r
  | _ :: r => last_rtt p r
  end.

(** ** Requests *)
(** A target as [MultiaddrWithPeerId::try_from] makes them. *)
Definition target_ok (w : with_peer) : Prop := bare (wp_addr w) /\ valid_peer (wp_peer w) = true.
(** The network asked for the addresses of the peer. *)
Definition asked_for (p : peer) (x : op * reply) : Prop :=
  match x with
  | (Handout q, _) => q = p
  | (Addrs, AListing l) => In p (map fst l)
  | _ => False
  end.
(** The dial of the target ended: with the error of its address, with the wrong peer, or by the
    connection being lost. *)
Definition dial_over (w : with_peer) (o : op) : Prop :=
  match o with
  | DialFailed (Some p) (Transport l) => p = wp_peer w /\ exists e, In (wp_addr w ++ [PP2p (wp_peer w)], e) l
  | DialFailed (Some p) (WrongPeer _) => p = wp_peer w
  | Closed p (Dialer d) => p = wp_peer w /\ d = wp_addr w ++ [PP2p (wp_peer w)]
  | _ => False
  end.
(** Nothing about the target is reported at all. *)
Definition silent (debug : bool) (w : with_peer) (o : op) : Prop :=
  match o with
  | Established p _ => p <> wp_peer w
  | DialFailed (Some p) (WrongPeer _) => p <> wp_peer w
  | DialFailed (Some p) (Transport l) => forall d e, In (d, e) l -> split_peer debug d <> AOk w
  | Closed p (Dialer d) => p <> wp_peer w \/ (forall v, split_peer debug d = AOk v -> wp_addr v <> wp_addr w)
  | _ => True
  end.
(** What a result says has happened. *)
Definition result_is_true (debug : bool) (w : with_peer) (h : list (op * reply)) (r : outcome) : Prop :=
  let p := wp_peer w in
  match r with
  | COk => exists d, In (Established p (Dialer d), ADone) h /\ split_peer debug d = AOk w
  | CAnother => exists e, In (Established p e, ADone) h
  | CReset => exists d v, In (Closed p (Dialer d), ADone) h /\ split_peer debug d = AOk v /\ wp_addr v = wp_addr w
  | CFailed n => In (DialFailed (Some p) (WrongPeer n), ADone) h \/
                 exists q l d, In (DialFailed (Some q) (Transport l), ADone) h /\ In (d, n) l /\ split_peer debug d = AOk w
  end.
