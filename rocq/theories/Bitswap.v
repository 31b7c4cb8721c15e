(** The bitswap behaviour: bitswap/src/{ledger,behaviour}.rs.  Definitions only.

    Peers and connections are numbers.  Maps are association lists; the order of a map matters in
    [poll] only, where the order of the iteration is an argument.  Logging and wakers are left out. *)
From Verif Require Import Base Wire Cid FMap BitswapMsg.
Local Open Scope N_scope.

Definition peer := N.
Definition conn := N.

(** ledger.rs l.15-22 [Ledger]. *)
Record ledger := mk_ledger {
  l_sent : list (cid * Z); l_received : list (cid * Z); l_message : message }.
(** ledger.rs l.26-28 [Ledger::new]. *)
Definition ledger0 : ledger := mk_ledger [] [] message0.
Definition with_message (m : message) (l : ledger) : ledger := mk_ledger (l_sent l) (l_received l) m.

(** ledger.rs l.50-63 [Ledger::send]. *)
Definition ledger_send (l : ledger) : option (message * ledger) :=
  if message_empty (l_message l) then None
  else
    let sent := fold_left (fun s c => mdel cid_eqb c s) (m_cancel (l_message l)) (l_sent l) in
    let sent := fold_left (fun s w => mset cid_eqb (fst w) (snd w) s) (m_want (l_message l)) sent in
    Some (l_message l, mk_ledger sent (l_received l) message0).

(** behaviour.rs l.31-35 [BitswapEvent]. *)
Inductive event :=
| ReceivedBlock (p : peer) (b : block)
| ReceivedWant (p : peer) (c : cid) (priority : Z)
| ReceivedCancel (p : peer) (c : cid).
(** The actions of the behaviour: [Dial], [NotifyHandler] (always any handler of the peer) and
    [GenerateEvent] of libp2p. *)
Inductive action :=
| Dial (p : peer)
| Notify (p : peer) (m : message)
| Report (e : event).

(** behaviour.rs l.88-108 [Bitswap].  [b_ready] is the channel of [queued_blocks] and
    [ready_blocks].  Of the statistics, [sent_blocks]. *)
Record bitswap := mk_bitswap {
  b_events : list action; b_targets : list peer; b_peers : list (peer * ledger);
  b_wanted : list (cid * Z); b_ready : list (peer * block); b_stats : list (peer * N) }.
(** behaviour.rs l.110-124 [Bitswap::default]. *)
Definition bitswap0 : bitswap := mk_bitswap [] [] [] [] [] [].

Definition with_events e s := mk_bitswap e (b_targets s) (b_peers s) (b_wanted s) (b_ready s) (b_stats s).
Definition with_targets t s := mk_bitswap (b_events s) t (b_peers s) (b_wanted s) (b_ready s) (b_stats s).
Definition with_peers p s := mk_bitswap (b_events s) (b_targets s) p (b_wanted s) (b_ready s) (b_stats s).
Definition with_wanted w s := mk_bitswap (b_events s) (b_targets s) (b_peers s) w (b_ready s) (b_stats s).
Definition with_ready r s := mk_bitswap (b_events s) (b_targets s) (b_peers s) (b_wanted s) r (b_stats s).
Definition with_stats st s := mk_bitswap (b_events s) (b_targets s) (b_peers s) (b_wanted s) (b_ready s) st.
Definition push (a : action) (s : bitswap) : bitswap := with_events (b_events s ++ [a]) s.

Definition get_peer (p : peer) (s : bitswap) : option ledger := mget N.eqb p (b_peers s).
(** [get_mut] and [iter_mut]: the ledgers are changed where they are. *)
Definition each_ledger (f : ledger -> ledger) (l : list (peer * ledger)) : list (peer * ledger) :=
  map (fun pl => (fst pl, f (snd pl))) l.
Definition at_ledger (p : peer) (f : ledger -> ledger) (l : list (peer * ledger)) : list (peer * ledger) :=
  map (fun pl => if p =? fst pl then (fst pl, f (snd pl)) else pl) l.

(** behaviour.rs l.128-133 [local_wantlist], l.136-138 [peer_wantlist]. *)
Definition local_wantlist (s : bitswap) : list (cid * Z) := b_wanted s.
Definition peer_wantlist (p : peer) (s : bitswap) : option (list (cid * Z)) := option_map l_received (get_peer p s).

(** behaviour.rs l.156-166 [connect]. *)
Definition connect (p : peer) (s : bitswap) : bitswap :=
  if existsb (N.eqb p) (b_targets s) then s else push (Dial p) (with_targets (p :: b_targets s) s).

(** behaviour.rs l.171-176 [send_block]; nothing happens when the peer is not connected. *)
Definition send_block (p : peer) (b : block) (s : bitswap) : bitswap :=
  with_peers (at_ledger p (fun l => with_message (m_add_block b (l_message l)) l) (b_peers s)) s.

(** behaviour.rs l.179-195 [send_want_list]. *)
Definition send_want_list (p : peer) (s : bitswap) : bitswap :=
  if is_empty (b_wanted s) then s
  else push (Notify p (fold_left (fun m w => m_want_block (fst w) (snd w) m) (b_wanted s) message0)) s.

(** behaviour.rs l.200-205 [want_block]. *)
Definition want_block (c : cid) (priority : Z) (s : bitswap) : bitswap :=
  with_wanted (mset cid_eqb c priority (b_wanted s))
    (with_peers (each_ledger (fun l => with_message (m_want_block c priority (l_message l)) l) (b_peers s)) s).

(** behaviour.rs l.211-216 [cancel_block]. *)
Definition cancel_block (c : cid) (s : bitswap) : bitswap :=
  with_wanted (mdel cid_eqb c (b_wanted s))
    (with_peers (each_ledger (fun l => with_message (m_cancel_block c (l_message l)) l) (b_peers s)) s).

(** behaviour.rs l.233-246 [inject_connection_established]. *)
Definition established (p : peer) (s : bitswap) : bitswap :=
  let s := with_stats (match mget N.eqb p (b_stats s) with Some _ => b_stats s | None => mset N.eqb p 0 (b_stats s) end) s in
  let s := with_peers (mset N.eqb p ledger0 (b_peers s)) s in
  send_want_list p s.

(** behaviour.rs l.248-260 [inject_connection_closed]. *)
Definition closed (p : peer) (s : bitswap) : bitswap := with_peers (mdel N.eqb p (b_peers s)) s.

(** behaviour.rs l.282-288, one cancelled cid. *)
Definition receive_cancel (p : peer) (s : bitswap) (c : cid) : bitswap :=
  push (Report (ReceivedCancel p c))
    (with_peers (at_ledger p (fun l => mk_ledger (l_sent l) (mdel cid_eqb c (l_received l)) (l_message l)) (b_peers s)) s).
(** behaviour.rs l.291-301, one wanted cid. *)
Definition receive_want (p : peer) (s : bitswap) (w : cid * Z) : bitswap :=
  push (Report (ReceivedWant p (fst w) (snd w)))
    (with_peers (at_ledger p (fun l => mk_ledger (l_sent l) (mset cid_eqb (fst w) (snd w) (l_received l)) (l_message l)) (b_peers s)) s).
(** behaviour.rs l.304-310, one block. *)
Definition receive_block (p : peer) (s : bitswap) (b : block) : bitswap :=
  push (Report (ReceivedBlock p b)) (cancel_block (b_cid b) s).
(** behaviour.rs l.262-311 [inject_event] with [Rx]: it panics (l.276-279) when the peer has no
    ledger.  The wants are compared with the local want list as it was before (l.274). *)
Definition received (p : peer) (m : message) (s : bitswap) : option bitswap :=
  let current := local_wantlist s in
  match get_peer p s with
  | None => None
  | Some _ =>
      let s := fold_left (receive_cancel p) (m_cancel m) s in
      let s := fold_left (receive_want p)
                 (filter (fun w => negb (existsb (fun c => cid_eqb c (fst w)) (map fst current))) (m_want m)) s in
      Some (fold_left (receive_block p) (m_blocks m) s)
  end.

(** behaviour.rs l.329-341, the loop over the connected peers in the order given. *)
Fixpoint poll_peers (order : list peer) (s : bitswap) : bitswap * option action :=
  match order with
  | [] => (s, None)
  | p :: r =>
      match get_peer p s with
      | None => poll_peers r s
      | Some l =>
          match ledger_send l with
          | None => poll_peers r s
          | Some (m, l') =>
              (with_stats
                 (match mget N.eqb p (b_stats s) with
                  | Some n => mset N.eqb p ((n + blen (m_blocks m)) mod u64_max1) (b_stats s)
                  | None => b_stats s
                  end)
                 (with_peers (at_ledger p (fun _ => l') (b_peers s)) s),
               Some (Notify p m))
          end
      end
  end.
(** behaviour.rs l.314-343 [poll].  [order] lists the connected peers in the order in which the
    hash map is iterated. *)
Definition poll (order : list peer) (s : bitswap) : bitswap * option action :=
  let s := with_ready [] (fold_left (fun s pb => send_block (fst pb) (snd pb) s) (b_ready s) s) in
  match b_events s with
  | e :: r => (with_events r s, Some e)
  | [] => poll_peers order s
  end.

(** What can happen to the behaviour: calls of the node and of the swarm. *)
Inductive op :=
| OConnect (p : peer)
| OQueue (p : peer) (b : block)               (* a block sent into [queued_blocks] *)
| OWant (c : cid) (priority : Z)
| OCancel (c : cid)
| OEstablished (p : peer) (k : conn)
| OClosed (p : peer) (k : conn)
| OReceived (p : peer) (k : conn) (m : message)
| OSent (p : peer) (k : conn)                 (* [MessageWrapper::Tx], l.267 *)
| OPoll (order : list peer).
(** [None] is a panic. *)
Definition step (s : bitswap) (o : op) : option (bitswap * option action) :=
  match o with
  | OConnect p => Some (connect p s, None)
  | OQueue p b => Some (with_ready (b_ready s ++ [(p, b)]) s, None)
  | OWant c pr => Some (want_block c pr s, None)
  | OCancel c => Some (cancel_block c s, None)
  | OEstablished p _ => Some (established p s, None)
  | OClosed p _ => Some (closed p s, None)
  | OReceived p _ m => option_map (fun s' => (s', None)) (received p m s)
  | OSent _ _ => Some (s, None)
  | OPoll order => Some (poll order s)
  end.
(** A history from the start: the state and, for each operation, the action it returned. *)
Fixpoint run (s : bitswap) (h : list op) : option (bitswap * list (op * option action)) :=
  match h with
  | [] => Some (s, [])
  | o :: r =>
      match step s o with
      | None => None
      | Some (s', a) =>
          match run s' r with
          | None => None
          | Some (s'', t) => Some (s'', (o, a) :: t)
          end
      end
  end.

(** src/p2p/behaviour.rs l.325-377, the part that can panic: for a received block the node takes the
    statistics of the peer (l.329, [unwrap]). *)
Definition node_event (s : bitswap) (e : event) : option unit :=
  match e with
  | ReceivedBlock p _ => option_map (fun _ => tt) (mget N.eqb p (b_stats s))
  | _ => Some tt
  end.
