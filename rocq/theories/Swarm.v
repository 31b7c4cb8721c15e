(** The connection bookkeeping: [SwarmApi], src/p2p/swarm.rs.  Definitions only.

    One step is one call of a method, or one poll or drop of a future of [connect]; calls are made by
    the one task which owns the swarm.  [None] is a panic.  [HashMap]s and [HashSet]s are lists in no
    particular order; times are numbers. *)
From Verif Require Import Base Wire Cid FMap Addr BlockSpec SubsSpec Subs.
Local Open Scope N_scope.

Definition peer := multihash.
Definition peqb := mh_eqb.

(** What a future of [connect] yields: success, "finished connecting to another address" (l.269),
    "Connection reset by peer" (l.328) or the text of a dial error. *)
Inductive outcome := COk | CAnother | CReset | CFailed (e : N).
(** [ConnectedPoint]: the address dialed, or the one to send back to. *)
Inductive endpoint := Dialer (a : multiaddr) | Listener (a : multiaddr).
(** [DialError], l.356-390: the addresses which failed each with its error, the wrong peer, any other. *)
Inductive dial_error := Transport (l : list (multiaddr * N)) | WrongPeer (e : N) | OtherError.

Inductive op :=
| Connect (w : with_peer) (now : N)
| Handout (p : peer)                                  (* addresses_of_peer *)
| Addrs                                               (* Behaviour::addrs *)
| Established (p : peer) (e : endpoint)
| Closed (p : peer) (e : endpoint)
| DialFailed (p : option peer) (e : dial_error)
| AddPeer (p : peer) | RemovePeer (p : peer) | SetRtt (p : peer) (d : N)
| PollDial                                            (* poll *)
| FutPoll (i : nat) (waker : nat)
| FutDrop (i : nat).

Inductive reply :=
| AFuture (i : nat)          (* connect: the future *)
| AAlready                   (* connect: connected already *)
| AAddrs (l : list multiaddr)
| AListing (l : list (peer * list multiaddr))
| ADial (p : peer) | AIdle   (* poll *)
| AFut (o : out outcome)
| ADone.

(** l.43-64. *)
Record core := mk_core {
  c_dials : list peer;                       (* events: every one is a dial *)
  c_peers : list peer;
  c_conns : list (multiaddr * peer);         (* connections *)
  c_rtt : list (peer * N);                   (* roundtrip_times *)
  c_open : list (peer * list multiaddr);     (* connected_peers *)
  c_times : list (peer * N);                 (* connected_times *)
  c_wait : list (peer * list with_peer);     (* pending_addresses *)
  c_out : list (peer * list with_peer)       (* pending_connections *)
}.
Definition registry := @Subs.state with_peer outcome.
Record state := mk_swarm { core_of : core; reg : registry }.
Definition init : state := mk_swarm (mk_core [] [] [] [] [] [] [] []) Subs.init.

(** [HashSet::insert], [remove]. *)
Definition set_add (p : peer) (l : list peer) : list peer := if existsb (peqb p) l then l else p :: l.
Definition set_del (p : peer) (l : list peer) : list peer := filter (fun q => negb (peqb p q)) l.

(** [iter().position(..)] and [Vec::swap_remove]. *)
Section Vec.
  Context {T : Type}.
  Variable eqb : T -> T -> bool.
  Fixpoint position (x : T) (l : list T) : option nat :=
    match l with [] => None | y :: r => if eqb y x then Some O else option_map S (position x r) end.
  (** The last element takes the place of the removed one. *)
  Definition swap_remove (i : nat) (l : list T) : list T :=
    match skipn i l with
    | [] => l
    | [_] => firstn i l
    | _ :: x :: r => firstn i l ++ last r x :: removelast (x :: r)
    end.
End Vec.

(** [unwrap_or_default] of a lookup. *)
Definition at_peer {T} (p : peer) (m : list (peer * list T)) : list T := match mget peqb p m with Some l => l | None => [] end.

(** Writing an entry back, removing it when its list is empty. *)
Definition put_back {T} (p : peer) (l : list T) (m : list (peer * list T)) : list (peer * list T) :=
  match l with [] => mdel peqb p m | _ => mset peqb p l m end.

Section Model.
  (** [cfg(debug_assertions)]. *)
  Variable debug : bool.

  Definition finish (w : with_peer) (r : outcome) (g : registry) : option registry :=
    let (g, e) := Subs.step wp_eqb debug g (Finish w r) in
    match ans e with OPanic => None | _ => Some g end.
  Fixpoint finish_all (l : list (with_peer * outcome)) (g : registry) : option registry :=
    match l with [] => Some g | (w, r) :: l => match finish w r g with Some g => finish_all l g | None => None end end.

  (** l.411-424 [connection_point_addr]. *)
  Definition point_addr (e : endpoint) : option multiaddr :=
    match e with
    | Dialer a => match split_peer debug a with AOk w => Some (wp_addr w) | _ => None end
    | Listener a => match without_peer a with AOk a => Some a | _ => None end
    end.

  (** l.101-140. *)
  Definition connect (s : state) (w : with_peer) (now : N) : state * reply :=
    let c := core_of s in
    if existsb (addr_eqb (wp_addr w)) (at_peer (wp_peer w) (c_open c)) then (s, AAlready)
    else
      let (g, e) := Subs.step wp_eqb debug (reg s) (Begin w false) in
      let i := match ans e with OId i => i | _ => O end in
      let (g, _) := Subs.step wp_eqb debug g (Insert i) in
      (mk_swarm (mk_core (c_dials c ++ [wp_peer w]) (c_peers c) (c_conns c) (c_rtt c) (c_open c)
                   (mset peqb (wp_peer w) now (c_times c))
                   (mset peqb (wp_peer w) (at_peer (wp_peer w) (c_wait c) ++ [w]) (c_wait c)) (c_out c)) g,
       AFuture i).

  (** l.167-182. *)
  Definition handout (p : peer) (c : core) : core * list multiaddr :=
    let l := at_peer p (c_wait c) in
    (mk_core (c_dials c) (c_peers c) (c_conns c) (c_rtt c) (c_open c) (c_times c) (mdel peqb p (c_wait c))
       (mset peqb p (at_peer p (c_out c) ++ l) (c_out c)), map join_peer l).
  (** src/p2p/behaviour.rs l.510-518; only the addresses this behaviour adds. *)
  Fixpoint handout_all (ps : list peer) (c : core) : core * list (peer * list multiaddr) :=
    match ps with
    | [] => (c, [])
    | p :: ps => let (c, l) := handout p c in let (c, r) := handout_all ps c in (c, (p, l) :: r)
    end.

  (** l.184-272. *)
  Definition established (s : state) (p : peer) (e : endpoint) : option state :=
    match point_addr e with
    | None => None
    | Some a =>
        let c := core_of s in
        let opn := mset peqb p (at_peer p (c_open c) ++ [a]) (c_open c) in
        (* l.211-241 *)
        let dialed :=
          match e, mget peqb p (c_out c) with
          | Dialer d, Some l =>
              match split_peer debug d with
              | AOk w => match position wp_eqb w l with
                         | Some n => Some (Some (w, put_back p (swap_remove n l) (c_out c)))
                         | None => Some None
                         end
              | _ => None
              end
          | _, _ => Some None
          end in
        match dialed with
        | None => None
        | Some d =>
            let o := match d with Some (_, o) => o | None => c_out c end in
            let rest := at_peer p (c_wait c) ++ at_peer p o in   (* l.248-257 *)
            match finish_all (match d with Some (w, _) => [(w, COk)] | None => [] end ++ map (fun w => (w, CAnother)) rest) (reg s) with
            | None => None
            | Some g =>
                Some (mk_swarm (mk_core (c_dials c) (set_add p (c_peers c)) (mset addr_eqb a p (c_conns c)) (c_rtt c) opn (c_times c)
                                  (mdel peqb p (c_wait c)) (mdel peqb p o)) g)
            end
        end
    end.

  (** l.274-341. *)
  Definition closed (s : state) (p : peer) (e : endpoint) : option state :=
    match point_addr e with
    | None => None
    | Some a =>
        let c := core_of s in
        let opn := match mget peqb p (c_open c) with
                   | Some l => put_back p (match position addr_eqb a l with Some n => swap_remove n l | None => l end) (c_open c)
                   | None => c_open c
                   end in
        if debug && match mget addr_eqb a (c_conns c) with Some _ => false | None => true end then None
        else
          let w := mk_wp a p in
          let '(o, fin) :=
            match e, mget peqb p (c_out c) with
            | Dialer _, Some l =>
                let hit := position wp_eqb w l in
                let l := match hit with Some n => swap_remove n l | None => l end in
                (put_back p l (c_out c), match hit with Some _ => [(w, CReset)] | None => [] end)
            | _, _ => (c_out c, [])
            end in
          match finish_all fin (reg s) with
          | None => None
          | Some g =>
              Some (mk_swarm (mk_core (c_dials c) (c_peers c) (mdel addr_eqb a (c_conns c)) (c_rtt c) opn
                                (mdel peqb p (c_times c)) (c_wait c) o) g)
          end
    end.

  (** l.358-373: the failed addresses one after the other. *)
  Fixpoint failed_addrs (l : list (multiaddr * N)) (out : list with_peer) (g : registry) : option (list with_peer * registry) :=
    match l with
    | [] => Some (out, g)
    | (a, e) :: l =>
        match split_peer debug a with
        | AOk w =>
            match finish w (CFailed e) g with
            | Some g => failed_addrs l (match position wp_eqb w out with Some n => swap_remove n out | None => out end) g
            | None => None
            end
        | _ => None
        end
    end.
  (** l.345-403. *)
  Definition dial_failed (s : state) (p : option peer) (e : dial_error) : option state :=
    let c := core_of s in
    match p with
    | None => Some s
    | Some p =>
        match mget peqb p (c_out c) with
        | None => Some s
        | Some l =>
            match match e with
                  | Transport addrs => failed_addrs addrs l (reg s)
                  | WrongPeer n => option_map (pair []) (finish_all (map (fun w => (w, CFailed n)) l) (reg s))
                  | OtherError => Some (l, reg s)
                  end with
            | None => None
            | Some (l, g) =>
                Some (mk_swarm (mk_core (c_dials c) (c_peers c) (c_conns c) (c_rtt c) (c_open c) (c_times c) (c_wait c)
                                  (put_back p l (c_out c))) g)
            end
        end
    end.

  Definition with_peers (c : core) (l : list peer) : core :=
    mk_core (c_dials c) l (c_conns c) (c_rtt c) (c_open c) (c_times c) (c_wait c) (c_out c).

  Definition step (s : state) (o : op) : option (state * reply) :=
    let c := core_of s in
    match o with
    | Connect w now => Some (connect s w now)
    | Handout p => let (c, l) := handout p c in Some (mk_swarm c (reg s), AAddrs l)
    | Addrs => let (c, l) := handout_all (c_peers c) c in Some (mk_swarm c (reg s), AListing l)
    | Established p e => option_map (fun s => (s, ADone)) (established s p e)
    | Closed p e => option_map (fun s => (s, ADone)) (closed s p e)
    | DialFailed p e => option_map (fun s => (s, ADone)) (dial_failed s p e)
    | AddPeer p => Some (mk_swarm (with_peers c (set_add p (c_peers c))) (reg s), ADone)          (* l.67-69 *)
    | RemovePeer p => Some (mk_swarm (with_peers c (set_del p (c_peers c))) (reg s), ADone)       (* l.75-77 *)
    | SetRtt p d =>                                                                               (* l.96-99 *)
        Some (mk_swarm (mk_core (c_dials c) (c_peers c) (c_conns c) (mset peqb p d (c_rtt c)) (c_open c) (c_times c) (c_wait c) (c_out c)) (reg s), ADone)
    | PollDial =>                                                                                 (* l.396-408 *)
        match c_dials c with
        | [] => Some (s, AIdle)
        | p :: r => Some (mk_swarm (mk_core r (c_peers c) (c_conns c) (c_rtt c) (c_open c) (c_times c) (c_wait c) (c_out c)) (reg s), ADial p)
        end
    | FutPoll i w => let (g, e) := Subs.step wp_eqb debug (reg s) (Poll i w) in Some (mk_swarm c g, AFut (ans e))
    | FutDrop i =>
        let (g, e) := Subs.step wp_eqb debug (reg s) (DropFut i) in
        let (g, _) := Subs.step wp_eqb debug g (DropNotify i) in Some (mk_swarm c g, AFut (ans e))
    end.

  (** What is observed: the calls and their answers, and the state after them. *)
  Inductive run : list (op * reply) -> state -> Prop :=
  | run_init : run [] init
  | run_step h s o s' a : run h s -> step s o = Some (s', a) -> run (h ++ [(o, a)]) s'.
  Fixpoint exec (s : state) (h : list op) : option (state * list reply) :=
    match h with
    | [] => Some (s, [])
    | o :: h => match step s o with
                | Some (s, a) => option_map (fun r => (fst r, a :: snd r)) (exec s h)
                | None => None
                end
    end.
End Model.

(** l.142-149: whom [disconnect] disconnects. *)
Definition disconnect (s : state) (w : with_peer) : option peer := mget addr_eqb (wp_addr w) (c_conns (core_of s)).
(** l.151-157. *)
Definition connections_to (s : state) (p : peer) : list multiaddr := at_peer p (c_open (core_of s)).
(** l.79-94. *)
Definition connections (now : N) (s : state) : list (with_peer * option N) :=
  let c := core_of s in
  flat_map (fun pl => match snd pl with
                      | [] => []
                      | a :: _ => [(mk_wp a (fst pl), match mget peqb (fst pl) (c_rtt c) with
                                                      | Some d => Some d
                                                      | None => option_map (fun t => now - t) (mget peqb (fst pl) (c_times c))
                                                      end)]
                      end) (c_open c).
(** l.71-73. *)
Definition peers (s : state) : list peer := c_peers (core_of s).
