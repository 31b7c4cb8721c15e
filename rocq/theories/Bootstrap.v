(** The bootstrapper list: src/p2p/behaviour.rs l.459-477 and l.621-713, src/config.rs, and the http
    endpoints http/src/v0/bootstrap.rs.  Definitions only.

    The [HashSet] is a list without duplicates; iterating over it hands its elements out in the order
    chosen by [pick] (any order is possible).  The routing table of kademlia is a value of any type [kad] with two functions: what adding
    does to it, and what removing does and whether it answers [Some]. *)
From Verif Require Import Base Wire Cid FMap Addr.
Local Open Scope N_scope.

(** src/config.rs l.6-7: "/ip4/104.131.131.82/tcp/4001/p2p/QmaCpDMGvV2BGHeYERUEnRQAwe3N8SzbUtfsmvsqQLuvuJ". *)
Definition default_peer : multihash := Build_multihash 18
  [176; 74; 87; 212; 14; 202; 19; 136; 9; 241; 57; 167; 107; 18; 4; 67; 51; 195; 116; 3; 145; 201; 191; 28; 233; 216; 226; 26; 121; 33; 11; 253].
Definition bootstrap_nodes : list with_peer :=
  [mk_wp [PIp4 (104 * 16777216 + 131 * 65536 + 131 * 256 + 82); PTcp 4001] default_peer].

Section Model.
  Context {kad : Type}.
  Variable kadd : multihash -> multiaddr -> kad -> kad.
  Variable kremove : multihash -> multiaddr -> kad -> kad * bool.

  Record state := mk_state { listed : list with_peer; table : kad }.

  Definition mem (w : with_peer) (l : list with_peer) : bool := existsb (wp_eqb w) l.
  Definition set_add (w : with_peer) (l : list with_peer) : list with_peer := if mem w l then l else w :: l.
  Definition set_del (w : with_peer) (l : list with_peer) : list with_peer := filter (fun x => negb (wp_eqb w x)) l.

  (** Some order of the elements: [pick n] chooses the next when [n] remain after it. *)
  Fixpoint shuffle {A} (pick : nat -> nat) (n : nat) (l : list A) : list A :=
    match n with
    | O => l
    | S n =>
        let i := pick n in
        match skipn i l with
        | x :: r => x :: shuffle pick n (firstn i l ++ r)
        | [] => l
        end
    end.
  Definition in_order {A} (pick : nat -> nat) (l : list A) : list A := shuffle pick (length l) l.

  (** l.459-461, l.473-477: an address which does not convert is not listed, and still is given to
      kademlia, whole; the peer id beside it is not looked at for the list.  [None] is the failed debug
      assertion of the conversion. *)
  Fixpoint start_list (debug : bool) (l : list (multiaddr * multihash)) (s : list with_peer) : option (list with_peer) :=
    match l with
    | [] => Some s
    | (a, _) :: l =>
        match split_peer debug a with
        | AOk w => start_list debug l (set_add w s)
        | AErr _ => start_list debug l s
        | APanic => None
        end
    end.
  Definition start_table (l : list (multiaddr * multihash)) (k : kad) : kad :=
    fold_left (fun k x => kadd (snd x) (fst x) k) l k.
  Definition start (debug : bool) (options : list (multiaddr * multihash)) (empty : kad) : option state :=
    match start_list debug options [] with
    | Some l => Some (mk_state l (start_table options empty))
    | None => None
    end.

  (** l.621-628. *)
  Definition get (pick : nat -> nat) (s : state) : list multiaddr := map join_peer (in_order pick (listed s)).
  (** l.630-646. *)
  Definition add (w : with_peer) (s : state) : state * multiaddr :=
    (if mem w (listed s) then s else mk_state (set_add w (listed s)) (kadd (wp_peer w) (wp_addr w) (table s)), join_peer w).
  (** l.648-663. *)
  Definition remove (w : with_peer) (s : state) : state * multiaddr :=
    (if mem w (listed s) then mk_state (set_del w (listed s)) (fst (kremove (wp_peer w) (wp_addr w) (table s))) else s, join_peer w).
  (** l.665-682. *)
  Fixpoint clear_all (l : list with_peer) (k : kad) : kad * list multiaddr :=
    match l with
    | [] => (k, [])
    | w :: l =>
        let (k, known) := kremove (wp_peer w) (wp_addr w) k in
        let (k, r) := clear_all l k in
        (k, if known then join_peer w :: r else r)
    end.
  Definition clear (pick : nat -> nat) (s : state) : state * list multiaddr :=
    let (k, r) := clear_all (in_order pick (listed s)) (table s) in (mk_state [] k, r).
  (** l.684-713. *)
  Fixpoint restore_all (l : list with_peer) (s : state) : state * list multiaddr :=
    match l with
    | [] => (s, [])
    | w :: l =>
        if mem w (listed s) then restore_all l s
        else
          let (s, r) := restore_all l (mk_state (set_add w (listed s)) (kadd (wp_peer w) (wp_addr w) (table s))) in
          (s, join_peer w :: r)
    end.
  Definition restore (s : state) : state * list multiaddr := restore_all bootstrap_nodes s.

  (** Calls; [Other] is anything else which changes the routing table. *)
  Inductive op := Get (pick : nat -> nat) | Add (w : with_peer) | Remove (w : with_peer) | Clear (pick : nat -> nat) | Restore | Other (k : kad).
  Definition step (s : state) (o : op) : state * list multiaddr :=
    match o with
    | Get pick => (s, get pick s)
    | Add w => let (s, a) := add w s in (s, [a])
    | Remove w => let (s, a) := remove w s in (s, [a])
    | Clear pick => clear pick s
    | Restore => restore s
    | Other k => (mk_state (listed s) k, [])
    end.
  Definition run (s : state) (l : list op) : state := fold_left (fun s o => fst (step s o)) l s.

  (** The http endpoints: the call made, and the list in the response given the answer of the call
      ([None]: "invalid query string"); http/src/v0/bootstrap.rs. *)
  Inductive query := QList (pick : nat -> nat) | QAdd (arg : option with_peer) (default : option bool) | QRm (arg : option with_peer) (all : option bool) (pick : nat -> nat) | QClear (pick : nat -> nat) | QRestore.
  Definition is_true (o : option bool) : bool := match o with Some true => true | _ => false end.
  Definition http (s : state) (q : query) : state * option (list multiaddr) :=
    match q with
    | QList pick => (s, Some (get pick s))                                                          (* l.17-34 *)
    | QAdd (Some w) _ => let (s, a) := add w s in (s, Some [a])                           (* l.77-84 *)
    | QAdd None d => if is_true d then (fst (restore s), Some (map join_peer bootstrap_nodes)) else (s, None)   (* l.85-98 *)
    | QRm (Some w) _ _ => let (s, a) := remove w s in (s, Some [a])                       (* l.167-174 *)
    | QRm None all pick => if is_true all then let (s, r) := clear pick s in (s, Some r) else (s, None)          (* l.175-181 *)
    | QClear pick => let (s, r) := clear pick s in (s, Some r)                            (* l.140 *)
    | QRestore => (fst (restore s), Some (map join_peer bootstrap_nodes))                 (* l.205-208 *)
    end.
End Model.
Arguments mk_state {kad}. Arguments listed {kad}. Arguments table {kad}. Arguments op : clear implicits.

(** The routing table of libp2p-kad as far as needed for examples: peers with their addresses.
    Adding an address to a bucket which is not full; removing the last address removes the peer and is
    answered with it, removing one of several is answered with nothing ([any]: whether the last address
    goes even when another one was named). *)
Definition kad_table := list (multihash * list multiaddr).
Definition kad_add (p : multihash) (a : multiaddr) (k : kad_table) : kad_table :=
  match mget mh_eqb p k with
  | None => mset mh_eqb p [a] k
  | Some l => if existsb (addr_eqb a) l then k else mset mh_eqb p (l ++ [a]) k
  end.
Definition kad_remove (any : bool) (p : multihash) (a : multiaddr) (k : kad_table) : kad_table * bool :=
  match mget mh_eqb p k with
  | None => (k, false)
  | Some [b] => if any || addr_eqb a b then (mdel mh_eqb p k, true) else (k, false)
  | Some l => (mset mh_eqb p (filter (fun b => negb (addr_eqb a b)) l) k, false)
  end.
