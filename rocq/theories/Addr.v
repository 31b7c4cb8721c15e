(** Addresses: src/p2p/addr.rs.  Definitions only.

    A [Multiaddr] is the list of its components.  The components the code looks at have a
    constructor of their own, [POther] is any other one by its bytes. *)
From Verif Require Import Base Wire Cid FMap.
Local Open Scope N_scope.

Inductive proto :=
| PIp4 (a : N) | PIp6 (a : N)
| PTcp (p : N) | PUdp (p : N) | PSctp (p : N) | PMemory (p : N)
| PP2p (h : multihash) | PCircuit
| POther (enc : bytes).
Definition multiaddr := list proto.

(** [derive(PartialEq)]. *)
Definition proto_eqb (x y : proto) : bool :=
  match x, y with
  | PIp4 a, PIp4 b | PIp6 a, PIp6 b | PTcp a, PTcp b | PUdp a, PUdp b | PSctp a, PSctp b | PMemory a, PMemory b => a =? b
  | PP2p a, PP2p b => mh_eqb a b
  | PCircuit, PCircuit => true
  | POther a, POther b => beq a b
  | _, _ => false
  end.
Fixpoint addr_eqb (x y : multiaddr) : bool :=
  match x, y with
  | [], [] => true
  | a :: x, b :: y => proto_eqb a b && addr_eqb x y
  | _, _ => false
  end.

Definition is_p2p (p : proto) : bool := match p with PP2p _ => true | _ => false end.
Definition is_circuit (p : proto) : bool := match p with PCircuit => true | _ => false end.

(** [PeerId::from_multihash] of libp2p-core: sha2-256, or the identity of at most 42 bytes. *)
Definition valid_peer (h : multihash) : bool :=
  (mh_code h =? 18) || ((mh_code h =? 0) && (blen (mh_digest h) <=? 42)).

(** l.14-22 [MultiaddrWrapperError]. *)
Inductive addr_error := ContainsP2p | InvalidPeerId | MissingP2p.
(** A failed debug assertion is [APanic]. *)
Inductive aresult (T : Type) := AOk (v : T) | AErr (e : addr_error) | APanic.
Arguments AOk {T}. Arguments AErr {T}. Arguments APanic {T}.

(** l.43-53 [TryFrom<Multiaddr> for MultiaddrWithoutPeerId]. *)
Definition without_peer (a : multiaddr) : aresult multiaddr :=
  if existsb is_p2p a then AErr ContainsP2p else AOk a.

(** l.100-109 [MultiaddrWithPeerId]. *)
Record with_peer := mk_wp { wp_addr : multiaddr; wp_peer : multihash }.
Definition wp_eqb (x y : with_peer) : bool := addr_eqb (wp_addr x) (wp_addr y) && mh_eqb (wp_peer x) (wp_peer y).

(** l.117-125 [From<MultiaddrWithPeerId> for Multiaddr]. *)
Definition join_peer (w : with_peer) : multiaddr := wp_addr w ++ [PP2p (wp_peer w)].

(** l.127-157 [TryFrom<Multiaddr> for MultiaddrWithPeerId]; [debug] is [cfg(debug_assertions)]. *)
Definition split_peer (debug : bool) (a : multiaddr) : aresult with_peer :=
  match find is_p2p a with
  | Some (PP2p h) =>
      let l := last a PCircuit in
      if debug && negb (is_p2p l || is_circuit l) then APanic
      else
        let rest := filter (fun p => negb (is_p2p p || is_circuit p)) a in
        if valid_peer h then AOk (mk_wp rest h) else AErr InvalidPeerId
  | _ => AErr MissingP2p
  end.

(** [Display] of [Multiaddr]: the texts of the components, one after the other; [text] is the text
    of a component and [peer_text] that of a peer id. *)
Section Text.
  Variable text : proto -> bytes.
  Variable peer_text : multihash -> bytes.
  Definition show_addr (a : multiaddr) : bytes := concat (map text a).
  (** l.170-174 [Display for MultiaddrWithPeerId]: "/p2p/" in between. *)
  Definition show_with_peer (w : with_peer) : bytes := show_addr (wp_addr w) ++ [47; 112; 50; 112; 47] ++ peer_text (wp_peer w).
End Text.

(** l.177-183 [starts_unspecified]. *)
Definition starts_unspecified (a : multiaddr) : bool :=
  match a with
  | PIp4 0 :: _ | PIp6 0 :: _ => true
  | _ => false
  end.

(** [Multiaddr::len], the number of bytes: codes ip4 4, tcp 6, ip6 41, sctp 132, udp 273, p2p-circuit
    290, p2p 421, memory 777. *)
Definition proto_size (p : proto) : N :=
  match p with
  | PIp4 _ => 5 | PIp6 _ => 17 | PTcp _ => 3 | PUdp _ => 4 | PSctp _ => 4 | PMemory _ => 10
  | PCircuit => 2
  | PP2p h => let m := mh_to_bytes h in 2 + blen (write_varint (blen m)) + blen m
  | POther b => blen b
  end.
Definition addr_size (a : multiaddr) : N := fold_right (fun p n => proto_size p + n) 0 a.

(** l.185-219 [could_be_bound_from_ephemeral]; [None] is the failed assertion. *)
Definition bound_from (left right : proto) : option bool :=
  match right, left with
  | PTcp 0, PTcp x | PUdp 0, PUdp x | PSctp 0, PSctp x | PMemory 0, PMemory x => if x =? 0 then None else Some true
  | _, _ => Some (proto_eqb right left)
  end.
Fixpoint all_bound_from (bound eph : multiaddr) : option bool :=
  match bound, eph with
  | l :: bound, r :: eph =>
      match bound_from l r with
      | None => None
      | Some false => Some false
      | Some true => all_bound_from bound eph
      end
  | _, _ => Some true
  end.
Definition could_be_bound (n : nat) (bound eph : multiaddr) : option bool :=
  if negb (addr_size bound =? addr_size eph) then Some false
  else all_bound_from (skipn n bound) (skipn n eph).
