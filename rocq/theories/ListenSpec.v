(** Specification for C49: listeners, the addresses they report, and the requests, from the history
    alone. *)
From Verif Require Import Base Wire Cid FMap Addr Listen.
Local Open Scope N_scope.

(** What the transport listens on: an ip address and a tcp port. *)
Definition ip_addr (p : proto) : Prop := match p with PIp4 _ | PIp6 _ => True | _ => False end.
Definition tcp_addr (a : multiaddr) : Prop := exists ip n, a = [ip; PTcp n] /\ ip_addr ip.
(** A bound address has a real port and a real ip address. *)
Definition bound_addr (a : multiaddr) : Prop :=
  exists ip n, a = [ip; PTcp n] /\ n <> 0 /\ match ip with PIp4 x | PIp6 x => x <> 0 | _ => False end.
(** Listening on [k] may be bound to [a]: the ip address is the one asked for, or [k] asks for all of
    the family; the port is the one asked for, or [k] asks for any. *)
Definition fits (k a : multiaddr) : Prop :=
  match k, a with
  | [ipk; PTcp n], [ipa; PTcp m] =>
      (ipk = ipa \/ (exists x, ipk = PIp4 0 /\ ipa = PIp4 x) \/ (exists x, ipk = PIp6 0 /\ ipa = PIp6 x)) /\ (n = m \/ n = 0)
  | _, _ => False
  end.
Definition unspecified (k : multiaddr) : Prop := exists r, k = PIp4 0 :: r \/ k = PIp6 0 :: r.

(** The address and the request a listener was started for, unless it was removed.  Latest first. *)
Fixpoint listener (id : N) (past : list (op * reply)) : option (multiaddr * option N) :=
  match past with
  | [] => None
  | (o, x) :: past =>
      match o, opened x, to_remove x with
      | Add r a _, Some j, _ => if id =? j then Some (a, r) else listener id past
      | _, _, Some (Stopped j | NotStopped j) => if id =? j then None else listener id past
      | _, _, _ => listener id past
      end
  end.
(** What a listener has reported, latest first. *)
Definition reports (id : N) (past : list (op * reply)) : list multiaddr :=
  flat_map (fun x : op * reply => match fst x with Report j a _ => if id =? j then [a] else [] | _ => [] end) past.

(** The address by which a listener can be removed: the first one it reported, or the one asked for
    while it has not reported (or for ever, for an initial one for all addresses). *)
Definition all_addresses (k : multiaddr) : bool := match k with (PIp4 n | PIp6 n) :: _ => n =? 0 | _ => false end.
Definition known_as (id : N) (past : list (op * reply)) : option multiaddr :=
  match listener id past with
  | None => None
  | Some (k, r) =>
      match rev (reports id past), r with
      | [], _ => Some k
      | a :: _, Some _ => Some a
      | a :: _, None => Some (if all_addresses k then k else a)
      end
  end.

(** The network: listener ids are not reused; only tcp addresses are listened on; a listener, while
    not removed, reports addresses it may be bound to, the same one each time unless asked for all
    addresses; no two have the same address.  The last condition is not the network's: a listener for
    all addresses reports none which another listener yet to report could have reported. *)
Definition lawful_step (past : list (op * reply)) (x : op * reply) : Prop :=
  match fst x with
  | Add _ k _ =>
      match opened (snd x) with
      | Some id => (forall y, In y past -> opened (snd y) <> Some id) /\ tcp_addr k
      | None => True
      end
  | Report id a _ =>
      exists k r, listener id past = Some (k, r) /\ bound_addr a /\ fits k a /\
        (~ unspecified k -> forall b, In b (reports id past) -> b = a) /\
        (forall j kj rj, j <> id -> listener j past = Some (kj, rj) -> kj <> a /\ ~ In a (reports j past)) /\
        (unspecified k -> forall j kj rj, j <> id -> listener j past = Some (kj, rj) -> reports j past = [] -> ~ fits kj a)
  | _ => True
  end.
Fixpoint lawful (past : list (op * reply)) : Prop :=
  match past with [] => True | x :: past => lawful_step past x /\ lawful past end.

(** The answers a request got. *)
Definition answers_to (r : N) (h : list (op * reply)) : list answer :=
  flat_map (fun x : op * reply => match to_add (snd x) with Some (q, y) => if r =? q then [y] else [] | None => [] end) h.
(** The requests made. *)
Definition requests (h : list (op * reply)) : list N :=
  flat_map (fun x : op * reply => match fst x with Add (Some r) _ _ => [r] | _ => [] end) h.

(** Only tcp addresses are listened on and reported: all that is asked of the network for the laws
    which hold even if it is not [lawful]. *)
Definition tcp_only (h : list (op * reply)) : Prop :=
  forall o x, In (o, x) h -> match o with
                             | Add _ k _ => opened x <> None -> tcp_addr k
                             | Report _ a _ => bound_addr a
                             | _ => True
                             end.

(** A component of a requested address which the system completes: its port (or memory number) is left
    open. *)
Definition open_port (e : proto) : Prop := e = PTcp 0 \/ e = PUdp 0 \/ e = PSctp 0 \/ e = PMemory 0.
(** What a component of a requested address may be once bound. *)
Definition becomes (e b : proto) : Prop :=
  (b = e /\ ~ open_port e) \/
  exists x, x <> 0 /\ ((e = PTcp 0 /\ b = PTcp x) \/ (e = PUdp 0 /\ b = PUdp x) \/ (e = PSctp 0 /\ b = PSctp x) \/ (e = PMemory 0 /\ b = PMemory x)).
