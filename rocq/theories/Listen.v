(** Listening addresses: [IpfsFuture::{complete_listening_address_adding, start_add_listener_address}]
    and the handling of the removals, src/lib.rs l.1227-1503.  Definitions only.

    Addresses are those of [Addr]; a listener id and a request (the sending half of the caller's
    oneshot channel) are numbers.  What [Swarm::listen_on] and [Swarm::remove_listener] answer is part
    of the step.  The table is a [HashMap]: where its order matters, [pick] says where the iteration
    starts.  [None] is a panic. *)
From Verif Require Import Base Wire Cid FMap Addr.
Local Open Scope N_scope.

Inductive op :=
| Add (r : option N) (a : multiaddr) (listen : option N)  (* a request, or an initial address l.404-406 *)
| Report (id : N) (a : multiaddr) (pick : nat)            (* NewListenAddr of that listener *)
| Gone (id : N)                                           (* ListenerClosed, ListenerError *)
| Remove (a : multiaddr) (ok : bool).                     (* ok: what remove_listener says *)

(** What an adding request is answered; [Dropped]: the channel is dropped without an answer. *)
Inductive answer := Bound (a : multiaddr) | Busy | Exists | Failed | Dropped.
Inductive removal := Stopped (id : N) | NotStopped (id : N) | Unknown.
(** What a step does: answers an adding request, starts a listener, answers a removal. *)
Record reply := mk_reply { to_add : option (N * answer); opened : option N; to_remove : option removal }.
Definition nothing : reply := mk_reply None None None.

(** l.1233 [listening_addresses]. *)
Definition table := list (multiaddr * (N * option N)).
Definition init : table := [].

Definition refuse (r : option N) (x : answer) : reply := mk_reply (option_map (fun r => (r, x)) r) None None.
Definition is_some {T} (o : option T) : bool := match o with Some _ => true | None => false end.

(** l.1318-1352. *)
Definition start (t : table) (r : option N) (a : multiaddr) (listen : option N) : table * reply :=
  if starts_unspecified a && existsb (fun x => is_some (snd (snd x))) t then (t, refuse r Busy)
  else
    match mget addr_eqb a t with
    | Some _ => (t, refuse r Exists)
    | None =>
        match listen with
        | Some id => (mset addr_eqb a (id, r) t, mk_reply None (Some id) None)
        | None => (t, refuse r Failed)
        end
    end.

(** l.1246-1250: the keys which could have become the address; [None] is the failed assertion. *)
Fixpoint matching (a : multiaddr) (keys : list multiaddr) : option (list multiaddr) :=
  match keys with
  | [] => Some []
  | k :: keys =>
      match could_be_bound 0 a k, matching a keys with
      | Some b, Some l => Some (if b then k :: l else l)
      | _, _ => None
      end
  end.
(** l.1284-1296: the first of the unspecified ones yet to be reported. *)
Fixpoint guess (a : multiaddr) (t : table) : option (option multiaddr) :=
  match t with
  | [] => Some None
  | (k, (_, s)) :: t =>
      if starts_unspecified k then
        match could_be_bound 1 a k with
        | None => None
        | Some b => if b && is_some s then Some (Some k) else guess a t
        end
      else guess a t
  end.
(** l.1256-1263, l.1298-1305: the entry gets the new key and its request is taken. *)
Definition move (k a : multiaddr) (t : table) : table * option N :=
  match mget addr_eqb k t with
  | Some (id, s) => (mset addr_eqb a (id, None) (mdel addr_eqb k t), s)
  | None => (t, None)
  end.
(** l.1240-1316. *)
Definition complete (t : table) (a : multiaddr) (pick : nat) : option (table * option N) :=
  match mget addr_eqb a t with
  | Some (id, s) => Some (mset addr_eqb a (id, None) t, s)
  | None =>
      match matching a (map fst t) with
      | None => None
      | Some [k] => Some (move k a t)
      | Some (_ :: _ :: _) => None        (* unreachable!, l.1271 *)
      | Some [] =>
          match guess a (skipn pick t ++ firstn pick t) with
          | None => None
          | Some (Some k) => Some (move k a t)
          | Some None => Some (t, None)
          end
      end
  end.

Definition step (t : table) (o : op) : option (table * reply) :=
  match o with
  | Add r a listen => Some (start t r a listen)
  | Report id a pick =>                                       (* l.1384-1386: the listener id is not looked at *)
      match complete t a pick with
      | Some (t, s) => Some (t, mk_reply (option_map (fun r => (r, Bound a)) s) None None)
      | None => None
      end
  | Gone id => Some (t, nothing)                              (* l.1387 *)
  | Remove a ok =>                                            (* l.1475-1491 *)
      match mget addr_eqb a t with
      | Some (id, s) =>
          Some (mdel addr_eqb a t, mk_reply (option_map (fun r => (r, Dropped)) s) None (Some (if ok then Stopped id else NotStopped id)))
      | None => Some (t, mk_reply None None (Some Unknown))
      end
  end.

(** The histories without a panic and the table they leave. *)
Inductive run : list (op * reply) -> table -> Prop :=
| run_init : run [] init
| run_step h t o t' a : run h t -> step t o = Some (t', a) -> run (h ++ [(o, a)]) t'.
Fixpoint exec (t : table) (l : list op) : option (table * list reply) :=
  match l with
  | [] => Some (t, [])
  | o :: l =>
      match step t o with
      | Some (t, a) => match exec t l with Some (t, r) => Some (t, a :: r) | None => None end
      | None => None
      end
  end.
