(** Publish and subscribe: src/p2p/pubsub.rs.  Definitions only.

    Topics are compared for equality only and are numbers here; peers are numbers.  A stream handed
    out by [subscribe] is known by a serial number.  Of [Floodsub] the model has the list of
    subscribed topics, its partial view and the queue of things it will return from its [poll]: what
    gets into that queue is up to the history, so nothing is assumed about how floodsub filters or
    orders messages.  The messages floodsub queues for its peers when the subscriptions change can
    be in the history as [FAction]. *)
From Verif Require Import Base FMap.
Local Open Scope N_scope.

Definition topic := N.
Definition peer := N.
Definition serial := N.

(** l.39-52 [PubsubMessage], l.54-70 its conversion from [FloodsubMessage], field by field. *)
Record msg := mk_msg { m_source : peer; m_data : bytes; m_seq : bytes; m_topics : list topic }.

(** What [Floodsub::poll] returns. *)
Inductive fevent :=
| FMessage (m : msg)
| FSubscribed (p : peer) (t : topic)
| FUnsubscribed (p : peer) (t : topic)
| FAction (n : N).                      (* dials and messages to handlers *)

(** l.73-77 [SubscriptionStream]: its topic, the messages in the channel, whether it still exists
    and whether [on_drop] is set. *)
Record stream := mk_stream { st_topic : topic; st_queue : list msg; st_alive : bool; st_on_drop : bool }.

(** l.23-35 [Pubsub]; the senders in [streams] are the serial numbers of their streams. *)
Record pubsub := mk_pubsub {
  ps_streams : list (topic * serial);
  ps_peers : list (peer * list topic);
  ps_flood : list topic;
  ps_view : list peer;
  ps_unsubs : list topic;
  ps_events : list fevent;
  ps_all : list (serial * stream);
  ps_next : serial }.
(** l.137-146 [Pubsub::new]. *)
Definition pubsub0 : pubsub := mk_pubsub [] [] [] [] [] [] [] 0.

Definition with_streams x s := mk_pubsub x (ps_peers s) (ps_flood s) (ps_view s) (ps_unsubs s) (ps_events s) (ps_all s) (ps_next s).
Definition with_peers x s := mk_pubsub (ps_streams s) x (ps_flood s) (ps_view s) (ps_unsubs s) (ps_events s) (ps_all s) (ps_next s).
Definition with_flood x s := mk_pubsub (ps_streams s) (ps_peers s) x (ps_view s) (ps_unsubs s) (ps_events s) (ps_all s) (ps_next s).
Definition with_view x s := mk_pubsub (ps_streams s) (ps_peers s) (ps_flood s) x (ps_unsubs s) (ps_events s) (ps_all s) (ps_next s).
Definition with_unsubs x s := mk_pubsub (ps_streams s) (ps_peers s) (ps_flood s) (ps_view s) x (ps_events s) (ps_all s) (ps_next s).
Definition with_events x s := mk_pubsub (ps_streams s) (ps_peers s) (ps_flood s) (ps_view s) (ps_unsubs s) x (ps_all s) (ps_next s).
Definition with_all x s := mk_pubsub (ps_streams s) (ps_peers s) (ps_flood s) (ps_view s) (ps_unsubs s) (ps_events s) x (ps_next s).
Definition with_next x s := mk_pubsub (ps_streams s) (ps_peers s) (ps_flood s) (ps_view s) (ps_unsubs s) (ps_events s) (ps_all s) x.

(** [Floodsub::subscribe] and [Floodsub::unsubscribe]: [None] when they answer false, which the
    callers assert not to happen. *)
Definition flood_subscribe (t : topic) (s : pubsub) : option pubsub :=
  if existsb (N.eqb t) (ps_flood s) then None else Some (with_flood (ps_flood s ++ [t]) s).
Definition flood_unsubscribe (t : topic) (s : pubsub) : option pubsub :=
  if existsb (N.eqb t) (ps_flood s) then Some (with_flood (filter (fun x => negb (t =? x)) (ps_flood s)) s) else None.

(** l.152-180 [subscribe].  The outer [None] is a panic. *)
Definition subscribe (t : topic) (s : pubsub) : option (pubsub * option serial) :=
  match mget N.eqb t (ps_streams s) with
  | Some _ => Some (s, None)
  | None =>
      match flood_subscribe t s with
      | None => None
      | Some s =>
          let k := ps_next s in
          Some (with_next (k + 1)
                  (with_all (mset N.eqb k (mk_stream t [] true true) (ps_all s))
                     (with_streams (mset N.eqb t k (ps_streams s)) s)),
                Some k)
      end
  end.

(** l.185-196 [unsubscribe]; also l.334-345, the body of the first loop of [poll]. *)
Definition unsubscribe (t : topic) (s : pubsub) : option (pubsub * bool) :=
  match mget N.eqb t (ps_streams s) with
  | None => Some (s, false)
  | Some _ =>
      match flood_unsubscribe t (with_streams (mdel N.eqb t (ps_streams s)) s) with
      | None => None
      | Some s => Some (s, true)
      end
  end.

(** l.204-224 [known_peers], [subscribed_peers], [subscribed_topics]. *)
Definition known_peers (s : pubsub) : list peer := map fst (ps_peers s).
Definition subscribed_peers (t : topic) (s : pubsub) : list peer :=
  map fst (filter (fun pt => existsb (N.eqb t) (snd pt)) (ps_peers s)).
Definition subscribed_topics (s : pubsub) : list topic := map fst (ps_streams s).

Definition get_stream (k : serial) (s : pubsub) : option stream := mget N.eqb k (ps_all s).
Definition set_stream (k : serial) (x : stream) (s : pubsub) : pubsub := with_all (mset N.eqb k x (ps_all s)) s.

(** l.79-89 [SubscriptionStream::drop]; the receiver goes with it. *)
Definition drop_stream (k : serial) (s : pubsub) : pubsub :=
  match get_stream k s with
  | None => s
  | Some x =>
      if st_alive x then
        let s := set_stream k (mk_stream (st_topic x) [] false false) s in
        if st_on_drop x then with_unsubs (ps_unsubs s ++ [st_topic x]) s else s
      else s
  end.

(** l.113-125 [poll_next]: a channel has ended when it is empty and its sender is gone. *)
Inductive next := Next (m : msg) | Ended | Pending.
Definition has_sender (k : serial) (s : pubsub) : bool := existsb (fun tk => k =? snd tk) (ps_streams s).
Definition next_of (k : serial) (s : pubsub) : pubsub * next :=
  match get_stream k s with
  | None => (s, Pending)
  | Some x =>
      if negb (st_alive x) then (s, Pending) else    (* a dropped stream is not read *)
      match st_queue x with
      | m :: r => (set_stream k (mk_stream (st_topic x) r (st_alive x) (st_on_drop x)) s, Next m)
      | [] =>
          if has_sender k s then (s, Pending)
          else (set_stream k (mk_stream (st_topic x) [] (st_alive x) false) s, Ended)
      end
  end.

(** l.358-377: a message for one topic after the other. *)
Fixpoint deliver (m : msg) (ts : list topic) (s : pubsub) : option pubsub :=
  match ts with
  | [] => Some s
  | t :: r =>
      match mget N.eqb t (ps_streams s) with
      | None => deliver m r s
      | Some k =>
          match get_stream k s with
          | Some x =>
              if st_alive x then
                deliver m r (set_stream k (mk_stream (st_topic x) (st_queue x ++ [m]) true (st_on_drop x)) s)
              else
                match flood_unsubscribe t (with_streams (mdel N.eqb t (ps_streams s)) s) with
                | None => None
                | Some s => deliver m r s
                end
          | None => None                 (* no sender without a stream *)
          end
      end
  end.

(** [Vec::swap_remove] of the first position. *)
Fixpoint position (t : topic) (l : list topic) : option nat :=
  match l with
  | [] => None
  | x :: r => if x =? t then Some O else option_map S (position t r)
  end.
Definition swap_remove (i : nat) (l : list topic) : list topic :=
  if Nat.eqb i (length l - 1) then firstn i l
  else firstn i l ++ [last l 0] ++ skipn (i + 1) (removelast l).

(** [Floodsub]'s partial view, a set. *)
Definition view_add (p : peer) (s : pubsub) : pubsub :=
  if existsb (N.eqb p) (ps_view s) then s else with_view (p :: ps_view s) s.
Definition view_remove (p : peer) (s : pubsub) : pubsub := with_view (filter (fun x => negb (p =? x)) (ps_view s)) s.

(** l.381-399: a peer has subscribed. *)
Definition peer_subscribed (p : peer) (t : topic) (s : pubsub) : pubsub :=
  let s := view_add p s in
  let ts := match mget N.eqb p (ps_peers s) with Some ts => ts | None => [] end in
  with_peers (mset N.eqb p (if existsb (N.eqb t) ts then ts else ts ++ [t]) (ps_peers s)) s.
(** l.400-417: a peer has unsubscribed. *)
Definition peer_unsubscribed (p : peer) (t : topic) (s : pubsub) : pubsub :=
  match mget N.eqb p (ps_peers s) with
  | None => s
  | Some ts =>
      let ts := match position t ts with Some i => swap_remove i ts | None => ts end in
      match ts with
      | [] => view_remove p (with_peers (mdel N.eqb p (ps_peers s)) s)
      | _ => with_peers (mset N.eqb p ts (ps_peers s)) s
      end
  end.

(** l.331-350, the first loop of [poll]. *)
Fixpoint drain (ts : list topic) (s : pubsub) : option pubsub :=
  match ts with
  | [] => Some s
  | t :: r => match unsubscribe t s with Some (s, _) => drain r s | None => None end
  end.
(** l.352-456, the second loop. *)
Fixpoint handle (es : list fevent) (s : pubsub) : option (pubsub * option N) :=
  match es with
  | [] => Some (with_events [] s, None)
  | FAction n :: r => Some (with_events r s, Some n)
  | FMessage m :: r => match deliver m (m_topics m) s with Some s => handle r s | None => None end
  | FSubscribed p t :: r => handle r (peer_subscribed p t s)
  | FUnsubscribed p t :: r => handle r (peer_unsubscribed p t s)
  end.
(** l.323-457 [poll]. *)
Definition poll (s : pubsub) : option (pubsub * option N) :=
  match drain (ps_unsubs s) (with_unsubs [] s) with
  | None => None
  | Some s => handle (ps_events s) s
  end.

(** What can happen: calls, reads and drops of streams, and things floodsub has to return. *)
Inductive op :=
| OSubscribe (t : topic)
| OUnsubscribe (t : topic)
| ODrop (k : serial)
| ONext (k : serial)
| OFlood (e : fevent)
| OPoll.
Inductive answer :=
| ASubscribed (k : option serial) | AUnsubscribed (b : bool) | ANext (n : next) | APolled (a : option N) | ANone.
(** [None] is a panic. *)
Definition step (s : pubsub) (o : op) : option (pubsub * answer) :=
  match o with
  | OSubscribe t => match subscribe t s with Some (s, k) => Some (s, ASubscribed k) | None => None end
  | OUnsubscribe t => match unsubscribe t s with Some (s, b) => Some (s, AUnsubscribed b) | None => None end
  | ODrop k => Some (drop_stream k s, ANone)
  | ONext k => let (s, n) := next_of k s in Some (s, ANext n)
  | OFlood e => Some (with_events (ps_events s ++ [e]) s, ANone)
  | OPoll => match poll s with Some (s, a) => Some (s, APolled a) | None => None end
  end.
Fixpoint run (s : pubsub) (h : list op) : option (pubsub * list (op * answer)) :=
  match h with
  | [] => Some (s, [])
  | o :: r =>
      match step s o with
      | None => None
      | Some (s', a) => match run s' r with Some (s'', t) => Some (s'', (o, a) :: t) | None => None end
      end
  end.
