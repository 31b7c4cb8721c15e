(** What publish and subscribe is expected to do, in terms of histories. *)
From Verif Require Import Base FMap Pubsub.
Local Open Scope N_scope.

(** * Delivery *)
(** The messages read from a stream. *)
Definition read (k : serial) (t : list (op * answer)) : list msg :=
  concat (map (fun x => match x with (ONext k', ANext (Next m)) => if k =? k' then [m] else [] | _ => [] end) t).
(** The messages for a topic: once for each time the message names the topic. *)
Definition named (t : topic) (m : msg) : list msg := map (fun _ => m) (filter (N.eqb t) (m_topics m)).
Definition for_topic (t : topic) (es : list fevent) : list msg :=
  concat (map (fun e => match e with FMessage m => named t m | _ => [] end) es).
(** What floodsub was given to return. *)
Definition floods (h : list op) : list fevent :=
  concat (map (fun o => match o with OFlood e => [e] | _ => [] end) h).
(** What it has still to return, and what a stream has still to give. *)
Definition backlog (s : pubsub) : list fevent := ps_events s.
Definition unread (k : serial) (s : pubsub) : list msg :=
  match get_stream k s with Some x => st_queue x | None => [] end.

(** Nothing in the history ends the stream: no unsubscription from its topic, no drop of it. *)
Definition undisturbed (t : topic) (k : serial) (h : list op) : Prop :=
  Forall (fun o => o <> OUnsubscribe t /\ o <> ODrop k) h.

(** * Streams *)
(** What has become of a stream: absent before it is handed out, then open; over when it was read to
    its end, or dropped and a poll was made since. *)
Inductive status := Absent | Open | Dropped | Over.
Definition status_step (k : serial) (st : status) (x : op * answer) : status :=
  match st, x with
  | Absent, (OSubscribe _, ASubscribed (Some k')) => if k =? k' then Open else st
  | Open, (ONext k', ANext Ended) => if k =? k' then Over else st
  | Open, (ODrop k', _) => if k =? k' then Dropped else st
  | Dropped, (OPoll, _) => Over
  | _, _ => st
  end.
Definition status_of (k : serial) (t : list (op * answer)) : status := fold_left (status_step k) t Absent.
(** Every stream of the topic is over. *)
Definition all_over (t : topic) (tr : list (op * answer)) : Prop :=
  forall k, In (OSubscribe t, ASubscribed (Some k)) tr -> status_of k tr = Over.

(** * Peers *)
(** Whether a peer is subscribed to a topic after what floodsub said. *)
Definition said_step (p : peer) (t : topic) (b : bool) (e : fevent) : bool :=
  match e with
  | FSubscribed q u => if (p =? q) && (t =? u) then true else b
  | FUnsubscribed q u => if (p =? q) && (t =? u) then false else b
  | _ => b
  end.
Definition said (p : peer) (t : topic) (es : list fevent) : bool := fold_left (said_step p t) es false.

(** * What floodsub wants done *)
Definition actions (es : list fevent) : list N :=
  concat (map (fun e => match e with FAction n => [n] | _ => [] end) es).
Definition returned (tr : list (op * answer)) : list N :=
  concat (map (fun x => match x with (_, APolled (Some n)) => [n] | _ => [] end) tr).
