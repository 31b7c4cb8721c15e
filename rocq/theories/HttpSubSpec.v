(** What subscribing over HTTP is expected to do, in terms of histories. *)
From Verif Require Import Base FMap Pubsub PubsubSpec HttpSub.
Local Open Scope N_scope.

(** What floodsub was given to return, and the lines read from a response. *)
Definition hfloods (h : list hop) : list fevent :=
  concat (map (fun o => match o with HFlood e => [e] | _ => [] end) h).
Definition lines (r : rid) (tr : list (hop * hanswer)) : list msg :=
  concat (map (fun x => match x with (HRead r', Line m) => if r =? r' then [m] else [] | _ => [] end) tr).
Definition joined (r : rid) (t : topic) (tr : list (hop * hanswer)) : Prop := exists o, In (o, Joined r t) tr.

(** What the background task of a topic has still to read, and what it has sent that a response has
    still to give. *)
Definition stock (t : topic) (s : http) : list msg :=
  match entry t s with
  | Some c =>
      match task_of c s with
      | Some (_, Reading k) | Some (_, Locking k _) | Some (_, Resubscribing k) | Some (_, Leaving k _) => unread k (h_node s)
      | _ => []
      end
  | None => []
  end.
Definition unsent (r : rid) (s : http) : list msg :=
  match response_of r s with Some x => skipn (re_pos x) (log (re_chan x) s) | None => [] end.
(** What the node has for the topic that is not on its stream yet. *)
Definition coming (t : topic) (s : http) : list msg := for_topic t (backlog (h_node s)).

(** A list with some of its elements left out. *)
Inductive part_of {A} : list A -> list A -> Prop :=
| part_nil : part_of [] []
| part_keep x l l' : part_of l l' -> part_of (x :: l) (x :: l')
| part_skip x l l' : part_of l l' -> part_of l (x :: l').

(** Nobody but the responses unsubscribes the topic. *)
Definition left_alone (t : topic) (h : list hop) : Prop := ~ In (HUnsubscribe t) h.
(** No background task of the topic panicked. *)
Definition unharmed (t : topic) (tr : list (hop * hanswer)) : Prop := forall o, ~ In (o, TaskPanicked t) tr.
(** The response is not dropped. *)
Definition kept (r : rid) (h : list hop) : Prop := ~ In (HClose r) h.

(** The task of the topic has decided that its stream is over, and has still to look at the map. *)
Definition between (t : topic) (s : http) : Prop :=
  exists c k, entry t s = Some c /\ task_of c s = Some (t, Locking k true).
(** No request for the topic comes at such a moment. *)
Definition calm (t : topic) (h : list hop) : Prop :=
  forall h1 r h2 s1 tr1, h = h1 ++ HRequest r t :: h2 -> hrun http0 h1 = Some (s1, tr1) -> ~ between t s1.
(** The responses of the topic were all dropped. *)
Definition unheard (t : topic) (s : http) : Prop :=
  forall c r x, entry t s = Some c -> response_of r s = Some x -> re_chan x = c -> re_open x = false.
(** An earlier subscription of the topic is on its way out: its task has still to drop the stream, or
    the node has still to see that it was dropped. *)
Definition leaving (t : topic) (s : http) : Prop :=
  (exists c k, task_of c s = Some (t, Leaving k false)) \/ In t (ps_unsubs (h_node s)).
(** The history ends with the request for the topic being accepted. *)
Definition starts (r : rid) (t : topic) (h : list hop) (s : http) : Prop :=
  exists tr o, hrun http0 h = Some (s, tr ++ [(o, Joined r t)]).
