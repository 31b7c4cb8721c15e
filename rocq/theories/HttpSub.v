(** Subscriptions over HTTP: http/src/v0/pubsub.rs.  Definitions only.

    The node is the model of [Pubsub].  Requests, background tasks and the node take their steps in
    any order; a step is the code between two awaits.  A request that waits for the lock is not
    there yet.  The node answers a call by a step of its own; the answer and what the caller does
    with it up to its next await are one step.  Topics are numbers, as in [Pubsub]; so are requests
    and channels.  The lines of a response are the messages here, [HttpPubsub] has their text. *)
From Verif Require Import Base FMap Pubsub.
Local Open Scope N_scope.

Definition chan := N.
Definition rid := N.

(** The stream of a response, l.165-187: its channel, the position of its receiver, whether it has
    yielded an error, and whether the receiver still exists. *)
Record response := mk_response { re_chan : chan; re_pos : nat; re_over : bool; re_open : bool }.

(** Where the background task of a channel is, l.193-277, and the stream it holds: in the inner
    loop, waiting for the lock with [unsubscribed], waiting for a new stream, or past its end with
    [shoveled] still to be dropped; the flags say whether it panicked. *)
Inductive task :=
| Reading (k : serial)
| Locking (k : serial) (unsubscribed : bool)
| Resubscribing (k : serial)
| Leaving (k : serial) (panicked : bool)
| Gone (panicked : bool).

(** Who waits for a new stream of the node. *)
Inductive caller := ByRequest (r : rid) | ByTask (c : chan) | ByNobody.

(** l.37-41 [Pubsub]: the lock and the map.  [h_calls] are the [PubsubSubscribe] events on their way
    to the node, src/lib.rs l.760-774.  [h_logs] is all that was ever sent on a channel. *)
Record http := mk_http {
  h_node : pubsub;
  h_calls : list (topic * caller);
  h_locked : bool;
  h_entries : list (topic * chan);
  h_logs : list (chan * list msg);
  h_tasks : list (chan * (topic * task));
  h_responses : list (rid * response);
  h_next : chan }.
Definition http0 : http := mk_http pubsub0 [] false [] [] [] [] 0.

Definition on_node x s := mk_http x (h_calls s) (h_locked s) (h_entries s) (h_logs s) (h_tasks s) (h_responses s) (h_next s).
Definition on_calls x s := mk_http (h_node s) x (h_locked s) (h_entries s) (h_logs s) (h_tasks s) (h_responses s) (h_next s).
Definition on_locked x s := mk_http (h_node s) (h_calls s) x (h_entries s) (h_logs s) (h_tasks s) (h_responses s) (h_next s).
Definition on_entries x s := mk_http (h_node s) (h_calls s) (h_locked s) x (h_logs s) (h_tasks s) (h_responses s) (h_next s).
Definition on_logs x s := mk_http (h_node s) (h_calls s) (h_locked s) (h_entries s) x (h_tasks s) (h_responses s) (h_next s).
Definition on_tasks x s := mk_http (h_node s) (h_calls s) (h_locked s) (h_entries s) (h_logs s) x (h_responses s) (h_next s).
Definition on_responses x s := mk_http (h_node s) (h_calls s) (h_locked s) (h_entries s) (h_logs s) (h_tasks s) x (h_next s).
Definition on_next x s := mk_http (h_node s) (h_calls s) (h_locked s) (h_entries s) (h_logs s) (h_tasks s) (h_responses s) x.

Definition entry (t : topic) (s : http) : option chan := mget N.eqb t (h_entries s).
Definition log (c : chan) (s : http) : list msg := match mget N.eqb c (h_logs s) with Some l => l | None => [] end.
Definition task_of (c : chan) (s : http) : option (topic * task) := mget N.eqb c (h_tasks s).
Definition response_of (r : rid) (s : http) : option response := mget N.eqb r (h_responses s).
Definition set_task (c : chan) (t : topic) (x : task) (s : http) : http := on_tasks (mset N.eqb c (t, x) (h_tasks s)) s.
Definition set_response (r : rid) (x : response) (s : http) : http := on_responses (mset N.eqb r x (h_responses s)) s.

(** [broadcast::Sender::receiver_count]. *)
Definition receivers (c : chan) (s : http) : nat :=
  length (filter (fun rx => re_open (snd rx) && (re_chan (snd rx) =? c)) (h_responses s)).
(** A new receiver: it gets what is sent from now on, [Sender::subscribe]. *)
Definition join (r : rid) (c : chan) (s : http) : http := set_response r (mk_response c (length (log c s)) false true) s.
(** The channel is closed when the map and the task have dropped their senders. *)
Definition has_tx (c : chan) (s : http) : bool :=
  existsb (fun tc => snd tc =? c) (h_entries s) || match task_of c s with Some (_, Gone _) | None => false | Some _ => true end.
(** l.146: the capacity of the channel. *)
Definition capacity : nat := 16.

(** What can happen. *)
Inductive hop :=
| HRequest (r : rid) (t : topic)       (* a request gets the lock *)
| HCancel (r : rid)                    (* the client is gone while the request waits for the node *)
| HServe                               (* the node handles the next call *)
| HRead (r : rid)                      (* the response is polled *)
| HClose (r : rid)                     (* the response is dropped *)
| HShovel (c : chan)                   (* the task reads its stream *)
| HTimeout (c : chan)                  (* 50 ms are over *)
| HLock (c : chan)                     (* the task gets the lock *)
| HLeave (c : chan)                    (* the task drops its stream *)
| HUnsubscribe (t : topic)             (* someone calls pubsub_unsubscribe *)
| HFlood (e : fevent)
| HPoll.
Inductive hanswer :=
| Joined (r : rid) (t : topic)
| Line (m : msg) | TooSlow | Closed | NotYet | Finished
| RequestPanicked (r : rid) (t : topic)
| TaskPanicked (t : topic)
| Unreachable (t : topic)
| Done
| Disabled.                            (* the step cannot be taken now *)

(** A step of the node whose answer nobody looks at. *)
Definition node_does (o : op) (s : http) : option http :=
  match step (h_node s) o with Some (n, _) => Some (on_node n s) | None => None end.

(** l.115-163 [inner_subscribe] up to its stream, when the lock is free. *)
Definition request (r : rid) (t : topic) (s : http) : http * hanswer :=
  if h_locked s then (s, Disabled)
  else match response_of r s with
  | Some _ => (s, Disabled)
  | None =>
      if existsb (fun tw => match snd tw with ByRequest r' => r =? r' | _ => false end) (h_calls s) then (s, Disabled)
      else match entry t s with
      | Some c => (join r c s, Joined r t)
      | None => (on_locked true (on_calls (h_calls s ++ [(t, ByRequest r)]) s), Done)
      end
  end.

(** The future of [inner_subscribe] is dropped: the guard goes with it, and nobody takes the answer. *)
Fixpoint abandon (r : rid) (l : list (topic * caller)) : list (topic * caller) :=
  match l with
  | [] => []
  | (t, ByRequest r') :: q => if r =? r' then (t, ByNobody) :: q else (t, ByRequest r') :: abandon r q
  | x :: q => x :: abandon r q
  end.
Definition cancel (r : rid) (s : http) : http * hanswer :=
  if existsb (fun tw => match snd tw with ByRequest r' => r =? r' | _ => false end) (h_calls s)
  then (on_locked false (on_calls (abandon r (h_calls s)) s), Done) else (s, Disabled).

(** src/lib.rs l.1433-1435, and what the caller does: l.137-162 for a request, l.242-255 for a
    task.  A stream nobody takes is dropped. *)
Definition serve (s : http) : option (http * hanswer) :=
  match h_calls s with
  | [] => Some (s, Disabled)
  | (t, w) :: q =>
      match subscribe t (h_node s) with
      | None => None
      | Some (n, k) =>
          let s := on_calls q (on_node n s) in
          match w, k with
          | ByNobody, None => Some (s, Done)
          | ByNobody, Some k => match node_does (ODrop k) s with Some s => Some (s, Done) | None => None end
          | ByRequest r, None => Some (on_locked false s, RequestPanicked r t)
          | ByRequest r, Some k =>
              let c := h_next s in
              let s := on_next (c + 1) (on_entries (mset N.eqb t c (h_entries s)) (on_logs (mset N.eqb c [] (h_logs s)) s)) in
              Some (on_locked false (set_task c t (Reading k) (join r c s)), Joined r t)
          | ByTask c, None =>
              match task_of c s with
              | Some (t, Resubscribing old) => Some (on_locked false (set_task c t (Leaving old true) s), TaskPanicked t)
              | _ => None                      (* it waits for the answer *)
              end
          | ByTask c, Some k =>
              match task_of c s with
              | Some (t, Resubscribing old) =>
                  match node_does (ODrop old) s with
                  | Some s => Some (on_locked false (set_task c t (Reading k) s), Done)
                  | None => None
                  end
              | _ => None
              end
          end
      end
  end.

(** l.165-187, one turn of the loop. *)
Definition read_response (r : rid) (s : http) : http * hanswer :=
  match response_of r s with
  | None => (s, Disabled)
  | Some x =>
      if negb (re_open x) then (s, Disabled)
      else if re_over x then (s, Finished)
      else
        let l := log (re_chan x) s in
        match nth_error l (re_pos x) with
        | None => if has_tx (re_chan x) s then (s, NotYet) else (set_response r (mk_response (re_chan x) (re_pos x) true true) s, Closed)
        | Some m =>
            if Nat.ltb capacity (length l - re_pos x)
            then (set_response r (mk_response (re_chan x) (re_pos x) true true) s, TooSlow)
            else (set_response r (mk_response (re_chan x) (S (re_pos x)) false true) s, Line m)
        end
  end.
Definition close_response (r : rid) (s : http) : http * hanswer :=
  match response_of r s with
  | Some x => if re_open x then (set_response r (mk_response (re_chan x) (re_pos x) (re_over x) false) s, Done) else (s, Disabled)
  | None => (s, Disabled)
  end.

(** l.215-236: the stream has something for the inner loop.  [Sender::send] fails when there is no
    receiver. *)
Definition shovel (c : chan) (s : http) : http * hanswer :=
  match task_of c s with
  | Some (t, Reading k) =>
      let (n, x) := next_of k (h_node s) in
      let s := on_node n s in
      match x with
      | Pending => (s, NotYet)
      | Ended => (set_task c t (Locking k true) s, Done)
      | Next m =>
          match receivers c s with
          | O => (set_task c t (Locking k false) s, Done)
          | S _ => (on_logs (mset N.eqb c (log c s ++ [m]) (h_logs s)) s, Done)
          end
      end
  | _ => (s, Disabled)
  end.
(** l.218-228: it has not. *)
Definition time_out (c : chan) (s : http) : http * hanswer :=
  match task_of c s with
  | Some (t, Reading k) =>
      match receivers c s with
      | O => (set_task c t (Locking k true) s, Done)
      | S _ => (s, Done)
      end
  | _ => (s, Disabled)
  end.
(** l.238-276, when the lock is free. *)
Definition lock (c : chan) (s : http) : http * hanswer :=
  match task_of c s with
  | Some (t, Locking k u) =>
      if h_locked s then (s, Disabled)
      else match entry t s with
      | None => (set_task c t (Leaving k true) s, Unreachable t)
      | Some e =>
          match receivers e s with
          | S _ =>
              if u then (on_locked true (set_task c t (Resubscribing k) (on_calls (h_calls s ++ [(t, ByTask c)]) s)), Done)
              else (set_task c t (Reading k) s, Done)
          | O => (set_task c t (Leaving k false) (on_entries (mdel N.eqb t (h_entries s)) s), Done)
          end
      end
  | _ => (s, Disabled)
  end.
(** [shoveled] is a parameter and is dropped after the guard. *)
Definition leave (c : chan) (s : http) : option (http * hanswer) :=
  match task_of c s with
  | Some (t, Leaving k p) => match node_does (ODrop k) s with Some s => Some (set_task c t (Gone p) s, Done) | None => None end
  | _ => Some (s, Disabled)
  end.

(** [None]: an assertion of the node fails. *)
Definition hstep (s : http) (o : hop) : option (http * hanswer) :=
  match o with
  | HRequest r t => Some (request r t s)
  | HCancel r => Some (cancel r s)
  | HServe => serve s
  | HRead r => Some (read_response r s)
  | HClose r => Some (close_response r s)
  | HShovel c => Some (shovel c s)
  | HTimeout c => Some (time_out c s)
  | HLock c => Some (lock c s)
  | HLeave c => leave c s
  | HUnsubscribe t => match node_does (OUnsubscribe t) s with Some s => Some (s, Done) | None => None end
  | HFlood e => match node_does (OFlood e) s with Some s => Some (s, Done) | None => None end
  | HPoll => match node_does OPoll s with Some s => Some (s, Done) | None => None end
  end.
Fixpoint hrun (s : http) (h : list hop) : option (http * list (hop * hanswer)) :=
  match h with
  | [] => Some (s, [])
  | o :: r =>
      match hstep s o with
      | None => None
      | Some (s', a) => match hrun s' r with Some (s'', t) => Some (s'', (o, a) :: t) | None => None end
      end
  end.
