(** The background task of a node: [impl Future for IpfsFuture], src/lib.rs l.1355-1605, its channels
    (l.377-400) and [exit_daemon], l.1217-1225.  Definitions only.

    The task is a future: the runtime polls it once when it is spawned and then whenever its waker was
    called.  A poll is not atomic: other threads send requests, post events and receive from the network
    between any two steps of it, so a step here is one poll of one source and what is done with its answer.

    What the node does with an event is known elsewhere ([Swarm], [Bitswap], [Dht], [Listen], [Bootstrap],
    [PubsubReg]); here it is any function of the state of the node.  [next] is [Swarm::poll_next]: the event
    that the swarm has to report and the swarm without it, or nothing.

    The channels are [futures::channel::mpsc]: every request is sent from its own clone of the sender, which
    has a place of its own, so that [send] never waits; they are queues.  A source which has nothing keeps the
    waker; what comes in later takes the waker and calls it.  Sending and calling the waker are one step. *)
From Verif Require Import Base.

Section Loop.
  (** The node, the events of its swarm, the requests of its users, the answers, the events of the repo. *)
  Context {node sev req ans rev : Type}.
  Variable next : node -> option (sev * node).
  Variable on_swarm : node -> sev -> node.
  Variable on_request : node -> req -> node * ans.
  Variable on_repo : node -> rev -> node.

  (** l.377 [IpfsEvent]: a request, with the number of the call that waits at its oneshot, or [Exit]. *)
  Inductive message := Ask (i : nat) (q : req) | Exit.
  Inductive outcome := Told (a : ans) | Gone.

  (** Where the task is: returned [Pending]; l.1368 with [done]; l.1394; l.1575; returned [Ready]. *)
  Inductive place := Asleep | AtSwarm (done : bool) | AtFacade | AtRepo | Over.

  Record task := mk_task {
    at_ : place;
    inner : node;
    facade : list message;
    dropped : bool;               (* no [Ipfs] is left: the channel ends after what is in it *)
    events : list rev;
    w_swarm : bool;               (* the waker is with the swarm, *)
    w_facade : bool;              (* with the channel of the requests, *)
    w_events : bool;              (* with the channel of the repo *)
    woken : bool;                 (* the waker was called since the last poll began *)
    made : nat;                   (* the calls made so far *)
    outcomes : list (nat * outcome) }.

  (** l.385-409: spawned, so polled once without being woken. *)
  Definition start (n : node) : task := mk_task Asleep n [] false [] false false false true 0 [].

  Definition go (p : place) (t : task) : task :=
    mk_task p (inner t) (facade t) (dropped t) (events t) (w_swarm t) (w_facade t) (w_events t) (woken t) (made t) (outcomes t).
  Definition with_inner (n : node) (t : task) : task :=
    mk_task (at_ t) n (facade t) (dropped t) (events t) (w_swarm t) (w_facade t) (w_events t) (woken t) (made t) (outcomes t).
  Definition with_facade (l : list message) (t : task) : task :=
    mk_task (at_ t) (inner t) l (dropped t) (events t) (w_swarm t) (w_facade t) (w_events t) (woken t) (made t) (outcomes t).
  Definition with_events (l : list rev) (t : task) : task :=
    mk_task (at_ t) (inner t) (facade t) (dropped t) l (w_swarm t) (w_facade t) (w_events t) (woken t) (made t) (outcomes t).
  Definition with_dropped (t : task) : task :=
    mk_task (at_ t) (inner t) (facade t) true (events t) (w_swarm t) (w_facade t) (w_events t) (woken t) (made t) (outcomes t).
  Definition with_woken (b : bool) (t : task) : task :=
    mk_task (at_ t) (inner t) (facade t) (dropped t) (events t) (w_swarm t) (w_facade t) (w_events t) b (made t) (outcomes t).
  Definition with_made (t : task) : task :=
    mk_task (at_ t) (inner t) (facade t) (dropped t) (events t) (w_swarm t) (w_facade t) (w_events t) (woken t) (S (made t)) (outcomes t).
  Definition tell (l : list (nat * outcome)) (t : task) : task :=
    mk_task (at_ t) (inner t) (facade t) (dropped t) (events t) (w_swarm t) (w_facade t) (w_events t) (woken t) (made t) (outcomes t ++ l).
  Definition keep_swarm (b : bool) (t : task) : task :=
    mk_task (at_ t) (inner t) (facade t) (dropped t) (events t) b (w_facade t) (w_events t) (woken t) (made t) (outcomes t).
  Definition keep_facade (b : bool) (t : task) : task :=
    mk_task (at_ t) (inner t) (facade t) (dropped t) (events t) (w_swarm t) b (w_events t) (woken t) (made t) (outcomes t).
  Definition keep_events (b : bool) (t : task) : task :=
    mk_task (at_ t) (inner t) (facade t) (dropped t) (events t) (w_swarm t) (w_facade t) b (woken t) (made t) (outcomes t).

  (** The waker is taken from the source and called. *)
  Definition call_swarm (t : task) : task := if w_swarm t then keep_swarm false (with_woken true t) else t.
  Definition call_facade (t : task) : task := if w_facade t then keep_facade false (with_woken true t) else t.
  Definition call_events (t : task) : task := if w_events t then keep_events false (with_woken true t) else t.

  (** The calls whose oneshot senders are in a queue: dropping it cancels them. *)
  Definition lost (l : list message) : list (nat * outcome) :=
    flat_map (fun m => match m with Ask i _ => [(i, Gone)] | Exit => [] end) l.
  (** l.1567-1570: [return Poll::Ready(())], after which the future and its receivers are dropped. *)
  Definition finish (t : task) : task :=
    go Over (with_events [] (with_facade [] (tell (lost (facade t)) t))).

  (** One step of [poll]. *)
  Definition step (t : task) : task :=
    match at_ t with
    | AtSwarm done =>
      match next (inner t) with
      | Some (e, n) => go (AtSwarm false) (with_inner (on_swarm n e) t)      (* l.1374, 1382-1388 *)
      | None => go (if done then Asleep else AtFacade) (keep_swarm true t)   (* l.1375-1376 *)
      end
    | AtFacade =>
      match facade t with
      | Ask i q :: r =>
        let (n, a) := on_request (inner t) q in
        tell [(i, Told a)] (with_inner n (with_facade r t))
      | Exit :: r => finish (with_facade r t)
      | [] => if dropped t then finish t                                      (* l.1398 *)
              else go AtRepo (keep_facade true t)
      end
    | AtRepo =>
      match events t with
      | e :: r => with_inner (on_repo (inner t) e) (with_events r t)
      | [] => go (AtSwarm true) (keep_events true t)                          (* l.1575, 1603 *)
      end
    | Asleep | Over => t
    end.

  Inductive op :=
  | Call (q : req)                 (* a method of [Ipfs]: send, then wait at the oneshot *)
  | ExitDaemon                     (* l.1217-1225 *)
  | DropAll                        (* the last [Ipfs] is dropped *)
  | Post (e : rev)                 (* the repo sends an event *)
  | Net (f : node -> node)         (* something happens to the swarm: the network, a timer *)
  | Poll                           (* the runtime polls the task, if it was woken *)
  | Step.                          (* the running poll goes on *)

  Definition apply (t : task) (o : op) : task :=
    match o with
    | Call q =>
      if dropped t then t                                  (* there is no [Ipfs] to call *)
      else match at_ t with
           | Over => with_made (tell [(made t, Gone)] t)   (* [send] fails *)
           | _ => call_facade (with_made (with_facade (facade t ++ [Ask (made t) q]) t))
           end
    | ExitDaemon =>
      if dropped t then t
      else match at_ t with
           | Over => t
           | _ => call_facade (with_facade (facade t ++ [Exit]) t)
           end
    | DropAll => match at_ t with Over => with_dropped t | _ => call_facade (with_dropped t) end
    | Post e => match at_ t with Over => t | _ => call_events (with_events (events t ++ [e]) t) end
    | Net f => match at_ t with Over => t | _ => call_swarm (with_inner (f (inner t)) t) end
    | Poll => match at_ t with Asleep => if woken t then go (AtSwarm false) (with_woken false t) else t | _ => t end
    | Step => step t
    end.

  Definition run (n : node) (h : list op) : task := fold_left apply h (start n).
End Loop.
Arguments message : clear implicits.
Arguments outcome : clear implicits.
Arguments task : clear implicits.
Arguments op : clear implicits.
