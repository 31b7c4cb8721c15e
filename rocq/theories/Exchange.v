(** Nodes exchanging blocks: any number of nodes, each with its repo (GetPut), its bitswap behaviour
    (Bitswap), the channel of repo events, the background task and the tasks spawned for bitswap
    events, and the messages in flight between them as bytes.  The repo is the in-memory one.
    Definitions only.

    One step is one step of one of the parts.  A connection comes and goes at each end by itself
    ([WUp], [WDown]).  Messages travel on substreams of their own, so that they may overtake each
    other ([WDeliver] takes any) and get lost ([WLose]).  Sending an event into the channel never
    waits: every send is on a fresh clone of the sender, which has a slot of its own. *)
From Verif Require Import Base Wire Cid FMap BlockSpec MemBlocks SubsSpec Subs GetPut BitswapMsg Bitswap.
Local Open Scope N_scope.

(** The [Block] of the repo and of bitswap are the same type; the two models have each their own. *)
Definition to_repo (b : block) : BlockSpec.block := BlockSpec.mk_block (b_cid b) (b_data b).
Definition from_repo (b : BlockSpec.block) : block := mk_block (BlockSpec.b_cid b) (BlockSpec.b_data b).

(** src/repo/mod.rs l.339-351 [RepoEvent]; [RemovedBlock] only writes a log line (src/p2p/behaviour.rs
    l.538-542) and is left out.  [NewBlock] without the channel for the answer, which is always an
    error that is ignored (src/lib.rs l.1590, src/repo/mod.rs l.448). *)
Inductive repo_event := EWant (c : cid) | EUnwant (c : cid) | ENew (c : cid).
(** What is left of a spawned or waiting task. *)
Inductive task :=
| TStore (b : block)            (* src/p2p/behaviour.rs l.330-349: put_block of a received block *)
| TServe (p : peer) (c : cid)   (* src/p2p/behaviour.rs l.360-374 *)
| TAnnounce (c : cid).          (* put_block of a new block after finishing, src/repo/mod.rs l.440-446 *)

Record node := mk_node {
  n_bs : bitswap; n_repo : gp;
  n_asked : list nat;           (* the get_block calls which have sent their want *)
  n_chan : list repo_event; n_tasks : list task }.
Definition node0 : node := mk_node bitswap0 gp_init [] [] [].
Definition with_bs b n := mk_node b (n_repo n) (n_asked n) (n_chan n) (n_tasks n).
Definition with_repo r n := mk_node (n_bs n) r (n_asked n) (n_chan n) (n_tasks n).
Definition with_asked l n := mk_node (n_bs n) (n_repo n) l (n_chan n) (n_tasks n).
Definition with_chan l n := mk_node (n_bs n) (n_repo n) (n_asked n) l (n_tasks n).
Definition with_tasks l n := mk_node (n_bs n) (n_repo n) (n_asked n) (n_chan n) l.

Record world := mk_world { w_node : peer -> node; w_net : list (peer * peer * bytes) }.
Definition world0 : world := mk_world (fun _ => node0) [].
Definition set_node (n : peer) (x : node) (w : world) : world :=
  mk_world (fun m => if m =? n then x else w_node w m) (w_net w).

Definition without {A} (i : nat) (l : list A) : list A := firstn i l ++ skipn (S i) l.

Inductive wop :=
| WRepo (n : peer) (a : gact)        (* a step of get_block, put_block, remove_block or shutdown *)
| WAsk (n : peer) (g : nat)          (* get_block [g] sends its want, src/repo/mod.rs l.470-474 *)
| WBack (n : peer)                   (* the background task takes an event, src/lib.rs l.1575-1600 *)
| WTask (n : peer) (i : nat)
| WPoll (n : peer) (order : list peer)   (* the swarm polls bitswap *)
| WUp (n p : peer) | WDown (n p : peer)
| WDeliver (i : nat) | WLose (i : nat)
| WForge (n p : peer) (bs : bytes).  (* peer [p] sends node [n] whatever it likes *)

Section Model.
  Variable hasher : N -> option (bytes -> bytes).
  Variable debug : bool.

  (** The cancel notifications a step of the registry sends, as [UnwantBlock] events (src/subscription.rs
      l.323-328, src/repo/mod.rs l.353-363). *)
  Definition notices (s : gp) (a : gact) : list cid :=
    match a with
    | SubBegin g =>
        match nth_error (gets s) g with
        | Some (Missing c) => unwants (effect_of cid_eqb debug (past s) (Begin c true))
        | _ => []
        end
    | NotifyG g =>
        match nth_error (gets s) g with
        | Some (Gone i) => unwants (effect_of cid_eqb debug (past s) (DropNotify i))
        | _ => []
        end
    | ShutT => unwants (effect_of cid_eqb debug (past s) ShutTake)
    | _ => []
    end.
  (** What is left to do for put_block after finishing: src/repo/mod.rs l.434-446. *)
  Definition announces (s : gp) (a : gact) : list task :=
    match a with
    | FinishPut t =>
        match nth_error (puts s) t with
        | Some (Stored b true) => [TAnnounce (BlockSpec.b_cid b)]
        | _ => []
        end
    | _ => []
    end.
  (** A step of the repo.  The subscription is polled only after the want was sent (l.470-475). *)
  Definition node_repo (x : node) (a : gact) : node * option gout :=
    if match a with PollG g _ => negb (existsb (Nat.eqb g) (n_asked x)) | _ => false end then (x, None)
    else
      let '(r, o) := gstep debug (n_repo x) a in
      (mk_node (n_bs x) r (n_asked x) (n_chan x ++ map EUnwant (notices (n_repo x) a)) (n_tasks x ++ announces (n_repo x) a), Some o).

  (** src/repo/mod.rs l.470-474. *)
  Definition node_ask (x : node) (g : nat) : node :=
    match nth_error (gets (n_repo x)) g with
    | Some (Subscribed c _) =>
        if existsb (Nat.eqb g) (n_asked x) then x
        else with_chan (n_chan x ++ [EWant c]) (with_asked (g :: n_asked x) x)
    | _ => x
    end.

  (** src/lib.rs l.1575-1600 with src/p2p/behaviour.rs l.532-536, without the DHT query. *)
  Definition node_back (x : node) : node :=
    match n_chan x with
    | [] => x
    | EWant c :: r => with_chan r (with_bs (want_block c 1 (n_bs x)) x)
    | EUnwant c :: r | ENew c :: r => with_chan r (with_bs (cancel_block c (n_bs x)) x)
    end.

  (** src/p2p/behaviour.rs l.330-349 (the statistics are left out), l.360-374. *)
  Definition node_task (x : node) (i : nat) : node :=
    match nth_error (n_tasks x) i with
    | None => x
    | Some t =>
        let x := with_tasks (without i (n_tasks x)) x in
        match t with
        | TStore b => with_repo (fst (gstep debug (n_repo x) (StorePut (to_repo b)))) x
        | TServe p c =>
            match mem_get c (store (n_repo x)) with
            | RGet (Some b) => with_bs (with_ready (b_ready (n_bs x) ++ [(p, from_repo b)]) (n_bs x)) x
            | _ => x
            end
        | TAnnounce c => with_chan (n_chan x ++ [ENew c]) x
        end
    end.

  (** The swarm polls the behaviour.  A message for a peer that is not connected is dropped, and so
      is one which does not fit into memory.  src/p2p/behaviour.rs l.325-376: a task is spawned for a
      received block and a received want. *)
  Definition node_poll (n : peer) (x : node) (order : list peer) : node * list (peer * peer * bytes) :=
    let '(b, a) := poll order (n_bs x) in
    let x := with_bs b x in
    match a with
    | Some (Notify p m) =>
        (x, match get_peer p b with
            | Some _ => if blen (to_bytes m) <? u64_max1 then [(n, p, upgrade_outbound m)] else []
            | None => []
            end)
    | Some (Report (ReceivedBlock _ k)) => (with_tasks (n_tasks x ++ [TStore k]) x, [])
    | Some (Report (ReceivedWant p c _)) => (with_tasks (n_tasks x ++ [TServe p c]) x, [])
    | _ => (x, [])
    end.

  (** A stream from peer [p]: what cannot be read is dropped. *)
  Definition node_hear (x : node) (p : peer) (stream : bytes) : node :=
    match upgrade_inbound hasher stream with
    | Some m => match received p m (n_bs x) with Some b => with_bs b x | None => x end
    | None => x
    end.

  Definition is_up (w : world) (n p : peer) : bool :=
    match get_peer p (n_bs (w_node w n)) with Some _ => true | None => false end.

  Definition wstep (w : world) (o : wop) : world * option gout :=
    match o with
    | WRepo n a => let '(x, o) := node_repo (w_node w n) a in (set_node n x w, o)
    | WAsk n g => (set_node n (node_ask (w_node w n) g) w, None)
    | WBack n => (set_node n (node_back (w_node w n)) w, None)
    | WTask n i => (set_node n (node_task (w_node w n) i) w, None)
    | WPoll n order =>
        let '(x, l) := node_poll n (w_node w n) order in
        (set_node n x (mk_world (w_node w) (w_net w ++ l)), None)
    | WUp n p => (set_node n (with_bs (established p (n_bs (w_node w n))) (w_node w n)) w, None)
    | WDown n p => (set_node n (with_bs (closed p (n_bs (w_node w n))) (w_node w n)) w, None)
    | WDeliver i =>
        match nth_error (w_net w) i with
        | Some (p, n, stream) =>
            if is_up w n p
            then (set_node n (node_hear (w_node w n) p stream) (mk_world (w_node w) (without i (w_net w))), None)
            else (w, None)
        | None => (w, None)
        end
    | WLose i => (mk_world (w_node w) (without i (w_net w)), None)
    | WForge n p bs => if is_up w n p then (set_node n (node_hear (w_node w n) p bs) w, None) else (w, None)
    end.
  Definition wrun (h : list wop) : world := fold_left (fun w o => fst (wstep w o)) h world0.
  (** What the last step of a history answers. *)
  Definition wanswer (h : list wop) (o : wop) : option gout := snd (wstep (wrun h) o).
End Model.
