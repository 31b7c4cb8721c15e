(** Requests with a timeout: http/src/v0/support/timeout.rs and the endpoints which use it,
    http/src/v0/block.rs l.28-42 and l.227-243, dag.rs l.124-150, root_files.rs l.58-90 and l.103-128,
    refs.rs l.52-56.  Definitions only.

    A request is a computation which waits for blocks: [Ipfs::get_block] is ready when the store has
    the block.  (That it fails when the node is shut down is left out, and so are options and the texts of
    errors: they are in [HttpBlock], [Cat], [RefsHttp] and [Endpoints].)  Time is a number without
    bound; the sum of now and the timeout is assumed to be representable. *)
From Verif Require Import Base Wire Cid Pb Ipld IpfsPath DirLookup FileVisit Resolve Cat Walk.
Local Open Scope N_scope.

Definition store : Type := cid -> option bytes.

(** A future: done, waiting for a block, or (out of fuel) going on for longer than the fuel says. *)
Inductive task (A : Type) : Type := Done (a : A) | Load (c : cid) (k : bytes -> task A) | Endless.
Arguments Done {A} a. Arguments Load {A} c k. Arguments Endless {A}.
Fixpoint bind {A B} (t : task A) (f : A -> task B) : task B :=
  match t with Done a => f a | Load c k => Load c (fun b => bind (k b) f) | Endless => Endless end.

(** One poll of the future itself: it goes on as long as the blocks are there. *)
Fixpoint advance {A} (get : store) (t : task A) : task A :=
  match t with
  | Load c k => match get c with Some b => advance get (k b) | None => t end
  | t => t
  end.

(** timeout.rs l.20-40: [tokio::time::timeout], which polls the future first and then looks at the
    clock, or no timeout at all.  [deadline]: when the timeout given ends. *)
Inductive result (A : Type) : Type := Answer (a : A) | Elapsed.
Arguments Answer {A} a. Arguments Elapsed {A}.
Inductive polled (A : Type) : Type := Ready (r : result A) | Pending (t : task A) | Hangs.
Arguments Ready {A} r. Arguments Pending {A} t. Arguments Hangs {A}.
Definition poll {A} (deadline : option N) (now : N) (get : store) (t : task A) : polled A :=
  match advance get t with
  | Done a => Ready (Answer a)
  | Endless => Hangs
  | t' => match deadline with
          | Some d => if d <=? now then Ready Elapsed else Pending t'
          | None => Pending t'
          end
  end.

(** The request is looked at by the executor now and then: at which times, and with which blocks in
    the store. *)
Inductive served (A : Type) : Type := Answered (now : N) (r : result A) | Waiting (t : task A) | Hung (now : N).
Arguments Answered {A} now r. Arguments Waiting {A} t. Arguments Hung {A} now.
Fixpoint serve {A} (deadline : option N) (looks : list (N * store)) (t : task A) : served A :=
  match looks with
  | [] => Waiting t
  | (now, get) :: r =>
      match poll deadline now get t with
      | Ready x => Answered now x
      | Hangs => Hung now
      | Pending t => serve deadline r t
      end
  end.

(** * The endpoints, up to the head of the response *)

(** /block/get and /block/stat: [Ipfs::get_block]. *)
Definition block_task (c : cid) : task bytes := Load c Done.

Section Tasks.
  Variable decode : cid -> bytes -> outcome ipld unit.

  (** [resolve_hamt], src/dag.rs l.320-339: [DirLookup.walk_shards] as a future. *)
  Fixpoint shards_task (fuel : nat) (queue : list cid) (needle : bytes) (ca : cache) : task (outcome (cid * cache) DirLookup.walk_err) :=
    match queue with
    | [] => Done Panic
    | next :: _ =>
        match fuel with
        | O => Endless
        | S fuel =>
            Load next (fun b =>
              match continue_walk queue needle b ca with
              | Ok (NeedToLoadMore q, ca) => shards_task fuel q needle ca
              | Ok (Found c, ca) => Done (Ok (c, ca))
              | Ok (NotFound, _) => Done (Err KeyNotFound)
              | Err e => Done (Err (LookupE e))
              | Panic => Done Panic
              end)
        end
    end.
  (** [resolve0], src/dag.rs l.266-316: [Resolve.resolve0] as a future. *)
  Fixpoint resolve_task (fuel hfuel : nat) (current : cid) (segs : list seg) (follow : bool) (total : nat) (ca : cache)
    : task (outcome (node * nat) raw_err) :=
    match fuel with
    | O => Endless
    | S fuel =>
        Load current (fun data =>
          let next src dest rest total ca :=
            if follow then resolve_task fuel hfuel dest rest follow total ca else Done (Ok (NLink src dest, total)) in
          match resolve_local decode current data segs ca with
          | Err e => Done (Err (add_start total e))
          | Panic => Done Panic
          | Ok (Complete (NLink src dest), matched, rest, ca) => next src dest rest (total + matched)%nat ca
          | Ok (Incomplete src q needle, matched, rest, ca) =>
              bind (shards_task hfuel q needle ca) (fun r =>
                match r with
                | Ok (dest, ca) => next src dest rest (total + matched)%nat ca
                | Err _ => Done (Err (RUnsupported src))
                | Panic => Done Panic
                end)
          | Ok (Complete other, _, _, _) => Done (Ok (other, total))
          end)
    end.
  (** [IpldDag::resolve], l.227-263, for a path with a cid root. *)
  Definition shifted (path : list seg) (o : outcome (node * nat) raw_err) : outcome (node * list seg) resolve_err :=
    match o with
    | Ok (n, k) => if (k <=? length path)%nat then Ok (n, skipn k path) else Panic
    | Err e => with_path path e
    | Panic => Panic
    end.
  (** /dag/resolve. *)
  Definition dag_task (fuel hfuel : nat) (root : cid) (path : list seg) (follow : bool) : task (outcome (node * list seg) resolve_err) :=
    bind (resolve_task fuel hfuel root path follow 0 None) (fun o => Done (shifted path o)).
  (** /cat: [unixfs::cat] up to the stream (src/unixfs/cat.rs l.19-70): the first piece, and what is
      left to visit. *)
  Definition cat_task (fuel hfuel : nat) (root : cid) (path : list seg) (range : option range)
    : task (outcome (bytes * option visit) traversal_failed) :=
    bind (dag_task fuel hfuel root path true) (fun o =>
      Done (match o with
            | Panic => Panic
            | Err e => Err (Resolving e)
            | Ok (n, _) =>
                match into_unixfs_block n with
                | Panic => Panic
                | Err u => Err (BadPath u)
                | Ok (c, data) =>
                    match visit_start range data with
                    | Panic => Panic
                    | Err e => Err (Walking c e)
                    | Ok (b, _, _, v) => Ok (b, v)
                    end
                end
            end)).
  (** /get: [resolve_dagpb], root_files.rs l.119-128: the root block, or an error. *)
  Definition get_task (fuel hfuel : nat) (root : cid) (path : list seg) : task (outcome (cid * bytes) traversal_failed) :=
    bind (dag_task fuel hfuel root path true) (fun o =>
      Done (match o with
            | Panic => Panic
            | Err e => Err (Resolving e)
            | Ok (n, _) => match into_unixfs_block n with Ok x => Ok x | Err u => Err (BadPath u) | Panic => Panic end
            end)).
  (** /refs: the paths, refs.rs l.138-167, here one after the other (they are resolved at the same time);
      the first error ends it. *)
  Fixpoint refs_task (fuel hfuel : nat) (paths : list (cid * list seg)) : task (outcome (list node) resolve_err) :=
    match paths with
    | [] => Done (Ok [])
    | (root, path) :: r =>
        bind (dag_task fuel hfuel root path true) (fun o =>
          match o with
          | Panic => Done Panic
          | Err e => Done (Err e)
          | Ok (n, _) =>
              bind (refs_task fuel hfuel r) (fun o => Done (match o with Ok l => Ok (n :: l) | Err e => Err e | Panic => Panic end))
          end)
    end.
End Tasks.

(** * The bodies, which are not under the timeout *)

(** /cat, cat.rs l.82-115: the rest of the file, when it is there. *)
Fixpoint cat_body (fuel : nat) (v : visit) : task (outcome bytes file_error) :=
  match fuel with
  | O => Endless
  | S fuel =>
      match next_link v with
      | None => Done Panic
      | Some next =>
          Load next (fun data =>
            match visit_continue v data with
            | Panic => Done Panic
            | Err e => Done (Err e)
            | Ok (b, None) => Done (Ok b)
            | Ok (b, Some v) => bind (cat_body fuel v) (fun o => Done (match o with Ok l => Ok (b ++ l) | other => other end))
            end)
      end
  end.
(** /get, root_files.rs l.145-158: the walk, of which the first block is at hand. *)
Fixpoint get_body (dbg : bool) (fuel : nat) (first : option bytes) (w : walker) : task walk_end :=
  if w_continue w then
    match fuel with
    | O => Endless
    | S fuel =>
        let go b := match walk_next dbg w b with
                    | Err e => Done (Failed e)
                    | Panic => Done Walk.Panicked
                    | Ok (w, _) => get_body dbg fuel None w
                    end in
        match first with
        | Some b => go b
        | None => match first_pending w with None => Done Walk.Panicked | Some c => Load c go end
        end
    end
  else Done Walk.Done.
