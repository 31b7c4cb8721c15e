(** Starting nodes over a directory: [UninitializedIpfs::start] (src/lib.rs l.346-408), [Repo::new] and
    [Repo::init] (src/repo/mod.rs l.367-412), [FsLock] (src/repo/fs.rs l.86-126) and the [init] of
    [FsBlockStore] (src/repo/fs/blocks.rs l.117-120) and [FsDataStore] (src/repo/fs.rs l.54-57).
    Definitions only.

    Any number of nodes, in any processes, over one directory.  The lock is that of flock(2): it is on the
    inode and belongs to the open file, and is gone with it.  A directory being made when [start] is cancelled
    may still be made: [MakeDir].  Neither the sled store nor the in-memory types, which have no lock.  Which system calls fail is an argument, apart
    from those which fail because there is no directory. *)
From Verif Require Import Base.

(** [LockError], src/repo/mod.rs l.146-149, and what else [start] fails with. *)
Inductive start_error := RepoInUse | LockFileOpenFailed | BlockStoreFailed | DataStoreFailed | SwarmFailed.

(** Where a node is: configured; in [join] of the two [init]s, with their results; in [create_swarm]; started,
    with so many values of [Ipfs], whether there is the background task, and so many tasks spawned by it which
    have the repo; or there is nothing left of it. *)
Inductive phase :=
| Configured
| Initializing (blocks data : option bool)
| Swarming
| Up (handles : nat) (task : bool) (jobs : nat)
| Gone.

Record world := mk_world {
  dir : bool;                       (* the directory is there *)
  blocks_dir : bool; pins_dir : bool;   (* blockstore and datastore/pins in it *)
  lock_file : option N;             (* the inode of repo_lock *)
  next_inode : N;
  locks : list (nat * N);           (* whose file has the lock on which inode *)
  nodes : nat -> phase }.
Definition init (d : bool) : world := mk_world d false false None 0 [] (fun _ => Configured).

Inductive op :=
| TryLock (i : nat) (fault : bool)          (* start is called, l.375 up to the lock *)
| InitBlocks (i : nat) (fault : bool)
| InitData (i : nat) (fault : bool)
| Joined (i : nat)                          (* both have ended *)
| CreateSwarm (i : nat) (fault : bool)
| Cancel (i : nat)                          (* the future of start is dropped *)
| Clone (i : nat) | DropHandle (i : nat)    (* of [Ipfs]; exit_daemon drops its one, too *)
| EndTask (i : nat)                         (* the background task ends or is dropped *)
| Spawn (i : nat) | EndJob (i : nat)        (* src/p2p/behaviour.rs l.328, l.356 *)
| Kill (i : nat)                            (* the process *)
| MakeDir | RemoveLock | RemoveDir.         (* by anybody else *)
Inductive out := Silent | Locked | Refused (e : start_error) | Started | Freed.

Definition set (i : nat) (p : phase) (m : nat -> phase) : nat -> phase := fun j => if Nat.eqb j i then p else m j.
Definition with_phase (i : nat) (p : phase) (w : world) : world :=
  mk_world (dir w) (blocks_dir w) (pins_dir w) (lock_file w) (next_inode w) (locks w) (set i p (nodes w)).
(** The last [Arc] of the repo is dropped, and with it the lock file is closed. *)
Definition gone (i : nat) (w : world) : world :=
  mk_world (dir w) (blocks_dir w) (pins_dir w) (lock_file w) (next_inode w) (filter (fun x => negb (Nat.eqb (fst x) i)) (locks w)) (set i Gone (nodes w)).
Definition is_locked (n : N) (w : world) : bool := existsb (fun x => N.eqb n (snd x)) (locks w).
(** Up, unless nothing has the repo any more. *)
Definition after (i : nat) (handles : nat) (task : bool) (jobs : nat) (w : world) : world * out :=
  match handles, task, jobs with
  | O, false, O => (gone i w, Freed)
  | _, _, _ => (with_phase i (Up handles task jobs) w, Silent)
  end.

(** [None]: the step cannot happen. *)
Definition step (w : world) (o : op) : option (world * out) :=
  match o with
  | TryLock i fault =>
      match nodes w i with
      | Configured =>
          if fault || negb (dir w) then Some (gone i w, Refused LockFileOpenFailed)
          else
            (* [OpenOptions::create] *)
            let n := match lock_file w with Some n => n | None => next_inode w end in
            let w' := mk_world (dir w) (blocks_dir w) (pins_dir w) (Some n) (match lock_file w with Some _ => next_inode w | None => N.succ (next_inode w) end) (locks w) (nodes w) in
            if is_locked n w then Some (gone i w', Refused RepoInUse)
            else Some (mk_world (dir w') (blocks_dir w') (pins_dir w') (lock_file w') (next_inode w') ((i, n) :: locks w') (set i (Initializing None None) (nodes w')), Locked)
      | _ => None
      end
  | InitBlocks i fault =>
      match nodes w i with
      | Initializing None d =>
          (* [create_dir_all] *)
          if fault then Some (with_phase i (Initializing (Some false) d) w, Silent)
          else Some (mk_world true true (pins_dir w) (lock_file w) (next_inode w) (locks w) (set i (Initializing (Some true) d) (nodes w)), Silent)
      | _ => None
      end
  | InitData i fault =>
      match nodes w i with
      | Initializing b None =>
          if fault then Some (with_phase i (Initializing b (Some false)) w, Silent)
          else Some (mk_world true (blocks_dir w) true (lock_file w) (next_inode w) (locks w) (set i (Initializing b (Some true)) (nodes w)), Silent)
      | _ => None
      end
  | Joined i =>
      match nodes w i with
      | Initializing (Some b) (Some d) =>
          if negb b then Some (gone i w, Refused BlockStoreFailed)
          else if negb d then Some (gone i w, Refused DataStoreFailed)
          else Some (with_phase i Swarming w, Silent)
      | _ => None
      end
  | CreateSwarm i fault =>
      match nodes w i with
      | Swarming => if fault then Some (gone i w, Refused SwarmFailed) else Some (with_phase i (Up 1 true 0) w, Started)
      | _ => None
      end
  | Cancel i =>
      match nodes w i with
      | Configured | Initializing _ _ | Swarming => Some (gone i w, Freed)
      | _ => None
      end
  | Clone i => match nodes w i with Up (S h) t j => Some (with_phase i (Up (S (S h)) t j) w, Silent) | _ => None end
  | DropHandle i => match nodes w i with Up (S h) t j => Some (after i h t j w) | _ => None end
  | EndTask i => match nodes w i with Up h true j => Some (after i h false j w) | _ => None end
  | Spawn i => match nodes w i with Up h true j => Some (with_phase i (Up h true (S j)) w, Silent) | _ => None end
  | EndJob i => match nodes w i with Up h t (S j) => Some (after i h t j w) | _ => None end
  | Kill i => match nodes w i with Gone => None | _ => Some (gone i w, Freed) end
  | MakeDir => Some (mk_world true (blocks_dir w) (pins_dir w) (lock_file w) (next_inode w) (locks w) (nodes w), Silent)
  | RemoveLock => Some (mk_world (dir w) (blocks_dir w) (pins_dir w) None (next_inode w) (locks w) (nodes w), Silent)
  | RemoveDir => Some (mk_world false false false None (next_inode w) (locks w) (nodes w), Silent)
  end.

Fixpoint run (w : world) (h : list op) : option (world * list (op * out)) :=
  match h with
  | [] => Some (w, [])
  | o :: h =>
      match step w o with
      | None => None
      | Some (w, a) => option_map (fun r => (fst r, (o, a) :: snd r)) (run w h)
      end
  end.
