(** Any number of concurrent [put], [get] and [remove] calls for one block on one filesystem block
    store (src/repo/fs/blocks.rs), interleaved at every point where the code can be preempted.
    Definitions only.

    Modelled: the [writes] map (one key), the broadcast channels with capacity one, the blocking
    task of [put] which runs on its own thread and survives dropping the future, every filesystem
    call, failing filesystem calls, dropped futures.  Files are inodes, so that a name can be
    replaced while a file is open.  Not modelled: create_dir_all, other blocks, [contains], [list]. *)
From Verif Require Import Base Wire.
Local Open Scope nat_scope.

(** The blocking closure of [put], l.218-256. *)
Inductive blk :=
| BNot               (* not spawned *)
| BCreate            (* before create_new, l.233 *)
| BOpen              (* before opening the temporary file, l.430 *)
| BWrite (i k : nat) (* inode of the temporary file, bytes written so far, l.436-440 *)
| BRename            (* before rename, l.445 *)
| BUnlink            (* a write failed: before remove_file, l.246 *)
| BOk | BErr         (* Ok(Ok(_)), Ok(Err(_)) *)
| BLost.             (* Err(_): create_new failed *)

(** The future of [put], l.190-332.  [ch] is the channel, [pos] the number of messages it had carried
    when we subscribed. *)
Inductive put_st :=
| PStart
| PWait (ch pos : nat)      (* awaiting the blocking task, l.257 *)
| PReturned (ch pos : nat)  (* after drop(cleanup), l.261 *)
| PRecv (ch pos : nat)      (* lost the race, own sender dropped, awaiting recv, l.298 *)
| PNew | PExisted | PFailed (* answered NewBlock, Existed, an error *)
| PPanic | PDropped.
(** [get], l.143-177. *)
Inductive get_st :=
| GStart
| GWait (ch pos : nat)           (* write_completion awaiting, l.94 *)
| GRead                          (* before opening the file, l.158 *)
| GReading (i : nat) (acc : bytes)
| GDone (r : option bytes)
| GPanic | GDropped.
(** [remove], l.338-357. *)
Inductive rm_st :=
| RStart | RWait (ch pos : nat) | RUnlink | RDone (removed : bool) | RPanic | RDropped.

Inductive task :=
| TPut (a : put_st) (b : blk)
| TGet (g : get_st)
| TRm (r : rm_st).

Record st := mk_st {
  target : option nat;         (* inode of the block file *)
  tmp : option nat;            (* inode of the temporary file *)
  inodes : list bytes;
  writes : option nat;         (* the channel in the writes map *)
  chans : list (list bool);    (* messages sent on each channel: true for Ok(()) *)
  tasks : list task
}.

Inductive label :=
| Go              (* run the future to its next preemption point *)
| Block (n : nat) (* run one call of the blocking task; writes move n+1 bytes at most *)
| Fail            (* run one call of the blocking task; it fails *)
| Drop.           (* drop the future *)

Fixpoint upd {A} (n : nat) (x : A) (l : list A) {struct l} : list A :=
  match l, n with
  | [], _ => []
  | _ :: r, O => x :: r
  | y :: r, S m => y :: upd m x r
  end.

Definition set_task (n : nat) (t : task) (s : st) : st :=
  mk_st (target s) (tmp s) (inodes s) (writes s) (chans s) (upd n t (tasks s)).
Definition set_writes (w : option nat) (s : st) : st :=
  mk_st (target s) (tmp s) (inodes s) w (chans s) (tasks s).
Definition set_target (t : option nat) (s : st) : st :=
  mk_st t (tmp s) (inodes s) (writes s) (chans s) (tasks s).
Definition set_tmp (t : option nat) (s : st) : st :=
  mk_st (target s) t (inodes s) (writes s) (chans s) (tasks s).
Definition set_inodes (l : list bytes) (s : st) : st :=
  mk_st (target s) (tmp s) l (writes s) (chans s) (tasks s).
Definition set_chans (l : list (list bool)) (s : st) : st :=
  mk_st (target s) (tmp s) (inodes s) (writes s) l (tasks s).

Definition inode (s : st) (i : nat) : bytes := nth i (inodes s) [].
Definition messages (s : st) (ch : nat) : list bool := nth ch (chans s) [].

(** A channel is closed when neither the map nor a task holds a sender. *)
Definition holds_tx (ch : nat) (t : task) : bool :=
  match t with
  | TPut (PWait c _) _ | TPut (PReturned c _) _ => c =? ch
  | _ => false
  end.
Definition is_open (s : st) (ch : nat) : bool :=
  match writes s with Some c => c =? ch | None => false end || existsb (holds_tx ch) (tasks s).

(** [broadcast::Receiver::recv] with capacity one. *)
Inductive recv := Blocked | Got (m : bool) | Closed | Lagged.
Definition receive (s : st) (ch pos : nat) : recv :=
  match skipn pos (messages s ch) with
  | [] => if is_open s ch then Blocked else Closed
  | [m] => Got m
  | _ => Lagged
  end.

Definition send (s : st) (ch : nat) (m : bool) : st :=
  set_chans (upd ch (messages s ch ++ [m]) (chans s)) s.

(** write(2) of [chunk] at offset [k]. *)
Definition write_at (k : nat) (chunk c : bytes) : bytes :=
  firstn k (c ++ repeat 0%N k) ++ chunk ++ skipn (k + length chunk) c.

Section Data.
  Variable data : bytes.

  (** One call of the blocking task.  [None]: nothing to run. *)
  Definition blk_step (fail : bool) (n : nat) (s : st) (b : blk) : option (st * blk) :=
    match b with
    | BCreate =>
        if fail then Some (s, BLost) else
        match target s with
        | Some _ => Some (s, BLost)
        | None => Some (set_target (Some (length (inodes s))) (set_inodes (inodes s ++ [[]]) s), BOpen)
        end
    | BOpen =>
        if fail then Some (s, BUnlink) else
        match tmp s with
        | Some i => Some (set_inodes (upd i [] (inodes s)) s, BWrite i 0)
        | None => Some (set_tmp (Some (length (inodes s))) (set_inodes (inodes s ++ [[]]) s), BWrite (length (inodes s)) 0)
        end
    | BWrite i k =>
        if fail then Some (s, BUnlink) else
        match skipn k data with
        | [] => Some (s, BRename)
        | rest =>
            let chunk := firstn (S n) rest in
            Some (set_inodes (upd i (write_at k chunk (inode s i)) (inodes s)) s, BWrite i (k + length chunk))
        end
    | BRename =>
        if fail then Some (s, BUnlink) else
        match tmp s with
        | Some i => Some (set_tmp None (set_target (Some i) s), BOk)
        | None => Some (s, BUnlink)
        end
    | BUnlink => Some (if fail then s else set_target None s, BErr)
    | _ => None
    end.

  (** One step of the future of [put]. *)
  Definition put_step (s : st) (a : put_st) (b : blk) : option (st * task) :=
    match a with
    | PStart =>
        match writes s with
        | Some ch => Some (s, TPut (PWait ch (length (messages s ch))) BCreate)
        | None =>
            let ch := length (chans s) in
            Some (set_writes (Some ch) (set_chans (chans s ++ [[]]) s), TPut (PWait ch 0) BCreate)
        end
    | PWait ch pos =>
        match b with
        | BOk | BErr | BLost => Some (set_writes None s, TPut (PReturned ch pos) b)
        | _ => None
        end
    | PReturned ch pos =>
        match b with
        | BOk => Some (send s ch true, TPut PNew b)
        | BErr => Some (send s ch false, TPut PFailed b)
        | BLost => Some (s, TPut (PRecv ch pos) b)
        | _ => None
        end
    | PRecv ch pos =>
        match receive s ch pos with
        | Blocked => None
        | Got true | Closed => Some (s, TPut PExisted b)
        | Got false => Some (s, TPut PFailed b)
        | Lagged => Some (s, TPut PPanic b)
        end
    | _ => None
    end.

  (** One step of the future of [get]; [n] bounds a read. *)
  Definition get_step (n : nat) (s : st) (g : get_st) : option get_st :=
    match g with
    | GStart =>
        match writes s with
        | Some ch => Some (GWait ch (length (messages s ch)))
        | None => Some GRead
        end
    | GWait ch pos =>
        match receive s ch pos with
        | Blocked => None
        | Got true | Closed => Some GRead
        | Got false => Some (GDone None)
        | Lagged => Some GPanic
        end
    | GRead =>
        match target s with
        | Some i => Some (GReading i [])
        | None => Some (GDone None)
        end
    | GReading i acc =>
        match skipn (length acc) (inode s i) with
        | [] => Some (GDone (Some acc))
        | rest => Some (GReading i (acc ++ firstn (S n) rest))
        end
    | _ => None
    end.

  (** One step of the future of [remove]. *)
  Definition rm_step (s : st) (r : rm_st) : option (st * rm_st) :=
    match r with
    | RStart =>
        match writes s with
        | Some ch => Some (s, RWait ch (length (messages s ch)))
        | None => Some (s, RUnlink)
        end
    | RWait ch pos =>
        match receive s ch pos with
        | Blocked => None
        | Got true | Closed => Some (s, RUnlink)
        | Got false => Some (s, RDone false)
        | Lagged => Some (s, RPanic)
        end
    | RUnlink =>
        match target s with
        | Some _ => Some (set_target None s, RDone true)
        | None => Some (s, RDone false)
        end
    | _ => None
    end.

  (** Dropping a future: the guard removes the key from the map (l.51-63), the senders and receivers
      go away with the task, the blocking task goes on. *)
  Definition drop_step (s : st) (t : task) : option (st * task) :=
    match t with
    | TPut (PWait _ _) b => Some (set_writes None s, TPut PDropped b)
    | TPut PStart b | TPut (PRecv _ _) b => Some (s, TPut PDropped b)
    | TGet (GStart | GWait _ _ | GRead | GReading _ _) => Some (s, TGet GDropped)
    | TRm (RStart | RWait _ _ | RUnlink) => Some (s, TRm RDropped)
    | _ => None
    end.

  Definition task_step (s : st) (t : task) (l : label) : option (st * task) :=
    match l, t with
    | Go, TPut a b => put_step s a b
    | Go, TGet g => option_map (fun g' => (s, TGet g')) (get_step 0 s g)
    | Go, TRm r => option_map (fun p => (fst p, TRm (snd p))) (rm_step s r)
    | Block n, TPut a b => option_map (fun p => (fst p, TPut a (snd p))) (blk_step false n s b)
    | Block n, TGet g => option_map (fun g' => (s, TGet g')) (get_step n s g)
    | Fail, TPut a b => option_map (fun p => (fst p, TPut a (snd p))) (blk_step true 0 s b)
    | Drop, _ => drop_step s t
    | _, _ => None
    end.

  (** The scheduler picks a task and what it does; choices that are not possible change nothing. *)
  Definition step (s : st) (c : nat * label) : st :=
    match nth_error (tasks s) (fst c) with
    | Some t =>
        match task_step s t (snd c) with
        | Some (s', t') => set_task (fst c) t' s'
        | None => s
        end
    | None => s
    end.
  Definition run (s : st) (sched : list (nat * label)) : st := fold_left step sched s.
End Data.

(** The calls at the start: puts, gets and removes not yet begun. *)
Inductive kind := KPut | KGet | KRemove.
Definition fresh (k : kind) : task :=
  match k with KPut => TPut PStart BNot | KGet => TGet GStart | KRemove => TRm RStart end.
(** The store holds nothing, or already the block; a temporary file may be left over. *)
Definition start (data : bytes) (present : bool) (leftover : option bytes) (calls : list kind) : st :=
  mk_st (if present then Some 0 else None)
        (match leftover with Some _ => Some 1 | None => None end)
        [if present then data else []; match leftover with Some l => l | None => [] end]
        None [] (map fresh calls).
