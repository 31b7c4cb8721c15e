(** The filesystem block store (src/repo/fs/blocks.rs), one call at a time, with crashes and write
    failures at every point of [put].  The concurrent protocol is in FsConc.v.  Definitions only.

    The filesystem is a map from paths to contents; its operations are atomic, which is what POSIX
    gives a process: a crash here is the process stopping, not the machine losing unsynced directory
    entries (the code does not sync directories, l.229, l.447).  Directories are not modelled:
    [create_dir_all] (l.231) succeeds. *)
From Verif Require Import Base Wire Cid FMap BlockSpec FsPaths.

Definition fs := list (path * bytes).
Definition fs_get (p : path) (f : fs) : option bytes := mget path_eqb p f.

(** The filesystem calls [put] makes. *)
Inductive fstep :=
| CreateNew (p : path)             (* OpenOptions create_new, l.233-236, on an absent path *)
| OpenTrunc (p : path)             (* create + truncate, l.430-434 *)
| Append (p : path) (chunk : bytes)(* one write(2) of write_all, l.436 *)
| Rename (from to : path)          (* l.445 *)
| Unlink (p : path).               (* remove_file, l.246, l.347 *)

Definition fs_exec (f : fs) (s : fstep) : fs :=
  match s with
  | CreateNew p => mset path_eqb p [] f
  | OpenTrunc p => mset path_eqb p [] f
  | Append p c => mset path_eqb p (match fs_get p f with Some o => o ++ c | None => c end) f
  | Rename a b =>
      match fs_get a f with
      | Some o => mset path_eqb b o (mdel path_eqb a f)
      | None => f
      end
  | Unlink p => mdel path_eqb p f
  end.

(** [target_path.with_extension("tmp")], l.238. *)
Definition temp_of (p : path) : path := set_extension ext_tmp p.

(** The successful path of the blocking part of [put], l.231-243 and l.422-450, for data arriving in
    the given chunks. *)
Definition put_steps (p : path) (chunks : list bytes) : list fstep :=
  [CreateNew p; OpenTrunc (temp_of p)] ++ map (Append (temp_of p)) chunks ++ [Rename (temp_of p) p].

(** What can happen to the store between two restarts, and restarting. *)
Inductive event :=
| Call (o : bop)                           (* a call on a healthy filesystem *)
| Reopen                                   (* a new FsBlockStore on the same directory *)
| CrashInPut (b : block) (chunks : list bytes) (n : nat)
    (* the process stops after [n] steps of a put and the store is reopened *)
| FailInPut (b : block) (chunks : list bytes) (n : nat)
    (* the step after the first [n + 1] steps of a put fails (e.g. no space left) *)
| FailCreate (b : block).                  (* creating the target file fails *)

Inductive answer := Answer (r : bresp) | AError | ANone | APanic.

Section Store.
  (** Decoding of multibase prefixes other than base32 and base58btc. *)
  Variable other_base : N -> bytes -> option bytes.

  (** [put], l.179-336, alone: when the target exists, [create_new] fails, the channel is closed and
      the answer is [Existed] (l.289-321). *)
  Definition fs_put (b : block) (chunks : list bytes) (f : fs) : fs * answer :=
    match block_path (b_cid b) with
    | Ok p =>
        match fs_get p f with
        | Some _ => (f, Answer (RPut (b_cid b) false))
        | None => (fold_left fs_exec (put_steps p chunks) f, Answer (RPut (b_cid b) true))
        end
    | _ => (f, APanic)
    end.
  (** The process stops inside [put]. *)
  Definition fs_put_crash (b : block) (chunks : list bytes) (n : nat) (f : fs) : fs * answer :=
    match block_path (b_cid b) with
    | Ok p =>
        match fs_get p f with
        | Some _ => (f, ANone)
        | None => (fold_left fs_exec (firstn n (put_steps p chunks)) f, ANone)
        end
    | _ => (f, APanic)
    end.
  (** A write after creating the target fails: the target is removed (l.245-254) and the error
      returned (l.278-288). *)
  Definition fs_put_fail (b : block) (chunks : list bytes) (n : nat) (f : fs) : fs * answer :=
    match block_path (b_cid b) with
    | Ok p =>
        match fs_get p f with
        | Some _ => (f, Answer (RPut (b_cid b) false))
        | None =>
            (* the final step does not count as executed *)
            let done := firstn (S n) (removelast (put_steps p chunks)) in
            (fs_exec (fold_left fs_exec done f) (Unlink p), AError)
        end
    | _ => (f, APanic)
    end.
  (** Creating the target fails for another reason than existing: same arm as an existing block,
      l.289-321. *)
  Definition fs_put_no_create (b : block) (f : fs) : fs * answer :=
    match block_path (b_cid b) with
    | Ok p => (f, Answer (RPut (b_cid b) false))
    | _ => (f, APanic)
    end.

  (** [get], l.143-177, nobody writing: the block carries the cid asked for. *)
  Definition fs_get_block (c : cid) (f : fs) : answer :=
    match block_path c with
    | Ok p => Answer (RGet (option_map (mk_block c) (fs_get p f)))
    | _ => APanic
    end.
  (** [contains], l.128-141. *)
  Definition fs_contains (c : cid) (f : fs) : answer :=
    match block_path c with
    | Ok p => Answer (RContains (is_some (fs_get p f)))
    | _ => APanic
    end.
  (** [remove], l.338-357. *)
  Definition fs_remove (c : cid) (f : fs) : fs * answer :=
    match block_path c with
    | Ok p =>
        match fs_get p f with
        | Some _ => (fs_exec f (Unlink p), Answer (RRemove c true))
        | None => (f, Answer (RRemove c false))
        end
    | _ => (f, APanic)
    end.
  (** [list], l.359-415. *)
  Fixpoint fs_list_names (names : list path) : list cid :=
    match names with
    | [] => []
    | p :: r =>
        match listed_block other_base (snd p) with
        | Some c => c :: fs_list_names r
        | None => fs_list_names r
        end
    end.
  Definition fs_list (f : fs) : answer := Answer (RList (fs_list_names (mkeys f))).

  Definition fs_call (f : fs) (o : bop) : fs * answer :=
    match o with
    | Put b => fs_put b [b_data b] f
    | Get c => (f, fs_get_block c f)
    | Contains c => (f, fs_contains c f)
    | Remove c => fs_remove c f
    | ListAll => (f, fs_list f)
    end.
  Definition fs_event (f : fs) (e : event) : fs * answer :=
    match e with
    | Call o => fs_call f o
    | Reopen => (f, ANone)
    | CrashInPut b cs n => fs_put_crash b cs n f
    | FailInPut b cs n => fs_put_fail b cs n f
    | FailCreate b => fs_put_no_create b f
    end.
  Definition fs_run (h : list event) : fs := fold_left (fun f e => fst (fs_event f e)) h [].
End Store.
