(** The parts of [std::path] (Unix) that the walker and the tar writer use: [PathBuf::push],
    [PathBuf::pop] and [Path::ancestors().count()], on the bytes of the path.  This is the Rust
    standard library, not /repo; it is modelled because the walker edits one [PathBuf] in place
    (unixfs/src/walk.rs l.396-421, l.470-487).  Definitions only. *)
From Verif Require Import Base IpfsPath.
Local Open Scope N_scope.

(** Segments that [Path::components] drops: empty ones and "." (a leading "." of a relative path is
    kept, see below). *)
Definition dropped (s : bytes) : bool := beq s [] || beq s [46].

Definition is_absolute (p : bytes) : bool := match p with c :: _ => c =? 47 | [] => false end.

(** The components of a path, without the root: all segments but the dropped ones; a leading "." of
    a relative path counts. *)
Definition comps (p : bytes) : list bytes :=
  match split_slash p with
  | [] => []
  | s0 :: rest =>
      let tail := filter (fun s => negb (dropped s)) rest in
      if is_absolute p then tail else if beq s0 [] then tail else s0 :: tail
  end.

(** [Path::ancestors().count()]: the path itself and every parent. *)
Definition ancestors (p : bytes) : nat := S (length (comps p)).

(** Remove dropped segments from the front of a list. *)
Fixpoint trim (l : list bytes) : list bytes :=
  match l with
  | s :: r => if dropped s then trim r else l
  | [] => []
  end.

(** [Path::parent], a prefix of the path: the last component goes, with what follows it and the
    dropped segments in front of it. *)
Definition parent (p : bytes) : option bytes :=
  match split_slash p with
  | [] => None
  | s0 :: rest =>
      match trim (rev rest) with
      | [] => if is_absolute p then None else if beq s0 [] then None else Some []
      | _ :: before =>
          match rev (trim before) with
          | [] => if is_absolute p then Some [47] else Some s0
          | front => Some (join (s0 :: front))
          end
      end
  end.

(** [PathBuf::push]: an absolute name replaces the path. *)
Definition push (p name : bytes) : bytes :=
  if is_absolute name then name
  else match rev p with
       | [] => name
       | c :: _ => if c =? 47 then p ++ name else p ++ 47 :: name
       end.
