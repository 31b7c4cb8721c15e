(** What is relied on about a directory with nodes: specification for [RepoLock]. *)
From Verif Require Import Base RepoLock.

(** A node has the directory from the moment [start] got past the lock to the end of all there is of it. *)
Definition has (p : phase) : Prop := match p with Configured | Gone => False | _ => True end.
(** The same from what was observed: it was locked and neither refused nor freed since. *)
Definition who (o : op) : option nat :=
  match o with
  | TryLock i _ | InitBlocks i _ | InitData i _ | Joined i | CreateSwarm i _ | Cancel i | Clone i | DropHandle i
  | EndTask i | Spawn i | EndJob i | Kill i => Some i
  | _ => None
  end.
Fixpoint has_after (i : nat) (before : bool) (t : list (op * out)) : bool :=
  match t with
  | [] => before
  | (o, a) :: t =>
      has_after i (match who o with
                   | Some j => if Nat.eqb j i then match a with Locked => true | Refused _ | Freed => false | _ => before end else before
                   | None => before
                   end) t
  end.
(** Nobody else removes the lock file, or the directory. *)
Definition untouched (h : list op) : Prop := forall o, In o h -> o <> RemoveLock /\ o <> RemoveDir.
(** The values of [Ipfs] there are since the node was started, and the tasks. *)
Definition balance (plus minus : op -> bool) (t : list (op * out)) : nat :=
  (length (filter plus (map fst t)) - length (filter minus (map fst t)))%nat.
Definition is_clone (i : nat) (o : op) : bool := match o with Clone j => Nat.eqb j i | CreateSwarm j false => Nat.eqb j i | _ => false end.
Definition is_drop (i : nat) (o : op) : bool := match o with DropHandle j => Nat.eqb j i | _ => false end.
Definition is_spawn (i : nat) (o : op) : bool := match o with Spawn j => Nat.eqb j i | _ => false end.
Definition is_done (i : nat) (o : op) : bool := match o with EndJob j => Nat.eqb j i | _ => false end.
(** Anything at all that holds on to the repo of a started node. *)
Definition referred (i : nat) (t : list (op * out)) : Prop :=
  (0 < balance (is_clone i) (is_drop i) t)%nat \/ ~ In (EndTask i) (map fst t) \/ (0 < balance (is_spawn i) (is_done i) t)%nat.
