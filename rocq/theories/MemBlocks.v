(** The in-memory block store (src/repo/mem.rs l.27-92).  Every method runs under the mutex, so a
    history of completed calls is a sequence.  Definitions only. *)
From Verif Require Import Base Wire Cid FMap BlockSpec.

(** [RepoCid], src/repo/mod.rs l.59-75: a cid compared by its multihash. *)
Definition repo_cid_eqb (a b : cid) : bool := mh_eqb (cid_hash a) (cid_hash b).

(** [MemBlockStore], l.27-29. *)
Definition mem_store := list (cid * block).
Definition mem_new : mem_store := [].

(** [put], l.62-77: an occupied entry is left alone and keeps its key. *)
Definition mem_put (b : block) (m : mem_store) : mem_store * bresp :=
  match mget repo_cid_eqb (b_cid b) m with
  | Some _ => (m, RPut (b_cid b) false)
  | None => ((b_cid b, b) :: m, RPut (b_cid b) true)
  end.
(** [get], l.52-60. *)
Definition mem_get (c : cid) (m : mem_store) : bresp := RGet (mget repo_cid_eqb c m).
(** [contains], l.43-50. *)
Definition mem_contains (c : cid) (m : mem_store) : bresp :=
  RContains (is_some (mget repo_cid_eqb c m)).
(** [remove], l.79-84. *)
Definition mem_remove (c : cid) (m : mem_store) : mem_store * bresp :=
  match mget repo_cid_eqb c m with
  | Some _ => (mdel repo_cid_eqb c m, RRemove c true)
  | None => (m, RRemove c false)
  end.
(** [list], l.86-89. *)
Definition mem_list (m : mem_store) : bresp := RList (map fst m).

Definition mem_step (m : mem_store) (o : bop) : mem_store * bresp :=
  match o with
  | Put b => mem_put b m
  | Get c => (m, mem_get c m)
  | Contains c => (m, mem_contains c m)
  | Remove c => mem_remove c m
  | ListAll => (m, mem_list m)
  end.
(** The state after a history, oldest call first. *)
Definition mem_run (h : list bop) : mem_store := fold_left (fun m o => fst (mem_step m o)) h mem_new.
