(** Specification of a block store: what is stored after a history of calls. *)
From Verif Require Import Base Wire Cid FMap.

(** [Block] (bitswap/src/block.rs): a cid and bytes. *)
Record block := mk_block { b_cid : cid; b_data : bytes }.

(** The calls of the [BlockStore] trait (src/repo/mod.rs l.103-124) and their answers. *)
Inductive bop :=
| Put (b : block) | Get (c : cid) | Contains (c : cid) | Remove (c : cid) | ListAll.
Inductive bresp :=
| RPut (c : cid) (is_new : bool)
| RGet (b : option block)
| RContains (yes : bool)
| RRemove (c : cid) (found : bool)
| RList (cs : list cid).

Definition is_some {A} (o : option A) : bool := match o with Some _ => true | None => false end.

Section Spec.
  (** The store distinguishes blocks by a key computed from the cid. *)
  Context {K : Type}.
  Variable key : cid -> K.
  Variable keq : K -> K -> bool.

  (** The block stored under a key after the calls [past] (latest call first): the first one put
      since the last removal. *)
  Fixpoint stored (past : list bop) (k : K) : option block :=
    match past with
    | [] => None
    | Put b :: p =>
        match stored p k with
        | Some x => Some x
        | None => if keq (key (b_cid b)) k then Some b else None
        end
    | Remove c :: p => if keq (key c) k then None else stored p k
    | _ :: p => stored p k
    end.
End Spec.
