(** Specification of a pin store: what is pinned after a history of accepted calls. *)
From Verif Require Import Base Wire Cid FMap BlockSpec.

(** A stream of references ([References], src/repo/mod.rs l.192): cids, then the end or an error. *)
Record refs := mk_refs { items : list cid; broken : bool }.

(** The calls of the [PinStore] trait which change it (src/repo/mod.rs l.195-231). *)
Inductive pop :=
| PinDirect (c : cid)
| PinRec (c : cid) (r : refs)
| UnpinDirect (c : cid)
| UnpinRec (c : cid) (r : refs).

(** [PinMode], src/repo/mod.rs l.239-244. *)
Inductive mode := Indirect | Direct | Recursive.
Definition mode_eqb (a b : mode) : bool :=
  match a, b with
  | Indirect, Indirect | Direct, Direct | Recursive, Recursive => true
  | _, _ => false
  end.
(** [PinKind], src/repo/mod.rs l.293-298, and the comparison with a mode, l.279-289. *)
Inductive pkind := KIndirect (root : cid) | KDirect | KRecursive (n : N) | KIntent.
Definition kind_mode (k : pkind) : mode :=
  match k with KIndirect _ => Indirect | KDirect => Direct | _ => Recursive end.
(** [PinModeRequirement::matches], src/repo/mod.rs l.262-269. *)
Definition req_matches (req : option mode) (m : mode) : bool :=
  match req with Some one => mode_eqb m one | None => true end.

(** * What the accepted calls [past] (latest first) leave pinned *)

(** The references recorded for a recursively pinned cid. *)
Fixpoint recursive (past : list pop) (c : cid) : option (list cid) :=
  match past with
  | [] => None
  | PinRec t r :: p => if cid_eqb c t then Some (items r) else recursive p c
  | UnpinRec t _ :: p => if cid_eqb c t then None else recursive p c
  | _ :: p => recursive p c
  end.
(** A recursive pin replaces a direct one, and unpinning recursively removes both. *)
Fixpoint direct (past : list pop) (c : cid) : bool :=
  match past with
  | [] => false
  | PinDirect t :: p => if cid_eqb c t then true else direct p c
  | UnpinDirect t :: p | PinRec t _ :: p | UnpinRec t _ :: p => if cid_eqb c t then false else direct p c
  end.
(** Cids that were recursively pinned at some time. *)
Fixpoint roots (past : list pop) : list cid :=
  match past with
  | [] => []
  | PinRec t _ :: p => t :: roots p
  | _ :: p => roots p
  end.
(** [c] is recorded as a reference of the recursively pinned [root]. *)
Definition refers (past : list pop) (root c : cid) : bool :=
  match recursive past root with Some rs => existsb (cid_eqb c) rs | None => false end.
Definition indirect (past : list pop) (c : cid) : bool := existsb (fun root => refers past root c) (roots past).

Definition pinned (past : list pop) (c : cid) : bool :=
  is_some (recursive past c) || direct past c || indirect past c.
(** The modes in which a cid is pinned. *)
Definition pinned_as (past : list pop) (c : cid) (m : mode) : bool :=
  match m with
  | Recursive => is_some (recursive past c)
  | Direct => direct past c
  | Indirect => indirect past c
  end.
(** The mode shown for a cid pinned in several: the first of an order. *)
Definition shown (order : list mode) (past : list pop) (c : cid) : option mode := find (pinned_as past c) order.
(** A query's answer for a cid is true: the root named for an indirect pin refers to it ([norm] is how
    the store writes roots); the count of a recursive pin is not specified. *)
Definition kind_true (norm : cid -> cid) (past : list pop) (c : cid) (k : pkind) : Prop :=
  match k with
  | KDirect => direct past c = true
  | KRecursive _ | KIntent => recursive past c <> None
  | KIndirect r => exists root, refers past root c = true /\ r = norm root
  end.

(** * Histories *)
Section Run.
  Context {St E : Type}.
  Variable call : St -> pop -> St * outcome unit E.
  (** The state and the accepted calls after a list of calls. *)
  Fixpoint prun (s : St) (past : list pop) (h : list pop) : St * list pop :=
    match h with
    | [] => (s, past)
    | o :: h' =>
        let (s', r) := call s o in
        prun s' (match r with Ok _ => o :: past | _ => past end) h'
    end.
End Run.

Definition op_cid (o : pop) : cid :=
  match o with PinDirect c | PinRec c _ | UnpinDirect c | UnpinRec c _ => c end.
Definition op_refs (o : pop) : list cid :=
  match o with PinRec _ r | UnpinRec _ r => items r | _ => [] end.
(** Every cid of the call is a [Cid] value. *)
Definition wf_op (o : pop) : Prop := wf_cid (op_cid o) /\ Forall wf_cid (op_refs o).
(** The streams of references do not fail, and list the references of their root, which never change:
    what the callers pass (src/lib.rs l.468-535), where [refs_of] is what a walk of the stored dag finds. *)
Definition from_dag (refs_of : cid -> list cid) (o : pop) : Prop :=
  match o with PinRec c r | UnpinRec c r => items r = refs_of c /\ broken r = false | _ => True end.
