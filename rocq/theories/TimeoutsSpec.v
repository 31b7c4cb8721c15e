(** What a request waits for, and what it would find (independent of when it is looked at). *)
From Verif Require Import Base Cid Timeouts.

(** Without a clock: what is found when all blocks of the store are there from the start; [Lacks c]
    when the block [c] is missing. *)
Inductive found (A : Type) : Type := Got (a : A) | Lacks (c : cid) | NoEnd.
Arguments Got {A} a. Arguments Lacks {A} c. Arguments NoEnd {A}.
Fixpoint follow {A} (all : store) (t : task A) : found A :=
  match t with
  | Done a => Got a
  | Endless => NoEnd
  | Load c k => match all c with Some b => follow all (k b) | None => Lacks c end
  end.
(** The blocks which the request asks for on its way. *)
Inductive needs {A} (all : store) : task A -> cid -> Prop :=
| needs_now : forall c k, needs all (Load c k) c
| needs_later : forall c k b c', all c = Some b -> needs all (k b) c' -> needs all (Load c k) c'.
(** A block has one content: the stores met at the looks hold parts of [all]. *)
Definition parts_of (all : store) (looks : list (N * store)) : Prop :=
  Forall (fun l => forall c b, snd l c = Some b -> all c = Some b) looks.
