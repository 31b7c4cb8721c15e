(** Specification of the subscription registry (src/subscription.rs): the life of each future, read
    off the history of what threads did.  Every action is one critical section or one atomic access
    of the code, so that a history is an interleaving of any number of threads. *)
From Verif Require Import Base Wire Cid BlockSpec.

Section Spec.
  Context {K V : Type}.
  Variable keqb : K -> K -> bool.

  Inductive act :=
  | Begin (k : K) (n : bool)     (* create_subscription takes a number and reads the flag; [n]: with a cancel notifier *)
  | Insert (i : nat)             (* ... and inserts under the lock: the future exists *)
  | Poll (i : nat) (w : nat)     (* future [i] is polled with waker [w] *)
  | Finish (k : K) (v : V)       (* finish_subscription *)
  | DropFut (i : nat)            (* dropping future [i]: the critical section *)
  | DropNotify (i : nat)         (* ... and what comes after it *)
  | ShutFlag                     (* shutdown sets the flag *)
  | ShutTake.                    (* ... takes the table and cancels what was in it *)

  Inductive life :=
  | Unborn
  | Creating (k : K) (n : bool) (late : bool)     (* [late]: the flag was set *)
  | Waiting (k : K) (n : bool) (w : option nat)   (* [w]: the waker of the last poll *)
  | Decided (k : K) (v : V)                       (* finished, not collected yet *)
  | Rejected (k : K)                              (* created after the flag, not collected yet *)
  | Lost (k : K)                                  (* taken by shutdown *)
  | Collected (k : K)
  | Dropping (k : K) (n : bool) (w : option nat) (last : bool)
  | Dropped.

  Fixpoint begins (past : list act) : nat :=
    match past with [] => 0 | Begin _ _ :: p => S (begins p) | _ :: p => begins p end.
  Definition flagged (past : list act) : bool := existsb (fun a => match a with ShutFlag => true | _ => false end) past.
  (** The table was taken: a [ShutTake] after a [ShutFlag]. *)
  Fixpoint taken (past : list act) : bool :=
    match past with [] => false | ShutTake :: p => flagged p || taken p | _ :: p => taken p end.

  (** A future which has an entry for [k]. *)
  Definition holds (k : K) (l : life) : bool :=
    match l with Waiting k' _ _ | Decided k' _ | Rejected k' => keqb k k' | _ => false end.
  Definition waits (k : K) (l : life) : bool := match l with Waiting k' _ _ => keqb k k' | _ => false end.
  Definition someone (test : life -> bool) (lives : nat -> life) (n : nat) : bool := existsb (fun j => test (lives j)) (seq 0 n).

  (** The life of each future after the actions [past], latest first. *)
  Fixpoint life_of (past : list act) (i : nat) : life :=
    match past with
    | [] => Unborn
    | a :: p =>
        let l := life_of p i in
        match a with
        | Begin k n => if (begins p =? i)%nat then Creating k n (flagged p) else l
        | Insert j =>
            if (j =? i)%nat then
              match l with
              | Creating k n false => Waiting k n None
              | Creating k n true => Rejected k
              | _ => l
              end
            else l
        | Poll j w =>
            if (j =? i)%nat then
              match l with
              | Waiting k n _ => Waiting k n (Some w)
              | Decided k _ | Rejected k => Collected k
              | _ => l
              end
            else l
        | Finish k v => match l with Waiting k' _ _ => if keqb k k' then Decided k' v else l | _ => l end
        | DropFut j =>
            if (j =? i)%nat then
              match l with
              | Waiting k n w =>
                  Dropping k n w (negb (existsb (fun j => negb (j =? i)%nat && holds k (life_of p j)) (seq 0 (begins p))))
              | Decided _ _ | Rejected _ | Lost _ | Collected _ => Dropped
              | _ => l
              end
            else l
        | DropNotify j => if (j =? i)%nat then match l with Dropping _ _ _ _ => Dropped | _ => l end else l
        | ShutFlag => l
        | ShutTake =>
            if flagged p && negb (taken p) then
              match l with Waiting k _ _ | Decided k _ | Rejected k => Lost k | _ => l end
            else l
        end
    end.

  (** What a poll answers. *)
  Inductive answer := AVal (v : V) | ACancelled.
  Inductive out := OId (i : nat) | ODone | OPending | OReady (a : answer) | OPanic | ODisabled.
  Definition poll_answer (l : life) : out :=
    match l with
    | Waiting _ _ _ => OPending
    | Decided _ v => OReady (AVal v)
    | Rejected _ | Lost _ | Collected _ => OReady ACancelled
    | _ => ODisabled
    end.
End Spec.
Arguments act : clear implicits.
Arguments life : clear implicits.
Arguments out : clear implicits.
Arguments answer : clear implicits.
