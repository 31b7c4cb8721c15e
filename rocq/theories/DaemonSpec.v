(** What is relied on about a daemon: specification for [Daemon]. *)
From Coq Require Import Ascii String.
From Verif Require Import Base Wire RefsHttpSpec Str Daemon.
Local Open Scope N_scope.

(** The text of an address: "/ip4/a.b.c.d/tcp/port", the numbers in decimal. *)
Definition names_address (s : bytes) (ip port : N) : Prop :=
  exists a b c d ta tb tc td tp,
    a < 256 /\ b < 256 /\ c < 256 /\ d < 256 /\ ip = 16777216 * a + 65536 * b + 256 * c + d /\
    decimal ta a /\ decimal tb b /\ decimal tc c /\ decimal td d /\ decimal tp port /\
    s = text "/ip4/" ++ ta ++ text "." ++ tb ++ text "." ++ tc ++ text "." ++ td ++ text "/tcp/" ++ tp.
(** [s] is the beginning of the text of the address the daemon is bound to; or all of it. *)
Definition begins (s : bytes) (d : daemon) : Prop := exists rest, names_address (s ++ rest) (fst (bound d)) (snd (bound d)).
Definition names (s : bytes) (d : daemon) : Prop := names_address s (fst (bound d)) (snd (bound d)).

(** No process: not yet, or not any more. *)
Definition over (d : daemon) : Prop := at_ d = New \/ at_ d = Done \/ at_ d = Dead.
(** From the start of its node to the end of its server. *)
Definition running (d : daemon) : Prop := at_ d = Started \/ at_ d = Bound \/ (exists k, at_ d = Writing k) \/ (exists b, at_ d = Serving b).
(** Nobody starts a daemon between the moment another one, whose server has ended, lets go of the
    repository and the moment it empties the file. *)
Fixpoint apart (w : world) (l : list (nat * ev)) : Prop :=
  match l with
  | [] => True
  | (i, e) :: l =>
      (e = Start -> forall j, at_ (daemons w j) <> Released true) /\
      match wstep w (i, e) with Some w' => apart w' l | None => True end
  end.
(** Nothing is killed and no access to the file fails. *)
Definition smooth (l : list (nat * ev)) : Prop :=
  Forall (fun x => snd x <> Kill /\ snd x <> WriteFails /\ snd x <> Truncate false) l.
Definition events_of (i : nat) (l : list (nat * ev)) : nat := length (List.filter (fun x => Nat.eqb (fst x) i) l).
