(** What clients read: specification for [Endpoints]. *)
From Coq Require Import Ascii String.
From Verif Require Import Base Wire Cid Text RefsHttp RefsHttpSpec HttpBlockSpec Str Json Routes Endpoints.
Local Open Scope N_scope.

(** A JSON value which was read is the one that was meant. *)
Inductive reads_as : jv -> jt -> Prop :=
| reads_null : reads_as JNull TNull
| reads_text s : reads_as (JStr (Some s)) (TText s)
| reads_number t n : decimal t n -> reads_as (JNum t) (TNum n)
| reads_list l m : Forall2 reads_as l m -> reads_as (JArr l) (TList m)
| reads_map l m : Forall2 (fun a b => fst a = Some (fst b) /\ reads_as (snd a) (snd b)) l m -> reads_as (JObj l) (TMap m).
(** The answer is a success, and clients read [t] from it. *)
Definition shows (r : reply) (t : jt) : Prop :=
  exists body j, r = Reply (mk_response 200 true body) /\ document body = Some j /\ reads_as j t.
Definition refuses (r : reply) (why : reason) : Prop := r = Reject (One why).

(** What a query may hold: a name, whether it has to be there, and the values which can be read.  Every
    name can be given once; names not in the list are passed over. *)
Definition params : Type := list (string * bool * (bytes -> Prop)).
Definition fits (ps : params) (q : list (bytes * bytes)) : Prop :=
  Forall (fun p => let '(name, needed, reads) := p in
    (values (text name) q = [] /\ needed = false) \/ exists v, values (text name) q = [v] /\ reads v) ps.
(** With a query which does not fit the request is refused as such, with any other one [P]. *)
Definition answers (ps : params) (q : list (bytes * bytes)) (r : reply) (P : Prop) : Prop :=
  (fits ps q -> P) /\ (~ fits ps q -> refuses r InvalidQuery).

Definition anything (v : bytes) : Prop := True.
Definition yes_or_no (v : bytes) : Prop := v = text "true" \/ v = text "false".
Definition a_number (v : bytes) : Prop := exists n, unsigned v n /\ n < 18446744073709551616.
Definition peer_named (v : bytes) : Prop := exists p, peer_from_text v = Some p.
(** The value of a name, if it is given. *)
Definition value_of (name : string) (q : list (bytes * bytes)) : option bytes := hd_error (values (text name) q).
Definition given (name : string) (q : list (bytes * bytes)) : bool := match value_of name q with Some _ => true | None => false end.
(** What the node says is passed on: its answer as [f], its error by its text. *)
Definition relays {A} (x : told A) (r : reply) (f : A -> Prop) : Prop :=
  match x with inl a => f a | inr e => refuses r (StringError e) end.
(** ... unless a timeout was given and came first. *)
Definition relays_within {A} (slow : bool) (q : list (bytes * bytes)) (x : told A) (r : reply) (f : A -> Prop) : Prop :=
  if slow && given "timeout" q then refuses r (StringError (text "deadline has elapsed")) else relays x r f.
