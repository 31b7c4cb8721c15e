(** What a dag-json text says: specification for [DagJson], on top of the grammar of JSON ([JsonSpec]) and of
    base64 ([ConfigSpec.base64_text]). *)
From Verif Require Import Base Wire Cid BTree Ipld RefsHttpSpec ConfigSpec Json JsonSpec.
Local Open Scope N_scope.

(** Integers of 64 bits: without a sign or below zero. *)
Inductive int64 : bytes -> Z -> Prop :=
| int64_plain t n : decimal t n -> n < 2 ^ 64 -> int64 t (Z.of_N n)
| int64_minus t n : decimal t n -> 0 < n <= 2 ^ 63 -> int64 (45 :: t) (- Z.of_N n).

(** Base64 of which padding may have been left out. *)
Definition base64_of (s x : bytes) : Prop :=
  wf_bytes x /\ exists pad, Forall (eq 61) pad /\ base64_text x (s ++ pad).

(** An object whose only member is "/", with a text. *)
Definition link_shaped (l : list (option bytes * jv)) : Prop := exists s, l = [(Some [47], JStr (Some s))].

(** The last value given to a key. *)
Fixpoint last_given {V} (k : bytes) (l : list (bytes * V)) : option V :=
  match l with
  | [] => None
  | (k', v) :: r => match last_given k r with Some x => Some x | None => if beq k k' then Some v else None end
  end.

(** The value a JSON text stands for, with arrays and objects at most [d] deep. *)
Section Says.
  Variable float_value : bytes -> option N.
  Inductive says : nat -> jv -> ipld -> Prop :=
  | says_null d : says d JNull Null
  | says_bool d b : says d (JBool b) (IBool b)
  | says_int d t i : int64 t i -> says d (JNum t) (Integer i)
  | says_float d t f : (forall i, ~ int64 t i) -> float_value t = Some f -> says d (JNum t) (Float f)
  | says_text d s : says d (JStr (Some s)) (Str s)
  | says_list d l vs : Forall2 (says d) l vs -> says (S d) (JArr l) (IList vs)
  | says_map d l kvs m :
      Forall2 (fun a b => fst a = Some (fst b) /\ says d (snd a) (snd b)) l kvs -> ~ link_shaped l ->
      bt_sorted m -> (forall k, bt_get k m = last_given k kvs) ->
      says (S d) (JObj l) (IMap m)
  | says_link d s x c : base64_of s x -> cid_from_bytes x = Some c ->
      says (S d) (JObj [(Some [47], JStr (Some s))]) (Link c).
End Says.

(** What may follow a value: after a number nothing that would go on with it. *)
Definition may_follow (j : jv) (r : bytes) : Prop :=
  match j, r with
  | JNum _, c :: _ => ~ dig c /\ c <> 46 /\ c <> 101 /\ c <> 69
  | _, _ => True
  end.

(** Printing of finite floats: a JSON number which is not an integer of 64 bits. *)
Definition prints_floats (finite : N -> bool) (float_text : N -> bytes) : Prop :=
  forall f, finite f = true -> number_text (float_text f) /\ forall i, ~ int64 (float_text f) i.

(** Values which survive being written and read: integers of 64 bits, finite floats which the printer and the
    reader of floats agree on, no bytes, no map which looks like a link, arrays and objects at most [d] deep. *)
Section Survives.
  Variable float_text : N -> bytes.
  Variable float_value : bytes -> option N.
  Variable finite : N -> bool.
  Inductive survives : nat -> ipld -> Prop :=
  | survives_null d : survives d Null
  | survives_bool d b : survives d (IBool b)
  | survives_int d i : (- 2 ^ 63 <= i < 2 ^ 64)%Z -> survives d (Integer i)
  | survives_float d f : finite f = true -> float_value (float_text f) = Some f -> survives d (Float f)
  | survives_text d s : survives d (Str s)
  | survives_list d l : Forall (survives d) l -> survives (S d) (IList l)
  | survives_map d m : (forall s, m <> [([47], Str s)]) -> Forall (fun kv => survives d (snd kv)) m -> survives (S d) (IMap m)
  | survives_link d c : survives (S d) (Link c).
End Survives.
