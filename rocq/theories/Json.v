(** Reading JSON text as serde_json 1.0 does it for [serde_json::from_reader] (http/src/config.rs
    l.191).  Definitions only.

    serde_json is a dependency, modelled from its published behaviour: the text is read into a value
    first, and the fields are looked for in that value afterwards ([Config]).  serde_json does both at
    once; every failure of either is the same error ([LoadingError::ConfigurationFileFormat]).  Of
    a number its text is kept, nothing reads a number.  Of a string is kept whether it can be decoded
    ([None] when it cannot: a lone surrogate or bytes which are not UTF-8); a string in a field which is
    ignored does not have to be decoded, only to be well formed. *)
From Verif Require Import Base Wire.
Local Open Scope N_scope.

Inductive jv :=
| JNull | JBool (b : bool) | JNum (text : bytes)
| JStr (s : option bytes)
| JArr (l : list jv)
| JObj (l : list (option bytes * jv)).

(** [Deserializer::parse_whitespace]: space, newline, tab, carriage return. *)
Definition is_ws (c : N) : bool := (c =? 32) || (c =? 10) || (c =? 9) || (c =? 13).
Fixpoint skip_ws (s : bytes) : bytes :=
  match s with
  | [] => []
  | c :: r => if is_ws c then skip_ws r else s
  end.

(** * Strings *)

(** A character as it stands, or the code unit of an escape with [\u]. *)
Inductive jchar := Raw (c : N) | Unit (u : N).
(** [decode_hex_val]. *)
Definition hexval (c : N) : option N :=
  if (48 <=? c) && (c <=? 57) then Some (c - 48)
  else if (97 <=? c) && (c <=? 102) then Some (c - 87)
  else if (65 <=? c) && (c <=? 70) then Some (c - 55)
  else None.
Definition hex4 (a b c d : N) : option N :=
  match hexval a, hexval b, hexval c, hexval d with
  | Some a, Some b, Some c, Some d => Some (4096 * a + 256 * b + 16 * c + d)
  | _, _, _, _ => None
  end.
(** [parse_escape] but for 'u'. *)
Definition simple_escape (c : N) : option N :=
  if c =? 34 then Some 34 else if c =? 92 then Some 92 else if c =? 47 then Some 47
  else if c =? 98 then Some 8 else if c =? 102 then Some 12 else if c =? 110 then Some 10
  else if c =? 114 then Some 13 else if c =? 116 then Some 9 else None.
Definition push {A} (x : A) (o : option (list A * bytes)) : option (list A * bytes) :=
  match o with Some (l, r) => Some (x :: l, r) | None => None end.
(** [SliceRead::parse_str_bytes] / [IoRead::ignore_str]: after the opening quote, to the closing one;
    control characters are an error. *)
Fixpoint scan (s : bytes) : option (list jchar * bytes) :=
  match s with
  | [] => None
  | c :: r =>
      if c =? 34 then Some ([], r)
      else if c =? 92 then
        match r with
        | [] => None
        | e :: r1 =>
            if e =? 117 then
              match r1 with
              | a :: b :: c :: d :: r2 =>
                  match hex4 a b c d with Some u => push (Unit u) (scan r2) | None => None end
              | _ => None
              end
            else match simple_escape e with Some x => push (Raw x) (scan r1) | None => None end
        end
      else if c <? 32 then None
      else push (Raw c) (scan r)
  end.
(** [char::encode_utf8]. *)
Definition encode_utf8 (c : N) : bytes :=
  if c <? 128 then [c]
  else if c <? 2048 then [192 + c / 64; 128 + c mod 64]
  else if c <? 65536 then [224 + c / 4096; 128 + c / 64 mod 64; 128 + c mod 64]
  else [240 + c / 262144; 128 + c / 4096 mod 64; 128 + c / 64 mod 64; 128 + c mod 64].
(** [parse_escape] on code units: a leading surrogate needs a trailing one right after it. *)
Fixpoint text_of (l : list jchar) : option bytes :=
  match l with
  | [] => Some []
  | Raw c :: r => option_map (cons c) (text_of r)
  | Unit u :: r =>
      if (55296 <=? u) && (u <? 56320) then
        match r with
        | Unit v :: r' =>
            if (56320 <=? v) && (v <? 57344) then
              option_map (app (encode_utf8 (65536 + (u - 55296) * 1024 + (v - 56320)))) (text_of r')
            else None
        | _ => None
        end
      else if (56320 <=? u) && (u <? 57344) then None
      else option_map (app (encode_utf8 u)) (text_of r)
  end.
(** [as_str]: the result has to be UTF-8. *)
Definition string_value (l : list jchar) : option bytes :=
  match text_of l with
  | Some t => if utf8 t then Some t else None
  | None => None
  end.

(** * Numbers: [ignore_number], what follows the number. *)
Definition is_digit (c : N) : bool := (48 <=? c) && (c <=? 57).
Fixpoint skip_digits (s : bytes) : bytes :=
  match s with
  | [] => []
  | c :: r => if is_digit c then skip_digits r else s
  end.
Definition some_digits (s : bytes) : option bytes :=
  match s with
  | [] => None
  | c :: r => if is_digit c then Some (skip_digits r) else None
  end.
Definition exponent (s : bytes) : option bytes :=
  match s with
  | [] => Some []
  | c :: r =>
      if (c =? 101) || (c =? 69) then
        match r with
        | [] => None
        | d :: r1 => if (d =? 43) || (d =? 45) then some_digits r1 else some_digits r
        end
      else Some s
  end.
Definition fraction (s : bytes) : option bytes :=
  match s with
  | [] => Some []
  | c :: r =>
      if c =? 46 then match some_digits r with Some t => exponent t | None => None end
      else exponent s
  end.
Definition integer (s : bytes) : option bytes :=
  match s with
  | [] => None
  | c :: r =>
      if c =? 48 then match r with d :: _ => if is_digit d then None else fraction r | [] => Some [] end
      else if is_digit c then fraction (skip_digits r)
      else None
  end.
Definition number (s : bytes) : option bytes :=
  match s with
  | [] => None
  | c :: r => if c =? 45 then integer r else integer s
  end.

(** * Values *)
Fixpoint literal (p s : bytes) : option bytes :=
  match p, s with
  | [], s => Some s
  | x :: p, y :: s => if x =? y then literal p s else None
  | _, [] => None
  end.
Definition a_literal (p : bytes) (v : jv) (s : bytes) : option (jv * bytes) :=
  match literal p s with Some r => Some (v, r) | None => None end.

(** A value and what follows it; the elements of an array or the members of an object, with the
    closing bracket.  [f] bounds the recursion ([document] gives enough). *)
Fixpoint value (f : nat) (s : bytes) {struct f} : option (jv * bytes) :=
  match f with
  | O => None
  | S f =>
      match skip_ws s with
      | [] => None
      | c :: r =>
          if c =? 34 then
            match scan r with Some (l, t) => Some (JStr (string_value l), t) | None => None end
          else if c =? 91 then
            match skip_ws r with
            | [] => None
            | d :: t =>
                if d =? 93 then Some (JArr [], t)
                else match elements f r with Some (l, t) => Some (JArr l, t) | None => None end
            end
          else if c =? 123 then
            match skip_ws r with
            | [] => None
            | d :: t =>
                if d =? 125 then Some (JObj [], t)
                else match members f r with Some (l, t) => Some (JObj l, t) | None => None end
            end
          else if c =? 110 then a_literal [117; 108; 108] JNull r
          else if c =? 116 then a_literal [114; 117; 101] (JBool true) r
          else if c =? 102 then a_literal [97; 108; 115; 101] (JBool false) r
          else match number (c :: r) with
               | Some t => Some (JNum (firstn (length (c :: r) - length t) (c :: r)), t)
               | None => None
               end
      end
  end
with elements (f : nat) (s : bytes) {struct f} : option (list jv * bytes) :=
  match f with
  | O => None
  | S f =>
      match value f s with
      | None => None
      | Some (v, r) =>
          match skip_ws r with
          | [] => None
          | c :: t =>
              if c =? 44 then push v (elements f t)
              else if c =? 93 then Some ([v], t)
              else None
          end
      end
  end
with members (f : nat) (s : bytes) {struct f} : option (list (option bytes * jv) * bytes) :=
  match f with
  | O => None
  | S f =>
      match skip_ws s with
      | [] => None
      | q :: r =>
          if q =? 34 then
            match scan r with
            | None => None
            | Some (k, r1) =>
                match skip_ws r1 with
                | [] => None
                | c :: r2 =>
                    if c =? 58 then
                      match value f r2 with
                      | None => None
                      | Some (v, r3) =>
                          match skip_ws r3 with
                          | [] => None
                          | d :: t =>
                              if d =? 44 then push (string_value k, v) (members f t)
                              else if d =? 125 then Some ([(string_value k, v)], t)
                              else None
                          end
                      end
                    else None
                end
            end
          else None
      end
  end.

(** [from_reader]: one value, then nothing but white space. *)
Definition document (s : bytes) : option jv :=
  match value (2 * length s + 2) s with
  | Some (v, r) => match skip_ws r with [] => Some v | _ :: _ => None end
  | None => None
  end.
