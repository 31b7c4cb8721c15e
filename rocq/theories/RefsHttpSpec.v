(** What format strings, options and lines of /refs mean: specification for [RefsHttp]. *)
From Verif Require Import Base.
Local Open Scope N_scope.

(** "<src>", "<dst>", "<linkname>". *)
Definition tag_src : bytes := [60; 115; 114; 99; 62].
Definition tag_dst : bytes := [60; 100; 115; 116; 62].
Definition tag_linkname : bytes := [60; 108; 105; 110; 107; 110; 97; 109; 101; 62].
(** The text with its tags replaced; any other character but '<' stands for itself. *)
Inductive rendered (src dst name : bytes) : bytes -> bytes -> Prop :=
| rendered_end : rendered src dst name [] []
| rendered_char c s o : c <> 60 -> rendered src dst name s o -> rendered src dst name (c :: s) (c :: o)
| rendered_src s o : rendered src dst name s o -> rendered src dst name (tag_src ++ s) (src ++ o)
| rendered_dst s o : rendered src dst name s o -> rendered src dst name (tag_dst ++ s) (dst ++ o)
| rendered_name s o : rendered src dst name s o -> rendered src dst name (tag_linkname ++ s) (name ++ o).
(** A format string which consists of tags and other text. *)
Definition well_formed (s : bytes) : Prop := exists o, rendered [] [] [] s o.

(** The values given for a key of a query. *)
Definition values (k : bytes) (l : list (bytes * bytes)) : list bytes := map snd (filter (fun x => beq (fst x) k) l).
(** The key is given at most once, and then with a value which can be read. *)
Definition given {A} (read : bytes -> option A) (vs : list bytes) (x : option A) : Prop :=
  match vs with
  | [] => x = None
  | [v] => x = read v /\ x <> None
  | _ => False
  end.
(** A decimal number with an optional sign. *)
Definition digit (c v : N) : Prop := c = 48 + v /\ v < 10.
Inductive decimal : bytes -> N -> Prop :=
| decimal_one c v : digit c v -> decimal [c] v
| decimal_more s n c v : decimal s n -> digit c v -> decimal (s ++ [c]) (10 * n + v).
Inductive signed : bytes -> Z -> Prop :=
| signed_plain s n : decimal s n -> signed s (Z.of_N n)
| signed_plus s n : decimal s n -> signed (43 :: s) (Z.of_N n)
| signed_minus s n : decimal s n -> signed (45 :: s) (- Z.of_N n).

(** ** Reading lines of JSON *)
Definition unhex (c : N) : option N :=
  if (48 <=? c) && (c <=? 57) then Some (c - 48) else if (97 <=? c) && (c <=? 102) then Some (c - 87)
  else if (65 <=? c) && (c <=? 70) then Some (c - 55) else None.
(** After the opening quote: the text, and what follows the closing one.  Characters from U+0080 which
    are written as \u are not read (none are written here). *)
Fixpoint read_string (s : bytes) : option (bytes * bytes) :=
  match s with
  | [] => None
  | c :: r =>
      if c =? 34 then Some ([], r)
      else
        let more (x : N) (r : option (bytes * bytes)) := match r with Some (t, rest) => Some (x :: t, rest) | None => None end in
        if c =? 92 then
          match r with
          | 34 :: r => more 34 (read_string r)
          | 92 :: r => more 92 (read_string r)
          | 47 :: r => more 47 (read_string r)
          | 98 :: r => more 8 (read_string r)
          | 102 :: r => more 12 (read_string r)
          | 110 :: r => more 10 (read_string r)
          | 114 :: r => more 13 (read_string r)
          | 116 :: r => more 9 (read_string r)
          | 117 :: 48 :: 48 :: a :: b :: r =>
              match unhex a, unhex b with
              | Some a, Some b => if a <? 8 then more (16 * a + b) (read_string r) else None
              | _, _ => None
              end
          | _ => None
          end
        else if c <? 32 then None
        else more c (read_string r)
  end.
(** The given text comes next. *)
Fixpoint expect (p s : bytes) : option bytes :=
  match p, s with
  | [], s => Some s
  | x :: p, y :: s => if x =? y then expect p s else None
  | _, [] => None
  end.
(** An object with the string fields "Ref" and "Err". *)
Definition read_line (s : bytes) : option (bytes * bytes) :=
  match expect [123; 34; 82; 101; 102; 34; 58; 34] s with
  | None => None
  | Some s =>
      match read_string s with
      | None => None
      | Some (a, s) =>
          match expect [44; 34; 69; 114; 114; 34; 58; 34] s with
          | None => None
          | Some s =>
              match read_string s with
              | Some (b, [125]) => Some (a, b)
              | _ => None
              end
          end
      end
  end.
(** Cut after every newline; the text has to end with one. *)
Fixpoint lines (s : bytes) : option (list bytes) :=
  match s with
  | [] => Some []
  | c :: r =>
      if c =? 10 then match lines r with Some l => Some ([] :: l) | None => None end
      else match lines r with Some (x :: l) => Some ((c :: x) :: l) | _ => None end
  end.
Fixpoint read_all (l : list bytes) : option (list (bytes * bytes)) :=
  match l with
  | [] => Some []
  | x :: l => match read_line x, read_all l with Some x, Some l => Some (x :: l) | _, _ => None end
  end.
Definition read_body (s : bytes) : option (list (bytes * bytes)) :=
  match lines s with Some l => read_all l | None => None end.

(** What a flag, a text and a number given in a query mean. *)
Definition v_true : bytes := [116; 114; 117; 101].
Definition v_false : bytes := [102; 97; 108; 115; 101].
Definition flag (vs : list bytes) (b : bool) : Prop :=
  (vs = [] /\ b = false) \/ (vs = [v_true] /\ b = true) \/ (vs = [v_false] /\ b = false).
Definition text (vs : list bytes) (x : option bytes) : Prop := (vs = [] /\ x = None) \/ exists v, vs = [v] /\ x = Some v.
Definition number (vs : list bytes) (x : option Z) : Prop :=
  (vs = [] /\ x = None) \/ exists v z, vs = [v] /\ signed v z /\ (- 2 ^ 63 <= z < 2 ^ 63)%Z /\ x = Some z.
