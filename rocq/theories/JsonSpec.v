(** The grammar of JSON (RFC 8259): specification for [Json]. *)
From Verif Require Import Base Json.
Local Open Scope N_scope.

(** Space, tab, newline, carriage return. *)
Definition spaces (w : bytes) : Prop := Forall (fun c => In c [32; 9; 10; 13]) w.

(** The characters of a string up to and with the closing quote. *)
Definition hex (c v : N) : Prop :=
  (48 <= c <= 57 /\ c = 48 + v) \/ (97 <= c <= 102 /\ c = 87 + v) \/ (65 <= c <= 70 /\ c = 55 + v).
Inductive chars : list jchar -> bytes -> Prop :=
| chars_end : chars [] [34]
| chars_plain c l s : c <> 34 -> c <> 92 -> 32 <= c -> chars l s -> chars (Raw c :: l) (c :: s)
| chars_escape e c l s :
    In (e, c) [(34, 34); (92, 92); (47, 47); (98, 8); (102, 12); (110, 10); (114, 13); (116, 9)] ->
    chars l s -> chars (Raw c :: l) (92 :: e :: s)
| chars_unit a b c d va vb vc vd l s :
    hex a va -> hex b vb -> hex c vc -> hex d vd -> chars l s ->
    chars (Unit (4096 * va + 256 * vb + 16 * vc + vd) :: l) (92 :: 117 :: a :: b :: c :: d :: s).

(** UTF-8 (RFC 3629 section 3): the bytes of a character, the shortest form. *)
Definition tail_of (b v : N) : Prop := b = 128 + v /\ v < 64.
Inductive utf8_char : N -> bytes -> Prop :=
| one_byte c : c < 128 -> utf8_char c [c]
| two_bytes a b y : a < 32 -> tail_of b y -> 128 <= a * 64 + y -> utf8_char (a * 64 + y) [192 + a; b]
| three_bytes a b c y z : a < 16 -> tail_of b y -> tail_of c z -> 2048 <= (a * 64 + y) * 64 + z ->
    utf8_char ((a * 64 + y) * 64 + z) [224 + a; b; c]
| four_bytes a b c d x y z : a < 8 -> tail_of b x -> tail_of c y -> tail_of d z -> 65536 <= ((a * 64 + x) * 64 + y) * 64 + z ->
    utf8_char (((a * 64 + x) * 64 + y) * 64 + z) [240 + a; b; c; d].
(** What a string says (RFC 8259 section 7): bytes as they are, characters of the basic plane by number, others by two surrogates. *)
Inductive means : list jchar -> bytes -> Prop :=
| means_end : means [] []
| means_raw c l s : means l s -> means (Raw c :: l) (c :: s)
| means_unit u l b s : u < 55296 \/ 57344 <= u -> utf8_char u b -> means l s -> means (Unit u :: l) (b ++ s)
| means_pair h t l b s : h < 1024 -> t < 1024 -> utf8_char (65536 + 1024 * h + t) b -> means l s ->
    means (Unit (55296 + h) :: Unit (56320 + t) :: l) (b ++ s).

(** Numbers. *)
Definition dig (c : N) : Prop := 48 <= c <= 57.
Definition digs (s : bytes) : Prop := s <> [] /\ Forall dig s.
Inductive int_text : bytes -> Prop :=
| int_zero : int_text [48]
| int_more c s : 49 <= c <= 57 -> Forall dig s -> int_text (c :: s).
Inductive frac_text : bytes -> Prop :=
| frac_none : frac_text []
| frac_some s : digs s -> frac_text (46 :: s).
Inductive exp_text : bytes -> Prop :=
| exp_none : exp_text []
| exp_plain e s : In e [101; 69] -> digs s -> exp_text (e :: s)
| exp_signed e g s : In e [101; 69] -> In g [43; 45] -> digs s -> exp_text (e :: g :: s).
Definition unsigned_text (s : bytes) : Prop :=
  exists i f e, int_text i /\ frac_text f /\ exp_text e /\ s = i ++ f ++ e.
Definition number_text (s : bytes) : Prop :=
  unsigned_text s \/ exists t, unsigned_text t /\ s = 45 :: t.

Definition null_text : bytes := [110; 117; 108; 108].
Definition true_text : bytes := [116; 114; 117; 101].
Definition false_text : bytes := [102; 97; 108; 115; 101].

(** A value with white space before it; elements and members with the closing bracket. *)
Inductive value_text : jv -> bytes -> Prop :=
| v_space c v s : In c [32; 9; 10; 13] -> value_text v s -> value_text v (c :: s)
| v_null : value_text JNull null_text
| v_true : value_text (JBool true) true_text
| v_false : value_text (JBool false) false_text
| v_number s : number_text s -> value_text (JNum s) s
| v_string l s : chars l s -> value_text (JStr (string_value l)) (34 :: s)
| v_array_empty w : spaces w -> value_text (JArr []) (91 :: w ++ [93])
| v_array l s : elements_text l s -> value_text (JArr l) (91 :: s)
| v_object_empty w : spaces w -> value_text (JObj []) (123 :: w ++ [125])
| v_object l s : members_text l s -> value_text (JObj l) (123 :: s)
with elements_text : list jv -> bytes -> Prop :=
| e_last v s w : value_text v s -> spaces w -> elements_text [v] (s ++ w ++ [93])
| e_more v s w l t : value_text v s -> spaces w -> elements_text l t -> elements_text (v :: l) (s ++ w ++ 44 :: t)
with members_text : list (option bytes * jv) -> bytes -> Prop :=
| m_last w1 k ks w2 v s w3 :
    spaces w1 -> chars k ks -> spaces w2 -> value_text v s -> spaces w3 ->
    members_text [(string_value k, v)] (w1 ++ 34 :: ks ++ w2 ++ 58 :: s ++ w3 ++ [125])
| m_more w1 k ks w2 v s w3 l t :
    spaces w1 -> chars k ks -> spaces w2 -> value_text v s -> spaces w3 -> members_text l t ->
    members_text ((string_value k, v) :: l) (w1 ++ 34 :: ks ++ w2 ++ 58 :: s ++ w3 ++ 44 :: t).

(** A document: one value, and white space around it. *)
Definition document_text (v : jv) (s : bytes) : Prop :=
  exists p w, value_text v p /\ spaces w /\ s = p ++ w.
