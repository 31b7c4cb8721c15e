(** What the /pin endpoints are to do: specification for [HttpPins]. *)
From Verif Require Import Base Wire Cid Text PinSpec RefsHttpSpec.
Local Open Scope N_scope.

(** The "type" option: one of "all" (also when left out), "direct", "indirect", "recursive". *)
Definition asked_type (vs : list bytes) (req : option mode) : Prop :=
  ((vs = [] \/ vs = [[97; 108; 108]]) /\ req = None) \/
  (vs = [[100; 105; 114; 101; 99; 116]] /\ req = Some Direct) \/
  (vs = [[105; 110; 100; 105; 114; 101; 99; 116]] /\ req = Some Indirect) \/
  (vs = [[114; 101; 99; 117; 114; 115; 105; 118; 101]] /\ req = Some Recursive).
(** How a mode is written in a line, and what is written for a cid that was asked for. *)
Definition mode_word (m : mode) : bytes :=
  match m with Direct => [100; 105; 114; 101; 99; 116] | Indirect => [105; 110; 100; 105; 114; 101; 99; 116] | Recursive => [114; 101; 99; 117; 114; 115; 105; 118; 101] end.
Definition kind_words (k : pkind) : bytes :=
  match k with KIndirect root => [105; 110; 100; 105; 114; 101; 99; 116; 32; 116; 104; 114; 111; 117; 103; 104; 32] ++ cid_to_text root | k => mode_word (kind_mode k) end.

(** An object with the string fields "Cid" and "Type". *)
Definition read_ls_line (s : bytes) : option (bytes * bytes) :=
  match expect [123; 34; 67; 105; 100; 34; 58; 34] s with
  | None => None
  | Some s =>
      match read_string s with
      | None => None
      | Some (a, s) =>
          match expect [44; 34; 84; 121; 112; 101; 34; 58; 34] s with
          | None => None
          | Some s =>
              match read_string s with
              | Some (b, [125]) => Some (a, b)
              | _ => None
              end
          end
      end
  end.
Fixpoint read_ls_lines (l : list bytes) : option (list (bytes * bytes)) :=
  match l with
  | [] => Some []
  | x :: l => match read_ls_line x, read_ls_lines l with Some x, Some l => Some (x :: l) | _, _ => None end
  end.
Definition read_ls_body (s : bytes) : option (list (bytes * bytes)) :=
  match lines s with Some l => read_ls_lines l | None => None end.

(** The strings of an array, after its opening bracket or a comma, and what follows the array. *)
Fixpoint read_array (steps : nat) (s : bytes) : option (list bytes * bytes) :=
  match steps with
  | O => None
  | S steps =>
      match expect [34] s with
      | None => None
      | Some s =>
          match read_string s with
          | None => None
          | Some (x, c :: s) =>
              if c =? 93 then Some ([x], s)
              else if c =? 44 then match read_array steps s with Some (l, s) => Some (x :: l, s) | None => None end
              else None
          | Some (_, []) => None
          end
      end
  end.
(** An object with the field "Pins", an array of one or more strings. *)
Definition read_pins (s : bytes) : option (list bytes) :=
  match expect [123; 34; 80; 105; 110; 115; 34; 58; 91] s with
  | None => None
  | Some s => match read_array (length s) s with Some (l, [125]) => Some l | _ => None end
  end.
