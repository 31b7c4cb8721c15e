(** What the texts of /pubsub mean: specification for [HttpPubsub]. *)
From Verif Require Import Base Wire RefsHttpSpec HttpPinsSpec HttpAddSpec HttpBlock HttpBlockSpec.
Local Open Scope N_scope.

(** ** Base64 (RFC 4648, with padding) *)
Definition b64_value (c : N) : option N :=
  if (65 <=? c) && (c <=? 90) then Some (c - 65)
  else if (97 <=? c) && (c <=? 122) then Some (c - 71)
  else if (48 <=? c) && (c <=? 57) then Some (c + 4)
  else if c =? 43 then Some 62 else if c =? 47 then Some 63 else None.
Fixpoint unbase64 (s : bytes) : option bytes :=
  match s with
  | [] => Some []
  | p :: q :: r :: t :: more =>
      match b64_value p, b64_value q with
      | Some p, Some q =>
          if (r =? 61) && (t =? 61) then match more with [] => Some [p * 4 + q / 16] | _ => None end
          else
            match b64_value r with
            | None => None
            | Some r =>
                if t =? 61 then match more with [] => Some [p * 4 + q / 16; q mod 16 * 16 + r / 4] | _ => None end
                else
                  match b64_value t, unbase64 more with
                  | Some t, Some l => Some (p * 4 + q / 16 :: q mod 16 * 16 + r / 4 :: r mod 4 * 64 + t :: l)
                  | _, _ => None
                  end
            end
      | _, _ => None
      end
  | _ => None
  end.

(** ** Lines and lists *)
(** An array of strings, after its opening bracket. *)
Definition read_strings (s : bytes) : option (list bytes * bytes) :=
  match s with
  | 93 :: s => Some ([], s)
  | _ => read_array (length s) s
  end.
(** A string field: its name, then its value. *)
Definition read_field (name s : bytes) : option (bytes * bytes) :=
  match expect name s with Some s => read_string s | None => None end.
(** An object with "from", "data" and "seqno" in base64, and the texts in "topicIDs". *)
Definition read_message (s : bytes) : option (bytes * bytes * bytes * list bytes) :=
  match read_field [123; 34; 102; 114; 111; 109; 34; 58; 34] s with
  | None => None
  | Some (from, s) =>
      match read_field [44; 34; 100; 97; 116; 97; 34; 58; 34] s with
      | None => None
      | Some (data, s) =>
          match read_field [44; 34; 115; 101; 113; 110; 111; 34; 58; 34] s with
          | None => None
          | Some (seqno, s) =>
              match expect [44; 34; 116; 111; 112; 105; 99; 73; 68; 115; 34; 58; 91] s with
              | None => None
              | Some s =>
                  match read_strings s, unbase64 from, unbase64 data, unbase64 seqno with
                  | Some (l, [125]), Some from, Some data, Some seqno => Some (from, data, seqno, l)
                  | _, _, _, _ => None
                  end
              end
          end
      end
  end.
Fixpoint read_messages (l : list bytes) : option (list (bytes * bytes * bytes * list bytes)) :=
  match l with
  | [] => Some []
  | x :: l => match read_message x, read_messages l with Some x, Some l => Some (x :: l) | _, _ => None end
  end.
(** One object on each line. *)
Definition read_sub_body (s : bytes) : option (list (bytes * bytes * bytes * list bytes)) :=
  match lines s with Some l => read_messages l | None => None end.
(** An object with the field "Strings", an array of strings. *)
Definition read_list (s : bytes) : option (list bytes) :=
  match expect [123; 34; 83; 116; 114; 105; 110; 103; 115; 34; 58; 91] s with
  | None => None
  | Some s => match read_strings s with Some (l, [125]) => Some l | _ => None end
  end.

(** ** Queries *)
(** One part of a query: a name and a value, or a name only. *)
Definition pair_text (p k v : bytes) : Prop :=
  p <> [] /\ ~ In 38 p /\ ~ In 61 k /\ (p = k ++ 61 :: v \/ (p = k /\ v = [])).
(** Parts are separated by '&'; empty parts do not count. *)
Inductive query_is : bytes -> list (bytes * bytes) -> Prop :=
| query_end : query_is [] []
| query_empty s l : query_is s l -> query_is (38 :: s) l
| query_last p k v : pair_text p k v -> query_is p [(k, v)]
| query_more p k v s l : pair_text p k v -> query_is s l -> query_is (p ++ 38 :: s) ((k, v) :: l).
(** The values of the parameter "arg". *)
Definition arg_values (l : list (bytes * bytes)) : list bytes := values [97; 114; 103] l.

(** What a request of /pubsub/pub asks for: the topic is the first "arg" of the query, percent
    encoded; the message is the second one, or else a form with one part "file" of at most 100 KiB
    that is not empty.  A content type that cannot be read is refused in both cases; the form needs one
    with a boundary. *)
Definition asks_publish (query : bytes) (unreadable boundary : bool) (f : form) (topic data : bytes) : Prop :=
  exists l first rest, query_is query l /\ arg_values l = first :: rest /\ decodes first topic /\ utf8 topic = true /\
    unreadable = false /\
    match rest with
    | second :: _ => decodes second data
    | [] => boundary = true /\ holds [[102; 105; 108; 101]] 102400 f data /\ data <> []
    end.

(** How clients write a value into a query: a byte stands for itself unless it is '%', '&' or '+'; and
    every byte can be written as '%' and two hexadecimal digits. *)
Inductive written : bytes -> bytes -> Prop :=
| written_nil : written [] []
| written_byte c s d : c <> 37 -> c <> 38 -> c <> 43 -> written s d -> written (c :: s) (c :: d)
| written_hex a b x y s d : hex_digit a x -> hex_digit b y -> written s d -> written (37 :: a :: b :: s) (16 * x + y :: d).
