(** dag-json blocks as bytes (src/ipld/dag_json.rs): what [json_encode] writes and what [json_decode] reads.
    Definitions only.

    serde_json 1.0 and base64 0.13 are dependencies, modelled from their published behaviour.  [Json] reads the
    text, [Codecs.of_json] is the visitor of dag_json.rs; in between the numbers are told apart and the strings
    have to be decodable.  serde_json does all this at once; every failure is the same error.  Printing a
    float and reading a number which is not an integer of 64 bits are left to [float_text] and [float_value]. *)
From Verif Require Import Base Wire Cid BTree Ipld Cbor RefsHttp Json Codecs HttpPubsub Config.
From Verif Require Endpoints.
Local Open Scope N_scope.

(** [itoa] of an integer. *)
Definition int_form (i : Z) : bytes := if (i <? 0)%Z then 45 :: Endpoints.dec (Z.to_N (- i)) else Endpoints.dec (Z.to_N i).

(** [begin_array_value], [begin_object_key]: a comma between two. *)
Fixpoint commas (l : list bytes) : bytes :=
  match l with
  | [] => []
  | [x] => x
  | x :: r => x ++ 44 :: commas r
  end.

Section Dag.
  (** [ryu] for finite floats; the float a number text stands for, [None] when it is out of range. *)
  Variable float_text : N -> bytes.
  Variable float_value : bytes -> option N.

  (** dag_json.rs l.30-69 [json_encode], [serialize] with [CompactFormatter]: [serialize_none] and
      floats which are not finite are null, [serialize_bytes] is an array of numbers, a link is an object with
      the base64 of the CID.  A key and its value are written without white space. *)
  Fixpoint json_encode (v : ipld) : bytes :=
    match v with
    | Null => [110; 117; 108; 108]
    | IBool true => [116; 114; 117; 101]
    | IBool false => [102; 97; 108; 115; 101]
    | Integer i => int_form i
    | Float f => if f64_finite f then float_text f else [110; 117; 108; 108]
    | Str s => json_string s
    | IBytes b => 91 :: commas (map Endpoints.dec b) ++ [93]
    | IList l => 91 :: commas (map json_encode l) ++ [93]
    | IMap m => 123 :: commas (map (fun kv => json_string (fst kv) ++ 58 :: json_encode (snd kv)) m) ++ [125]
    | Link c => 123 :: json_string [47] ++ 58 :: json_string (base64 (cid_to_bytes c)) ++ [125]
    end.

  (** [Deserializer::parse_any_number]: digits only are an integer when it fits u64, or i64 below zero;
      "-0" and everything else is a float. *)
  Definition digits_value (s : bytes) : N := fold_left (fun a c => 10 * a + (c - 48)) s 0.
  Definition as_float (t : bytes) : option json := option_map JFloat (float_value t).
  Definition number_doc (t : bytes) : option json :=
    match t with
    | 45 :: r =>
        if forallb is_digit r && (0 <? digits_value r) && (digits_value r <=? 9223372036854775808)
        then Some (JInt (- Z.of_N (digits_value r))) else as_float t
    | _ =>
        if forallb is_digit t && (digits_value t <? 18446744073709551616)
        then Some (JInt (Z.of_N (digits_value t))) else as_float t
    end.
  Fixpoint doc_of (j : jv) : option json :=
    match j with
    | Json.JNull => Some JNull
    | Json.JBool b => Some (JBool b)
    | JNum t => number_doc t
    | Json.JStr s => option_map JStr s
    | Json.JArr l =>
        option_map JArr
          ((fix go l := match l with
                        | [] => Some []
                        | x :: r => match doc_of x, go r with Some d, Some ds => Some (d :: ds) | _, _ => None end
                        end) l)
    | Json.JObj l =>
        option_map JObj
          ((fix go l := match l with
                        | [] => Some []
                        | (k, x) :: r =>
                            match k, doc_of x, go r with Some k, Some d, Some ds => Some ((k, d) :: ds) | _, _, _ => None end
                        end) l)
    end.

  (** [base64::decode] with [STANDARD]: the padding may be left out, in part or whole; nothing may follow
      it; the bits which are left over have to be zero. *)
  Definition base64_tail2 (a b : N) : option bytes :=
    match b64_index a, b64_index b with
    | Some a, Some b => if b mod 16 =? 0 then Some [a * 4 + b / 16] else None
    | _, _ => None
    end.
  Definition base64_tail3 (a b c : N) : option bytes :=
    match b64_index a, b64_index b, b64_index c with
    | Some a, Some b, Some c => if c mod 4 =? 0 then Some [a * 4 + b / 16; b mod 16 * 16 + c / 4] else None
    | _, _, _ => None
    end.
  Fixpoint base64_read (s : bytes) : option bytes :=
    match s with
    | [] => Some []
    | [_] => None
    | [a; b] => base64_tail2 a b
    | [a; b; c] => if c =? 61 then base64_tail2 a b else base64_tail3 a b c
    | a :: b :: c :: d :: r =>
        if d =? 61 then
          match r with
          | [] => if c =? 61 then base64_tail2 a b else base64_tail3 a b c
          | _ :: _ => None
          end
        else
          match b64_index a, b64_index b, b64_index c, b64_index d, base64_read r with
          | Some a, Some b, Some c, Some d, Some l => Some (a * 4 + b / 16 :: b mod 16 * 16 + c / 4 :: c mod 4 * 64 + d :: l)
          | _, _, _, _, _ => None
          end
    end.

  (** l.37-40 [json_decode], l.71-76: one value is read from the start; [Deserializer::end] is not called, what
      follows the value is not looked at. *)
  Definition json_decode (s : bytes) : kres ipld :=
    match value (2 * length s + 2) s with
    | None => Err JsonErr
    | Some (j, _) =>
        match doc_of j with
        | None => Err JsonErr
        | Some d => of_json base64_read 128 d
        end
    end.
End Dag.
