(** Protobuf wire primitives as used through quick-protobuf 0.8 by unixfs/src/pb (and, for the
    writer, by unixfs/src/dir/builder/custom_pb.rs).  Definitions only.

    quick-protobuf is a dependency; its reader and writer are modelled here from its published
    source.  Readers return [None] for every [quick_protobuf::Error]; the error kind is not
    modelled.  A reader works on the slice of the (sub)message: in quick-protobuf an inner length
    running over the end of the enclosing message leaves the cursor past [end], [is_eof] then never
    becomes true and the read eventually fails, so "error" is exactly what the code returns. *)
From Verif Require Import Base.
Local Open Scope N_scope.

(** [Writer::write_varint] (quick-protobuf writer.rs): 7 bits at a time, low group first.  The
    recursion is bounded by the 10 groups of a 64-bit value. *)
Fixpoint write_varint_n (fuel : nat) (v : N) : bytes :=
  match fuel with
  | O => []
  | S f => if v <=? 127 then [v] else (v mod 128 + 128) :: write_varint_n f (v / 128)
  end.
Definition write_varint (v : N) : bytes := write_varint_n 10 v.

(** [BytesReader::read_varint64] / [read_varint32] (quick-protobuf reader.rs): at most 10 groups,
    value truncated to 64 (resp. 32) bits, no minimality check. *)
Fixpoint read_varint_n (fuel : nat) (m shift acc : N) (bs : bytes) : option (N * bytes) :=
  match fuel, bs with
  | O, _ => None
  | _, [] => None
  | S f, b :: r =>
      let acc' := acc + (b mod 128) * 2 ^ shift in
      if b <? 128 then Some (acc' mod m, r) else read_varint_n f m (shift + 7) acc' r
  end.
Definition read_varint64 (bs : bytes) : option (N * bytes) := read_varint_n 10 u64_max1 0 0 bs.
Definition read_varint32 (bs : bytes) : option (N * bytes) := read_varint_n 10 u32_max1 0 0 bs.

(** [sizeofs::sizeof_varint]: number of 7-bit groups. *)
Definition sizeof_varint (v : N) : N :=
  if v <=? 127 then 1 else
  if v <=? 16383 then 2 else
  if v <=? 2097151 then 3 else
  if v <=? 268435455 then 4 else
  if v <=? 34359738367 then 5 else
  if v <=? 4398046511103 then 6 else
  if v <=? 562949953421311 then 7 else
  if v <=? 72057594037927935 then 8 else
  if v <=? 9223372036854775807 then 9 else 10.
(** [sizeofs::sizeof_len]. *)
Definition sizeof_len (len : N) : N := sizeof_varint len + len.

(** [Writer::write_with_tag(tag, write_bytes)] and friends. *)
Definition w_bytes (tag : N) (b : bytes) : bytes := write_varint tag ++ write_varint (blen b) ++ b.
Definition w_uint (tag : N) (v : N) : bytes := write_varint tag ++ write_varint v.
(** [write_with_tag(tag, write_message)]: the length prefix is the message's [get_size()], not the
    length of what is then written. *)
Definition w_msg (tag : N) (size : N) (body : bytes) : bytes :=
  write_varint tag ++ write_varint size ++ body.

(** [BytesReader::read_bytes]: length by [read_varint32], then that many bytes or an error. *)
Definition read_bytes (bs : bytes) : option (bytes * bytes) :=
  match read_varint32 bs with
  | None => None
  | Some (n, r) =>
      if n <=? blen r then Some (firstn (N.to_nat n) r, skipn (N.to_nat n) r) else None
  end.

(** Fixed width fields. *)
Definition take_exact (n : nat) (bs : bytes) : option (bytes * bytes) :=
  if (n <=? length bs)%nat then Some (firstn n bs, skipn n bs) else None.

Fixpoint le_val (bs : bytes) : N :=
  match bs with [] => 0 | b :: r => b + 256 * le_val r end.
Fixpoint le_bytes (n : nat) (v : N) : bytes :=
  match n with O => [] | S k => (v mod 256) :: le_bytes k (v / 256) end.

(** [BytesReader::read_unknown]: skip a field by its wire type. *)
Definition read_unknown (tag : N) (bs : bytes) : option bytes :=
  match tag mod 8 with
  | 0 => option_map snd (read_varint64 bs)
  | 1 => option_map snd (take_exact 8 bs)
  | 2 => match read_varint64 bs with
         | Some (n, r) => if n <=? blen r then Some (skipn (N.to_nat n) r) else None
         | None => None
         end
  | 5 => option_map snd (take_exact 4 bs)
  | _ => None
  end.

(** The [while !r.is_eof() { match r.next_tag(bytes) { ... } }] loop shared by all generated
    [from_reader] functions.  [field tag m rest] handles one field.  Every iteration consumes at
    least the tag, so [length bs] iterations always suffice (see [WireProofs]). *)
Fixpoint read_loop {M} (fuel : nat) (field : N -> M -> bytes -> option (M * bytes))
         (m : M) (bs : bytes) : option M :=
  match bs with
  | [] => Some m
  | _ :: _ =>
      match fuel with
      | O => None
      | S f =>
          match read_varint32 bs with
          | None => None
          | Some (tag, r) =>
              match field tag m r with
              | None => None
              | Some (m', r') => read_loop f field m' r'
              end
          end
      end
  end.
Definition read_message {M} (field : N -> M -> bytes -> option (M * bytes)) (m0 : M) (bs : bytes)
  : option M := read_loop (length bs) field m0 bs.

(** UTF-8 validity as checked by [str::from_utf8] (used by [read_string]). *)
Definition cont (b : N) : bool := (128 <=? b) && (b <=? 191).
Fixpoint utf8_n (fuel : nat) (bs : bytes) : bool :=
  match fuel with
  | O => match bs with [] => true | _ => false end
  | S f =>
  match bs with
  | [] => true
  | b :: r =>
      if b <? 128 then utf8_n f r else
      if (194 <=? b) && (b <=? 223) then
        match r with c1 :: r' => cont c1 && utf8_n f r' | _ => false end else
      if (224 <=? b) && (b <=? 239) then
        match r with
        | c1 :: c2 :: r' =>
            cont c1 && cont c2 &&
            (if b =? 224 then 160 <=? c1 else true) &&
            (if b =? 237 then c1 <=? 159 else true) && utf8_n f r'
        | _ => false end else
      if (240 <=? b) && (b <=? 244) then
        match r with
        | c1 :: c2 :: c3 :: r' =>
            cont c1 && cont c2 && cont c3 &&
            (if b =? 240 then 144 <=? c1 else true) &&
            (if b =? 244 then c1 <=? 143 else true) && utf8_n f r'
        | _ => false end else
      false
  end end.
Definition utf8 (bs : bytes) : bool := utf8_n (length bs) bs.

(** [BytesReader::read_string]. *)
Definition read_string (bs : bytes) : option (bytes * bytes) :=
  match read_bytes bs with
  | Some (s, r) => if utf8 s then Some (s, r) else None
  | None => None
  end.
