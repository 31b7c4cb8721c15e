(** The dag-cbor codec (src/ipld/dag_cbor.rs).  Definitions only. *)
From Verif Require Import Base Wire Cid BTree Ipld.
Local Open Scope N_scope.

(** [CborError], l.30-66. [CborEof] is the io error of a failed [read_exact]. *)
Inductive cbor_err :=
| NumberOutOfRange | LengthOutOfRange | UnexpectedCode | UnknownTag | CborEof | CborUtf8
| InvalidCidPrefix (b : N) | CborCid.

Definition cres (A : Type) := outcome A cbor_err.

(** Big endian fields ([byteorder::BigEndian]). *)
Definition be_bytes (n : nat) (v : N) : bytes := rev (le_bytes n v).
Definition be_val (bs : bytes) : N := le_val (rev bs).

(** * Writing *)

(** [write_u8], l.83-92. *)
Definition write_u8 (major v : N) : bytes :=
  if v <=? 23 then [major * 32 + v] else [major * 32 + 24; v].
(** [write_u16], l.95-104. *)
Definition write_u16 (major v : N) : bytes :=
  if v <=? 255 then write_u8 major v else (major * 32 + 25) :: be_bytes 2 v.
(** [write_u32], l.107-116. *)
Definition write_u32 (major v : N) : bytes :=
  if v <=? 65535 then write_u16 major v else (major * 32 + 26) :: be_bytes 4 v.
(** [write_u64], l.119-128. *)
Definition write_u64 (major v : N) : bytes :=
  if v <=? 4294967295 then write_u32 major v else (major * 32 + 27) :: be_bytes 8 v.

(** [write_cbor for i128], l.266-282. *)
Definition write_int (i : Z) : cres bytes :=
  if (i <? 0)%Z then
    if (18446744073709551615 <? - (i + 1))%Z then Err NumberOutOfRange
    else Ok (write_u64 1 (Z.to_N (- (i + 1))))
  else
    if (18446744073709551615 <? i)%Z then Err NumberOutOfRange
    else Ok (write_u64 0 (Z.to_N i)).

(** IEEE 754 bit fields of a binary64. *)
Definition f64_sign (x : N) : N := x / 2 ^ 63.
Definition f64_exp (x : N) : N := (x / 2 ^ 52) mod 2048.
Definition f64_man (x : N) : N := x mod 2 ^ 52.
Definition f64_finite (x : N) : bool := negb (f64_exp x =? 2047).

(** [f32 as f64] on bits ([f64::from]): exact.  A NaN keeps its payload with the quiet bit set (the
    payload is platform dependent in Rust; no theorem depends on it). *)
Definition widen (y : N) : N :=
  let s := y / 2 ^ 31 in
  let e := (y / 2 ^ 23) mod 256 in
  let m := y mod 2 ^ 23 in
  s * 2 ^ 63 +
  (if e =? 255 then 2047 * 2 ^ 52 + (if m =? 0 then 0 else N.lor (m * 2 ^ 29) (2 ^ 51))
   else if e =? 0 then
     if m =? 0 then 0
     else let k := N.log2 m in (k + 874) * 2 ^ 52 + (m - 2 ^ k) * 2 ^ (52 - k)
   else (e + 896) * 2 ^ 52 + m * 2 ^ 29).

(** The binary32 with the same value as a finite binary64, if there is one.  This is the test
    [f64::from(x as f32) == x] together with the cast, l.229-230: for a representable [x] the cast
    [x as f32] is exact, for any other [x] no f32 widens to [x], whatever the rounding. *)
Definition narrow (x : N) : option N :=
  let s := f64_sign x in
  let e := f64_exp x in
  let m := f64_man x in
  let y := s * 2 ^ 31 +
    (if (874 <=? e) && (e <=? 896) then (2 ^ 52 + m) / 2 ^ (52 - (e - 874))
     else if (897 <=? e) && (e <=? 1150) then (e - 896) * 2 ^ 23 + m / 2 ^ 29
     else 0) in
  if widen y =? x then Some y else None.

(** [write_cbor for f64] and [for f32], l.204-239: infinities and NaN become a half precision value
    (major 0xf9), values that are exactly an f32 take four bytes, others eight. *)
Definition write_f64 (x : N) : bytes :=
  if f64_finite x then
    match narrow x with
    | Some y => 250 :: be_bytes 4 y
    | None => 251 :: be_bytes 8 x
    end
  else if f64_man x =? 0 then (if f64_sign x =? 0 then [249; 124; 0] else [249; 252; 0])
  else [249; 126; 0].

(** [write_cbor for [u8]] l.241-248, [for str] l.250-257. *)
Definition write_bytes (b : bytes) : bytes := write_u64 2 (blen b) ++ b.
Definition write_str (s : bytes) : bytes := write_u64 3 (blen s) ++ s.

(** [write_cbor for Cid], l.284-295: tag 42, then a byte string of the cid bytes after a zero. *)
Definition write_link (c : cid) : bytes :=
  let b := cid_to_bytes c in write_u64 6 42 ++ write_u64 2 (blen b + 1) ++ [0] ++ b.

(** Writing items one after the other, stopping at the first error ([?]). *)
Fixpoint write_all (l : list (cres bytes)) : cres bytes :=
  match l with
  | [] => Ok []
  | Ok b :: r => match write_all r with Ok c => Ok (b ++ c) | Err e => Err e | Panic => Panic end
  | Err e :: _ => Err e
  | Panic :: _ => Panic
  end.
Definition prepend (h : bytes) (o : cres bytes) : cres bytes :=
  match o with Ok b => Ok (h ++ b) | Err e => Err e | Panic => Panic end.

(** The key order of maps, l.327: shorter keys first, then lexicographic. *)
Definition kcmp (a b : bytes) : comparison :=
  match Nat.compare (length a) (length b) with Eq => bcmp a b | c => c end.
(** [keys.sort_by(..)]: stable sort; insertion sort gives the same result. *)
Section Sort.
  Context {V : Type}.
  Fixpoint ksort_insert (kv : bytes * V) (l : list (bytes * V)) : list (bytes * V) :=
    match l with
    | [] => [kv]
    | x :: r => match kcmp (fst kv) (fst x) with Gt => x :: ksort_insert kv r | _ => kv :: l end
    end.
  Definition ksort (l : list (bytes * V)) : list (bytes * V) := fold_right ksort_insert [] l.
End Sort.

(** [write_cbor for Ipld] l.339-353, with [Vec] l.309-318 and [BTreeMap] l.320-337.  The code sorts
    the keys and looks each value up again; here the entries are sorted together. *)
Fixpoint write_ipld (v : ipld) : cres bytes :=
  match v with
  | Null => Ok [246]
  | IBool b => Ok [if b then 245 else 244]
  | Integer i => write_int i
  | Float f => Ok (write_f64 f)
  | IBytes b => Ok (write_bytes b)
  | Str s => Ok (write_str s)
  | IList l => prepend (write_u64 4 (blen l)) (write_all (map write_ipld l))
  | IMap m =>
      prepend (write_u64 5 (blen m))
        (write_all (map (fun kv => prepend (write_str (fst kv)) (snd kv))
                        (ksort (map (fun kv => (fst kv, write_ipld (snd kv))) m))))
  | Link c => Ok (write_link c)
  end.

(** [DagCborCodec::encode], l.18-22. *)
Definition cbor_encode (v : ipld) : cres bytes := write_ipld v.

(** * Reading *)

Definition obind {A B} (o : cres A) (f : A -> cres B) : cres B :=
  match o with Ok a => f a | Err e => Err e | Panic => Panic end.
Notation "'let*' p ':=' o 'in' k" := (obind o (fun p => k))
  (at level 61, p pattern, o at next level, right associativity).

(** [Read::read_exact] on a slice. *)
Definition read_exact (n : nat) (r : bytes) : cres (bytes * bytes) :=
  if (n <=? length r)%nat then Ok (firstn n r, skipn n r) else Err CborEof.

(** [read_u8], [read_u16], [read_u32], [read_u64], [read_f32], [read_f64], l.356-395. *)
Definition read_be (n : nat) (r : bytes) : cres (N * bytes) :=
  let* (b, r) := read_exact n r in Ok (be_val b, r).

(** [read_bytes], l.398-405. *)
Definition cread_bytes (len : N) (r : bytes) : cres (bytes * bytes) :=
  if 65536 <? len then Err LengthOutOfRange else read_exact (N.to_nat len) r.

(** [read_str], l.408-412. *)
Definition cread_str (len : N) (r : bytes) : cres (bytes * bytes) :=
  let* (b, r) := cread_bytes len r in if utf8 b then Ok (b, r) else Err CborUtf8.

(** [read_link], l.438-459. *)
Definition read_link (r : bytes) : cres (cid * bytes) :=
  let* (tag, r) := read_be 1 r in
  if negb (tag =? 42) then Err UnknownTag else
  let* (ty, r) := read_be 1 r in
  if negb (ty =? 88) then Err UnknownTag else
  let* (len, r) := read_be 1 r in
  if len =? 0 then Err LengthOutOfRange else
  let* (b, r) := cread_bytes len r in
  match b with
  | [] => Panic                                  (* bytes[0] of an empty buffer, l.452 *)
  | b0 :: c =>
      if negb (b0 =? 0) then Err (InvalidCidPrefix b0) else
      match cid_from_bytes c with Some c => Ok (c, r) | None => Err CborCid end
  end.

(** The argument of a major type: the arms [base..=base+0x17], [base+0x18] .. [base+0x1b] that every
    reader spells out (e.g. l.723-727, 737-764); [None] when no arm matches.  [usize] is 64 bits, so
    the [usize::max_value()] checks never fire. *)
Definition read_arg (info : N) (r : bytes) : cres (option N * bytes) :=
  if info <=? 23 then Ok (Some info, r) else
  if info =? 24 then let* (v, r) := read_be 1 r in Ok (Some v, r) else
  if info =? 25 then let* (v, r) := read_be 2 r in Ok (Some v, r) else
  if info =? 26 then let* (v, r) := read_be 4 r in Ok (Some v, r) else
  if info =? 27 then let* (v, r) := read_be 8 r in Ok (Some v, r) else
  Ok (None, r).

(** [String::read_cbor], l.465-472 and 607-626. *)
Definition read_string_item (r : bytes) : cres (bytes * bytes) :=
  let* (major, r) := read_be 1 r in
  if major / 32 =? 3 then
    let* (a, r) := read_arg (major mod 32) r in
    match a with Some len => cread_str len r | None => Err UnexpectedCode end
  else Err UnexpectedCode.

(** [for _ in 0..len { .. read_cbor(r)? .. }], l.420-422 and 429-433.  [Panic] on running out of fuel
    is never reached with the fuel given below (every item consumes a byte), see [CborProofs]. *)
Fixpoint read_items {A} (rd : bytes -> cres (A * bytes)) (fuel : nat) (n : N) (r : bytes)
  : cres (list A * bytes) :=
  if n =? 0 then Ok ([], r) else
  match fuel with
  | O => Panic
  | S f =>
      let* (a, r) := rd r in
      let* (l, r) := read_items rd f (n - 1) r in
      Ok (a :: l, r)
  end.

Section Read.
  (** [std::mem::size_of::<Ipld>()], decided by the compiler. *)
  Variable ipld_size : N.

  (** [Ipld::read_cbor], l.465-472 and 718-870, with [read_list] l.415-424 and [read_map] l.427-435.
      [stack] is the number of nested calls the thread's stack has room for: running out of it
      aborts the process ([Panic]). *)
  Fixpoint read_ipld (stack : nat) (r : bytes) : cres (ipld * bytes) :=
    match stack with
    | O => Panic
    | S d =>
        let* (major, r) := read_be 1 r in
        let info := major mod 32 in
        match major / 32 with
        | 0 => let* (a, r) := read_arg info r in
               match a with Some v => Ok (Integer (Z.of_N v), r) | None => Err UnexpectedCode end
        | 1 => let* (a, r) := read_arg info r in
               match a with Some v => Ok (Integer (-1 - Z.of_N v), r) | None => Err UnexpectedCode end
        | 2 => let* (a, r) := read_arg info r in
               match a with
               | Some n => let* (b, r) := cread_bytes n r in Ok (IBytes b, r)
               | None => Err UnexpectedCode end
        | 3 => let* (a, r) := read_arg info r in
               match a with
               | Some n => let* (s, r) := cread_str n r in Ok (Str s, r)
               | None => Err UnexpectedCode end
        | 4 => let* (a, r) := read_arg info r in
               match a with
               | Some n =>
                   if 65536 <? n * ipld_size then Err LengthOutOfRange else
                   let* (l, r) := read_items (read_ipld d) (S (length r)) n r in Ok (IList l, r)
               | None => Err UnexpectedCode end
        | 5 => let* (a, r) := read_arg info r in
               match a with
               | Some n =>
                   let* (l, r) :=
                     read_items (fun r => let* (k, r) := read_string_item r in
                                          let* (v, r) := read_ipld d r in Ok ((k, v), r))
                                (S (length r)) n r in
                   Ok (IMap (bt_of_list l), r)
               | None => Err UnexpectedCode end
        | 6 => if info =? 24 then let* (c, r) := read_link r in Ok (Link c, r)
               else Err UnexpectedCode
        | _ => if info =? 20 then Ok (IBool false, r) else
               if info =? 21 then Ok (IBool true, r) else
               if (info =? 22) || (info =? 23) then Ok (Null, r) else
               if info =? 26 then let* (y, r) := read_be 4 r in Ok (Float (widen y), r) else
               if info =? 27 then let* (x, r) := read_be 8 r in Ok (Float x, r) else
               Err UnexpectedCode
        end
    end.

  (** [DagCborCodec::decode], l.24-26: what follows the first item is ignored. *)
  Definition cbor_decode (stack : nat) (data : bytes) : cres ipld :=
    let* (v, _) := read_ipld stack data in Ok v.
End Read.
