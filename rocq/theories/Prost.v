(** The protobuf reader of prost 0.9, as used by bitswap/src/ledger.rs through the code prost-build
    generates from bitswap/src/bitswap_pb.proto.  Definitions only.

    prost is a dependency; its reader is modelled here from its published source.  [None] is every
    [prost::DecodeError]; the kind is not modelled.  prost reads an embedded message from the buffer
    of the whole message and fails when the message ends elsewhere than its length says; here an
    embedded message is read from a slice of that length, so that what runs over its end fails when
    it is read.  The result differs only in the kind of the error. *)
From Verif Require Import Base Wire.
Local Open Scope N_scope.

(** [prost::encoding::decode_varint]: at most ten bytes, a value of 2^64 or more is an error. *)
Definition pb_varint (bs : bytes) : option (N * bytes) :=
  match read_varint_n 10 (2 ^ 70) 0 0 bs with
  | Some (v, r) => if v <? u64_max1 then Some (v, r) else None
  | None => None
  end.

(** [prost::encoding::decode_key]: the key must fit 32 bits, the wire type is at most 5 and the tag
    is not 0. *)
Definition pb_key (bs : bytes) : option (N * N * bytes) :=
  match pb_varint bs with
  | Some (k, r) =>
      if (u32_max1 <=? k) || (5 <? k mod 8) || (k / 8 =? 0) then None else Some (k / 8, k mod 8, r)
  | None => None
  end.

(** A value as read off the wire. *)
Inductive pval := PVarint (v : N) | PFixed64 | PLen (b : bytes) | PGroup | PFixed32.

(** Wire types 0, 1, 2 and 5. *)
Definition pb_plain (wt : N) (bs : bytes) : option (pval * bytes) :=
  if wt =? 0 then option_map (fun '(v, r) => (PVarint v, r)) (pb_varint bs)
  else if wt =? 1 then option_map (fun '(_, r) => (PFixed64, r)) (take_exact 8 bs)
  else if wt =? 2 then
    match pb_varint bs with
    | Some (n, r) => if n <=? blen r then Some (PLen (firstn (N.to_nat n) r), skipn (N.to_nat n) r) else None
    | None => None
    end
  else if wt =? 5 then option_map (fun '(_, r) => (PFixed32, r)) (take_exact 4 bs)
  else None.

(** [prost::encoding::skip_field] on a group: fields up to the end of the group with the same tag.
    [limit] is the recursion limit of the context in which the group starts (it is not 0 there). *)
Fixpoint skip_group (fuel limit : nat) (tag : N) (bs : bytes) : option bytes :=
  match fuel with
  | O => None
  | S f =>
      match pb_key bs with
      | None => None
      | Some (t, wt, r) =>
          if wt =? 4 then (if t =? tag then Some r else None)
          else
            match limit with
            | S (S _ as l) =>
                match (if wt =? 3 then skip_group f l t r else option_map snd (pb_plain wt r)) with
                | Some r' => skip_group f limit tag r'
                | None => None
                end
            | _ => None
            end
      end
  end.

(** The loop of [Message::merge] / [message::merge_loop]: the fields of a message, in order.  Each
    is later merged by the generated [merge_field], see the users of this file. *)
Fixpoint pb_fields_n (fuel limit : nat) (bs : bytes) : option (list (N * pval)) :=
  match bs with
  | [] => Some []
  | _ :: _ =>
      match fuel with
      | O => None
      | S f =>
          match pb_key bs with
          | None => None
          | Some (t, wt, r) =>
              match (if wt =? 3 then
                       match limit with
                       | O => None
                       | S _ => option_map (fun r' => (PGroup, r')) (skip_group f limit t r)
                       end
                     else pb_plain wt r) with
              | None => None
              | Some (v, r') => option_map (cons (t, v)) (pb_fields_n f limit r')
              end
          end
      end
  end.
(** Every round consumes a byte at least, so that the length of the message is fuel enough
    (see [ProstProofs.pb_fields_fuel]). *)
Definition pb_fields (limit : nat) (bs : bytes) : option (list (N * pval)) :=
  pb_fields_n (length bs) limit bs.

(** Merging the fields into a message, one after the other. *)
Fixpoint pb_merge {M} (field : M -> N * pval -> option M) (m : M) (fs : list (N * pval)) : option M :=
  match fs with
  | [] => Some m
  | f :: r => match field m f with Some m' => pb_merge field m' r | None => None end
  end.

(** [as i32] of an u64 and back: what the int32 coder of prost does. *)
Definition to_i32 (n : N) : Z :=
  let k := Z.of_N (n mod u32_max1) in if (k <? 2147483648)%Z then k else (k - 4294967296)%Z.
Definition of_i32 (z : Z) : N := Z.to_N (z mod 18446744073709551616)%Z.
