(** Content identifiers: the binary form, as in the cid 0.5 and multihash 0.11 crates the
    repository depends on ([cid::Cid::{new_v0,new_v1,to_bytes}], [TryFrom<&[u8]>]).
    Definitions only. *)
From Verif Require Import Base Wire.
Local Open Scope N_scope.

(** [multihash::Multihash]: code, digest (the length is explicit on the wire only). *)
Record multihash := { mh_code : N; mh_digest : bytes }.

(** [cid::Cid]: version, codec, multihash. *)
Inductive cid :=
| CidV0 (digest : bytes)                    (* dag-pb, sha2-256, 32 byte digest *)
| CidV1 (codec : N) (mh : multihash).

Definition codec_raw : N := 85.        (* 0x55 *)
Definition codec_dagpb : N := 112.     (* 0x70 *)
Definition codec_dagcbor : N := 113.   (* 0x71 *)
Definition codec_dagjson : N := 297.   (* 0x0129 *)
Definition sha2_256 : N := 18.         (* 0x12 *)

(** [cid::Codec::from(u64)]: the closed list of codecs of cid 0.5. *)
Definition codec_known (c : N) : bool :=
  existsb (N.eqb c)
    [85; 112; 113; 120; 144; 145; 146; 147; 148; 149; 150; 151; 152; 176; 177; 192; 193; 297].

Definition mh_to_bytes (m : multihash) : bytes :=
  write_varint (mh_code m) ++ write_varint (blen (mh_digest m)) ++ mh_digest m.

(** [Cid::to_bytes]. *)
Definition cid_to_bytes (c : cid) : bytes :=
  match c with
  | CidV0 d => 18 :: 32 :: d
  | CidV1 codec mh => write_varint 1 ++ write_varint codec ++ mh_to_bytes mh
  end.

Definition cid_codec (c : cid) : N := match c with CidV0 _ => codec_dagpb | CidV1 k _ => k end.
Definition cid_hash (c : cid) : multihash :=
  match c with CidV0 d => {| mh_code := sha2_256; mh_digest := d |} | CidV1 _ m => m end.

(** [MultihashRef::from_slice]: code, length, exactly that many digest bytes. *)
Definition mh_from_bytes (bs : bytes) : option multihash :=
  match read_varint64 bs with
  | None => None
  | Some (code, r) =>
      match read_varint64 r with
      | None => None
      | Some (n, d) =>
          if n =? blen d then Some {| mh_code := code; mh_digest := d |} else None
      end
  end.

(** [TryFrom<&[u8]> for Cid]: the 34 byte form starting 0x12 0x20 is version 0; otherwise version,
    codec, multihash.  [Version::from] accepts 0 and 1; version 0 goes through [Cid::new_v0], which
    requires sha2-256. *)
Definition cid_explicit (bs : bytes) : option cid :=
  match read_varint64 bs with
  | Some (v, r) =>
      match read_varint64 r with
      | Some (codec, r') =>
          match mh_from_bytes r' with
          | Some mh =>
              if codec_known codec then
                if v =? 1 then Some (CidV1 codec mh) else
                if (v =? 0) && (codec =? codec_dagpb) && (mh_code mh =? 18)
                   && (blen (mh_digest mh) =? 32)
                then Some (CidV0 (mh_digest mh)) else None
              else None
          | None => None
          end
      | None => None
      end
  | None => None
  end.
Definition cid_from_bytes (bs : bytes) : option cid :=
  match bs with
  | b1 :: b2 :: d =>
      if (b1 =? 18) && (b2 =? 32) then
        if (length d =? 32)%nat then Some (CidV0 d) else None
          (* shorter or longer: version varint 0x12 is not a known version *)
      else cid_explicit bs
  | _ => cid_explicit bs
  end.

(** Well-formedness: what every [Cid] value built by the crates satisfies. *)
Definition wf_cid (c : cid) : Prop :=
  match c with
  | CidV0 d => length d = 32%nat /\ wf_bytes d
  | CidV1 codec mh =>
      codec_known codec = true /\ mh_code mh < u64_max1 /\ wf_bytes (mh_digest mh) /\
      blen (mh_digest mh) < u64_max1
  end.
