(** Text forms of cids and peer ids: base32 (multibase 'b'), base58btc, and the conversions of the
    cid 0.5, multibase 0.8, bs58 and libp2p-core crates the repository calls ([Cid::to_string],
    [Cid::try_from(&str)], [PeerId::to_string], [PeerId::from_str]).  These are dependencies, modelled
    from their published behaviour.  Definitions only. *)
From Verif Require Import Base Wire Cid.
Local Open Scope N_scope.

(** * Base 32, lower case, no padding (RFC 4648 alphabet) *)

(** The [w] low bits of [v], most significant first, and back. *)
Fixpoint to_bits (w : nat) (v : N) : list bool :=
  match w with O => [] | S w => N.testbit v (N.of_nat w) :: to_bits w v end.
Fixpoint of_bits (l : list bool) (acc : N) : N :=
  match l with [] => acc | b :: r => of_bits r (2 * acc + N.b2n b) end.

(** Groups of five bits, the last one filled up with zeros. *)
Fixpoint group5 (l : list bool) : list (list bool) :=
  match l with
  | [] => []
  | [a] => [[a; false; false; false; false]]
  | [a; b] => [[a; b; false; false; false]]
  | [a; b; c] => [[a; b; c; false; false]]
  | [a; b; c; d] => [[a; b; c; d; false]]
  | a :: b :: c :: d :: e :: r => [a; b; c; d; e] :: group5 r
  end.
(** Whole groups of eight bits and what is left over. *)
Fixpoint group8 (l : list bool) : list (list bool) * list bool :=
  match l with
  | a :: b :: c :: d :: e :: f :: g :: h :: r =>
      let (gs, rest) := group8 r in ([a; b; c; d; e; f; g; h] :: gs, rest)
  | _ => ([], l)
  end.

Definition b32_char (v : N) : N := if v <? 26 then 97 + v else 24 + v.
Definition b32_val (c : N) : option N :=
  if (97 <=? c) && (c <=? 122) then Some (c - 97)
  else if (50 <=? c) && (c <=? 55) then Some (c - 24) else None.

Definition b32_encode (bs : bytes) : bytes :=
  map (fun g => b32_char (of_bits g 0)) (group5 (concat (map (to_bits 8) bs))).

Fixpoint b32_vals (s : bytes) : option (list N) :=
  match s with
  | [] => Some []
  | c :: r => match b32_val c, b32_vals r with Some v, Some vs => Some (v :: vs) | _, _ => None end
  end.
(** [data_encoding]'s decoder: whole bytes, and fewer than five left over bits, all zero. *)
Definition b32_decode (s : bytes) : option bytes :=
  match b32_vals s with
  | None => None
  | Some vs =>
      let (gs, rest) := group8 (concat (map (to_bits 5) vs)) in
      if (length rest <? 5)%nat && forallb negb rest then Some (map (fun g => of_bits g 0) gs) else None
  end.

(** * Base 58 (bitcoin alphabet) *)

(** Digits of a number, least significant first, without leading zeros. *)
Fixpoint digits (fuel : nat) (b v : N) : list N :=
  match fuel with
  | O => []
  | S f => if v =? 0 then [] else v mod b :: digits f b (v / b)
  end.
Fixpoint undigits (b : N) (l : list N) : N :=
  match l with [] => 0 | d :: r => d + b * undigits b r end.
Fixpoint drop_while (p : N -> bool) (l : list N) : list N :=
  match l with [] => [] | x :: r => if p x then drop_while p r else l end.
Definition leading (p : N -> bool) (l : list N) : nat := (length l - length (drop_while p l))%nat.

Definition b58_char (v : N) : N :=
  if v <? 9 then 49 + v            (* 1-9 *)
  else if v <? 17 then 56 + v      (* A-H *)
  else if v <? 22 then 57 + v      (* J-N *)
  else if v <? 33 then 58 + v      (* P-Z *)
  else if v <? 44 then 64 + v      (* a-k *)
  else 65 + v.                     (* m-z *)
Definition b58_val (c : N) : option N :=
  if (49 <=? c) && (c <=? 57) then Some (c - 49)
  else if (65 <=? c) && (c <=? 72) then Some (c - 56)
  else if (74 <=? c) && (c <=? 78) then Some (c - 57)
  else if (80 <=? c) && (c <=? 90) then Some (c - 58)
  else if (97 <=? c) && (c <=? 107) then Some (c - 64)
  else if (109 <=? c) && (c <=? 122) then Some (c - 65)
  else None.

Fixpoint b58_vals (s : bytes) : option (list N) :=
  match s with
  | [] => Some []
  | c :: r => match b58_val c, b58_vals r with Some v, Some vs => Some (v :: vs) | _, _ => None end
  end.

Definition is_zero (x : N) : bool := x =? 0.
(** [bs58::encode]: one '1' per leading zero byte, then the number in base 58. *)
Definition b58_digits (bs : bytes) : list N :=
  let v := undigits 256 (rev (drop_while is_zero bs)) in
  repeat 0 (leading is_zero bs) ++ rev (digits (N.size_nat v) 58 v).
Definition b58_encode (bs : bytes) : bytes := map b58_char (b58_digits bs).
(** [bs58::decode]. *)
Definition b58_undigits (vs : list N) : bytes :=
  let v := undigits 58 (rev (drop_while is_zero vs)) in
  repeat 0 (leading is_zero vs) ++ rev (digits (N.size_nat v) 256 v).
Definition b58_decode (s : bytes) : option bytes :=
  match b58_vals s with None => None | Some vs => Some (b58_undigits vs) end.

(** * Cids *)

(** [Cid::to_string], cid 0.5: version 0 in base 58, version 1 in multibase base 32 ('b' = 98). *)
Definition cid_to_text (c : cid) : bytes :=
  match c with
  | CidV0 _ => b58_encode (cid_to_bytes c)
  | CidV1 _ _ => 98 :: b32_encode (cid_to_bytes c)
  end.

(** [str::find] and what follows the match. *)
Fixpoint strip_prefix (p s : bytes) : option bytes :=
  match p, s with
  | [], _ => Some s
  | a :: p', b :: s' => if a =? b then strip_prefix p' s' else None
  | _, [] => None
  end.
Fixpoint after_first (p s : bytes) : option bytes :=
  match strip_prefix p s with
  | Some r => Some r
  | None => match s with [] => None | _ :: s' => after_first p s' end
  end.
Definition slash_ipfs : bytes := [47; 105; 112; 102; 115; 47].

Section Parse.
  (** The multibase decoders for prefixes other than 'b'. *)
  Variable other_base : N -> bytes -> option bytes.

  Definition multibase_decode (s : bytes) : option bytes :=
    match s with
    | [] => None
    | c :: r => if c =? 98 then b32_decode r else other_base c r
    end.
  (** [Version::is_v0_str]: 46 bytes starting with "Qm". *)
  Definition is_v0_text (s : bytes) : bool :=
    (length s =? 46)%nat && match s with a :: b :: _ => (a =? 81) && (b =? 109) | _ => false end.
  (** [TryFrom<&str> for Cid]. *)
  Definition cid_from_text (s : bytes) : option cid :=
    let h := match after_first slash_ipfs s with Some r => r | None => s end in
    if (length h <? 2)%nat then None else
    match (if is_v0_text h then b58_decode h else multibase_decode h) with
    | None => None
    | Some b => cid_from_bytes b
    end.
End Parse.

(** * Peer ids *)

(** [PeerId]: a multihash, sha2-256 or identity of at most 42 bytes ([PeerId::from_multihash]). *)
Definition peer_id := multihash.
Definition peer_ok (m : multihash) : bool :=
  (mh_code m =? 18) || ((mh_code m =? 0) && (blen (mh_digest m) <=? 42)).
(** [PeerId::to_base58], [to_string]; [PeerId::from_str]. *)
Definition peer_to_text (p : peer_id) : bytes := b58_encode (mh_to_bytes p).
Definition peer_from_text (s : bytes) : option peer_id :=
  match b58_decode s with
  | None => None
  | Some b => match mh_from_bytes b with
              | Some m => if peer_ok m then Some m else None
              | None => None
              end
  end.
