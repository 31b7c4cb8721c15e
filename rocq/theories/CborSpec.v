(** Which values the dag-cbor properties speak about.  Independent of the codec. *)
From Verif Require Import Base Wire Cid BTree Ipld.
Local Open Scope N_scope.

(** Every integer in the value fits CBOR's 64 bit magnitude. *)
Fixpoint encodable (v : ipld) : Prop :=
  match v with
  | Integer i => (- 2 ^ 64 <= i < 2 ^ 64)%Z
  | IList l => allP encodable l
  | IMap m => allP (fun kv => encodable (snd kv)) m
  | _ => True
  end.

(** IEEE 754 binary64: infinities and NaNs have all exponent bits set. *)
Definition is_finite (bits : N) : bool := negb ((bits / 2 ^ 52) mod 2048 =? 2047).
Definition is_nan (bits : N) : bool :=
  ((bits / 2 ^ 52) mod 2048 =? 2047) && negb (bits mod 2 ^ 52 =? 0).

(** The limits of the decoder: floats finite, strings, keys and byte strings at most 64 KiB, a list
    at most 64 KiB of [Ipld] values in memory, the binary form of a link 23 to 254 bytes. *)
Section Size.
  Variable ipld_size : N.
  Fixpoint within_limits (v : ipld) : bool :=
    match v with
    | Null | IBool _ | Integer _ => true
    | Float f => is_finite f
    | Str s => blen s <=? 65536
    | IBytes b => blen b <=? 65536
    | IList l => (blen l * ipld_size <=? 65536) && forallb within_limits l
    | IMap m =>
        forallb (fun kv => (blen (fst kv) <=? 65536) && within_limits (snd kv)) m
    | Link c => (23 <=? blen (cid_to_bytes c)) && (blen (cid_to_bytes c) <=? 254)
    end.
End Size.

(** No NaN inside. *)
Fixpoint nan_free (v : ipld) : Prop :=
  match v with
  | Float f => is_nan f = false
  | IList l => allP nan_free l
  | IMap m => allP (fun kv => nan_free (snd kv)) m
  | _ => True
  end.
