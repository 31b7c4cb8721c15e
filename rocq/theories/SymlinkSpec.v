(** The form of a symlink block, and what a path below one means. *)
From Verif Require Import Base.
Local Open Scope N_scope.

(** A protobuf varint: seven bits to a byte, the low ones first, the high bit set on all but the last. *)
Inductive varint : N -> bytes -> Prop :=
| varint_last : forall n, n < 128 -> varint n [n]
| varint_more : forall n l, 128 <= n -> varint (n / 128) l -> varint n (n mod 128 + 128 :: l).

(** PBNode { 1 (Data): UnixFS Data { 1 (Type): 4 (Symlink), 2 (Data): the target } }. *)
Definition symlink_form (target b : bytes) : Prop :=
  exists size len, varint (blen target) len /\ varint (blen ([8; 4; 18] ++ len ++ target)) size /\
    b = [10] ++ size ++ [8; 4; 18] ++ len ++ target.
