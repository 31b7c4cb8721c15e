(** Symlink blocks: unixfs/src/symlink.rs.  Definitions only. *)
From Verif Require Import Base Wire Pb.
Local Open Scope N_scope.

(** l.20-27: the node. *)
Definition symlink_node (target : bytes) : flat :=
  mk_flat [] (mk_unixfs TSymlink (Some target) None [] None None None None).
(** l.13-30 [serialize_symlink_block]: the buffer afterwards.  The writer appends to it; it has no reason to
    fail. *)
Definition serialize_symlink_block (target buffer : bytes) : bytes := buffer ++ flat_write (symlink_node target).
