(** What a path text means (independent of the parser). *)
From Verif Require Import Base Wire Cid Text IpfsPath.
Local Open Scope N_scope.

(** A segment: not empty, no '/'. *)
Definition plain (s : bytes) : Prop := ~ In 47 s.
Definition good_seg (s : bytes) : Prop := plain s /\ s <> [].

(** Each segment preceded by '/'. *)
Definition slashed (l : list bytes) : bytes := concat (map (cons 47) l).

Definition at_ipfs : bytes := [47; 105; 112; 102; 115; 47].   (* "/ipfs/" *)
Definition at_ipld : bytes := [47; 105; 112; 108; 100; 47].   (* "/ipld/" *)
Definition at_ipns : bytes := [47; 105; 112; 110; 115; 47].   (* "/ipns/" *)

(** [s] spells the path [p]: a documented prefix, the text of the root, segments, and at most one
    trailing slash. *)
Definition spells (other_base : N -> bytes -> option bytes) (s : bytes) (p : ipfs_path) : Prop :=
  exists prefix key trail,
    s = prefix ++ key ++ slashed (p_segs p) ++ trail /\
    plain key /\ Forall good_seg (p_segs p) /\ (trail = [] \/ trail = [47]) /\
    match p_root p with
    | Ipld c => (prefix = [] \/ prefix = at_ipfs \/ prefix = at_ipld) /\ cid_from_text other_base key = Some c
    | Ipns q => prefix = at_ipns /\ peer_from_text key = Some q
    | Dns n => prefix = at_ipns /\ key = n /\ peer_from_text n = None
    end.

(** Paths whose root the parser could have produced. *)
Definition printable (p : ipfs_path) : Prop :=
  Forall good_seg (p_segs p) /\
  match p_root p with
  | Ipld _ | Ipns _ => True
  | Dns n => plain n /\ peer_from_text n = None
  end.
