(** What bitswap messages mean, independently of their wire format. *)
From Verif Require Import Base Wire Cid FMap BitswapMsg.
Local Open Scope N_scope.

(** The priority with which a message asks for a cid. *)
Definition wants (m : message) (c : cid) : option Z := mget cid_eqb c (m_want m).

(** Two messages that say the same: the same wants with the same priorities, the same cancels, the
    same blocks in the same order. *)
Definition same_message (a b : message) : Prop :=
  (forall c, wants a c = wants b c) /\ (forall c, In c (m_cancel a) <-> In c (m_cancel b)) /\ m_blocks a = m_blocks b.

(** The digest in the cid of a block is the hash of its data, cut to some length. *)
Definition digest_of (hasher : N -> option (bytes -> bytes)) (b : block) : Prop :=
  exists h n, hasher (mh_code (cid_hash (b_cid b))) = Some h /\ mh_digest (cid_hash (b_cid b)) = firstn n (h (b_data b)).
(** The digest is the whole hash. *)
Definition full_digest_of (hasher : N -> option (bytes -> bytes)) (b : block) : Prop :=
  exists h, hasher (mh_code (cid_hash (b_cid b))) = Some h /\ mh_digest (cid_hash (b_cid b)) = h (b_data b).

Definition is_i32 (z : Z) : Prop := (-2147483648 <= z < 2147483648)%Z.

(** What the types of the program guarantee of a message: a map has a key once, cids are cids,
    priorities are i32. *)
Definition wf_message (m : message) : Prop :=
  NoDup (map fst (m_want m)) /\ Forall (fun w => wf_cid (fst w) /\ is_i32 (snd w)) (m_want m) /\
  NoDup (m_cancel m) /\ Forall wf_cid (m_cancel m) /\
  Forall (fun b => wf_cid (b_cid b)) (m_blocks m).
(** A message of a node whose blocks are what their cids say. *)
Definition honest (hasher : N -> option (bytes -> bytes)) (m : message) : Prop :=
  wf_message m /\ Forall (digest_of hasher) (m_blocks m).
