(** What pinning a dag means: specification for [NodePins]. *)
From Verif Require Import Base Wire Cid Ipld BlockSpec FsPaths NodePins.
From Verif Require RefsSpec.

Section Dag.
  (** The stored blocks and the documents in them. *)
  Variable look : cid -> option bytes.
  Variable decode : cid -> bytes -> outcome ipld unit.
  Definition stored_doc (c : cid) (v : ipld) : Prop := exists b, look c = Some b /\ decode c b = Ok v.
  (** [d] is [c] or linked from a document under [c]. *)
  Inductive under (c : cid) : cid -> Prop :=
  | under_root : under c c
  | under_link d v name e : under c d -> stored_doc d v -> RefsSpec.has_link d v name e -> under c e.
  (** Nothing of the dag is missing. *)
  Definition complete (c : cid) : Prop := forall d, under c d -> exists v, stored_doc d v.
End Dag.

(** A block is removed by the cid under which it is linked and pinned (the store tells blocks apart by
    the version 1 form of the cid), and links are [Cid] values. *)
Definition by_own_name (decode : cid -> bytes -> outcome ipld unit) (h : list nop) : Prop :=
  (forall b x v name d, In (NPut b) h -> decode x (b_data b) = Ok v -> RefsSpec.has_link x v name d ->
     wf_cid d /\ forall r, In (NRemove r) h -> to_v1 r = to_v1 d -> r = d) /\
  (forall c r, In (NPin c true) h -> In (NRemove r) h -> to_v1 r = to_v1 c -> r = c).
Definition nop_wf (o : nop) : Prop :=
  match o with NPut b => wf_cid (b_cid b) | NRemove c => wf_cid c | NPin c _ => wf_cid c | NUnpin c _ => wf_cid c end.
