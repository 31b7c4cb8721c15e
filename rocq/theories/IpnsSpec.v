(** Specification for C51 and C52. *)
From Verif Require Import Base Wire Cid Text IpfsPath PathSpec TextProofs Ipns.
Local Open Scope N_scope.

Section Spec.
  Variable other_base : N -> bytes -> option bytes.
  Variable txt : bytes -> option (list (list bytes)).

  (** The first "dnslink=…" text at the name is the text of the path. *)
  Definition says (name : bytes) (p : ipfs_path) : Prop :=
    exists res before suffix after,
      txt name = Some res /\ concat res = before ++ (s_dnslink_eq ++ suffix) :: after /\
      (forall rest, ~ In (s_dnslink_eq ++ rest) before) /\ utf8 suffix = true /\ spells other_base suffix p.
  (** The record of a name: at the name itself, or else at "_dnslink." and the name. *)
  Definition links (d : bytes) (p : ipfs_path) : Prop :=
    says d p \/ ((forall q, ~ says d q) /\ (forall rest, d <> s_dnslink_dot ++ rest) /\ says (s_dnslink_dot ++ d) p).

  Definition is_ipld (p : ipfs_path) : Prop := exists c, p_root p = Ipld c.
  (** One step of a chain of names. *)
  Definition leads (p q : ipfs_path) : Prop := exists d, p_root p = Dns d /\ links d q.
  Inductive chain : ipfs_path -> ipfs_path -> Prop :=
  | chain_here p : chain p p
  | chain_next p q r : leads p q -> chain q r -> chain p r.
  (** Nothing follows. *)
  Definition dead_end (p : ipfs_path) : Prop := ~ is_ipld p /\ forall q, ~ leads p q.
  (** On a circle. *)
  Definition circular (p : ipfs_path) : Prop := exists q, leads p q /\ chain q p.
End Spec.

(** The record of [k] after the calls [past], latest first. *)
Fixpoint record_is (k : peer_id) (past : list op) (r : option ipfs_path) : Prop :=
  match past with
  | [] => r = None
  | Put k' p :: past => (k = k' /\ r = Some p) \/ (k <> k' /\ record_is k past r)
  | Remove k' :: past => (k = k' /\ r = None) \/ (k <> k' /\ record_is k past r)
  | Wipe :: _ => r = None
  | Get _ :: past => record_is k past r
  end.
(** Calls with peer ids that are peer ids. *)
Definition good_op (o : op) : Prop :=
  match o with Put k _ | Get k | Remove k => wf_peer k | Wipe => True end.
