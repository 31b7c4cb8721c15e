(** Specification for C50. *)
From Verif Require Import Base Wire Cid FMap Addr Bootstrap.
Local Open Scope N_scope.

(** The bootstrapper [w] is in the list after the calls [past] (latest first), starting from [first]. *)
Fixpoint in_list {kad} (w : with_peer) (first : list with_peer) (past : list (op kad)) : Prop :=
  match past with
  | [] => In w first
  | Add x :: past => w = x \/ in_list w first past
  | Remove x :: past => w <> x /\ in_list w first past
  | Clear _ :: past => False
  | Restore :: past => In w bootstrap_nodes \/ in_list w first past
  | _ :: past => in_list w first past
  end.
(** The options which name their peer: an address with its only peer id at the end. *)
Definition option_names (a : multiaddr) (w : with_peer) : Prop :=
  a = wp_addr w ++ [PP2p (wp_peer w)] /\ (forall h, ~ In (PP2p h) (wp_addr w)) /\ ~ In PCircuit (wp_addr w) /\ valid_peer (wp_peer w) = true.
