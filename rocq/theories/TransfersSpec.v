(** What the statistics of a node should say, from what was observed of the node alone: which blocks
    it handed over to be sent, which blocks it was given and what became of them. *)
From Verif Require Import Base Wire Cid FMap BlockSpec BitswapMsg Bitswap Transfers.
Local Open Scope N_scope.

Definition trace := list (Transfers.op * Transfers.out).

(** The blocks handed over for sending, in messages to peers. *)
Definition sent (t : trace) : list (peer * block) :=
  flat_map (fun e => match snd e with Acted (Notify p m) => map (pair p) (m_blocks m) | _ => [] end) t.
(** The blocks received. *)
Definition received_blocks (t : trace) : list (peer * block) :=
  flat_map (fun e => match snd e with Acted (Report (ReceivedBlock p b)) => [(p, b)] | _ => [] end) t.
(** Those which were tried to be stored, and those which were stored as new ones and as known ones. *)
Definition tried (t : trace) : list (peer * block) :=
  flat_map (fun e => match snd e with Kept p b _ => [(p, b)] | _ => [] end) t.
Definition kept (is_new : bool) (t : trace) : list (peer * block) :=
  flat_map (fun e => match snd e with Kept p b (Some x) => if Bool.eqb x is_new then [(p, b)] else [] | _ => [] end) t.
(** The number of spawned tasks which have ended. *)
Definition ended (t : trace) : nat :=
  length (filter (fun e => match snd e with Kept _ _ None => true | CountedData _ _ _ => true | _ => false end) t).
(** Every received block has been dealt with. *)
Definition settled (t : trace) : Prop := length (received_blocks t) = ended t.

Definition bytes_in (l : list (peer * block)) : N := sumN (map (fun pb => blen (b_data (snd pb))) l).
Definition number (l : list (peer * block)) : N := blen l.

(** Whether a block with this multihash is stored, as the last thing done about it says. *)
Definition holds_step (h : multihash) (x : bool) (e : Transfers.op * Transfers.out) : bool :=
  match e with
  | (PutBlock b, _) => if mh_eqb (cid_hash (BlockSpec.b_cid b)) h then true else x
  | (RemoveBlock c, _) => if mh_eqb (cid_hash c) h then false else x
  | (_, Kept _ b (Some _)) => if mh_eqb (cid_hash (b_cid b)) h then true else x
  | _ => x
  end.
Definition holds (h : multihash) (t : trace) : bool := fold_left (holds_step h) t false.

(** No other report is begun, and none has been begun before and not ended. *)
Definition no_start (t : trace) : Prop := forall o, ~ In (o, Started) t.
Definition no_report (t : trace) : Prop := forall o r, ~ In (o, Reported r) t.
(** The sizes of the blocks whose tasks have ended, both counters being changed. *)
Definition finished (is_new : bool) (t : trace) : list N :=
  flat_map (fun e => match snd e with CountedData _ x n => if Bool.eqb x is_new then [n] else [] | _ => [] end) t.
(** What was done with bitswap: a call made while a report is under way waits, and is not made. *)
Fixpoint done_with (busy : bool) (t : trace) : list Bitswap.op :=
  match t with
  | [] => []
  | (Swarm o, _) :: r => if busy then done_with busy r else o :: done_with busy r
  | (_, Started) :: r => done_with true r
  | (_, Reported _) :: r => done_with false r
  | _ :: r => done_with busy r
  end.
