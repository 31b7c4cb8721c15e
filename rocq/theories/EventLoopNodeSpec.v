(** What the want list of a node is expected to be. *)
From Verif Require Import Base Cid FMap BitswapMsg Bitswap Exchange EventLoop EventLoopSpec.

(** The last event of the repo about the cid asks for it. *)
Definition wanted_after (l : list repo_event) (c : cid) : bool :=
  fold_left (fun w e => match e with
                        | EWant d => if cid_eqb c d then true else w
                        | EUnwant d | ENew d => if cid_eqb c d then false else w
                        end) l false.
(** Connections come and go, messages without a block for the node come in: not what the node wants. *)
Definition keeps_wants (h : list (EventLoop.op bitswap (option peer) repo_event)) : Prop :=
  forall f b, In (Net f) h -> b_wanted (f b) = b_wanted b.
