(** The background task over the bitswap behaviour: src/lib.rs l.1575-1600 (the events of the repo, without the
    DHT), l.1454-1465 (the want list of the node).  Definitions only.

    The swarm has only this behaviour; what it reports is only noted ([Exchange] has what is done with it). *)
From Verif Require Import Base Cid FMap BitswapMsg Bitswap Exchange EventLoop.

(** bitswap/src/behaviour.rs l.314-343 [poll], over the connected peers. *)
Definition bs_next (b : bitswap) : option (action * bitswap) :=
  match poll (map fst (b_peers b)) b with
  | (b', Some a) => Some (a, b')
  | (_, None) => None
  end.
Definition bs_took (b : bitswap) (_ : action) : bitswap := b.
(** l.1454-1465 [IpfsEvent::WantList]: of the node, or of a peer. *)
Definition bs_request (b : bitswap) (q : option peer) : bitswap * list (cid * Z) :=
  (b, match q with
      | Some p => match peer_wantlist p b with Some l => l | None => [] end
      | None => local_wantlist b
      end).
(** l.1575-1600. *)
Definition bs_repo (b : bitswap) (e : repo_event) : bitswap :=
  match e with
  | EWant c => want_block c 1 b
  | EUnwant c | ENew c => cancel_block c b
  end.
Definition bs_run := EventLoop.run bs_next bs_took bs_request bs_repo.
