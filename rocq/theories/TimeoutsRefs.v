(** The body of /refs, http/src/v0/refs.rs l.58-90 over src/refs.rs l.139-249, as a future: [Refs.run] for
    a store in which blocks come and go.  Not under the timeout, as the other bodies in [Timeouts].
    Definitions only.  A failing [get_block] is left out. *)
From Verif Require Import Base Wire Cid Ipld Resolve Timeouts.
From Verif Require Refs.
Local Open Scope N_scope.

Section Body.
  Variable checks : bool.
  Variable decode : cid -> bytes -> outcome ipld unit.
  (** l.173-243: all that it lists, when it has come to its end. *)
  Fixpoint refs_loop (fuel : nat) (o : Refs.opts) (work : list Refs.item) (seen : list cid) : task (list Refs.event * Refs.ending) :=
    match fuel with
    | O => Endless
    | S fuel =>
        match work with
        | [] => Done ([], Refs.Closed)
        | i :: work =>
            let go x := match x with
                        | (es, inl e) => Done (es, e)
                        | (es, inr (work, seen)) => bind (refs_loop fuel o work seen) (fun r => Done (es ++ fst r, snd r))
                        end in
            match Refs.traverse checks (Refs.max_depth o) (Refs.i_depth i) with
            | Some (Some _) => Load (Refs.i_dst i) (fun b => go (Refs.turn checks (fun _ => Refs.Data b) decode o i work seen))
            | _ => go (Refs.turn checks (fun _ => Refs.Absent) decode o i work seen)      (* no block is asked for *)
            end
        end
    end.
  Definition refs_body (fuel : nat) (o : Refs.opts) (roots : list (cid * ipld)) : task (list Refs.event * Refs.ending) :=
    match Refs.max_depth o with
    | Some 0 => Done ([], Refs.Closed)
    | _ => match Refs.start o roots [] [] with
           | None => Done ([], Refs.Panicked)
           | Some (work, seen) => refs_loop fuel o work seen
           end
    end.
End Body.
