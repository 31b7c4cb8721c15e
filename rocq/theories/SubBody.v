(** The body of the response of /pubsub/sub: http/src/v0/pubsub.rs l.113-115 and l.165-187.  Definitions
    only. *)
From Verif Require Import Base Wire Cid Pubsub HttpSub HttpPubsub Bodies.
Local Open Scope N_scope.

(** What the stream of the response [r] has yielded in a history: lines, and an error when it was too slow
    (l.170-176); and whether it has ended (l.169). *)
Definition sub_items (line : msg -> bytes) (r : rid) (tr : list (hop * hanswer)) : list item :=
  flat_map (fun x => match x with
    | (HRead r', Line m) => if r =? r' then [Bytes (line m)] else []
    | (HRead r', TooSlow) => if r =? r' then [Error] else []
    | _ => []
    end) tr.
Definition sub_left (r : rid) (tr : list (hop * hanswer)) : left :=
  if existsb (fun x => match x with (HRead r', HttpSub.Closed) => r =? r' | _ => false end) tr then AtEnd else AtWork.
