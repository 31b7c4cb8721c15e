(** Specification of the DHT calls: what every caller is to be told, read off the record of what the
    node did.  The record holds each operation with its outcome; of the node's doings it uses which
    query was started for which call, that one was refused, which addresses were found, and the final
    result of each query.  Subscriptions do not occur. *)
From Verif Require Import Base Wire Cid Dht.
Local Open Scope N_scope.

Definition record := list (dop * danswer).      (* latest first *)

(** The call as the user sees it. *)
Inductive standing :=
| Unasked
| Asked (a : ask)                    (* the node has not seen it *)
| Running (a : ask) (q : qid)        (* query [q] was started for it *)
| Final (a : ask) (r : result)       (* the query is done, with this last result *)
| Again (p : peer)                   (* [find_peer], after its query *)
| Known (r : reply)                  (* the reply is there for the next poll *)
| Closed.                            (* replied, or given up *)

(** What a final result means for a call of its kind: [None] if the call goes on. *)
Definition meaning (a : ask) (r : result) : option reply :=
  match a, r with
  | AskBootstrap, Bootstrap true | AskProvide _, StartProviding true | AskPut _ _, PutRecord Put => Some Done
  | AskClosest _, GetClosestPeers (Some l) | AskProviders _, GetProviders (Some l) => Some (PeersAre l)
  | AskGet _, GetRecord (Found l) => Some (Values (map snd l))
  | AskFind _, GetClosestPeers (Some _) => None
  | _, Bootstrap false => Some (Fails (Kad BootstrapTimedOut))
  | _, GetClosestPeers None | _, GetProviders None => Some (Fails (Kad ProvidersTimedOut))
  | _, StartProviding false => Some (Fails (Kad ProvideTimedOut))
  | _, GetRecord NotFound => Some (Fails (Kad RecordNotFound))
  | _, GetRecord GetQuorumFailed => Some (Fails (Kad GetQuorum))
  | _, GetRecord GetTimeout => Some (Fails (Kad GetTimedOut))
  | _, PutRecord PutQuorumFailed => Some (Fails (Kad PutQuorum))
  | _, PutRecord PutTimeout => Some (Fails (Kad PutTimedOut))
  | _, _ => None
  end.
(** The query a call is answered with. *)
Definition query_for (a : ask) : query :=
  match a with
  | AskBootstrap => QBootstrap
  | AskClosest p | AskFind p => QClosest p
  | AskProviders c => QProviders (mh_to_bytes (cid_hash c))
  | AskProvide c => QProvide (mh_to_bytes (cid_hash c))
  | AskGet k => QGet k
  | AskPut k v => QPut k v
  end.

Definition exited (tr : record) : bool :=
  existsb (fun x => match fst x with DExit => true | _ => false end) tr.

(** The next standing of call [c]. *)
Definition moves (c : nat) (before : record) (x : dop * danswer) (st : standing) : standing :=
  match x with
  | (DCall a have, Called c') =>
      if (c' =? c)%nat then
        match a, have with
        | AskProvide _, false => Known (Fails NoBlock)
        | _, _ => if exited before then Known (Fails NodeGone) else Asked a
        end
      else st
  | (DServe _ _ _, Started c' q _) =>
      if (c' =? c)%nat then match st with Asked a => Running a q | _ => st end else st
  | (DServe _ _ _, RefusedStart c') =>
      if (c' =? c)%nat then match st with Asked _ => Known (Fails Refused) | _ => st end else st
  | (DServe _ _ _, Located c' l) =>
      if (c' =? c)%nat then
        match st with
        | Asked _ => Known (Addresses l)
        | Again _ => Known (match l with [] => Fails UnknownPeer | _ => Addresses l end)
        | _ => st
        end
      else st
  | (DEvent q true r, Nothing) => match st with Running a q' => if q =? q' then Final a r else st | _ => st end
  | (DPoll c' _, _) =>
      if (c' =? c)%nat then
        match st with
        | Known _ => Closed
        | Final (AskFind p as a) r => match meaning a r with Some _ => Closed | None => Again p end
        | Final _ _ => Closed
        | _ => st
        end
      else st
  | (DDrop c', _) => if (c' =? c)%nat then match st with Unasked => Unasked | _ => Closed end else st
  | (DExit, _) =>
      match st with
      | Asked _ | Again _ => Known (Fails NodeGone)
      | Running _ _ | Final _ _ => Known (Fails Cancelled)
      | _ => st
      end
  | _ => st
  end.
Fixpoint stands (tr : record) (c : nat) : standing :=
  match tr with [] => Unasked | x :: before => moves c before x (stands before c) end.

(** What polling a call gives. *)
Definition poll_gives (st : standing) : danswer :=
  match st with
  | Unasked | Closed => Disabled
  | Asked _ | Running _ _ | Again _ => Waiting_
  | Known r => Answer r
  | Final a r => match meaning a r with Some r => Answer r | None => Waiting_ end
  end.

(** The calls the node has not answered, in the order it gets their messages. *)
Fixpoint unserved (tr : record) : list nat :=
  match tr with
  | [] => []
  | (o, x) :: before =>
      let l := unserved before in
      match o, x with
      | DCall (AskProvide _) false, _ => l
      | DCall _ _, Called c => if exited before then l else l ++ [c]
      | DPoll c _, Waiting_ => match stands before c with Final _ _ => l ++ [c] | _ => l end
      | DServe _ _ _, Disabled => l
      | DServe _ _ _, _ => tl l
      | DExit, _ => []
      | _, _ => l
      end
  end.

(** The queries started for calls. *)
Definition started (tr : record) : list (nat * qid) :=
  flat_map (fun x => match snd x with Started c q _ => [(c, q)] | _ => [] end) tr.

(** What the node did was about call [c]. *)
Definition about (c : nat) (x : danswer) : Prop :=
  match x with Started c' _ _ | RefusedStart c' | Located c' _ => c' = c | _ => False end.
(** This ends query [q]. *)
Definition ended (q : qid) (x : dop * danswer) : Prop := fst x = DExit \/ exists r, x = (DEvent q true r, Nothing).

(** What happened, latest first, after an execution from the start. *)
Definition record_of (debug : bool) (h : list dop) : record := rev (snd (drun debug dht0 h)).
(** What operation [o] gives after [h]. *)
Definition gives (debug : bool) (h : list dop) (o : dop) : danswer := snd (dstep debug (fst (drun debug dht0 h)) o).
