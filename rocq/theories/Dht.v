(** Calls of the DHT: src/lib.rs l.937-1125 and l.1723-1729 (what a caller does), l.1488-1563 (what
    the node does with its messages), src/p2p/behaviour.rs l.79-320 (what it does with the events of
    Kademlia) and l.571-654 (how it starts queries), over the registry of [Subs].

    Kademlia is not modelled: it may refuse to start a query, and it reports results whenever it
    likes, as long as a result is of the kind of its query and nothing is reported for a query that
    is exhausted.  Addresses the node knows for a peer are arguments of the step that looks them up.
    A step is what happens between two awaits of a caller, one message the node takes from its
    channel, or one event.  A future that is dropped leaves the registry in one step: the second half
    of [drop] only wakes, as there is no notifier.  Definitions only. *)
From Verif Require Import Base Wire Cid FMap BlockSpec SubsSpec Subs GetPut.
Local Open Scope N_scope.

Definition peer := N.
Definition addr := N.
Definition qid := N.

(** What is asked: [Node::bootstrap], [get_closest_peers], [get_providers], [provide], [dht_get],
    [dht_put] and [find_peer].  Quorums are left out. *)
Inductive ask :=
| AskBootstrap | AskClosest (p : peer) | AskProviders (c : cid) | AskProvide (c : cid)
| AskGet (key : bytes) | AskPut (key value : bytes) | AskFind (p : peer).

(** Queries of Kademlia; the last two it starts itself. *)
Inductive query :=
| QBootstrap | QClosest (p : peer) | QProviders (key : bytes) | QProvide (key : bytes)
| QGet (key : bytes) | QPut (key value : bytes) | QRepublishProvider | QRepublishRecord.

(** [QueryResult]: [false] and [None] are timeouts. *)
Inductive get_result := Found (l : list (bytes * bytes)) | NotFound | GetQuorumFailed | GetTimeout.
Inductive put_result := Put | PutQuorumFailed | PutTimeout.
Inductive result :=
| Bootstrap (ok : bool) | GetClosestPeers (l : option (list peer)) | GetProviders (l : option (list peer))
| StartProviding (ok : bool) | RepublishProvider (ok : bool)
| GetRecord (r : get_result) | PutRecord (r : put_result) | RepublishRecord (r : put_result).

(** The kind of result a query has. *)
Definition fits (r : result) (q : query) : bool :=
  match r, q with
  | Bootstrap _, QBootstrap | GetClosestPeers _, QClosest _ | GetProviders _, QProviders _ | StartProviding _, QProvide _
  | RepublishProvider _, QRepublishProvider | GetRecord _, QGet _ | PutRecord _, QPut _ _ | RepublishRecord _, QRepublishRecord => true
  | _, _ => false
  end.

(** behaviour.rs l.43-51 [KadResult]. *)
Inductive kad_result := Complete | Peers (l : list peer) | Records (l : list (bytes * bytes)).
(** The messages of l.118-299. *)
Inductive message :=
| BootstrapTimedOut | ProvidersTimedOut | ProvideTimedOut | RecordNotFound | GetQuorum | GetTimedOut | PutQuorum | PutTimedOut.
Definition value := (kad_result + message)%type.

(** behaviour.rs l.90-104: what is finished first ... *)
Definition finish_first (r : result) : list value :=
  match r with
  | GetClosestPeers _ | GetProviders _ | GetRecord _ => []
  | Bootstrap false | StartProviding false | PutRecord PutQuorumFailed | PutRecord PutTimeout => []
  | _ => [inl Complete]
  end.
(** ... and then, l.106-299. *)
Definition finish_then (r : result) : list value :=
  match r with
  | Bootstrap true => []
  | Bootstrap false => [inr BootstrapTimedOut]
  | GetClosestPeers (Some l) => [inl (Peers l)]
  | GetClosestPeers None => [inr ProvidersTimedOut]           (* l.131-136: it says so *)
  | GetProviders (Some l) => [inl (Peers l)]
  | GetProviders None => [inr ProvidersTimedOut]
  | StartProviding true => []
  | StartProviding false => [inr ProvideTimedOut]
  | RepublishProvider _ => []
  | GetRecord (Found l) => [inl (Records l)]
  | GetRecord NotFound => [inr RecordNotFound]
  | GetRecord GetQuorumFailed => [inr GetQuorum]
  | GetRecord GetTimeout => [inr GetTimedOut]
  | PutRecord Put | RepublishRecord Put => []
  | PutRecord PutQuorumFailed | RepublishRecord PutQuorumFailed => [inr PutQuorum]
  | PutRecord PutTimeout => [inr PutTimedOut]
  | RepublishRecord PutTimeout => []
  end.
(** [exhausted] is [self.kademlia.query(&id).is_none()]. *)
Definition finishes (exhausted : bool) (r : result) : list value := if exhausted then finish_first r ++ finish_then r else [].

(** What a caller gets. *)
Inductive failure := Kad (m : message) | Cancelled | Refused | NoBlock | NodeGone | UnknownPeer.
Inductive reply := Done | PeersAre (l : list peer) | Values (l : list bytes) | Addresses (l : list addr) | Fails (e : failure).

(** Messages to the node: the last is [IpfsEvent::FindPeer(_, local_only, _)]. *)
Inductive node_msg := Query (q : query) | Locate (p : peer) (local_only : bool).
(** behaviour.rs l.595-654: keys of providers are the bytes of the multihash. *)
Definition message_of (a : ask) : node_msg :=
  match a with
  | AskBootstrap => Query QBootstrap
  | AskClosest p => Query (QClosest p)
  | AskProviders c => Query (QProviders (mh_to_bytes (cid_hash c)))
  | AskProvide c => Query (QProvide (mh_to_bytes (cid_hash c)))
  | AskGet k => Query (QGet k)
  | AskPut k v => Query (QPut k v)
  | AskFind p => Locate p false
  end.
(** Whether Kademlia can refuse to start it: [bootstrap], [start_providing] and [put_record] return a
    [Result]. *)
Definition refusable (q : query) : bool := match q with QBootstrap | QProvide _ | QPut _ _ => true | _ => false end.

(** What a caller makes of the value; [None] is [unreachable!()]. *)
Inductive made := Reply (r : reply) | LookAgain | Unreachable.
Definition makes (a : ask) (v : value) : made :=
  match v with
  | inr m => Reply (Fails (Kad m))
  | inl v =>
      match a, v with
      | AskBootstrap, _ => Reply Done                            (* l.1728: whatever it is *)
      | AskClosest _, Peers l | AskProviders _, Peers l => Reply (PeersAre l)
      | AskProvide _, Complete | AskPut _ _, Complete => Reply Done
      | AskGet _, Records l => Reply (Values (map snd l))
      | AskFind _, _ => LookAgain                                (* l.950: whatever it is *)
      | _, _ => Unreachable
      end
  end.

(** Where a call is: its message sent, at the subscription, its second message sent, told the answer,
    over. *)
Inductive stage := Sent (a : ask) | Waits (a : ask) (i : nat) | SentAgain (p : peer) | Told (r : reply) | Over.
Record dht := mk_dht {
  d_past : list (act qid value);         (* the registry's history, latest first *)
  d_up : bool;
  d_chan : list (nat * node_msg);        (* the channel to the node *)
  d_calls : list stage;                  (* in the order of the calls *)
  d_running : list (qid * query);        (* the queries of Kademlia that are not exhausted *)
  d_next : qid
}.
Definition dht0 : dht := mk_dht [] true [] [] [] 0.

Inductive dop :=
| DCall (a : ask) (have : bool)          (* [have]: the block is in the store, for [provide] *)
| DServe (accepts : bool) (connected known : list addr)  (* the node takes a message *)
| DBackground (q : query)                (* Kademlia starts a query nobody waits for *)
| DEvent (q : qid) (exhausted : bool) (r : result)
| DPoll (c w : nat)
| DDrop (c : nat)
| DExit.
Inductive danswer :=
| Called (c : nat) | Started (c : nat) (q : qid) (k : query) | RefusedStart (c : nat) | Located (c : nat) (l : list addr)
| Nothing | Waiting_ | Answer (r : reply) | Crash | Disabled.

Section Model.
  Variable debug : bool.
  Notation eff := (effect_of N.eqb debug).

  Definition with_calls (l : list stage) (s : dht) : dht := mk_dht (d_past s) (d_up s) (d_chan s) l (d_running s) (d_next s).
  Definition set_call (c : nat) (x : stage) (s : dht) : dht := with_calls (set_nth c x (d_calls s)) s.
  Definition with_past (p : list (act qid value)) (s : dht) : dht := mk_dht p (d_up s) (d_chan s) (d_calls s) (d_running s) (d_next s).
  Definition with_chan (l : list (nat * node_msg)) (s : dht) : dht := mk_dht (d_past s) (d_up s) l (d_calls s) (d_running s) (d_next s).

  (** Does the caller still wait for this message? *)
  Definition awaits (c : nat) (s : dht) : bool :=
    match nth_error (d_calls s) c with Some (Sent _) | Some (SentAgain _) => true | _ => false end.
  Definition ask_of (c : nat) (s : dht) : ask :=
    match nth_error (d_calls s) c with Some (Sent a) => a | _ => AskBootstrap end.

  (** Kademlia starts a query. *)
  Definition start (k : query) (s : dht) : qid * dht :=
    (d_next s, mk_dht (d_past s) (d_up s) (d_chan s) (d_calls s) ((d_next s, k) :: d_running s) (d_next s + 1)).
  (** It does, the node creates the subscription and sends the future to the caller; if that is gone,
      the future is dropped at once. *)
  Definition start_for (c : nat) (k : query) (s : dht) : dht * danswer :=
    let (q, s) := start k s in
    match ans (eff (d_past s) (Begin q false)) with
    | OId i =>
        let p := Insert i :: Begin q false :: d_past s in
        if awaits c s then (set_call c (Waits (ask_of c s) i) (with_past p s), Started c q k)
        else (with_past (DropNotify i :: DropFut i :: p) s, Started c q k)
    | _ => (s, Crash)
    end.
  (** lib.rs l.1488-1563, the messages concerned. *)
  Definition serve (c : nat) (m : node_msg) (accepts : bool) (connected known : list addr) (s : dht) : dht * danswer :=
    match m with
    | Query k =>
        if refusable k && negb accepts then
          ((if awaits c s then set_call c (Told (Fails Refused)) s else s), RefusedStart c)
        else start_for c k s
    | Locate p local_only =>
        let local := match connected with [] => known | _ => connected end in
        if match local with [] => false | _ => true end || local_only then
          ((if awaits c s then
              set_call c (Told (match local, local_only with [], true => Fails UnknownPeer | _, _ => Addresses local end)) s
            else s), Located c local)
        else start_for c (QClosest p) s
    end.

  (** [finish_subscription] for each, in turn. *)
  Fixpoint finish_all (q : qid) (vs : list value) (past : list (act qid value)) : list (act qid value) * bool :=
    match vs with
    | [] => (past, false)
    | v :: vs =>
        let crash := match ans (eff past (Finish q v)) with OPanic => true | _ => false end in
        let (past, rest) := finish_all q vs (Finish q v :: past) in (past, crash || rest)
    end.

  Definition dstep (s : dht) (o : dop) : dht * danswer :=
    match o with
    | DCall a have =>
        let c := length (d_calls s) in
        match a, have with
        | AskProvide _, false => (with_calls (d_calls s ++ [Told (Fails NoBlock)]) s, Called c)     (* l.1001-1006 *)
        | _, _ =>
            if d_up s then (with_chan (d_chan s ++ [(c, message_of a)]) (with_calls (d_calls s ++ [Sent a]) s), Called c)
            else (with_calls (d_calls s ++ [Told (Fails NodeGone)]) s, Called c)
        end
    | DServe accepts connected known =>
        if d_up s then
          match d_chan s with
          | [] => (s, Disabled)
          | (c, m) :: rest => serve c m accepts connected known (with_chan rest s)
          end
        else (s, Disabled)
    | DBackground k => if d_up s then (snd (start k s), Nothing) else (s, Disabled)
    | DEvent q exhausted r =>
        match mget N.eqb q (d_running s) with
        | Some k =>
            if d_up s && fits r k then
              let (past, crash) := finish_all q (finishes exhausted r) (d_past s) in
              (mk_dht past (d_up s) (d_chan s) (d_calls s) (if exhausted then mdel N.eqb q (d_running s) else d_running s) (d_next s),
               if crash then Crash else Nothing)
            else (s, Disabled)
        | None => (s, Disabled)
        end
    | DPoll c w =>
        match nth_error (d_calls s) c with
        | Some (Told r) => (set_call c Over s, Answer r)
        | Some (Sent _) | Some (SentAgain _) =>
            if d_up s then (s, Waiting_) else (set_call c Over s, Answer (Fails NodeGone))    (* the sender is dropped *)
        | Some (Waits a i) =>
            let past := DropFut i :: Poll i w :: d_past s in
            match ans (eff (d_past s) (Poll i w)) with
            | OPending => (with_past (Poll i w :: d_past s) s, Waiting_)
            | OReady ACancelled => (set_call c Over (with_past past s), Answer (Fails Cancelled))
            | OReady (AVal v) =>
                match makes a v with
                | Reply r => (set_call c Over (with_past past s), Answer r)
                | LookAgain =>
                    match a with
                    | AskFind p =>
                        if d_up s then
                          (with_chan (d_chan s ++ [(c, Locate p true)]) (set_call c (SentAgain p) (with_past past s)), Waiting_)
                        else (set_call c Over (with_past past s), Answer (Fails NodeGone))
                    | _ => (s, Crash)
                    end
                | Unreachable => (set_call c Over (with_past past s), Crash)
                end
            | _ => (s, Crash)
            end
        | Some Over | None => (s, Disabled)
        end
    | DDrop c =>
        match nth_error (d_calls s) c with
        | Some (Waits _ i) => (set_call c Over (with_past (DropNotify i :: DropFut i :: d_past s) s), Nothing)
        | Some Over | None => (s, Disabled)
        | Some _ => (set_call c Over s, Nothing)
        end
    | DExit =>           (* the registry and the receiver of the channel are dropped *)
        if d_up s then (mk_dht (ShutTake :: ShutFlag :: d_past s) false [] (d_calls s) [] (d_next s), Nothing) else (s, Disabled)
    end.

  Fixpoint drun (s : dht) (h : list dop) : dht * list (dop * danswer) :=
    match h with
    | [] => (s, [])
    | o :: h => let (s1, a) := dstep s o in let (s2, tr) := drun s1 h in (s2, (o, a) :: tr)
    end.
End Model.
