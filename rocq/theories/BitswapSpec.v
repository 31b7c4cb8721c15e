(** What the bitswap behaviour is expected to do, in terms of histories. *)
From Coq Require Import Permutation.
From Verif Require Import Base Wire Cid FMap BitswapMsg BitswapMsgSpec Bitswap.
Local Open Scope N_scope.

(** * Wanted blocks *)
(** The priority with which the node wants a cid after a history: what was said last about it.
    Wanting it sets it; cancelling it and receiving the block end it. *)
Definition wanted_step (c : cid) (w : option Z) (o : op) : option Z :=
  match o with
  | OWant c' p => if cid_eqb c c' then Some p else w
  | OCancel c' => if cid_eqb c c' then None else w
  | OReceived _ _ m => if existsb (fun b => cid_eqb c (b_cid b)) (m_blocks m) then None else w
  | _ => w
  end.
Definition wanted_after (h : list op) (c : cid) : option Z := fold_left (wanted_step c) h None.

(** What a peer believes the other side to want after a message: the cancels of the message are
    applied first, then its wants. *)
Definition believes_step (c : cid) (w : option Z) (m : message) : option Z :=
  match wants m c with
  | Some p => Some p
  | None => if existsb (cid_eqb c) (m_cancel m) then None else w
  end.
Definition believes (ms : list message) (c : cid) : option Z := fold_left (believes_step c) ms None.

(** The messages to a peer among actions. *)
Fixpoint messages_to (p : peer) (l : list action) : list message :=
  match l with
  | [] => []
  | Notify q m :: r => if p =? q then m :: messages_to p r else messages_to p r
  | _ :: r => messages_to p r
  end.
(** The messages handed out for a peer since the last time a connection to it was established. *)
Fixpoint handed_out (p : peer) (acc : list message) (t : list (op * option action)) : list message :=
  match t with
  | [] => acc
  | (OEstablished q _, _) :: r => handed_out p (if p =? q then [] else acc) r
  | (_, Some a) :: r => handed_out p (acc ++ messages_to p [a]) r
  | (_, None) :: r => handed_out p acc r
  end.
(** The messages waiting for a peer. *)
Definition waiting (p : peer) (s : bitswap) : list message :=
  messages_to p (b_events s) ++ match get_peer p s with Some l => [l_message l] | None => [] end.

(** Histories in which no cid is cancelled while a want for it waits to be sent, and no connection to
    a peer is established while there is another one or while a message waits for it. *)
Definition careful_step (s : bitswap) (o : op) : Prop :=
  let none_waits c := forall p l, In (p, l) (b_peers s) -> wants (l_message l) c = None in
  match o with
  | OCancel c => none_waits c
  | OReceived _ _ m => forall b, In b (m_blocks m) -> none_waits (b_cid b)
  | OEstablished p _ => waiting p s = []
  | _ => True
  end.
Definition careful (h : list op) : Prop :=
  forall h1 o h2 s t, h = h1 ++ o :: h2 -> run bitswap0 h1 = Some (s, t) -> careful_step s o.

(** * Connections *)
(** Whether the last thing heard about the connections of a peer is that one was established. *)
Fixpoint connected_after (p : peer) (now : bool) (h : list op) : bool :=
  match h with
  | [] => now
  | OEstablished q _ :: r => connected_after p (if p =? q then true else now) r
  | OClosed q _ :: r => connected_after p (if p =? q then false else now) r
  | _ :: r => connected_after p now r
  end.

(** The connections that are open, and the histories a swarm produces: connections are closed once
    and messages come from open connections.  [single] adds that no peer has two of them. *)
Definition opened (l : list (peer * conn)) (o : op) : list (peer * conn) :=
  match o with
  | OEstablished p k => (p, k) :: l
  | OClosed p k => filter (fun x => negb ((fst x =? p) && (snd x =? k))) l
  | _ => l
  end.
Definition swarm_step (single : bool) (l : list (peer * conn)) (o : op) : Prop :=
  match o with
  | OEstablished p k => ~ In (p, k) l /\ (single = true -> forall k', ~ In (p, k') l)
  | OClosed p k | OReceived p k _ | OSent p k => In (p, k) l
  | _ => True
  end.
Fixpoint swarm (single : bool) (l : list (peer * conn)) (h : list op) : Prop :=
  match h with
  | [] => True
  | o :: r => swarm_step single l o /\ swarm single (opened l o) r
  end.

(** * Blocks *)
(** The blocks queued for a peer, and the blocks in messages. *)
Definition queued_for (p : peer) (h : list op) : list block :=
  concat (map (fun o => match o with OQueue q b => if p =? q then [b] else [] | _ => [] end) h).
Definition blocks_of (ms : list message) : list block := concat (map m_blocks ms).
Definition actions (t : list (op * option action)) : list action :=
  concat (map (fun x => match snd x with Some a => [a] | None => [] end) t).
(** No connection of the peer comes or goes. *)
Definition stays (p : peer) (h : list op) : Prop :=
  Forall (fun o => match o with OEstablished q _ | OClosed q _ => q <> p | _ => True end) h.

(** The orders in which [poll] may go through the peers. *)
Definition fair_order (s : bitswap) (order : list peer) : Prop := Permutation order (map fst (b_peers s)).
(** The blocks queued for a peer since the last poll. *)
Definition unpolled_step (p : peer) (acc : list block) (o : op) : list block :=
  match o with
  | OPoll _ => []
  | OQueue q b => if p =? q then acc ++ [b] else acc
  | _ => acc
  end.
Definition unpolled (p : peer) (h : list op) : list block := fold_left (unpolled_step p) h [].

(** * Two nodes *)
(** The types of the arguments, and that blocks sent are what their cids say. *)
Definition op_ok (hasher : N -> option (bytes -> bytes)) (o : op) : Prop :=
  match o with
  | OWant c z => wf_cid c /\ is_i32 z
  | OCancel c => wf_cid c
  | OQueue _ b => wf_cid (b_cid b) /\ digest_of hasher b
  | OReceived _ _ m => Forall (fun b => wf_cid (b_cid b)) (m_blocks m)
  | _ => True
  end.
(** The messages received from a peer. *)
Definition messages_from (p : peer) (h : list op) : list message :=
  concat (map (fun o => match o with OReceived q _ m => if p =? q then [m] else [] | _ => [] end) h).
Definition never_wants (c : cid) (h : list op) : Prop :=
  Forall (fun o => match o with OWant c' _ => c' <> c | _ => True end) h.
