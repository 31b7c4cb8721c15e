(** What nodes exchanging blocks are expected to do. *)
From Verif Require Import Base Wire Cid FMap BlockSpec MemBlocks SubsSpec GetPut BitswapMsg BitswapMsgSpec Bitswap BitswapSpec Exchange.
Local Open Scope N_scope.

(** The blocks that callers of put_block have given to a node. *)
Definition put_at (n : peer) (b : BlockSpec.block) (h : list wop) : Prop := In (WRepo n (StorePut b)) h.
(** All peers run this code. *)
Definition no_forging (h : list wop) : Prop := Forall (fun o => match o with WForge _ _ _ => False | _ => True end) h.
(** Callers give blocks whose cids are made from their data, and cids which are cids. *)
Definition fair_caller (hasher : N -> option (bytes -> bytes)) (o : wop) : Prop :=
  match o with
  | WRepo _ (StorePut b) => wf_cid (BlockSpec.b_cid b) /\ digest_of hasher (from_repo b)
  | WRepo _ (Look c) => wf_cid c
  | _ => True
  end.

(** The block a node has stored for a cid. *)
Definition has (w : world) (n : peer) (c : cid) : option BlockSpec.block := mget repo_cid_eqb c (store (n_repo (w_node w n))).
(** Node [n] is connected to peer [p], as far as it knows. *)
Definition connected (w : world) (n p : peer) : Prop := get_peer p (n_bs (w_node w n)) <> None.
(** A want of node [n] for the cid waits to be sent to peer [p]. *)
Definition want_waits (w : world) (n p : peer) (c : cid) : Prop :=
  exists m, In m (waiting p (n_bs (w_node w n))) /\ wants m c <> None.
(** The state of a get_block call of a node. *)
Definition call (w : world) (n : peer) (g : nat) : option getst := nth_error (gets (n_repo (w_node w n))) g.
(** Node [n] itself wants the cid, or a call of get_block on it is about to say so. *)
Definition wants_itself (w : world) (n : peer) (c : cid) : Prop :=
  mget cid_eqb c (local_wantlist (n_bs (w_node w n))) <> None \/ In (EWant c) (n_chan (w_node w n)) \/
  exists g, ~ In g (n_asked (w_node w n)) /\
    (call w n g = Some (Missing c) \/ exists i, call w n g = Some (Starting c i) \/ call w n g = Some (Subscribed c i)).

(** Nothing is left to do on a node: no event, no task, no message to send, no unfinished put_block, and
    every get_block call waits at its subscription or is over. *)
Definition at_rest (w : world) (n : peer) : Prop :=
  let x := w_node w n in
  n_chan x = [] /\ n_tasks x = [] /\ b_events (n_bs x) = [] /\ b_ready (n_bs x) = [] /\
  (forall p l, get_peer p (n_bs x) = Some l -> message_empty (l_message l) = true) /\
  (forall t b new, nth_error (puts (n_repo x)) t <> Some (Stored b new)) /\
  (forall g, match call w n g with Some (Missing _) | Some (Starting _ _) => False | Some (Subscribed _ _) => In g (n_asked x) | _ => True end).
(** ... nor between two nodes. *)
Definition quiet (w : world) (a b : peer) : Prop :=
  at_rest w a /\ at_rest w b /\ forall p n s, In (p, n, s) (w_net w) -> ~ (p = a /\ n = b) /\ ~ (p = b /\ n = a).

(** The step neither drops the call of get_block nor shuts the node down. *)
Definition call_stays (n : peer) (g : nat) (o : wop) : Prop :=
  match o with
  | WRepo m (DropG g') => ~ (m = n /\ g' = g)
  | WRepo m ShutF | WRepo m ShutT => m <> n
  | _ => True
  end.

(** No get_block call of node [n] says that it wants the cid. *)
Definition no_ask (n : peer) (c : cid) (w : world) (o : wop) : Prop :=
  match o with WAsk m g => m = n -> forall i, call w n g <> Some (Subscribed c i) | _ => True end.

Section Steady.
  Variable hasher : N -> option (bytes -> bytes).
  (** In world [w] the step [o] does not cut off nodes [a] and [b] from each other, neither loses nor
      fails to read a message between them, makes no message of 2^64 bytes, and removes the block from neither. *)
  Definition steady_step (a b : peer) (c : cid) (w : world) (o : wop) : Prop :=
    match o with
    | WLose i | WDeliver i =>
        forall p n s, nth_error (w_net w) i = Some (p, n, s) -> (p = a /\ n = b) \/ (p = b /\ n = a) ->
        match o with WLose _ => False | _ => upgrade_inbound hasher s <> None end
    | WPoll n order => forall p m, snd (poll order (n_bs (w_node w n))) = Some (Notify p m) -> blen (to_bytes m) < 2 ^ 64
    | WDown n p => ~ (n = a /\ p = b) /\ ~ (n = b /\ p = a)
    | WUp n p => (n = a /\ p = b) \/ (n = b /\ p = a) -> ~ connected w n p
    | WRepo n (RemoveB c') => n = a \/ n = b -> cid_hash c' <> cid_hash c
    | _ => True
    end.
  (** ... and so do all steps [q] after [h]. *)
  Definition steady (debug : bool) (a b : peer) (c : cid) (h q : list wop) : Prop :=
    forall q1 o q2, q = q1 ++ o :: q2 -> steady_step a b c (wrun hasher debug (h ++ q1)) o.
End Steady.
