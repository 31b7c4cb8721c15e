(** Property C70: blocks exchanged between nodes, from put_block on one to get_block on another.

    A history is a list of steps of any number of nodes: of the calls on their repos, of their
    background tasks, of the swarms polling bitswap, of connections, of messages arriving or getting
    lost, and of peers sending whatever they like ([WForge]). *)
From Verif Require Import Base Wire Cid CidProofs FMap BlockSpec MemBlocks SubsSpec Subs GetPut GetPutProofs BitswapMsg BitswapMsgSpec BitswapMsgProofs Bitswap BitswapSpec BitswapPeers PropsBitswap Exchange ExchangeSpec ExchangeProofs ExchangePipe ExchangeArrive ExchangeCall ExchangeCancel.
Local Open Scope N_scope.

(** * What get_block returns *)
(** Whatever peers send: a block returned for a cid has the multihash asked for, and its digest is made
    from its data. *)
Theorem c70_hostile_peers hasher debug h n c k :
  (forall m x, put_at m x h -> digest_of hasher (from_repo x)) ->
  (wanswer hasher debug h (WRepo n (Look c)) = Some (GAnswer (Ok k)) ->
     cid_hash (BlockSpec.b_cid k) = cid_hash c /\ digest_of hasher (from_repo k)) /\
  (forall g wk i, call (wrun hasher debug h) n g = Some (Subscribed c i) ->
     wanswer hasher debug h (WRepo n (PollG g wk)) = Some (GAnswer (Ok k)) ->
     BlockSpec.b_cid k = c /\ digest_of hasher (from_repo k)).
Proof.
  intros Hp. pose proof (digest_run hasher debug h Hp) as HW. split.
  - exact (look_answer hasher debug _ _ _ _ _ n c k HW).
  - intros g wk i. exact (poll_answered hasher debug _ _ _ _ _ n g wk c i k HW).
Qed.
Print Assumptions c70_hostile_peers.
(** ... so if the digest asked for is as long as the hash function makes them, and the hash of some
    data, and the function has no collisions, the data is that data. *)
Theorem c70_the_data_asked_for hasher debug h n c k hf data :
  (forall m x, put_at m x h -> digest_of hasher (from_repo x)) ->
  hasher (mh_code (cid_hash c)) = Some hf -> (forall x y, length (hf x) = length (hf y)) -> (forall x y, hf x = hf y -> x = y) ->
  mh_digest (cid_hash c) = hf data ->
  (wanswer hasher debug h (WRepo n (Look c)) = Some (GAnswer (Ok k)) \/
   exists g wk i, call (wrun hasher debug h) n g = Some (Subscribed c i) /\ wanswer hasher debug h (WRepo n (PollG g wk)) = Some (GAnswer (Ok k))) ->
  BlockSpec.b_data k = data.
Proof.
  intros Hp Hh HL Hinj Hd Ha. assert (Hk : cid_hash (BlockSpec.b_cid k) = cid_hash c /\ digest_of hasher (from_repo k)).
  { destruct (c70_hostile_peers hasher debug h n c k Hp) as [H1 H2]. destruct Ha as [Ha|(g & wk & i & Hc & Ha)]; [exact (H1 Ha)|].
    destruct (H2 g wk i Hc Ha) as [<- H]. auto. }
  destruct Hk as [Ek Dk]. apply Hinj. rewrite <- Hd, <- Ek. symmetry. change (BlockSpec.b_data k) with (b_data (from_repo k)). apply (digest_full hasher (from_repo k) hf Dk).
  - cbn. rewrite Ek. exact Hh.
  - cbn. rewrite Ek, Hd. apply HL.
Qed.
Print Assumptions c70_the_data_asked_for.

(** Among nodes running this code, whose callers put blocks under their own cids, get_block returns
    nothing but what was given to put_block on one of them. *)
Theorem c70_put_somewhere hasher debug h n c k :
  no_forging h -> Forall (fair_caller hasher) h ->
  (wanswer hasher debug h (WRepo n (Look c)) = Some (GAnswer (Ok k)) \/
   exists g wk i, call (wrun hasher debug h) n g = Some (Subscribed c i) /\ wanswer hasher debug h (WRepo n (PollG g wk)) = Some (GAnswer (Ok k))) ->
  exists m, put_at m k h.
Proof.
  intros H1 H2 Ha. pose proof (put_run hasher debug h h H1 H2 (incl_refl h)) as HW.
  assert (HP : put_P hasher h (from_repo k)).
  { destruct Ha as [Ha|(g & wk & i & Hc & Ha)]; [exact (proj2 (look_answer hasher debug _ _ _ _ _ n c k HW Ha))|exact (proj2 (poll_answered hasher debug _ _ _ _ _ n g wk c i k HW Hc Ha))]. }
  destruct HP as [_ (m & Hm)]. rewrite to_from in Hm. eauto.
Qed.
Print Assumptions c70_put_somewhere.

(** * Fetching a block *)
(** A want that waits to be sent to a node which has the block under that cid and does not want it
    itself brings the block: whatever else happens, as long as the two stay connected, no message
    between them is lost or unreadable and the block is not removed, it is stored once nothing is left
    to do.  What is missing of "a block that a connected peer has arrives" are the cases below. *)
Theorem c70_block_arrives_partial hasher debug a b c h q k : a <> b ->
  no_forging (h ++ q) -> Forall (fair_caller hasher) (h ++ q) -> steady hasher debug a b c h q ->
  connected (wrun hasher debug h) b a -> want_waits (wrun hasher debug h) b a c ->
  has (wrun hasher debug h) a c = Some k -> BlockSpec.b_cid k = c -> ~ wants_itself (wrun hasher debug h) a c ->
  quiet (wrun hasher debug (h ++ q)) a b ->
  has (wrun hasher debug (h ++ q)) b c <> None.
Proof. intros. eapply arrives; eauto. Qed.
Print Assumptions c70_block_arrives_partial.

(** A get_block call on [b] which has subscribed, while the block was not stored, and is about to send
    its want: once nothing is left to do it has its block or gets it at the next poll.  All blocks put
    under the multihash have the same cid. *)
Theorem c70_get_block_returns_partial hasher debug a b c g i h q k : a <> b ->
  no_forging (h ++ q) -> Forall (fair_caller hasher) (h ++ q) -> steady hasher debug a b c h q ->
  (forall n x, put_at n x (h ++ q) -> cid_hash (BlockSpec.b_cid x) = cid_hash c -> BlockSpec.b_cid x = c) ->
  ~ In (WRepo b ShutF) h -> Forall (call_stays b g) q ->
  connected (wrun hasher debug h) b a -> has (wrun hasher debug h) a c = Some k -> ~ wants_itself (wrun hasher debug h) a c ->
  call (wrun hasher debug h) b g = Some (Subscribed c i) -> ~ In g (n_asked (w_node (wrun hasher debug h) b)) ->
  has (wrun hasher debug h) b c = None ->
  quiet (wrun hasher debug (h ++ q)) a b ->
  exists v, BlockSpec.b_cid v = c /\ digest_of hasher (from_repo v) /\ (exists n, put_at n v (h ++ q)) /\
    (call (wrun hasher debug (h ++ q)) b g = Some (Answered (Ok v)) \/
     forall wk, wanswer hasher debug (h ++ q) (WRepo b (PollG g wk)) = Some (GAnswer (Ok v))).
Proof. intros. eapply fetched; eauto. Qed.
Print Assumptions c70_get_block_returns_partial.

(** * Dropping a call *)
(** When the last call waiting for a cid was dropped and no other one asks for it, the node does not want
    it any more once the background task has taken its events, whatever peers send. *)
Theorem c70_withdrawn hasher debug n c h g i wk q :
  call (wrun hasher debug h) n g = Some (Gone i) ->
  life_of cid_eqb (past (n_repo (w_node (wrun hasher debug h) n))) i = Dropping c true wk true ->
  (forall q1 o q2, q = q1 ++ o :: q2 -> no_ask n c (wrun hasher debug (h ++ WRepo n (NotifyG g) :: q1)) o) ->
  n_chan (w_node (wrun hasher debug (h ++ WRepo n (NotifyG g) :: q)) n) = [] ->
  mget cid_eqb c (local_wantlist (n_bs (w_node (wrun hasher debug (h ++ WRepo n (NotifyG g) :: q)) n))) = None.
Proof. exact (cancelled hasher debug n c h g i wk q). Qed.
Print Assumptions c70_withdrawn.

(** * Examples *)
Definition ex_data : bytes := [4; 4].
Definition ex_cid : cid := raw_cid ex_data.
Definition ex_block : BlockSpec.block := BlockSpec.mk_block ex_cid ex_data.
Lemma ex_fair : wf_cid ex_cid /\ digest_of toy (from_repo ex_block).
Proof. split; [apply raw_wf|apply raw_digest]. Qed.
Lemma steady_nil hasher debug a b c h : steady hasher debug a b c h [].
Proof. intros [|] o q2 E; discriminate. Qed.
Lemma steady_cons hasher debug a b c h o q : steady_step hasher a b c (wrun hasher debug h) o -> steady hasher debug a b c (h ++ [o]) q -> steady hasher debug a b c h (o :: q).
Proof.
  intros H1 H2 [|o' q1] o2 q2 E; cbn [app] in E; injection E as -> E.
  - rewrite app_nil_r. exact H1.
  - specialize (H2 q1 o2 q2 E). rewrite <- app_assoc in H2. exact H2.
Qed.
Lemma quiet_by w a b : 
  (forall n, n = a \/ n = b -> n_chan (w_node w n) = [] /\ n_tasks (w_node w n) = [] /\ b_events (n_bs (w_node w n)) = [] /\ b_ready (n_bs (w_node w n)) = [] /\
     forallb (fun pl => message_empty (l_message (snd pl))) (b_peers (n_bs (w_node w n))) = true /\
     forallb (fun x => match x with Stored _ _ => false | _ => true end) (puts (n_repo (w_node w n))) = true /\
     forallb (fun g => match call w n g with Some (Missing _) | Some (Starting _ _) => false | Some (Subscribed _ _) => existsb (Nat.eqb g) (n_asked (w_node w n)) | _ => true end)
       (seq 0 (length (gets (n_repo (w_node w n))))) = true) ->
  w_net w = [] -> quiet w a b.
Proof.
  intros H HN. assert (Hr : forall n, n = a \/ n = b -> at_rest w n).
  { intros n Hn. destruct (H n Hn) as (H1 & H2 & H3 & H4 & H5 & H6 & H7). repeat (split; [assumption|]). split; [|split].
    - intros p l Hl. apply (mget_in _ N.eqb_spec) in Hl. rewrite forallb_forall in H5. exact (H5 _ Hl).
    - intros t b' new E. apply nth_error_In in E. rewrite forallb_forall in H6. discriminate (H6 _ E).
    - intros g. destruct (call w n g) as [x|] eqn:E; [|exact Logic.I]. rewrite forallb_forall in H7.
      assert (Hg : In g (seq 0 (length (gets (n_repo (w_node w n)))))) by (apply in_seq; split; [lia|]; apply nth_error_Some; unfold call in E; rewrite E; discriminate).
      specialize (H7 g Hg). rewrite E in H7. destruct x; try discriminate; try exact Logic.I. apply existsb_exists in H7 as (y & Hy & Ey). apply Nat.eqb_eq in Ey. subst y. exact Hy. }
  split; [apply Hr; auto|]. split; [apply Hr; auto|]. rewrite HN. intros p n s [].
Qed.
Ltac is_quiet := apply quiet_by; [intros n [->| ->]; vm_compute; repeat split|vm_compute; reflexivity].
Definition steady_check (hasher : N -> option (bytes -> bytes)) (w : world) (o : wop) : bool :=
  match o with
  | WDeliver i => match nth_error (w_net w) i with Some (_, _, s) => match upgrade_inbound hasher s with Some _ => true | None => false end | None => true end
  | WPoll n order => match snd (poll order (n_bs (w_node w n))) with Some (Notify _ m) => blen (to_bytes m) <? 2 ^ 64 | _ => true end
  | WLose _ | WUp _ _ | WDown _ _ | WRepo _ (RemoveB _) => false
  | _ => true
  end.
Lemma steady_checked hasher a b c w o : steady_check hasher w o = true -> steady_step hasher a b c w o.
Proof.
  destruct o as [n x|n g|n|n i|n order|n p|n p|i|i|n p bs]; cbn; try discriminate; try exact (fun _ => Logic.I).
  - destruct x; try discriminate; exact (fun _ => Logic.I).
  - intros H p m E. rewrite E in H. apply N.ltb_lt. exact H.
  - intros H p n s E _. rewrite E in H. destruct (upgrade_inbound hasher s); discriminate.
Qed.
Ltac steady_op := apply steady_checked; vm_compute; reflexivity.

(** Node 1 has the block; node 2 asks for it, gets it and tells node 1 that it does not want it any more. *)
Definition have_it : list wop := [WRepo 1 (StorePut ex_block); WRepo 1 (FinishPut 0); WTask 1 0; WBack 1].
Definition subscribe (n : peer) (c : cid) (g : nat) : list wop := [WRepo n (Look c); WRepo n (SubBegin g); WRepo n (SubInsert g)].
Definition meet : list wop := [WUp 1 2; WUp 2 1].
Definition fetch : list wop :=
  [WAsk 2 0; WBack 2; WPoll 2 [1]; WDeliver 0; WPoll 1 [2]; WTask 1 0; WPoll 1 [2]; WDeliver 0; WPoll 2 [1]; WTask 2 0;
   WRepo 2 (FinishPut 0); WTask 2 0; WBack 2; WPoll 2 [1]; WDeliver 0; WPoll 1 [2]; WPoll 1 [2]].
Example c70_get_block_example :
  let h := have_it ++ meet ++ subscribe 2 ex_cid 0 in let w := wrun toy true h in
  no_forging (h ++ fetch) /\ Forall (fair_caller toy) (h ++ fetch) /\ steady toy true 1 2 ex_cid h fetch /\
  (forall n x, put_at n x (h ++ fetch) -> cid_hash (BlockSpec.b_cid x) = cid_hash ex_cid -> BlockSpec.b_cid x = ex_cid) /\
  ~ In (WRepo 2 ShutF) h /\ Forall (call_stays 2 0) fetch /\
  connected w 2 1 /\ has w 1 ex_cid = Some ex_block /\ ~ wants_itself w 1 ex_cid /\
  call w 2 0 = Some (Subscribed ex_cid 0) /\ ~ In 0%nat (n_asked (w_node w 2)) /\ has w 2 ex_cid = None /\
  quiet (wrun toy true (h ++ fetch)) 1 2 /\
  wanswer toy true (h ++ fetch) (WRepo 2 (PollG 0 7)) = Some (GAnswer (Ok ex_block)).
Proof.
  intros h w. split; [repeat constructor|]. split; [repeat (constructor; [first [exact Logic.I|exact ex_fair|exact (proj1 ex_fair)]|]); constructor|].
  split; [unfold fetch; repeat (apply steady_cons; [steady_op|]); apply steady_nil|].
  split; [intros n x Hx _; cbn in Hx; repeat (destruct Hx as [[= <- <-]|Hx]; [reflexivity|]); repeat (destruct Hx as [Hx|Hx]; [discriminate|]); destruct Hx|].
  split; [cbn; intuition discriminate|]. split; [repeat constructor|].
  split; [vm_compute; discriminate|]. split; [vm_compute; reflexivity|].
  split.
  { intros [H|[H|(g & _ & H)]]; [vm_compute in H; congruence|vm_compute in H; exact H|].
    assert (E : call w 1 g = None) by (vm_compute; destruct g; reflexivity). rewrite E in H. destruct H as [[=]|(i & [[=]|[=]])]. }
  split; [vm_compute; reflexivity|]. split; [vm_compute; auto|]. split; [vm_compute; reflexivity|]. split; [is_quiet|vm_compute; reflexivity].
Qed.
Example c70_block_arrives_example :
  let h := have_it ++ meet ++ subscribe 2 ex_cid 0 ++ firstn 2 fetch in
  want_waits (wrun toy true h) 2 1 ex_cid /\ connected (wrun toy true h) 2 1 /\ has (wrun toy true h) 1 ex_cid = Some ex_block /\
  steady toy true 1 2 ex_cid h (skipn 2 fetch) /\ quiet (wrun toy true (h ++ skipn 2 fetch)) 1 2 /\ has (wrun toy true (h ++ skipn 2 fetch)) 2 ex_cid = Some ex_block.
Proof.
  intros h. split; [eexists; split; [vm_compute; left; reflexivity|vm_compute; discriminate]|]. split; [vm_compute; discriminate|]. split; [vm_compute; reflexivity|].
  split; [unfold fetch; cbn [skipn]; repeat (apply steady_cons; [steady_op|]); apply steady_nil|]. split; [is_quiet|vm_compute; reflexivity].
Qed.
(** Node 2 wanted the block and has dropped its only call. *)
Example c70_withdrawn_example :
  let h := meet ++ subscribe 2 ex_cid 0 ++ [WAsk 2 0; WBack 2; WRepo 2 (DropG 0)] in let q := [WBack 2; WPoll 2 [1]] in
  mget cid_eqb ex_cid (local_wantlist (n_bs (w_node (wrun toy true h) 2))) = Some 1%Z /\
  call (wrun toy true h) 2 0 = Some (Gone 0) /\ life_of cid_eqb (past (n_repo (w_node (wrun toy true h) 2))) 0 = Dropping ex_cid true None true /\
  (forall q1 o q2, q = q1 ++ o :: q2 -> no_ask 2 ex_cid (wrun toy true (h ++ WRepo 2 (NotifyG 0) :: q1)) o) /\
  n_chan (w_node (wrun toy true (h ++ WRepo 2 (NotifyG 0) :: q)) 2) = [].
Proof.
  intros h q. split; [vm_compute; reflexivity|]. split; [vm_compute; reflexivity|]. split; [vm_compute; reflexivity|]. split; [|vm_compute; reflexivity].
  intros [|a [|b q1]] o q2 E; cbn [app q] in E; [injection E as <- _; exact Logic.I|injection E as _ <- _; exact Logic.I|]. injection E as _ _ E. destruct q1; discriminate.
Qed.
(** A hostile peer 3 sends node 2 other data under the cid node 2 asked for; it counts as another block. *)
Definition lie : bytes := upgrade_outbound (mk_message [] [] [mk_block ex_cid [9; 9]]).
Example c70_hostile_example :
  let h := [WUp 2 3] ++ subscribe 2 ex_cid 0 ++ [WAsk 2 0; WBack 2; WForge 2 3 lie; WPoll 2 []; WTask 2 0; WRepo 2 (FinishPut 0)] in
  has (wrun toy true h) 2 (raw_cid [9; 9]) <> None /\ wanswer toy true h (WRepo 2 (PollG 0 7)) = Some GPending /\
  wanswer toy true h (WRepo 2 (Look (raw_cid [9; 9]))) = Some (GAnswer (Ok (BlockSpec.mk_block (raw_cid [9; 9]) [9; 9]))).
Proof. vm_compute. repeat split; discriminate. Qed.

(** * What is missing *)
(** Two nodes with nothing left to do, connected to each other, one with the block, and a get_block call
    on the other one that is not answered. *)
Definition starved (hasher : N -> option (bytes -> bytes)) (debug : bool) (h : list wop) (a b : peer) (c : cid) (g : nat) : Prop :=
  let w := wrun hasher debug h in
  Forall (fair_caller hasher) h /\ quiet w a b /\ connected w a b /\ connected w b a /\ has w a c <> None /\
  forall wk, wanswer hasher debug h (WRepo b (PollG g wk)) = Some GPending.
Ltac is_starved := split; [repeat (constructor; [first [exact Logic.I|exact ex_fair|exact (proj1 ex_fair)|(split; [apply v0_wf|apply v0_digest])|apply v0_wf]|]); constructor|];
  split; [is_quiet|]; split; [vm_compute; discriminate|]; split; [vm_compute; discriminate|]; split; [vm_compute; discriminate|]; intros wk; vm_compute; reflexivity.

(** The block is put on the peer after the want arrived there: nothing tells the peers that want a new block. *)
Theorem c70_put_after_the_want_refuted : exists hasher debug h a b c g,
  no_forging h /\ (forall i, ~ In (WLose i) h) /\ has (wrun hasher debug h) b c = None /\ starved hasher debug h a b c g /\
  peer_wantlist b (n_bs (w_node (wrun hasher debug h) a)) = Some [(c, 1%Z)].
Proof.
  exists toy, true, (meet ++ subscribe 2 ex_cid 0 ++ [WAsk 2 0; WBack 2; WPoll 2 [1]; WDeliver 0; WPoll 1 [2]; WTask 1 0] ++
    [WRepo 1 (StorePut ex_block); WRepo 1 (FinishPut 0); WTask 1 0; WBack 1; WPoll 1 [2]; WDeliver 0; WPoll 2 [1]]), 1, 2, ex_cid, 0%nat.
  split; [repeat constructor|]. split; [intros i Hi; cbn in Hi; intuition discriminate|]. split; [vm_compute; reflexivity|]. split; [is_starved|vm_compute; reflexivity].
Qed.
Print Assumptions c70_put_after_the_want_refuted.
(** Both want the block when the want arrives, and then it is put on one of them: the want was ignored. *)
Theorem c70_both_want_refuted : exists hasher debug h a b c g,
  no_forging h /\ (forall i, ~ In (WLose i) h) /\ has (wrun hasher debug h) b c = None /\ starved hasher debug h a b c g /\
  wanswer hasher debug h (WRepo a (PollG 0 7)) <> Some GPending.
Proof.
  exists toy, true, (meet ++ subscribe 1 ex_cid 0 ++ [WAsk 1 0; WBack 1] ++ subscribe 2 ex_cid 0 ++ [WAsk 2 0; WBack 2; WPoll 2 [1]; WPoll 1 [2]; WDeliver 0; WDeliver 0; WPoll 1 [2]; WPoll 2 [1]] ++
    [WRepo 1 (StorePut ex_block); WRepo 1 (FinishPut 0); WTask 1 0; WBack 1; WPoll 1 [2]; WDeliver 0; WPoll 2 [1]]), 1, 2, ex_cid, 0%nat.
  split; [repeat constructor|]. split; [intros i Hi; cbn in Hi; intuition discriminate|]. split; [vm_compute; reflexivity|]. split; [is_starved|vm_compute; discriminate].
Qed.
Print Assumptions c70_both_want_refuted.
(** The peer has the block under the version 0 cid, the call asks for the version 1 cid: the block comes
    and is stored, and a new get_block call finds it, but this one stays pending. *)
Definition ex_v0 : BlockSpec.block := BlockSpec.mk_block (v0_cid ex_data) ex_data.
Theorem c70_other_version_refuted : exists hasher debug h a b c g,
  no_forging h /\ (forall i, ~ In (WLose i) h) /\ starved hasher debug h a b c g /\
  exists k, wanswer hasher debug h (WRepo b (Look c)) = Some (GAnswer (Ok k)) /\ has (wrun hasher debug h) b c = Some k.
Proof.
  exists toy, true, ([WRepo 1 (StorePut ex_v0); WRepo 1 (FinishPut 0); WTask 1 0; WBack 1] ++ meet ++ subscribe 2 ex_cid 0 ++ fetch), 1, 2, ex_cid, 0%nat.
  split; [repeat constructor|]. split; [intros i Hi; cbn in Hi; intuition discriminate|]. split; [is_starved|]. eexists. split; vm_compute; reflexivity.
Qed.
Print Assumptions c70_other_version_refuted.
(** A hostile peer 3 sends node 1 a block with a version 0 cid whose digest is too short.  Node 1 takes it
    and tells node 2, in the message with the block that node 2 asked for, that it does not want that cid;
    node 2 cannot read the message. *)
Definition short_v0 : bytes := upgrade_outbound (mk_message [] [] [mk_block (CidV0 (repeat 1 31)) [1]]).
Theorem c70_poisoned_message_refuted : exists hasher debug h a b c g,
  (forall i, ~ In (WLose i) h) /\ (forall n p bs, In (WForge n p bs) h -> n = a /\ p <> b /\ upgrade_inbound hasher bs <> None) /\
  has (wrun hasher debug h) b c = None /\ starved hasher debug h a b c g.
Proof.
  exists toy, true, (have_it ++ meet ++ [WUp 1 3; WUp 3 1] ++ subscribe 2 ex_cid 0 ++
    [WAsk 2 0; WBack 2; WPoll 2 [1]; WDeliver 0; WPoll 1 [2; 3]; WTask 1 0; WForge 1 3 short_v0; WPoll 1 [2; 3]; WPoll 1 [2; 3]; WPoll 1 [2; 3];
     WTask 1 0; WRepo 1 (FinishPut 1); WTask 1 0; WBack 1; WPoll 1 [2; 3]; WPoll 1 [2; 3]; WDeliver 0; WDeliver 0; WDeliver 0; WDeliver 0]), 1, 2, ex_cid, 0%nat.
  split; [intros i Hi; cbn in Hi; intuition discriminate|].
  split; [intros n p bs Hi; cbn -[short_v0] in Hi; repeat (destruct Hi as [Hi|Hi]; [first [discriminate Hi|injection Hi as <- <- <-; split; [reflexivity|]; split; [discriminate|vm_compute; discriminate]]|]); destruct Hi|].
  split; [vm_compute; reflexivity|is_starved].
Qed.
Print Assumptions c70_poisoned_message_refuted.
(** A call is dropped while another one for the same cid begins: the first had been the last one when its
    subscription was removed, and says so after the second has asked.  The second call waits for good, also
    when the node is connected to one which has the block, because the block is not wanted any more. *)
Theorem c70_drop_withdraws_the_others_refuted : exists hasher debug h a b c g,
  no_forging h /\ (forall i, ~ In (WLose i) h) /\ has (wrun hasher debug h) b c = None /\ starved hasher debug h a b c g /\
  local_wantlist (n_bs (w_node (wrun hasher debug h) b)) = [].
Proof.
  exists toy, true, (have_it ++ subscribe 2 ex_cid 0 ++ [WAsk 2 0; WBack 2; WRepo 2 (DropG 0)] ++ subscribe 2 ex_cid 1 ++ [WAsk 2 1; WRepo 2 (NotifyG 0); WBack 2; WBack 2] ++ meet), 1, 2, ex_cid, 1%nat.
  split; [repeat constructor|]. split; [intros i Hi; cbn in Hi; intuition discriminate|]. split; [vm_compute; reflexivity|]. split; [is_starved|vm_compute; reflexivity].
Qed.
Print Assumptions c70_drop_withdraws_the_others_refuted.
