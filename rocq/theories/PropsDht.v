(** C69: calls of the DHT get the final result of their own query. *)
From Verif Require Import Base Wire Cid FMap BlockSpec Dht DhtSpec DhtProofs.
Local Open Scope N_scope.

(** Whatever callers, the node and Kademlia do, and in whatever order: polling a call gives what
    [poll_gives] says of its standing, which is read off the record of operations alone. *)
Theorem c69_poll : forall debug h c w, gives debug h (DPoll c w) = poll_gives (stands (record_of debug h) c).
Proof. intros. unfold gives. destruct (inv_poll debug _ _ c w (inv_from debug h)) as (_ & _ & E). exact E. Qed.
Print Assumptions c69_poll.

(** Nothing panics: neither [unreachable!()] in a call nor the debug assertion of the registry. *)
Theorem c69_no_panic : forall debug h, Forall (fun x => snd x <> Crash) (snd (drun debug dht0 h)).
Proof. intros. apply (inv_run debug h dht0 [] inv0). Qed.
Print Assumptions c69_no_panic.

(** The calls Kademlia can refuse to start a query for. *)
Definition can_be_refused (a : ask) : bool :=
  match a with AskBootstrap | AskProvide _ | AskPut _ _ => true | _ => false end.

(** The node serves messages in order.  It starts the query that was asked for, under a number never
    used before; [find_peer] starts one only if no address is known, and the second time never. *)
Theorem c69_serve : forall debug h accepts connected known, exited (record_of debug h) = false ->
  let tr := record_of debug h in
  let local := match connected with [] => known | _ => connected end in
  let x := gives debug h (DServe accepts connected known) in
  match unserved tr with
  | [] => x = Disabled
  | c :: _ =>
      match stands tr c with
      | Asked (AskFind p) =>
          match local with
          | [] => exists q, x = Started c q (QClosest p) /\ ~ In q (map snd (started tr))
          | _ => x = Located c local
          end
      | Asked a =>
          if can_be_refused a && negb accepts then x = RefusedStart c
          else exists q, x = Started c q (query_for a) /\ ~ In q (map snd (started tr))
      | Again _ => x = Located c local
      | Closed => about c x
      | _ => False
      end
  end.
Proof.
  intros debug h ac co kn X tr local x. pose proof (serve_gives debug _ _ ac co kn (inv_from debug h) X) as S. cbv zeta in S.
  fold tr in S. change (snd (dstep debug (fst (drun debug dht0 h)) (DServe ac co kn))) with x in S. fold local in S.
  assert (F : forall c q k, x = Started c q k -> ~ In q (map snd (started tr))).
  { intros c q k E Hi. pose proof (record_once debug (h ++ [DServe ac co kn])) as N1.
    assert (R : record_of debug (h ++ [DServe ac co kn]) = (DServe ac co kn, x) :: tr).
    { unfold record_of, tr, x, gives, record_of. generalize dht0. clear. induction h as [|o h IH]; intros s.
      - cbn [app drun fst snd]. destruct (dstep debug s (DServe ac co kn)) as [s1 y]. reflexivity.
      - cbn [app drun]. destruct (dstep debug s o) as [s1 y]. specialize (IH s1). destruct (drun debug s1 (h ++ [DServe ac co kn])) as [s2 l2]. destruct (drun debug s1 h) as [s3 l3].
        cbn [fst snd rev] in *. rewrite IH. reflexivity. }
    rewrite R in N1. unfold started in N1. cbn [flat_map snd] in N1. rewrite E in N1. cbn in N1. inversion N1 as [|? ? N2 _]. exact (N2 Hi). }
  destruct (unserved tr) as [|c l]; [exact S|]. destruct (stands tr c) as [|a| | | | |]; try exact S. destruct a; cbn [query_for refusable can_be_refused andb] in *;
    try (destruct (negb ac)); try (destruct local); try exact S; eexists; (split; [exact S|eapply F; exact S]).
Qed.
Print Assumptions c69_serve.

(** A query that runs for a call takes every result of its kind, and no other. *)
Theorem c69_event : forall debug h q exhausted r c a, stands (record_of debug h) c = Running a q ->
  gives debug h (DEvent q exhausted r) = if fits r (query_for a) then Nothing else Disabled.
Proof. intros debug h q ex r c a H. exact (event_gives debug _ _ q ex r c a (inv_from debug h) H). Qed.
Print Assumptions c69_event.

(** Two calls never wait for the same query. *)
Theorem c69_own : forall debug h c c' a a' q,
  stands (record_of debug h) c = Running a q -> stands (record_of debug h) c' = Running a' q -> c = c'.
Proof.
  intros debug h c c' a a' q H H'. pose proof (record_once debug h) as N1.
  assert (S : forall c a, stands (record_of debug h) c = Running a q -> In (c, q) (started (record_of debug h))).
  { intros d b Hd. apply running_from in Hd as (t2 & ac & co & kn & k & t1 & -> & _). unfold started. apply in_flat_map.
    exists (DServe ac co kn, Started d q k). split; [apply in_app_iff; right; left; reflexivity|left; reflexivity]. }
  apply S in H. apply S in H'. revert N1 H H'. generalize (started (record_of debug h)). clear. induction l as [|[d p] l IH]; [intros _ []|].
  cbn. intros N1. inversion N1 as [|? ? N2 N3]; subst. intros [[= -> ->]|H] [E|H']; try congruence; auto; exfalso; apply N2.
  - apply (in_map snd) in H'. exact H'.
  - injection E as -> ->. apply (in_map snd) in H. exact H.
Qed.
Print Assumptions c69_own.

(** What a call is told if it is not an error nor addresses is what its query reported last: the call
    was made with [a], then the node started the query asked for on its behalf, then that query gave
    its final result [res], which is of its kind and means [r]. *)
Theorem c69_result : forall debug h c w r,
  gives debug h (DPoll c w) = Answer r -> (forall e, r <> Fails e) -> (forall l, r <> Addresses l) ->
  exists t3 t2 t1 t0 a have accepts connected known q res,
    record_of debug h = t3 ++ (DEvent q true res, Nothing) :: t2 ++ (DServe accepts connected known, Started c q (query_for a)) :: t1 ++ (DCall a have, Called c) :: t0 /\
    fits res (query_for a) = true /\ meaning a res = Some r.
Proof.
  intros debug h c w r G Hf Ha. rewrite c69_poll in G.
  assert (K : forall tr x, stands tr c = Known x -> (exists e, x = Fails e) \/ (exists l, x = Addresses l)).
  { intros tr. induction tr as [|[o x] tr IH]; [discriminate|]. cbn [stands]. intros y H. destruct o; cbn [moves] in H.
    - destruct x; try exact (IH _ H). destruct (c0 =? c)%nat; [|exact (IH _ H)]. destruct a, have, (exited tr); try discriminate; injection H as <-; eauto.
    - destruct x; try exact (IH _ H); (destruct (c0 =? c)%nat; [|exact (IH _ H)]); destruct (stands tr c); try discriminate; try exact (IH _ H); injection H as <-; eauto. destruct l; eauto.
    - exact (IH _ H).
    - destruct exhausted; [|exact (IH _ H)]. destruct x; try exact (IH _ H). destruct (stands tr c); try discriminate; try exact (IH _ H). destruct (q =? q0); discriminate.
    - destruct (c0 =? c)%nat; [|exact (IH _ H)]. destruct (stands tr c) as [| | |b r1| | |]; try discriminate. destruct b; try discriminate. destruct (meaning _ r1); discriminate.
    - destruct (c0 =? c)%nat; [|exact (IH _ H)]. destruct (stands tr c); discriminate.
    - destruct (stands tr c); try discriminate; injection H as <-; eauto. }
  destruct (stands (record_of debug h) c) as [| | |a res| |x|] eqn:Es; try discriminate.
  2:{ cbn in G. injection G as ->. destruct (K _ _ Es) as [[e E]|[l E]]; exfalso; [exact (Hf _ E)|exact (Ha _ E)]. }
  cbn in G. destruct (meaning a res) as [y|] eqn:M; [|discriminate]. injection G as ->.
  apply final_from in Es as (t3 & q & t & E3 & Hr). pose proof (record_cut _ _ _ _ _ _ E3) as (h1 & h2 & _ & R1 & G1).
  assert (Hr' := Hr). rewrite <- R1 in Hr'. rewrite (c69_event debug h1 q true res c a Hr') in G1.
  assert (F : fits res (query_for a) = true) by (destruct (fits res (query_for a)); [reflexivity|discriminate]).
  apply running_from in Hr as (t2 & ac & co & kn & k & t1 & E2 & Has & _). rewrite <- R1 in E2.
  pose proof (record_cut _ _ _ _ _ _ E2) as (h3 & h4 & _ & R3 & G3). rewrite R1 in E2.
  assert (k = query_for a) as ->.
  { assert (X : exited (record_of debug h3) = false).
    { pose proof (i_ok _ _ (inv_from debug h3) c) as Ho. rewrite R3, Has in Ho. pose proof (i_up _ _ (inv_from debug h3)) as U. rewrite R3 in *.
      destruct (exited t1); [|reflexivity]. cbn in U. rewrite U in Ho. destruct (nth_error _ c) as [[]|]; cbn in Ho; try discriminate.
      destruct Ho as [(? & ? & _ & [=] & _)|[(? & ? & ? & _ & [=] & _)|(? & _ & _ & [=])]]. }
    pose proof (c69_serve debug h3 ac co kn X) as S. cbv zeta in S. rewrite G3, R3 in S.
    destruct (unserved t1) as [|d l]; [discriminate|].
    assert (d = c) as ->.
    { destruct (stands t1 d) as [|b| | | | |]; try contradiction; try discriminate; [|symmetry; exact S].
      destruct b; cbn [query_for refusable andb] in S; try (destruct (negb ac)); try (destruct (match co with [] => kn | _ => co end)); try discriminate; destruct S as (q' & [=] & _); auto. }
    rewrite Has in S. destruct a; cbn [query_for refusable andb] in S |- *; try (destruct (negb ac)); try (destruct (match co with [] => kn | _ => co end)); try discriminate; destruct S as (q' & [=] & _); auto. }
  apply asked_from in Has as (t1' & hv & t0 & ->).
  exists t3, t2, t1', t0, a, hv, ac, co, kn, q, res. rewrite E3, E2. repeat split; auto.
Qed.
Print Assumptions c69_result.

(** A call stays pending only while the node runs and has its message still to take, or has started
    its query, which has not given its final result.  ([find_peer] sends its second message in a poll.) *)
Theorem c69_waits : forall debug h c w, gives debug h (DPoll c w) = Waiting_ ->
  let tr := record_of debug h in
  exited tr = false /\
  (In c (unserved tr) \/
   (exists a q t2 accepts connected known k t1, stands tr c = Running a q /\
      tr = t2 ++ (DServe accepts connected known, Started c q k) :: t1 /\ Forall (fun x => ~ ended q x) t2) \/
   (exists p r, stands tr c = Final (AskFind p) r)).
Proof.
  intros debug h c w G tr. rewrite c69_poll in G. fold tr in G. pose proof (inv_from debug h) as H. fold tr in H.
  pose proof (i_ok _ _ H c) as Ho. pose proof (i_up _ _ H) as U. split.
  - destruct (exited tr); [|reflexivity]. cbn in U. rewrite U in Ho. exfalso.
    destruct (nth_error _ c) as [[]|]; cbn in Ho; try (rewrite Ho in G; discriminate).
    destruct Ho as [(? & ? & _ & [=] & _)|[(? & ? & ? & _ & [=] & _)|(? & _ & _ & E)]]. rewrite E in G. discriminate.
  - assert (S : awaits c (fst (drun debug dht0 h)) = true -> d_up (fst (drun debug dht0 h)) = true -> In c (unserved tr)).
    { intros A1 A2. rewrite <- (i_chan _ _ H). apply (i_sent _ _ H); auto. }
    rewrite awaits_spec in S.
    destruct (nth_error _ c) as [[a|a i|p|r|]|]; cbn [ok] in Ho; try (rewrite Ho in G; discriminate).
    + destruct (d_up _); [left; apply S; reflexivity|rewrite Ho in G; discriminate].
    + destruct Ho as [(q & w0 & _ & _ & Es & _)|[(q & r & v & _ & _ & Es & Hv)|(q & _ & _ & Es)]].
      * right; left. destruct (running_from _ _ _ _ Es) as (t2 & ac & co & kn & k & t1 & E & _ & F). exists a, q, t2, ac, co, kn, k, t1. auto.
      * right; right. rewrite Es in G. cbn in G. unfold agrees in Hv. destruct (meaning a r); [discriminate|]. destruct Hv as [_ [p ->]]. eauto.
      * rewrite Es in G. discriminate.
    + destruct (d_up _); [left; apply S; reflexivity|rewrite Ho in G; discriminate].
Qed.
Print Assumptions c69_waits.

(** Once the node is gone every call that is not over ends with its next poll, with an error or what
    it was told before. *)
Theorem c69_exit : forall debug h c w, exited (record_of debug h) = true ->
  gives debug h (DPoll c w) = Disabled \/ exists r, gives debug h (DPoll c w) = Answer r.
Proof.
  intros debug h c w X. destruct (gives debug h (DPoll c w)) eqn:G; eauto; exfalso; try (apply c69_waits in G as [E _]; congruence);
    rewrite c69_poll in G; destruct (stands _ c) as [| | |a r| | |]; try discriminate; cbn in G; destruct (meaning a r); discriminate.
Qed.
Print Assumptions c69_exit.

(** Three calls, served and finished out of order; a call that is dropped; results of a query nobody
    waits for; the node exits. *)
Definition ex_cid : cid := CidV0 [1; 2].
Definition ex_h : list dop :=
  [DCall (AskClosest 7) true; DCall (AskGet [9]) true; DCall (AskFind 8) true; DBackground QRepublishRecord;
   DServe true [] []; DServe true [] []; DServe true [] []; DPoll 0 1; DEvent 2 true (GetRecord (Found [([9], [5]); ([9], [6])]));
   DEvent 1 false (GetClosestPeers (Some [1])); DEvent 0 true (RepublishRecord PutQuorumFailed); DPoll 0 1; DPoll 1 1;
   DEvent 3 true (GetClosestPeers (Some [8])); DPoll 2 1; DServe true [] [44]; DEvent 1 true (GetClosestPeers (Some [3; 4])); DPoll 0 1; DPoll 2 1;
   DCall (AskProvide ex_cid) true; DServe true [] []; DCall (AskProvide ex_cid) false; DExit; DPoll 3 1; DPoll 4 1].
Example c69_case : map snd (snd (drun true dht0 ex_h)) =
  [Called 0; Called 1; Called 2; Nothing; Started 0 1 (QClosest 7); Started 1 2 (QGet [9]); Started 2 3 (QClosest 8); Waiting_; Nothing; Nothing; Nothing; Waiting_;
   Answer (Values [[5]; [6]]); Nothing; Waiting_; Located 2 [44]; Nothing; Answer (PeersAre [3; 4]); Answer (Addresses [44]);
   Called 3; Started 3 4 (QProvide (mh_to_bytes (cid_hash ex_cid))); Called 4; Nothing; Answer (Fails Cancelled); Answer (Fails NoBlock)].
Proof. vm_compute. reflexivity. Qed.
(** The hypotheses above, for prefixes of this execution. *)
Example c69_hypotheses :
  stands (record_of true (firstn 7 ex_h)) 0 = Running (AskClosest 7) 1 /\ unserved (record_of true (firstn 4 ex_h)) = [0; 1; 2]%nat /\
  exited (record_of true (firstn 7 ex_h)) = false /\ exited (record_of true ex_h) = true /\
  gives true (firstn 12 ex_h) (DPoll 1 1) = Answer (Values [[5]; [6]]).
Proof. vm_compute. auto. Qed.

(** FINDING.  [find_peer] looks at the addresses again only if its query succeeds.  Here the node knows
    an address of the peer (a new caller gets it), but a call whose query timed out is told otherwise. *)
Theorem c69_find_refuted : exists h,
  gives true h (DPoll 0 1) = Answer (Fails (Kad ProvidersTimedOut)) /\
  gives true (h ++ [DPoll 0 1; DCall (AskFind 8) true; DServe true [] [44]]) (DPoll 1 1) = Answer (Addresses [44]).
Proof. exists [DCall (AskFind 8) true; DServe true [] []; DEvent 0 true (GetClosestPeers None)]. vm_compute. auto. Qed.
Print Assumptions c69_find_refuted.
(** FINDING.  Once a call was told something it is lost if the node exits before the next poll: a query
    that gave its final result before the exit is answered as cancelled. *)
Theorem c69_late_refuted : exists h,
  gives true h (DPoll 0 1) = Answer (PeersAre [3]) /\ gives true (h ++ [DExit]) (DPoll 0 1) = Answer (Fails Cancelled).
Proof. exists [DCall (AskClosest 7) true; DServe true [] []; DEvent 0 true (GetClosestPeers (Some [3]))]. vm_compute. auto. Qed.
Print Assumptions c69_late_refuted.
(** FINDING.  [get_closest_peers] that times out says it could not find providers of a key; the two
    failures cannot be told apart. *)
Theorem c69_text_refuted : exists h h',
  gives true h (DPoll 0 1) = gives true h' (DPoll 0 1) /\
  In (DCall (AskClosest 7) true) h /\ In (DCall (AskProviders ex_cid) true) h' /\ gives true h (DPoll 0 1) = Answer (Fails (Kad ProvidersTimedOut)).
Proof.
  exists [DCall (AskClosest 7) true; DServe true [] []; DEvent 0 true (GetClosestPeers None)],
    [DCall (AskProviders ex_cid) true; DServe true [] []; DEvent 0 true (GetProviders None)]. vm_compute. auto.
Qed.
Print Assumptions c69_text_refuted.
