(** C75: what becomes of the requests, the events of the repo and the events of the network that the
    background task of a node gets. *)
From Verif Require Import Base EventLoop EventLoopSpec EventLoopProofs.

Section Props.
  Context {node sev req ans rev : Type}.
  Variable next : node -> option (sev * node).
  Variable on_swarm : node -> sev -> node.
  Variable on_request : node -> req -> node * ans.
  Variable on_repo : node -> rev -> node.
  Notation op := (EventLoop.op node req rev).
  Notation run := (EventLoop.run next on_swarm on_request on_repo).
  Notation follows := (follows next on_swarm on_request on_repo).

  Lemma prefix_seq (a b : list nat) n : a ++ b = seq 0 n -> a = seq 0 (length a).
  Proof.
    intro H. assert (L : n = length a + length b) by (rewrite <- (seq_length n 0), <- H; apply app_length).
    rewrite L, seq_app in H. apply (f_equal (firstn (length a))) in H.
    rewrite !firstn_app, firstn_all, Nat.sub_diag, !seq_length, Nat.sub_diag, !firstn_O, !app_nil_r in H.
    rewrite H at 1. apply firstn_all2. rewrite seq_length. lia.
  Qed.

  Lemma told_kept n h t l g : kept next on_swarm on_request on_repo n h t l g -> told t = map (fun x => (fst (fst x), snd x)) (answered l).
  Proof.
    intro K. unfold told. rewrite (k_outcomes _ _ _ _ _ _ _ _ _ K), flat_map_app.
    assert (E : flat_map (fun x : nat * outcome ans => match snd x with Told a => [(fst x, a)] | Gone => [] end) (map (fun i => (i, Gone)) g) = [])
      by (clear K; induction g as [|i g IH]; [reflexivity|exact IH]).
    rewrite E, app_nil_r. induction (answered l) as [|x m IH]; [reflexivity|]. cbn. rewrite IH. reflexivity.
  Qed.

  (** The node is what comes of doing one thing at a time: the requests in the order of the calls, each
      answered from the state in which it finds the node, the events of the repo in the order they were
      posted, and between them what the network did and the swarm reported. *)
  Theorem c75_in_turn n h :
    exists l, follows n l (inner (run n h)) /\
      told (run n h) = map (fun x => (fst (fst x), snd x)) (answered l) /\
      (forall k i q a, nth_error (answered l) k = Some (i, q, a) -> i = k /\ nth_error (calls h) k = Some q) /\
      (exists r, posts h = done l ++ r) /\ (exists r, nets h = felt l ++ r).
  Proof.
    destruct (kept_run next on_swarm on_request on_repo n h) as (l & g & K). exists l.
    split; [apply (k_follows _ _ _ _ _ _ _ _ _ K)|]. split; [eapply told_kept, K|].
    split; [|split].
    - intros k i q a Hk.
      pose proof (prefix_seq _ _ _ (k_order _ _ _ _ _ _ _ _ _ K)) as Hs. rewrite map_length in Hs.
      assert (Hi : i = k).
      { pose proof (map_nth_error idx _ _ Hk) as H1. rewrite Hs in H1.
        assert (Hl : k < length (answered l)) by (apply nth_error_Some; congruence).
        apply nth_error_nth with (d := 0) in H1. rewrite seq_nth in H1 by exact Hl. exact (eq_sym H1). }
      split; [exact Hi|]. subst i. pose proof (k_asked _ _ _ _ _ _ _ _ _ K) as Ha. rewrite Forall_forall in Ha.
      apply nth_error_In in Hk. exact (Ha _ Hk).
    - destruct (k_posts _ _ _ _ _ _ _ _ _ K) as (r & Hr & _). exists (events (run n h) ++ r). exact Hr.
    - destruct (k_nets _ _ _ _ _ _ _ _ _ K) as (r & Hr & _). exists r. exact Hr.
  Qed.

  (** The task does not sleep on anything: when it waits to be woken and nobody has woken it, every call is
      answered, every event of the repo is handled and the swarm has nothing to report. *)
  Theorem c75_asleep n h :
    idle (run n h) -> at_ (run n h) <> Over ->
    next (inner (run n h)) = None /\
    (forall i, i < length (calls h) -> exists a, In (i, Told a) (outcomes (run n h))) /\
    exists l, follows n l (inner (run n h)) /\ length (answered l) = length (calls h) /\ done l = posts h /\ felt l = nets h.
  Proof.
    intros [[Ha Hw]|Ha] Hn; [|destruct (Hn Ha)].
    pose proof (wakes_run next on_swarm on_request on_repo n h) as W. unfold wakes in W. rewrite Ha in W.
    destruct W as [W|(((_ & Wf & _) & _ & We) & _ & Wn)]; [congruence|]. split; [exact Wn|].
    destruct (kept_run next on_swarm on_request on_repo n h) as (l & g & K).
    destruct (k_running _ _ _ _ _ _ _ _ _ K Hn) as [-> _].
    pose proof (k_order _ _ _ _ _ _ _ _ _ K) as Ho. rewrite Wf in Ho. cbn in Ho. rewrite app_nil_r in Ho.
    assert (Hl : length (answered l) = length (calls h)).
    { rewrite <- (k_made _ _ _ _ _ _ _ _ _ K), <- (seq_length (made (run n h)) 0), <- Ho. symmetry. apply map_length. }
    split.
    - intros i Hi. rewrite <- Hl in Hi. apply nth_error_Some in Hi.
      destruct (nth_error (answered l) i) as [[[j q] a]|] eqn:E; [|destruct Hi; reflexivity].
      exists a. rewrite (k_outcomes _ _ _ _ _ _ _ _ _ K). apply in_or_app. left.
      pose proof (prefix_seq _ _ _ (k_order _ _ _ _ _ _ _ _ _ K)) as Hs. rewrite map_length in Hs.
      assert (j = i).
      { pose proof (map_nth_error idx _ _ E) as H1. rewrite Hs in H1.
        assert (Hk : i < length (answered l)) by (apply nth_error_Some; congruence).
        apply nth_error_nth with (d := 0) in H1. rewrite seq_nth in H1 by exact Hk. exact (eq_sym H1). }
      subst j. apply nth_error_In in E. apply in_map_iff. exists (i, q, a). auto.
    - exists l. split; [apply (k_follows _ _ _ _ _ _ _ _ _ K)|]. split; [exact Hl|]. split.
      + destruct (k_posts _ _ _ _ _ _ _ _ _ K) as (r & Hr & Hx). rewrite Hr, We, (Hx Hn), !app_nil_r. reflexivity.
      + destruct (k_nets _ _ _ _ _ _ _ _ _ K) as (r & Hr & Hx). rewrite Hr, (Hx Hn), app_nil_r. reflexivity.
  Qed.

  (** A call gets one outcome at most, and they come in the order of the calls. *)
  Theorem c75_one_outcome n h :
    map fst (outcomes (run n h)) = seq 0 (length (outcomes (run n h))) /\ length (outcomes (run n h)) <= length (calls h).
  Proof.
    destruct (kept_run next on_swarm on_request on_repo n h) as (l & g & K).
    pose proof (k_order _ _ _ _ _ _ _ _ _ K) as Ho. rewrite app_assoc in Ho.
    assert (E : map fst (outcomes (run n h)) = map idx (answered l) ++ g).
    { rewrite (k_outcomes _ _ _ _ _ _ _ _ _ K), map_app, !map_map. cbn. rewrite map_id. reflexivity. }
    rewrite <- E in Ho. split.
    - pose proof (prefix_seq _ _ _ Ho) as Hs. rewrite map_length in Hs. exact Hs.
    - rewrite <- (k_made _ _ _ _ _ _ _ _ _ K), <- (seq_length (made (run n h)) 0), <- Ho, app_length, map_length. lia.
  Qed.

  (** The calls made before the node was told to exit are answered and the later ones are not: those get an error. *)
  Theorem c75_exit n h i :
    (forall a, In (i, Told a) (outcomes (run n h)) -> i < length (in_time h)) /\
    (In (i, Gone) (outcomes (run n h)) -> length (in_time h) <= i < length (calls h) /\ at_ (run n h) = Over).
  Proof.
    destruct (kept_run next on_swarm on_request on_repo n h) as (l & g & K).
    pose proof (k_order _ _ _ _ _ _ _ _ _ K) as Ho.
    pose proof (prefix_seq _ _ _ Ho) as Hs. rewrite map_length in Hs.
    assert (Hle : length (answered l) <= length (in_time h)).
    { destruct (place_eq (at_ (run n h))) as [Hx|Hx].
      - destruct (k_over _ _ _ _ _ _ _ _ _ K Hx) as (_ & _ & H & _). lia.
      - destruct (k_running _ _ _ _ _ _ _ _ _ K Hx) as (_ & [(_ & H & _)|(l1 & l2 & _ & H & _)]); [|lia].
        rewrite H, <- (k_made _ _ _ _ _ _ _ _ _ K), <- (seq_length (made (run n h)) 0), <- Ho, app_length, map_length. lia. }
    split.
    - intros a Hin. rewrite (k_outcomes _ _ _ _ _ _ _ _ _ K) in Hin. apply in_app_iff in Hin. destruct Hin as [Hin|Hin].
      + apply in_map_iff in Hin. destruct Hin as (x & Hx & Hin). injection Hx as Hx _.
        apply (in_map idx) in Hin. rewrite Hx, Hs in Hin. apply in_seq in Hin. lia.
      + apply in_map_iff in Hin. destruct Hin as (j & Hj & _). discriminate.
    - intro Hin. rewrite (k_outcomes _ _ _ _ _ _ _ _ _ K) in Hin. apply in_app_iff in Hin. destruct Hin as [Hin|Hin].
      + apply in_map_iff in Hin. destruct Hin as (x & Hx & _). discriminate.
      + apply in_map_iff in Hin. destruct Hin as (j & Hj & Hin). injection Hj as ->.
        destruct (place_eq (at_ (run n h))) as [Hx|Hx].
        * split; [|exact Hx]. destruct (k_over _ _ _ _ _ _ _ _ _ K Hx) as (Hf & _ & Hc & _).
          rewrite Hf in Ho. cbn in Ho. rewrite app_nil_r, Hs in Ho.
          assert (L : made (run n h) = length (answered l) + length g) by (rewrite <- (seq_length (made (run n h)) 0), <- Ho, app_length, seq_length; reflexivity).
          rewrite L, seq_app in Ho. apply app_inv_head in Ho. rewrite Ho in Hin. apply in_seq in Hin.
          rewrite <- Hc, <- (k_made _ _ _ _ _ _ _ _ _ K). lia.
        * destruct (k_running _ _ _ _ _ _ _ _ _ K Hx) as (-> & _). destruct Hin.
  Qed.

  (** When the task is over, somebody had told it to end and every call has its outcome. *)
  Theorem c75_over n h :
    at_ (run n h) = Over -> told_to_end h /\ length (outcomes (run n h)) = length (calls h).
  Proof.
    intro Hx. destruct (kept_run next on_swarm on_request on_repo n h) as (l & g & K).
    destruct (k_over _ _ _ _ _ _ _ _ _ K Hx) as (Hf & _ & _ & He). split.
    - apply existsb_exists in He. destruct He as (o & Ho & Hd). destruct o; try discriminate; [left|right]; exact Ho.
    - pose proof (k_order _ _ _ _ _ _ _ _ _ K) as Ho. rewrite Hf in Ho. cbn in Ho. rewrite app_nil_r in Ho.
      rewrite (k_outcomes _ _ _ _ _ _ _ _ _ K), app_length, !map_length.
      rewrite <- (k_made _ _ _ _ _ _ _ _ _ K), <- (seq_length (made (run n h)) 0), <- Ho, app_length, map_length. reflexivity.
  Qed.
  (** ... and it stays so. *)
  Theorem c75_over_for_good n h g :
    at_ (run n h) = Over -> at_ (run n (h ++ g)) = Over /\ inner (run n (h ++ g)) = inner (run n h).
  Proof.
    intro Hx. induction g as [|o g [H1 H2]] using rev_ind; [rewrite app_nil_r; auto|].
    rewrite app_assoc, run_snoc. rewrite <- H2. revert H1. generalize (run n (h ++ g)). intros t Ht.
    destruct o; cbn; unfold EventLoop.step; rewrite ?Ht; cbn; auto; destruct (dropped t); cbn; auto.
  Qed.

  Lemma calls_quiet (h g : list op) : quiet g -> calls (h ++ g) = calls h /\ in_time (h ++ g) = in_time h.
  Proof.
    intro Q. induction g as [|o g IH] using rev_ind; [rewrite app_nil_r; auto|].
    apply Forall_app in Q. destruct Q as [Q1 Q2]. destruct (IH Q1) as [I1 I2]. inversion Q2 as [|x y Ho]; subst.
    rewrite app_assoc, calls_snoc, in_time_snoc, I1, I2.
    destruct Ho as [-> | ->]; destruct (existsb is_drop (h ++ g)), (existsb is_end (h ++ g)); rewrite ?app_nil_r; auto.
  Qed.

  (** Whatever happened, if from then on nothing more comes in and the swarm has no end of events by itself,
      every call made gets its outcome: an answer if nobody had told the node to exit before, an error otherwise. *)
  Theorem c75_no_call_hangs n h :
    swarm_settles next on_swarm ->
    exists g, quiet g /\ forall i, i < length (calls h) ->
      (i < length (in_time h) -> exists a, In (i, Told a) (outcomes (run n (h ++ g)))) /\
      (length (in_time h) <= i -> In (i, Gone) (outcomes (run n (h ++ g)))).
  Proof.
    intros [w Hw]. destruct (settle next on_swarm on_request on_repo w Hw n h) as (g & Q & I).
    exists g. split; [exact Q|]. intros i Hi. destruct (calls_quiet h g Q) as [C T].
    assert (Hex : exists o, In (i, o) (outcomes (run n (h ++ g)))).
    { destruct (place_eq (at_ (run n (h ++ g)))) as [Hx|Hx].
      - destruct (c75_over _ _ Hx) as [_ Hl]. destruct (c75_one_outcome n (h ++ g)) as [Hs _].
        assert (Hin : In i (map fst (outcomes (run n (h ++ g))))) by (rewrite Hs, Hl, C; apply in_seq; lia).
        apply in_map_iff in Hin. destruct Hin as ([j o] & Hj & Hin). cbn in Hj. subst j. exists o. exact Hin.
      - destruct (c75_asleep n (h ++ g) I Hx) as (_ & Ht & _). rewrite C in Ht. destruct (Ht i Hi) as [a Ha]. exists (Told a). exact Ha. }
    destruct Hex as [[a|] Ho]; destruct (c75_exit n (h ++ g) i) as [X1 X2].
    - split; [intros _; exists a; exact Ho|]. intro Hl. apply X1 in Ho. rewrite T in Ho. lia.
    - destruct (X2 Ho) as [[H1 _] _]. rewrite T in H1. split; [lia|]. intros _. exact Ho.
  Qed.

  (** A node told to exit, or whose last [Ipfs] was dropped, ends. *)
  Theorem c75_ends n h :
    swarm_settles next on_swarm -> told_to_end h -> exists g, quiet g /\ at_ (run n (h ++ g)) = Over.
  Proof.
    intros [w Hw] He. destruct (settle next on_swarm on_request on_repo w Hw n h) as (g & Q & I).
    exists g. split; [exact Q|]. destruct (place_eq (at_ (run n (h ++ g)))) as [Hx|Hx]; [exact Hx|exfalso].
    destruct I as [[Ha Hk]|I]; [|exact (Hx I)].
    pose proof (wakes_run next on_swarm on_request on_repo n (h ++ g)) as W. unfold wakes in W. rewrite Ha in W.
    destruct W as [W|(((_ & Wf & Wd) & _) & _)]; [congruence|].
    destruct (kept_run next on_swarm on_request on_repo n (h ++ g)) as (l & gg & K).
    destruct (k_running _ _ _ _ _ _ _ _ _ K Hx) as (_ & [(_ & _ & R)|(l1 & l2 & R & _)]).
    - rewrite <- (k_dropped _ _ _ _ _ _ _ _ _ K), Wd in R.
      assert (E : existsb is_end (h ++ g) = true); [|congruence].
      rewrite existsb_app. apply orb_true_iff. left. apply existsb_exists.
      destruct He as [He|He]; [exists ExitDaemon|exists DropAll]; auto.
    - rewrite Wf in R. destruct l1; discriminate.
  Qed.
End Props.
Print Assumptions c75_in_turn.
Print Assumptions c75_asleep.
Print Assumptions c75_one_outcome.
Print Assumptions c75_exit.
Print Assumptions c75_over.
Print Assumptions c75_over_for_good.
Print Assumptions c75_no_call_hangs.
Print Assumptions c75_ends.

(** Two calls, an event of the repo and something from the network, in the middle of a poll; the node is a
    queue of what there is to report. *)
Definition toy_next (n : list nat) : option (nat * list nat) := match n with x :: r => Some (x, r) | [] => None end.
Definition toy_run := EventLoop.run toy_next (fun n (_ : nat) => n) (fun n q => (n ++ [q], length n)) (fun n (e : nat) => n ++ [e]).
Definition toy_history : list (EventLoop.op (list nat) nat nat) :=
  [Call 7; Poll; Step; Step; Post 3; Call 8; Net (fun n => n ++ [5]); Step; Step; Step; Step; Step; Step; Step].
Example c75_asleep_example :
  swarm_settles toy_next (fun n (_ : nat) => n) /\
  idle (toy_run [] (toy_history ++ repeat Step 9 ++ Poll :: repeat Step 9)) /\
  outcomes (toy_run [] (toy_history ++ repeat Step 9 ++ Poll :: repeat Step 9)) = [(0, Told 0); (1, Told 2)] /\
  at_ (toy_run [] toy_history) <> Over.
Proof.
  split; [exists (@length nat); intros [|x r] e n' H; [discriminate|]; injection H as _ <-; cbn; lia|].
  vm_compute. split; [left; auto|]. split; [reflexivity|discriminate].
Qed.
(** One call before the exit, one behind it in the channel, one after the end. *)
Definition toy_exit : list (EventLoop.op (list nat) nat nat) := [Call 7; ExitDaemon; Call 8; Poll; Step; Step; Step; Call 9].
Example c75_exit_example :
  outcomes (toy_run [] toy_exit) = [(0, Told 0); (1, Gone); (2, Gone)] /\ at_ (toy_run [] toy_exit) = Over /\
  in_time toy_exit = [7] /\ calls toy_exit = [7; 8; 9] /\ told_to_end toy_exit.
Proof. vm_compute. repeat split. left. auto. Qed.

From Verif Require Import Wire Cid FMap BitswapMsg Bitswap BitswapSpec BitswapProofs BitswapMore Exchange EventLoopNode EventLoopNodeSpec.

(** With the bitswap of the node in it: when the task sleeps, no want, cancel or block waits to be sent to any
    connected peer, whatever the repo has asked for and whatever the network has done in the meantime. *)
Lemma bs_settles : swarm_settles bs_next bs_took.
Proof.
  exists (fun s => work (drained s)). intros s a s' H. unfold bs_next in H.
  destruct (poll (map fst (b_peers s)) s) as [b [x|]] eqn:E; [|discriminate]. injection H as <- <-.
  unfold bs_took. rewrite (drained_drained b); [eapply poll_work, E|eapply poll_ready, E].
Qed.
Theorem c75_wants_sent b0 h :
  idle (bs_run b0 h) -> at_ (bs_run b0 h) <> Over ->
  b_events (inner (bs_run b0 h)) = [] /\
  (b_ready (inner (bs_run b0 h)) = [] -> forall p l, get_peer p (inner (bs_run b0 h)) = Some l -> l_message l = message0) /\
  exists l, follows bs_next bs_took bs_request bs_repo b0 l (inner (bs_run b0 h)) /\ done l = posts h.
Proof.
  intros I H. destruct (c75_asleep bs_next bs_took bs_request bs_repo b0 h I H) as (N & _ & l & F & _ & D & _).
  fold bs_run in *. unfold bs_next in N.
  destruct (poll (map fst (b_peers (inner (bs_run b0 h)))) (inner (bs_run b0 h))) as [b [x|]] eqn:E; [discriminate|].
  apply poll_idle in E; [|apply Permutation.Permutation_refl]. destruct E as (-> & E1 & _ & E2).
  rewrite drained_events in E1. split; [exact E1|]. split; [|exists l; auto].
  intros R p x Hp. apply message_empty_nil, (E2 p). rewrite drained_drained by exact R. exact Hp.
Qed.
Print Assumptions c75_wants_sent.
(** A node connected to one peer is asked for a block while it answers a call. *)
Definition want_cid : cid := CidV1 85 {| mh_code := 18; mh_digest := repeat 7%N 32 |}.
Definition want_history : list (EventLoop.op bitswap (option peer) repo_event) :=
  [Net (established 5%N); Poll; Step; Call None; Post (EWant want_cid); Step; Step; Step; Step; Step; Call None; Step; Step; Step; Step; Step; Poll] ++ repeat Step 9.
Example c75_wants_sent_example :
  idle (bs_run bitswap0 want_history) /\ at_ (bs_run bitswap0 want_history) <> Over /\ b_ready (inner (bs_run bitswap0 want_history)) = [] /\
  outcomes (bs_run bitswap0 want_history) = [(0, Told []); (1, Told [(want_cid, 1%Z)])] /\
  get_peer 5%N (inner (bs_run bitswap0 want_history)) = Some (mk_ledger [(want_cid, 1%Z)] [] message0).
Proof. vm_compute. split; [left; auto|]. repeat split. discriminate. Qed.

(** The want list that a call is told is that of the node, or of the peer asked about, at one point of the
    history; the list of the node has the blocks for which the last event handled by then was a want. *)
Lemma follows_split {node sev req ans rev : Type} (next : node -> option (sev * node)) on_swarm (on_request : node -> req -> node * ans) (on_repo : node -> rev -> node) n l1 x l2 n' :
  follows next on_swarm on_request on_repo n (l1 ++ x :: l2) n' ->
  exists n1, follows next on_swarm on_request on_repo n l1 n1 /\ match x with Served _ q a => a = snd (on_request n1 q) | _ => True end.
Proof.
  revert n n'. induction l2 as [|y l2 IH] using rev_ind; intros n n' H.
  - remember (l1 ++ [x]) as L eqn:E.
    destruct H as [n|n l n1 e n2 F N|n l n1 i q F|n l n1 e F|n l n1 f F]; [destruct l1; discriminate| | | |]; apply app_inj_tail in E; destruct E as [<- <-]; exists n1; auto.
  - replace (l1 ++ x :: l2 ++ [y]) with ((l1 ++ x :: l2) ++ [y]) in H by (rewrite <- app_assoc; reflexivity).
    remember ((l1 ++ x :: l2) ++ [y]) as L eqn:E.
    destruct H as [n|n l n1 e n2 F N|n l n1 i q F|n l n1 e F|n l n1 f F]; [destruct l1; discriminate| | | |]; apply app_inj_tail in E; destruct E as [-> _]; exact (IH _ _ F).
Qed.
Lemma wanted_snoc l e c : wanted_after (l ++ [e]) c =
  match e with EWant d => if cid_eqb c d then true else wanted_after l c | EUnwant d | ENew d => if cid_eqb c d then false else wanted_after l c end.
Proof. unfold wanted_after. rewrite fold_left_app. reflexivity. Qed.
Lemma follows_wants l b : follows bs_next bs_took bs_request bs_repo bitswap0 l b -> (forall f b, In f (felt l) -> b_wanted (f b) = b_wanted b) ->
  forall c, mget cid_eqb c (b_wanted b) <> None <-> wanted_after (done l) c = true.
Proof.
  remember bitswap0 as z eqn:Ez. intro F. revert Ez.
  induction F as [n|n l n1 e n2 F IH N|n l n1 i q F IH|n l n1 e F IH|n l n1 f F IH]; intros -> HF c;
    rewrite ?done_snoc, ?app_nil_r; rewrite ?felt_snoc, ?app_nil_r in HF.
  - cbn. split; [intro H; destruct H; reflexivity|discriminate].
  - unfold bs_next in N. destruct (poll (map fst (b_peers n1)) n1) as [b [x|]] eqn:E; [|discriminate]. injection N as <- <-.
    unfold bs_took. rewrite (poll_wanted _ _ _ _ E). apply IH; auto.
  - cbn. apply IH; auto.
  - rewrite wanted_snoc. destruct e as [d|d|d]; cbn [bs_repo want_block cancel_block b_wanted with_wanted]; rewrite ?(mget_mset _ cid_eqb_spec), ?(mget_mdel _ cid_eqb_spec);
      destruct (cid_eqb c d); try (apply IH; auto); split; congruence.
  - rewrite HF by (apply in_or_app; right; left; reflexivity). apply IH; [reflexivity|]. intros f0 b Hf. apply HF. apply in_or_app. auto.
Qed.
Theorem c75_want_list h :
  keeps_wants h -> idle (bs_run bitswap0 h) -> at_ (bs_run bitswap0 h) <> Over ->
  forall c, mget cid_eqb c (local_wantlist (inner (bs_run bitswap0 h))) <> None <-> wanted_after (posts h) c = true.
Proof.
  intros HK I H c. destruct (c75_asleep bs_next bs_took bs_request bs_repo bitswap0 h I H) as (_ & _ & l & F & _ & D & E).
  rewrite <- D. apply (follows_wants l _ F). rewrite E. intros f b Hf. apply HK.
  apply in_flat_map in Hf. destruct Hf as (o & Ho & Hf). destruct o; try destruct Hf as [<-|[]]; try destruct Hf. exact Ho.
Qed.
Print Assumptions c75_want_list.
Theorem c75_want_list_told h i q a :
  nth_error (calls h) i = Some q -> In (i, Told a) (outcomes (bs_run bitswap0 h)) ->
  exists l b, follows bs_next bs_took bs_request bs_repo bitswap0 l b /\ (exists r, posts h = done l ++ r) /\ (exists r, nets h = felt l ++ r) /\
    match q with
    | Some p => a = match get_peer p b with Some x => l_received x | None => [] end
    | None => a = b_wanted b /\ (keeps_wants h -> forall c, mget cid_eqb c a <> None <-> wanted_after (done l) c = true)
    end.
Proof.
  intros Hq Ha. destruct (c75_in_turn bs_next bs_took bs_request bs_repo bitswap0 h) as (l & F & T & A & (rp & P) & (rn & Q)).
  fold bs_run in *.
  assert (HT : In (i, a) (told (bs_run bitswap0 h))).
  { unfold told. apply in_flat_map. exists (i, Told a). split; [exact Ha|left; reflexivity]. }
  rewrite T in HT. apply in_map_iff in HT. destruct HT as ([[j q'] a'] & E & HT). cbn in E. injection E as -> ->.
  assert (q' = q). { apply In_nth_error in HT. destruct HT as [k Hk]. destruct (A _ _ _ _ Hk) as [-> Hc]. congruence. } subst q'.
  unfold answered in HT. apply in_flat_map in HT. destruct HT as (x & Hx & Hin).
  destruct x as [|j0 q0 a0| |]; try destruct Hin as [E|[]]; try destruct Hin. injection E as -> -> ->.
  apply in_split in Hx. destruct Hx as (l1 & l2 & ->).
  destruct (follows_split _ _ _ _ _ _ _ _ _ F) as (b & F1 & E). cbn [snd bs_request] in E.
  assert (Dl : done (l1 ++ Served i q a :: l2) = done l1 ++ done l2) by (unfold done; rewrite flat_map_app; reflexivity).
  assert (Fl : felt (l1 ++ Served i q a :: l2) = felt l1 ++ felt l2) by (unfold felt; rewrite flat_map_app; reflexivity).
  exists l1, b. split; [exact F1|].
  split; [exists (done l2 ++ rp); rewrite P, Dl, <- app_assoc; reflexivity|].
  split; [exists (felt l2 ++ rn); rewrite Q, Fl, <- app_assoc; reflexivity|].
  destruct q as [p|].
  - rewrite E. unfold peer_wantlist. destruct (get_peer p b); reflexivity.
  - split; [exact E|]. intros HK c. rewrite E. apply (follows_wants l1 b F1). intros f b1 Hf. apply HK.
    assert (Hn : In f (nets h)) by (rewrite Q, Fl; apply in_or_app; left; apply in_or_app; left; exact Hf).
    apply in_flat_map in Hn. destruct Hn as (o & Ho & Hn). destruct o; try destruct Hn as [<-|[]]; try destruct Hn. exact Ho.
Qed.
Print Assumptions c75_want_list_told.
Example c75_want_list_example :
  keeps_wants want_history /\ wanted_after (posts want_history) want_cid = true /\ nth_error (calls want_history) 1 = Some None.
Proof.
  split; [|split; vm_compute; reflexivity]. intros f b H. cbn in H.
  repeat (destruct H as [H|H]; [first [discriminate H | injection H as <-]|]); [|contradiction].
  unfold established, send_want_list. destruct (is_empty _); reflexivity.
Qed.

(** The three sources are not served in turn: the task takes requests as long as there are any, so users who
    call often enough keep it from the network and from the repo within one poll: however many steps it takes,
    the event posted before all of them is not handled. *)
Theorem c75_busy_users_refuted :
  exists (next : unit -> option (unit * unit)) (e : unit),
  forall k, exists g : list (EventLoop.op unit unit unit),
    k <= length (filter (fun o => match o with Step => true | _ => false end) g) /\
    events (EventLoop.run next (fun _ _ => tt) (fun _ _ => (tt, tt)) (fun _ _ => tt) tt (Post e :: Poll :: g)) = [e] /\
    length (outcomes (EventLoop.run next (fun _ _ => tt) (fun _ _ => (tt, tt)) (fun _ _ => tt) tt (Post e :: Poll :: g))) = k.
Proof.
  exists (fun _ => None), tt. intro k.
  exists (Step :: concat (repeat [Call tt; Step] k)).
  assert (L : length (filter (fun o : EventLoop.op unit unit unit => match o with Step => true | _ => false end) (concat (repeat [Call tt; Step] k))) = k).
  { induction k as [|k IH]; [reflexivity|]. cbn. rewrite IH. reflexivity. }
  split; [cbn [filter length]; lia|].
  set (F := apply (fun _ : unit => @None (unit * unit)) (fun _ _ => tt) (fun _ _ : unit => (tt, tt)) (fun _ _ : unit => tt)).
  assert (G : forall j o m, fold_left F (concat (repeat [Call tt; Step] j)) (mk_task AtFacade tt [] false [tt] true false false false m o) =
    mk_task AtFacade tt [] false [tt] true false false false (m + j) (o ++ map (fun i => (i, Told tt)) (seq m j))).
  { clear k L. induction j as [|j IH]; intros o m; cbn [repeat concat app fold_left map seq].
    - rewrite app_nil_r, Nat.add_0_r. reflexivity.
    - replace (F (F (mk_task AtFacade tt [] false [tt] true false false false m o) (Call tt)) Step)
        with (mk_task (req := unit) AtFacade tt [] false [tt] true false false false (S m) (o ++ [(m, Told tt)])) by reflexivity.
      rewrite IH, <- app_assoc, Nat.add_succ_r. reflexivity. }
  match goal with |- events ?t = _ /\ _ => assert (R : t = mk_task AtFacade tt [] false [tt] true false false false k (map (fun i => (i, Told tt)) (seq 0 k))) by apply (G k [] 0) end.
  rewrite R. cbn. rewrite map_length, seq_length. auto.
Qed.
Print Assumptions c75_busy_users_refuted.
(** ... and a swarm that always has something to report keeps it from the requests. *)
Theorem c75_busy_swarm_refuted :
  exists (next : unit -> option (unit * unit)), forall k,
    outcomes (EventLoop.run next (fun _ _ => tt) (fun _ _ => (tt, tt)) (fun _ _ => tt) tt
      ([Call tt; Poll] ++ repeat Step k : list (EventLoop.op unit unit unit))) = [].
Proof.
  exists (fun _ => Some (tt, tt)). intro k. rewrite EventLoopProofs.run_app, EventLoopProofs.fold_steps.
  match goal with |- outcomes (Nat.iter _ ?f ?t) = _ => set (F := f); set (T := t) end.
  assert (G : Nat.iter k F T = T); [|rewrite G; reflexivity].
  induction k as [|k IH]; [reflexivity|]. cbn [Nat.iter nat_rect]. change (nat_rect _ T (fun _ => F) k) with (Nat.iter k F T). rewrite IH. reflexivity.
Qed.
Print Assumptions c75_busy_swarm_refuted.
