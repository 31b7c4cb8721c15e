(** C79: the statistics a node reports about blocks exchanged with its peers.

    [run] makes any sequence of steps of the background task, of the tasks spawned for received
    blocks, of other users of the block store and of reports, and gives what came of each step.
    [TransfersSpec] says from this what was sent, received and stored. *)
From Verif Require Import Base Wire Cid FMap BlockSpec MemBlocks BitswapMsg Bitswap BitswapSpec BitswapProofs BitswapMore PropsBitswap Exchange Transfers TransfersSpec TransfersProofs TransfersProofs2.
From Coq Require Import Permutation.
Local Open Scope N_scope.

Lemma sent_total t : total SentBlocks t = number (sent t).
Proof.
  induction t as [|e t IH]; [reflexivity|]. change (e :: t) with ([e] ++ t). rewrite total_app, IH. unfold sent. rewrite flat_map_app, number_app. f_equal. unfold total, contribs. cbn [flat_map]. rewrite !app_nil_r.
  destruct e as [o a]. destruct a as [|[| |]| | | | |]; try reflexivity. cbn [contrib snd map sumN]. unfold number, blen. rewrite map_length. lia.
Qed.
Lemma data_total t : total SentData t = 0.
Proof. unfold total. replace (contribs SentData t) with (@nil (peer * N)); [reflexivity|]. unfold contribs. induction t as [|[o a] t IH]; [reflexivity|]. cbn [flat_map]. rewrite <- IH. reflexivity. Qed.
Lemma kept_app x a b : kept x (a ++ b) = kept x a ++ kept x b.
Proof. apply flat_map_app. Qed.
(** The run up to the end of the loads. *)
Lemma run_loads h s t1 order t2 r : run node0 h = Some (s, t1 ++ (Begin order, Started) :: t2 ++ [(Load, Reported r)]) ->
  (exists s1, run node0 (map fst t1) = Some (s1, t1)) /\ exists s2, run node0 (map fst (t1 ++ (Begin order, Started) :: t2)) = Some (s2, t1 ++ (Begin order, Started) :: t2).
Proof.
  intros R. destruct (run_split _ _ _ _ _ R) as (s1 & R1 & _). split; [exists s1; exact R1|].
  replace (t1 ++ (Begin order, Started) :: t2 ++ [(Load, Reported r)]) with ((t1 ++ (Begin order, Started) :: t2) ++ [(Load, Reported r)]) in R by (rewrite <- app_assoc; reflexivity).
  destruct (run_split _ _ _ _ _ R) as (s2 & R2 & _). exists s2. exact R2.
Qed.
Lemma total_skip f t1 order t2 : total f (t1 ++ (Begin order, Started) :: t2) = total f (t1 ++ t2).
Proof. change ((Begin order, Started) :: t2) with ([(Begin order, Started)] ++ t2). rewrite !total_app. destruct f; reflexivity. Qed.
Lemma kept_skip x t1 order t2 : kept x (t1 ++ (Begin order, Started) :: t2) = kept x (t1 ++ t2).
Proof. rewrite !kept_app. reflexivity. Qed.

(** Whatever happens meanwhile: a report which began after [t1] counts the blocks sent before, and
    each of its other counts is, up to wrapping around at 2^64, at least what the tasks which had
    ended when it began add up to, and at most what had been stored when it ended. *)
Theorem c79_report h s t1 order t2 r : run node0 h = Some (s, t1 ++ (Begin order, Started) :: t2 ++ [(Load, Reported r)]) -> no_start t2 ->
  blocks_sent r = number (sent t1) mod 2 ^ 64 /\
  (exists n, blen (finished true t1) <= n <= number (kept true (t1 ++ t2)) /\ blocks_received r = n mod 2 ^ 64) /\
  (exists n, sumN (finished true t1) <= n <= bytes_in (kept true (t1 ++ t2)) /\ data_received r = n mod 2 ^ 64) /\
  (exists n, blen (finished false t1) <= n <= number (kept false (t1 ++ t2)) /\ dup_blks_received r = n mod 2 ^ 64) /\
  (exists n, sumN (finished false t1) <= n <= bytes_in (kept false (t1 ++ t2)) /\ dup_data_received r = n mod 2 ^ 64).
Proof.
  intros R NS. destruct (run_loads _ _ _ _ _ _ R) as ((s1 & R1) & s2 & R2). destruct (report_ok _ _ _ _ _ _ R NS) as (X1 & X2 & F & _).
  pose proof (tasks_ok _ _ _ R1) as W. pose proof (tasks_ok _ _ _ R2) as W'. change u64_max1 with (2 ^ 64) in F.
  assert (B : forall x, exists n, blen (finished x t1) <= n <= number (kept x (t1 ++ t2)) /\ shows r (f_block x) = n mod 2 ^ 64).
  { intros x. destruct (F (f_block x)) as (n & Hn & E). exists n. split; [|exact E]. pose proof (w_fins _ _ W x) as A1. pose proof (w_block _ _ W' x) as A2. rewrite total_skip, kept_skip in A2. lia. }
  assert (D : forall x, exists n, sumN (finished x t1) <= n <= bytes_in (kept x (t1 ++ t2)) /\ shows r (f_data x) = n mod 2 ^ 64).
  { intros x. destruct (F (f_data x)) as (n & Hn & E). exists n. split; [|exact E]. pose proof (w_fin _ _ W x) as A1. pose proof (w_data _ _ W' x) as A2. rewrite total_skip, kept_skip in A2. lia. }
  split; [|split; [exact (B true)|split; [exact (D true)|split; [exact (B false)|exact (D false)]]]].
  destruct (F SentBlocks) as (n & Hn & E). cbn [shows] in E. rewrite E. f_equal. rewrite total_app, !sent_total, X1 in Hn. unfold number at 3 in Hn. cbn in Hn. change (N.of_nat 0) with 0 in Hn. lia.
Qed.
Print Assumptions c79_report.

(** When every received block has been dealt with, a report is exact. *)
Theorem c79_exact h s t1 order t2 r : run node0 h = Some (s, t1 ++ (Begin order, Started) :: t2 ++ [(Load, Reported r)]) -> no_start t2 -> settled t1 ->
  blocks_sent r = number (sent t1) mod 2 ^ 64 /\
  blocks_received r = number (kept true t1) mod 2 ^ 64 /\ data_received r = bytes_in (kept true t1) mod 2 ^ 64 /\
  dup_blks_received r = number (kept false t1) mod 2 ^ 64 /\ dup_data_received r = bytes_in (kept false t1) mod 2 ^ 64.
Proof.
  intros R NS Q. destruct (run_loads _ _ _ _ _ _ R) as ((s1 & R1) & s2 & R2). destruct (report_ok _ _ _ _ _ _ R NS) as (X1 & X2 & F & _).
  pose proof (tasks_ok _ _ _ R1) as W. pose proof (tasks_ok _ _ _ R2) as W'. change u64_max1 with (2 ^ 64) in F. unfold settled in Q.
  assert (J1 : n_jobs s1 = []) by (pose proof (w_end _ _ W) as A; destruct (n_jobs s1); [reflexivity|cbn [length] in A; lia]).
  assert (Rc : received_blocks (t1 ++ (Begin order, Started) :: t2) = received_blocks t1) by (unfold received_blocks in *; rewrite flat_map_app; cbn [flat_map snd]; cbn [app]; rewrite X2; apply app_nil_r).
  assert (Ty : length (tried t2) = 0%nat).
  { pose proof (Permutation_length (w_tried _ _ W)) as P1. pose proof (Permutation_length (w_tried _ _ W')) as P2. rewrite Rc in P2. rewrite J1 in P1. unfold tried in P2. rewrite flat_map_app in P2. cbn [flat_map snd] in P2. fold (tried t1) (tried t2) in P2.
    rewrite !app_length in P1. rewrite !app_length in P2. cbn [flat_map length] in *. lia. }
  assert (K : forall x, kept x t2 = []).
  { intros x. clear - Ty. induction t2 as [|[o a] t IH]; [reflexivity|]. unfold tried, kept in *. cbn [flat_map snd] in *. rewrite app_length in Ty. destruct a as [| |p b [y|]| | | |]; cbn [length] in Ty; try (cbn [app]; apply IH; lia); lia. }
  assert (J2 : n_jobs s2 = []).
  { pose proof (w_end _ _ W') as A. rewrite Rc, Q in A. unfold ended in A at 2. rewrite filter_app, app_length in A. fold (ended t1) in A. destruct (n_jobs s2); [reflexivity|cbn [length] in A; lia]. }
  assert (B : forall x, shows r (f_block x) = number (kept x t1) mod 2 ^ 64).
  { intros x. destruct (F (f_block x)) as (n & Hn & E). rewrite E. f_equal. pose proof (w_block _ _ W x) as A1. pose proof (w_block _ _ W' x) as A2. rewrite total_skip, kept_skip, kept_app, K, app_nil_r, J2 in A2. rewrite J1 in A1. unfold owed in *. cbn [map sumN] in *. lia. }
  assert (D : forall x, shows r (f_data x) = bytes_in (kept x t1) mod 2 ^ 64).
  { intros x. destruct (F (f_data x)) as (n & Hn & E). rewrite E. f_equal. pose proof (w_data _ _ W x) as A1. pose proof (w_data _ _ W' x) as A2. rewrite total_skip, kept_skip, kept_app, K, app_nil_r, J2 in A2. rewrite J1 in A1. unfold owed in *. cbn [map sumN] in *. lia. }
  split; [exact (proj1 (c79_report _ _ _ _ _ _ R NS))|]. split; [exact (B true)|split; [exact (D true)|split; [exact (B false)|exact (D false)]]].
Qed.
Print Assumptions c79_exact.

(** Every block which is counted was received, from the peer it is counted for, and every received
    block is tried to be stored once: when everything has been dealt with, none is left out. *)
Theorem c79_received h s t : run node0 h = Some (s, t) ->
  (exists rest, Permutation (received_blocks t) (tried t ++ rest)) /\ (settled t -> Permutation (received_blocks t) (tried t)).
Proof.
  intros R. pose proof (tasks_ok _ _ _ R) as W. split; [eexists; exact (w_tried _ _ W)|]. intros Q. unfold settled in Q. pose proof (w_end _ _ W) as A. pose proof (w_tried _ _ W) as P.
  destruct (n_jobs s); [|cbn [length] in A; lia]. cbn [flat_map] in P. rewrite app_nil_r in P. exact P.
Qed.
Print Assumptions c79_received.

(** New and known blocks are told apart as the last put or removal of the multihash says. *)
Theorem c79_new h s t1 i f p b x t2 : run node0 h = Some (s, t1 ++ (Job i f, Kept p b (Some x)) :: t2) -> x = negb (holds (cid_hash (b_cid b)) t1).
Proof.
  intros R. destruct (run_split _ _ _ _ _ R) as (s1 & R1 & R2). cbn [map fst run] in R2. destruct (step s1 (Job i f)) as [[s2 a]|] eqn:S; [|discriminate].
  destruct (run s2 (map fst t2)) as [[s3 t']|]; [|discriminate]. cbn [option_map fst snd] in R2. assert (a = Kept p b (Some x)) as -> by congruence.
  rewrite <- (stored_ok _ _ _ R1 (b_cid b)). apply step_does in S. inversion S as [| | |i' p' b' j1 j2 m y J M| | | | | | |]; subst.
  unfold mem_put in M. change (BlockSpec.b_cid (to_repo b)) with (b_cid b) in M. destruct (mget repo_cid_eqb (b_cid b) (n_store s1)); cbn; congruence.
Qed.
Print Assumptions c79_new.

(** Later reports do not show less, as long as nothing wraps around. *)
Theorem c79_monotone h s t1 order1 t2 r1 t3 order2 t4 r2 :
  run node0 h = Some (s, t1 ++ (Begin order1, Started) :: t2 ++ (Load, Reported r1) :: t3 ++ (Begin order2, Started) :: t4 ++ [(Load, Reported r2)]) ->
  no_start t2 -> no_start t4 ->
  number (sent (t1 ++ t2 ++ t3)) < 2 ^ 64 -> (forall x, number (kept x (t1 ++ t2 ++ t3 ++ t4)) < 2 ^ 64 /\ bytes_in (kept x (t1 ++ t2 ++ t3 ++ t4)) < 2 ^ 64) ->
  blocks_sent r1 <= blocks_sent r2 /\ blocks_received r1 <= blocks_received r2 /\ data_received r1 <= data_received r2 /\
  dup_blks_received r1 <= dup_blks_received r2 /\ dup_data_received r1 <= dup_data_received r2.
Proof.
  intros R N1 N2 Hs Hk. set (t := t1 ++ (Begin order1, Started) :: t2 ++ (Load, Reported r1) :: t3).
  assert (E : t1 ++ (Begin order1, Started) :: t2 ++ (Load, Reported r1) :: t3 ++ (Begin order2, Started) :: t4 ++ [(Load, Reported r2)] = t ++ (Begin order2, Started) :: t4 ++ [(Load, Reported r2)])
    by (unfold t; rewrite <- !app_assoc; cbn [app]; rewrite <- !app_assoc; reflexivity).
  rewrite E in R. destruct (report_ok _ _ _ _ _ _ R N2) as (_ & _ & F2 & _).
  destruct (run_loads _ _ _ _ _ _ R) as ((sx & Rx) & sy & Ry).
  assert (E' : t = (t1 ++ (Begin order1, Started) :: t2 ++ [(Load, Reported r1)]) ++ t3) by (unfold t; rewrite <- !app_assoc; cbn [app]; rewrite <- !app_assoc; reflexivity).
  assert (R1 : exists h1 s1, run node0 h1 = Some (s1, t1 ++ (Begin order1, Started) :: t2 ++ [(Load, Reported r1)])).
  { rewrite E' in Rx. destruct (run_split _ _ _ _ _ Rx) as (s1 & Q & _). eexists _, s1. exact Q. }
  destruct R1 as (h1 & s1 & R1). destruct (report_ok _ _ _ _ _ _ R1 N1) as (_ & _ & F1 & _).
  pose proof (tasks_ok _ _ _ Ry) as W. change u64_max1 with (2 ^ 64) in *.
  assert (Z : forall f o a, match a with Started | Reported _ => True | _ => False end -> forall l, total f ((o, a) :: l) = total f l).
  { intros f o a Ha l. change ((o, a) :: l) with ([(o, a)] ++ l). rewrite total_app. destruct a; try contradiction; destruct f; reflexivity. }
  assert (T : forall f, total f t = total f t1 + total f t2 + total f t3).
  { intros f. unfold t. rewrite !total_app, Z, total_app, Z by exact I. lia. }
  assert (G : forall f, total f t1 + total f t2 + total f t3 + total f t4 < 2 ^ 64 -> shows r1 f <= shows r2 f).
  { intros f Hf. destruct (F1 f) as (n1 & B1 & ->). destruct (F2 f) as (n2 & B2 & ->). rewrite total_app in B1, B2. rewrite T in B2. rewrite !N.mod_small by lia. lia. }
  assert (Kx : forall x, kept x (t ++ (Begin order2, Started) :: t4) = kept x (t1 ++ t2 ++ t3 ++ t4)).
  { intros x. unfold t. rewrite !kept_app. change (kept x ((Begin order1, Started) :: t2 ++ (Load, Reported r1) :: t3)) with (kept x (t2 ++ (Load, Reported r1) :: t3)). rewrite kept_app.
    change (kept x ((Load, Reported r1) :: t3)) with (kept x t3). change (kept x ((Begin order2, Started) :: t4)) with (kept x t4). rewrite <- !app_assoc. reflexivity. }
  assert (Tk : forall x, total (f_block x) t1 + total (f_block x) t2 + total (f_block x) t3 + total (f_block x) t4 < 2 ^ 64 /\ total (f_data x) t1 + total (f_data x) t2 + total (f_data x) t3 + total (f_data x) t4 < 2 ^ 64).
  { intros x. pose proof (w_block _ _ W x) as A. pose proof (w_data _ _ W x) as B. rewrite Kx, total_skip, total_app, T in A, B. destruct (Hk x). lia. }
  split; [|split; [apply (G GotBlocks), (Tk true)|split; [apply (G GotData), (Tk true)|split; [apply (G DupBlocks), (Tk false)|apply (G DupData), (Tk false)]]]].
  apply (G SentBlocks). destruct (report_ok _ _ _ _ _ _ R N2) as (S4 & _). rewrite !sent_total, S4. unfold sent in Hs. rewrite !flat_map_app in Hs. rewrite !number_app in Hs. fold (sent t1) (sent t2) (sent t3) in Hs. unfold number at 4. cbn. change (N.of_nat 0) with 0. lia.
Qed.
Print Assumptions c79_monotone.

(** The peers and the want list of a report are those of the moment it began. *)
Theorem c79_lists h s t1 order t2 r : run node0 h = Some (s, t1 ++ (Begin order, Started) :: t2 ++ [(Load, Reported r)]) -> no_start t2 ->
  (forall p, In p (r_peers r) <-> connected_after p false (done_with false t1) = true) /\
  (forall c, mget cid_eqb c (r_wantlist r) = wanted_after (done_with false t1) c).
Proof.
  intros R NS. destruct (report_ok _ _ _ _ _ _ R NS) as (_ & _ & _ & s1 & R1 & -> & ->). destruct (done_with_run _ _ _ R1) as (tb & B). change (busy node0) with false in B. change (n_bs node0) with bitswap0 in B.
  split; [|exact (fun c => c42_local_wantlist _ _ _ c B)]. intros p. rewrite <- (connected_inv p _ _ _ B). unfold has_peer, get_peer.
  destruct (mget N.eqb p (b_peers (n_bs s1))) eqn:G.
  - split; [reflexivity|]. intros _. apply (mget_in _ N.eqb_spec) in G. exact (in_map fst _ _ G).
  - split; [|discriminate]. intros Hi. apply (mget_none _ N.eqb_spec) in G. contradiction.
Qed.
Print Assumptions c79_lists.

(** Two peers; blocks from both, one of them twice, one stored by the node itself before. *)
Definition b3 := hashed [1; 2; 3].
Definition b5 := hashed [5; 5; 5; 5; 5].
Definition gives (p : peer) (b : block) : Transfers.op := Swarm (OReceived p 0 (mk_message [] [] [b])).
Definition polls : Transfers.op := Swarm (OPoll [7; 8]).
Definition a_job : list Transfers.op := [Job 0 false; Job 0 false; Job 0 false].
Definition a_report : list Transfers.op := Begin [7; 8] :: repeat Load 13.
Definition both_up : list Transfers.op := [Swarm (OEstablished 7 0); Swarm (OEstablished 8 0)].
Definition ex_before : list Transfers.op :=
  both_up ++ [PutBlock (to_repo b5); gives 7 b3; polls] ++ a_job ++ [gives 8 b3; polls] ++ a_job ++ [gives 8 b5; polls] ++ a_job ++
  [Swarm (OQueue 7 b3); Swarm (OQueue 7 b5); polls; gives 8 (hashed [9]); polls; Job 0 true].
Definition trace_of (h : list Transfers.op) : trace := match run node0 h with Some (_, t) => t | None => [] end.
Example c79_exact_case : exists s r, run node0 (ex_before ++ a_report) = Some (s, trace_of ex_before ++ (Begin [7; 8], Started) :: repeat (Load, Quiet) 12 ++ [(Load, Reported r)]) /\
  no_start (repeat (Load, Quiet) 12) /\ settled (trace_of ex_before) /\
  (blocks_sent r, blocks_received r, data_received r, dup_blks_received r, dup_data_received r) = (2, 1, 3, 2, 8) /\ r_peers r = [8; 7].
Proof.
  eexists _, _. split; [vm_compute; reflexivity|]. split; [|split; [vm_compute; reflexivity|split; vm_compute; reflexivity]]. intros o Ho. apply repeat_spec in Ho. discriminate.
Qed.

(** False of the code: the bytes sent are never counted. *)
Theorem c79_data_sent_refuted : exists h s t1 order t2 r, run node0 h = Some (s, t1 ++ (Begin order, Started) :: t2 ++ [(Load, Reported r)]) /\ no_start t2 /\ settled t1 /\
  bytes_in (sent t1) = 8 /\ data_sent r = 0.
Proof.
  eexists (ex_before ++ a_report), _, (trace_of ex_before), [7; 8], (repeat (Load, Quiet) 12), _. split; [vm_compute; reflexivity|]. split; [|split; [|split]; vm_compute; reflexivity]. intros o Ho. apply repeat_spec in Ho. discriminate.
Qed.
Print Assumptions c79_data_sent_refuted.
(** In every report. *)
Theorem c79_data_sent h s t1 order t2 r : run node0 h = Some (s, t1 ++ (Begin order, Started) :: t2 ++ [(Load, Reported r)]) -> no_start t2 -> data_sent r = 0.
Proof. intros R NS. destruct (report_ok _ _ _ _ _ _ R NS) as (_ & _ & F & _). destruct (F SentData) as (n & Hn & E). rewrite !data_total in Hn. assert (n = 0) as -> by lia. exact E. Qed.
Print Assumptions c79_data_sent.

(** False of the code: "the number of IPFS blocks received from other peers".  Of four blocks received,
    three of which were stored, one is counted. *)
Theorem c79_received_refuted : exists h s t1 order t2 r, run node0 h = Some (s, t1 ++ (Begin order, Started) :: t2 ++ [(Load, Reported r)]) /\ no_start t2 /\ settled t1 /\
  number (received_blocks t1) = 4 /\ blocks_received r = 1 /\ blocks_received r + dup_blks_received r = 3.
Proof.
  eexists (ex_before ++ a_report), _, (trace_of ex_before), [7; 8], (repeat (Load, Quiet) 12), _. split; [vm_compute; reflexivity|]. split; [|split; [|split; [|split]]; vm_compute; reflexivity]. intros o Ho. apply repeat_spec in Ho. discriminate.
Qed.
Print Assumptions c79_received_refuted.

(** False of the code: "the block had already been received previously".  A block received for the
    first time is counted as a duplicate, and one received twice as new both times. *)
Theorem c79_duplicate_refuted :
  (exists h s t1 order t2 r, run node0 h = Some (s, t1 ++ (Begin order, Started) :: t2 ++ [(Load, Reported r)]) /\ no_start t2 /\ settled t1 /\ received_blocks t1 = [(7, b5)] /\ dup_blks_received r = 1) /\
  (exists h s t1 order t2 r, run node0 h = Some (s, t1 ++ (Begin order, Started) :: t2 ++ [(Load, Reported r)]) /\ no_start t2 /\ settled t1 /\ received_blocks t1 = [(7, b3); (7, b3)] /\ dup_blks_received r = 0).
Proof.
  split.
  - set (h := both_up ++ [PutBlock (to_repo b5); gives 7 b5; polls] ++ a_job). eexists (h ++ a_report), _, (trace_of h), [7; 8], (repeat (Load, Quiet) 12), _. split; [vm_compute; reflexivity|]. split; [|split; [|split]; vm_compute; reflexivity]. intros o Ho. apply repeat_spec in Ho. discriminate.
  - set (h := both_up ++ [gives 7 b3; polls] ++ a_job ++ [RemoveBlock (b_cid b3); gives 7 b3; polls] ++ a_job). eexists (h ++ a_report), _, (trace_of h), [7; 8], (repeat (Load, Quiet) 12), _. split; [vm_compute; reflexivity|]. split; [|split; [|split]; vm_compute; reflexivity]. intros o Ho. apply repeat_spec in Ho. discriminate.
Qed.
Print Assumptions c79_duplicate_refuted.

(** False of the code: a report need not be a state of the node at any moment.  Here no block is
    counted as received, but three bytes are. *)
Theorem c79_snapshot_refuted : exists h s t1 order t2 r, run node0 h = Some (s, t1 ++ (Begin order, Started) :: t2 ++ [(Load, Reported r)]) /\ no_start t2 /\
  blocks_received r = 0 /\ data_received r = 3.
Proof.
  set (h := both_up ++ [gives 7 b3; polls; Job 0 false]). set (l := [Load; Load; Load; Job 0 false; Job 0 false] ++ repeat Load 9).
  eexists (h ++ Begin [7; 8] :: l ++ [Load]), _, (trace_of h), [7; 8], (repeat (Load, Quiet) 3 ++ [(Job 0 false, CountedBlock 7 true); (Job 0 false, CountedData 7 true 3)] ++ repeat (Load, Quiet) 9), _.
  split; [vm_compute; reflexivity|]. split; [|split; vm_compute; reflexivity]. intros o Ho. rewrite !in_app_iff in Ho. destruct Ho as [Ho|[Ho|Ho]]; [apply repeat_spec in Ho; discriminate| |apply repeat_spec in Ho; discriminate].
  destruct Ho as [Ho|[Ho|[]]]; discriminate.
Qed.
Print Assumptions c79_snapshot_refuted.
