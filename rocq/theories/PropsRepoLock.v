(** C80: a repository directory is used by one node at a time. *)
From Verif Require Import Base RepoLock RepoLockSpec RepoLockProofs.

(** Whatever nodes are started, cancelled, stopped or killed over a directory, in any order and with any
    failures: as long as nobody removes the lock file at most one has the directory. *)
Theorem c80_exclusive : forall d h w t, run (init d) h = Some (w, t) -> untouched h ->
  (forall i j, has (nodes w i) -> has (nodes w j) -> i = j) /\
  (forall i j, has_after i false t = true -> has_after j false t = true -> i = j).
Proof.
  intros d h w t R U. pose proof (run_good _ _ _ _ (init_good d) R) as G. pose proof (run_tidy _ _ _ _ (init_tidy d) U R) as T. split; intros i j.
  - intros A B. exact (one w i j G T A B).
  - intros A B. apply (one w i j G T); apply hasb_has; rewrite (run_observed _ _ _ _ _ R); assumption.
Qed.
Print Assumptions c80_exclusive.

(** What [start] meets: no directory; a directory somebody has; or a free one.  Nothing changes for the others. *)
Theorem c80_start : forall d h w t i w' a, run (init d) h = Some (w, t) -> untouched h ->
  step w (TryLock i false) = Some (w', a) ->
  (a = Refused LockFileOpenFailed <-> dir w = false) /\
  (a = Refused RepoInUse <-> dir w = true /\ exists j, has (nodes w j)) /\
  (a = Locked <-> dir w = true /\ forall j, ~ has (nodes w j)) /\
  (has (nodes w' i) <-> a = Locked) /\
  (forall j, j <> i -> nodes w' j = nodes w j).
Proof.
  intros d h w t i w' a R U S. pose proof (run_good _ _ _ _ (init_good d) R) as G. pose proof (run_tidy _ _ _ _ (init_tidy d) U R) as T.
  assert (O : forall j, j <> i -> nodes w' j = nodes w j) by (intros j N; apply (step_other _ _ _ _ j S); cbn [who]; congruence).
  cbn [step] in S. destruct (nodes w i) eqn:P; try discriminate S. destruct (dir w) eqn:D; cbn [orb negb] in S.
  - cbv zeta in S. set (n := match lock_file w with Some n => n | None => next_inode w end) in *.
    assert (X : is_locked n w = true <-> exists j, has (nodes w j)).
    { rewrite locked_in. split.
      - intros (j & J). exists j. apply (g_locks w G). exists n. exact J.
      - intros (j & J). apply (g_locks w G) in J as (m & J). exists j. pose proof (T j m J) as E. subst n. rewrite E. exact J. }
    destruct (is_locked n w) eqn:F; apply some_pair in S as [-> ->]; cbn [gone nodes]; rewrite ?set_same; cbn [has].
    + destruct (proj1 X eq_refl) as (j & J). repeat split; try discriminate; try contradiction; try exact O.
      * exists j. exact J.
      * intros [_ Y]. destruct (Y j J).
    + assert (Y : forall j, ~ has (nodes w j)) by (intros j J; assert (false = true) by (apply X; exists j; exact J); discriminate).
      repeat split; try discriminate; try exact O.
      * intros [_ (j & J)]. destruct (Y j J).
      * exact Y.
  - apply some_pair in S as [-> ->]. cbn [gone nodes]. rewrite set_same. cbn [has]. repeat split; try discriminate; try contradiction; try exact O; intros [Z _]; discriminate Z.
Qed.
Print Assumptions c80_start.

(** What others do does not change how far a node is. *)
Theorem c80_alone : forall w o w' a i, step w o = Some (w', a) -> who o <> Some i -> nodes w' i = nodes w i.
Proof. exact step_other. Qed.
Print Assumptions c80_alone.

(** A node which came past the initialisation has the directories of the blocks and the pins. *)
Theorem c80_ready : forall d h w t i, run (init d) h = Some (w, t) -> untouched h ->
  nodes w i = Swarming \/ (exists a b c, nodes w i = Up a b c) -> blocks_dir w = true /\ pins_dir w = true.
Proof.
  intros d h w t i R U P. assert (M : made w (nodes w i)) by (apply (run_made h (init d) w t); [intros j; exact Logic.I|exact U|exact R]).
  destruct P as [P|(a & b & c & P)]; rewrite P in M; exact M.
Qed.
Print Assumptions c80_ready.

(** When the initialisations have both ended: the error of the blocks goes first, no error is lost, and a
    node which is refused has the directory no more. *)
Theorem c80_failure : forall d h w t i w' a, run (init d) h = Some (w, t) -> step w (Joined i) = Some (w', a) ->
  (a = Refused BlockStoreFailed <-> In (InitBlocks i true) h) /\
  (a = Refused DataStoreFailed <-> In (InitData i true) h /\ ~ In (InitBlocks i true) h) /\
  (a = Silent <-> In (InitBlocks i false) h /\ In (InitData i false) h /\ ~ In (InitBlocks i true) h /\ ~ In (InitData i true) h) /\
  (has (nodes w' i) <-> a = Silent).
Proof.
  intros d h w t i w' a R S. pose proof (run_results h d w t i R) as Q. cbn [step] in S.
  destruct (nodes w i) as [|[b|] [e|]| | |] eqn:P; try discriminate S. cbn [results] in Q. destruct Q as [Q1 Q2].
  rewrite (Q1 true), (Q2 true), (Q1 false), (Q2 false). destruct b, e; cbn [negb] in *; apply some_pair in S as [-> ->]; cbn [gone with_phase nodes]; rewrite set_same; cbn [has]; repeat split; intros; try discriminate; try contradiction; try exact Logic.I; intuition congruence.
Qed.
Print Assumptions c80_failure.

(** A started node, unless its process is killed, has the directory exactly as long as there is a value of
    [Ipfs], its background task, or a task this one spawned. *)
Theorem c80_freed : forall d h w t i, run (init d) h = Some (w, t) -> In (CreateSwarm i false, Started) t -> ~ In (Kill i) h ->
  (has (nodes w i) <-> referred i t).
Proof.
  intros d h w t i R C K. pose proof (run_kept h d w t i R) as Q. rewrite <- (run_ops _ _ _ _ R) in K. unfold referred, balance. fold (count (is_clone i) t) (count (is_drop i) t) (count (is_spawn i) t) (count (is_done i) t).
  destruct (nodes w i) as [|b e| |a b c|] eqn:P; cbn [kept has] in *; try (destruct Q as [Q _]; contradiction).
  - destruct Q as (Q1 & Q2 & Q3). split; [intros _|intros _; exact Logic.I]. rewrite Q1, Q2, Q3.
    assert (Z : ~ (a = 0%nat /\ b = false /\ c = 0%nat)).
    { intros (-> & -> & ->). clear Q1 Q2 Q3 C K. revert R P. clear. revert d w t.
      induction h as [|o h IH] using rev_ind; intros d w t R P; [cbn [run] in R; injection R as <- _; discriminate P|].
      apply run_snoc in R as (w1 & t1 & x & R & S & _).
      assert (D : who o <> Some i \/ who o = Some i) by (destruct (who o) as [j|]; [destruct (Nat.eq_dec j i); [right|left]|left]; congruence).
      destruct D as [D|D]; [rewrite (step_other _ _ _ _ i S D) in P; exact (IH _ _ _ R P)|].
      destruct o; cbn [who] in D; try discriminate D; injection D as ->; cbn [step] in S; unfold after in S; cbv zeta in S; unstep S; apply some_pair in S as [-> _]; cbn [nodes gone with_phase] in P; rewrite set_same in P; discriminate P. }
    destruct a; [|left; lia]. destruct b; [right; left; discriminate|]. destruct c; [destruct Z; repeat split|]. right. right. lia.
  - split; [intros []|]. destruct Q as [Q|[Q|(Q1 & Q2 & Q3)]]; try contradiction. intros [X|[X|X]]; [lia|contradiction|lia].
Qed.
Print Assumptions c80_freed.

(** When nobody has the directory a start which meets no failure ends well, whatever was before. *)
Theorem c80_restart : forall d h w t i, run (init d) h = Some (w, t) -> (forall j, ~ has (nodes w j)) -> dir w = true -> nodes w i = Configured ->
  exists w' t', run w [TryLock i false; InitBlocks i false; InitData i false; Joined i; CreateSwarm i false] = Some (w', t') /\
    map snd t' = [Locked; Silent; Silent; Silent; Started] /\ nodes w' i = Up 1 true 0 /\ forall j, j <> i -> nodes w' j = nodes w j.
Proof.
  intros d h w t i R F D P. pose proof (run_good _ _ _ _ (init_good d) R) as G.
  assert (L : locks w = []).
  { destruct (locks w) as [|[j n] l] eqn:E; [reflexivity|]. destruct (F j). apply (g_locks w G). exists n. rewrite E. left. reflexivity. }
  cbn [run step]. rewrite P, D. cbn [orb negb]. cbv zeta. unfold is_locked. rewrite L. cbn [existsb nodes with_phase].
  repeat (rewrite set_same; cbn [nodes with_phase negb]).
  eexists. eexists. split; [cbn [option_map fst snd]; reflexivity|]. split; [reflexivity|]. cbn [nodes with_phase]. split; [apply set_same|]. intros j N. rewrite !set_other by exact N. reflexivity.
Qed.
Print Assumptions c80_restart.

(** Refuted: that a directory is never used by two nodes.  The lock is of the file, not of its name. *)
Theorem c80_removed_refuted : exists h w t, run (init true) h = Some (w, t) /\ nodes w 0%nat = Up 1 true 0 /\ nodes w 1%nat = Up 1 true 0.
Proof.
  exists [TryLock 0 false; InitBlocks 0 false; InitData 0 false; Joined 0; CreateSwarm 0 false; RemoveLock;
          TryLock 1 false; InitData 1 false; InitBlocks 1 false; Joined 1; CreateSwarm 1 false].
  apply ex_run. vm_compute. split; reflexivity.
Qed.
Print Assumptions c80_removed_refuted.

(** Refuted: that a start over a directory which is not there yet makes it.  The stores would, but the lock
    file is opened before. *)
Theorem c80_missing_directory_refuted : forall i, exists w, step (init false) (TryLock i false) = Some (w, Refused LockFileOpenFailed).
Proof. intros i. eexists. reflexivity. Qed.
Print Assumptions c80_missing_directory_refuted.

(** Refuted: that the directory is free when [exit_daemon] was called and the background task has ended.
    A clone of the value keeps it. *)
Definition left_over : list op :=
  [TryLock 0 false; InitBlocks 0 false; InitData 0 false; Joined 0; CreateSwarm 0 false; Clone 0; DropHandle 0; EndTask 0].
Theorem c80_exit_refuted : exists w t, run (init true) left_over = Some (w, t) /\ nodes w 0%nat = Up 1 false 0 /\
  option_map snd (step w (TryLock 1 false)) = Some (Refused RepoInUse).
Proof. apply ex_run. vm_compute. split; reflexivity. Qed.
Print Assumptions c80_exit_refuted.

(** * The hypotheses are met *)
Definition handover : list op :=
  [MakeDir; TryLock 0 false; TryLock 1 false; InitData 0 false; InitBlocks 0 false; Joined 0; CreateSwarm 0 false; Clone 0; Spawn 0;
   DropHandle 0; EndTask 0; DropHandle 0; TryLock 2 false; EndJob 0; TryLock 3 false; InitBlocks 3 true; InitData 3 true; Joined 3; TryLock 4 false].
Example ex_handover : exists w t, run (init false) handover = Some (w, t) /\ untouched handover /\
  map snd t = [Silent; Locked; Refused RepoInUse; Silent; Silent; Silent; Started; Silent; Silent; Silent; Silent; Silent; Refused RepoInUse; Freed;
               Locked; Silent; Silent; Refused BlockStoreFailed; Locked] /\
  has_after 4 false t = true /\ has_after 0 false t = false /\ In (CreateSwarm 0 false, Started) t /\ ~ In (Kill 0%nat) handover /\ ~ referred 0 t.
Proof.
  apply ex_run. set (u := untouched handover). set (r := referred). vm_compute. subst u r. split; [intros o H; cbn in H; repeat (destruct H as [<-|H]; [split; discriminate|]); destruct H|].
  split; [reflexivity|]. split; [reflexivity|]. split; [reflexivity|]. split; [tauto|]. split; [intros H; repeat (destruct H as [H|H]; [discriminate H|]); exact H|].
  unfold referred. cbn. intros [H|[H|H]]; [lia|apply H; tauto|lia].
Qed.
Example ex_restart : exists w t, run (init true) [TryLock 0 false; InitBlocks 0 false; Kill 0] = Some (w, t) /\ (forall j, ~ has (nodes w j)) /\ dir w = true /\ nodes w 1%nat = Configured.
Proof. apply ex_run. cbn [run step init nodes dir orb negb lock_file]. cbv zeta. cbn. split; [|split; reflexivity]. intros [|j]; cbn; intros H; exact H. Qed.
