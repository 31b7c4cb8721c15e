(** C17: concurrent calls for one block on the filesystem block store. *)
From Verif Require Import Base Wire FsConc FsConcProofs.
Local Open Scope nat_scope.

(** What the caller of task [n] has been told so far. *)
Inductive put_answer := NewBlock | Existed | PutError | PutPanic.
Definition put_says (s : st) (n : nat) (r : put_answer) : Prop :=
  exists b, nth_error (tasks s) n = Some (TPut (match r with NewBlock => PNew | Existed => PExisted | PutError => PFailed | PutPanic => PPanic end) b).
Definition get_says (s : st) (n : nat) (r : option bytes) : Prop := nth_error (tasks s) n = Some (TGet (GDone r)).
(** The task [n] is a get that nobody has polled yet. *)
Definition get_not_begun (s : st) (n : nat) : Prop := nth_error (tasks s) n = Some (TGet GStart).
(** What opening and reading the block file would give now. *)
Definition block_file_now (s : st) : option bytes := option_map (inode s) (target s).

(** The schedules below pick, at each point, any task and let it make any step, drop its future,
    or run its blocking part; [calls] is any list of puts and gets. *)

(** At most one put reports NewBlock, no put fails or panics. *)
Theorem c17_one_new_block : forall data present leftover calls sched,
  ~ In KRemove calls -> Forall no_fail sched ->
  let s := run data (start data present leftover calls) sched in
  (forall m n, put_says s m NewBlock -> put_says s n NewBlock -> m = n) /\
  (forall n, ~ put_says s n PutError /\ ~ put_says s n PutPanic) /\
  (forall n, nth_error (tasks s) n <> Some (TGet GPanic)).
Proof.
  intros data present leftover calls sched Hr Hf s.
  assert (Hi : inv data s) by (apply run_inv; [exact Hf|apply start_inv; exact Hr]).
  split; [|split].
  - intros m n [b Hm] [b' Hn]. destruct (i_tasks _ _ Hi _ _ Hm) as [_ E], (i_tasks _ _ Hi _ _ Hn) as [_ E'].
    cbn in E, E'. subst. exact (i_uniq _ _ Hi _ _ _ _ Hm Hn eq_refl eq_refl).
  - intros n. split; intros [b Hn]; destruct (i_tasks _ _ Hi _ _ Hn) as [_ E]; exact E.
  - intros n Hn. exact (i_tasks _ _ Hi _ _ Hn).
Qed.
Print Assumptions c17_one_new_block.

(** No put reports NewBlock when the block was there at the start. *)
Theorem c17_no_new_block_when_present : forall data leftover calls sched n,
  ~ In KRemove calls -> Forall no_fail sched ->
  ~ put_says (run data (start data true leftover calls) sched) n NewBlock.
Proof.
  intros data leftover calls sched n Hr Hf [b Hn].
  assert (Hs := start_inv data true leftover calls Hr).
  pose proof (run_inv data sched _ Hf Hs) as Hi.
  assert (Q : quiet (run data (start data true leftover calls) sched)).
  { apply quiet_run; [exact Hf|exact Hs|]. split; [discriminate|]. cbn. intros m t Ht.
    apply nth_error_In, in_map_iff in Ht as (k & <- & _). destruct k; reflexivity. }
  destruct (i_tasks _ _ Hi _ _ Hn) as [_ E]. cbn in E. subst b. pose proof (proj2 Q _ _ Hn) as P. discriminate P.
Qed.
Print Assumptions c17_no_new_block_when_present.

(** A get answers with nothing, with the full bytes, or with an empty block.  The empty block is the
    gap in the property (see [c17_get_refuted]). *)
Theorem c17_get_partial : forall data present leftover calls sched n r,
  ~ In KRemove calls -> Forall no_fail sched ->
  get_says (run data (start data present leftover calls) sched) n r ->
  r = None \/ r = Some [] \/ r = Some data.
Proof.
  intros data present leftover calls sched n r Hr Hf Hg.
  assert (Hi : inv data (run data (start data present leftover calls) sched))
    by (apply run_inv; [exact Hf|apply start_inv; exact Hr]).
  pose proof (i_tasks _ _ Hi _ _ Hg) as E. cbn in E. destruct r as [x|]; [|auto]. destruct E as [->| ->]; auto.
Qed.
Print Assumptions c17_get_partial.

(** Whoever reports NewBlock has stored all the bytes, and every get that begins afterwards returns
    them, whatever else goes on. *)
Theorem c17_new_block_is_stored : forall data present leftover calls sched1 sched2 m n r,
  ~ In KRemove calls -> Forall no_fail (sched1 ++ sched2) ->
  let s1 := run data (start data present leftover calls) sched1 in
  let s2 := run data s1 sched2 in
  put_says s1 m NewBlock ->
  block_file_now s1 = Some data /\ block_file_now s2 = Some data /\
  (get_not_begun s1 n -> get_says s2 n r -> r = Some data).
Proof.
  intros data present leftover calls sched1 sched2 m n r Hr Hf s1 s2 [b Hm].
  apply Forall_app in Hf as [Hf1 Hf2].
  assert (Hi : inv data s1) by (apply run_inv; [exact Hf1|apply start_inv; exact Hr]).
  assert (F : full data s1).
  { destruct (i_tasks _ _ Hi _ _ Hm) as [Hb E]. cbn in E. subst b. destruct Hb as (i & X & Y). exists i. auto. }
  assert (F2 : full data s2) by (apply full_run; assumption).
  split; [destruct F as (i & X & Y); unfold block_file_now; rewrite X; cbn; congruence|].
  split; [destruct F2 as (i & X & Y); unfold block_file_now; rewrite X; cbn; congruence|].
  intros Hn Hg. destruct (late_run data sched2 s1 n GStart Hf2 Hi F Hn I) as (g & Hg' & L).
  fold s2 in Hg', L. unfold get_says in Hg. rewrite Hg in Hg'. injection Hg' as <-. exact L.
Qed.
Print Assumptions c17_new_block_is_stored.

(** A block present at the start is returned in full by every get. *)
Theorem c17_present_block_is_returned : forall data leftover calls sched n r,
  ~ In KRemove calls -> Forall no_fail sched ->
  get_says (run data (start data true leftover calls) sched) n r -> r = Some data.
Proof.
  intros data leftover calls sched n r Hr Hf Hg.
  assert (Hs := start_inv data true leftover calls Hr).
  assert (F : full data (start data true leftover calls)) by (exists 0; split; reflexivity).
  assert (Hn : nth_error (tasks (start data true leftover calls)) n = Some (TGet GStart)).
  { pose proof (f_equal (fun l => nth_error l n) (run_kinds data sched (start data true leftover calls))) as E.
    cbn beta in E. rewrite !nth_error_map in E. unfold get_says in Hg. rewrite Hg in E. cbn in E |- *.
    rewrite nth_error_map in E |- *. destruct (nth_error calls n) as [[]|]; cbn in *; congruence. }
  destruct (late_run data sched _ n GStart Hf Hs F Hn I) as (g & Hg' & L).
  unfold get_says in Hg. rewrite Hg in Hg'. injection Hg' as <-. exact L.
Qed.
Print Assumptions c17_present_block_is_returned.

(** No blocking part of a put is between creating the file and finishing it. *)
Definition nobody_writing (s : st) : Prop :=
  forall n a b, nth_error (tasks s) n = Some (TPut a b) -> wins b = true -> b = BOk.

(** Once nobody is writing, everyone who reported success is right. *)
Theorem c17_success_once_settled : forall data present leftover calls sched n r,
  ~ In KRemove calls -> Forall no_fail sched ->
  let s := run data (start data present leftover calls) sched in
  nobody_writing s -> put_says s n r -> block_file_now s = Some data.
Proof.
  intros data present leftover calls sched n r Hr Hf s Hq [b Hn].
  assert (Hi : inv data s) by (apply run_inv; [exact Hf|apply start_inv; exact Hr]).
  destruct (i_tasks _ _ Hi _ _ Hn) as [Hb Hp].
  assert (T : target s <> None).
  { destruct r; cbn in Hp; subst; cbn in Hb; try contradiction; [destruct Hb as (i & X & _); congruence|exact Hb]. }
  destruct (target s) as [i|] eqn:Et; [|congruence].
  destruct (i_full _ _ Hi i Et) as [X|[_ (m & a & b' & Hm & W & NO)]].
  - unfold block_file_now. rewrite Et. cbn. congruence.
  - exfalso. apply NO. exact (Hq _ _ _ Hm W).
Qed.
Print Assumptions c17_success_once_settled.

(** With two puts whose futures are not dropped, and any number of gets, success always means that the
    block is stored.  With three puts or a dropped future this fails, see [c17_existed_refuted] and
    [c17_dropped_refuted]. *)
Theorem c17_two_puts_partial : forall data present leftover gets sched n r,
  Forall (eq KGet) gets -> Forall no_fail sched -> Forall no_put_drop sched ->
  let s := run data (start data present leftover (KPut :: KPut :: gets)) sched in
  put_says s n r -> block_file_now s = Some data.
Proof.
  intros data present leftover gets sched n r Hg Hf Hd s [b Hn].
  assert (Hr : ~ In KRemove (KPut :: KPut :: gets)).
  { intros [H|[H|H]]; try discriminate. rewrite Forall_forall in Hg. specialize (Hg _ H). discriminate. }
  assert (Hs := start_inv data present leftover _ Hr).
  assert (T2 : two (start data present leftover (KPut :: KPut :: gets))).
  { intros m t Hm. cbn in Hm. destruct m as [|[|m]]; cbn in Hm; [injection Hm as <-; cbn; auto..|].
    rewrite nth_error_map in Hm. destruct (nth_error gets m) as [k|] eqn:Ek; [|discriminate].
    rewrite Forall_forall in Hg. apply nth_error_In in Ek. specialize (Hg _ Ek). subst k. injection Hm as <-. cbn. lia. }
  assert (P : full data s \/ pair_ok s 0 1).
  { apply two_puts_run; auto. right. exists PStart, BNot, PStart, BNot. repeat split; reflexivity. }
  assert (Hi : inv data s) by (apply run_inv; assumption).
  assert (T2' : two s).
  { unfold s. clear Hn P Hi s. generalize dependent (start data present leftover (KPut :: KPut :: gets)).
    clear Hd. induction sched as [|c l IH]; intros s Hs T2; [exact T2|]. inversion Hf; subst. cbn.
    apply IH; [assumption|apply step_inv; assumption|apply (two_step data); assumption]. }
  destruct P as [(i & X & Y)|(a & b0 & a' & b1 & H0 & H1 & He & He' & _)].
  - unfold block_file_now. rewrite X. cbn. congruence.
  - exfalso. destruct (T2' _ _ Hn) as [->| ->].
    + rewrite Hn in H0. injection H0 as <- _. destruct r; exact He.
    + rewrite Hn in H1. injection H1 as <- _. destruct r; exact He'.
Qed.
Print Assumptions c17_two_puts_partial.

(** One put and one get suffice for the get to return an empty block: it finds no ongoing write, the
    put creates the file, the get reads it. *)
Theorem c17_get_refuted : exists data sched,
  Forall no_fail sched /\ Forall (fun c => snd c <> Drop) sched /\ data <> [] /\
  get_says (run data (start data false None [KPut; KGet]) sched) 1 (Some []).
Proof.
  exists [1; 2]%N, [(1, Go); (0, Go); (0, Block 0); (1, Go); (1, Go)].
  split; [repeat constructor; discriminate|]. split; [repeat constructor; discriminate|]. split; [discriminate|].
  vm_compute. reflexivity.
Qed.
Print Assumptions c17_get_refuted.

(** Three puts, none dropped: the third reports Existed while the first has not written anything, and a
    get begun after that answer returns an empty block. *)
Theorem c17_existed_refuted : exists data sched1 sched2,
  Forall no_fail (sched1 ++ sched2) /\ Forall (fun c => snd c <> Drop) (sched1 ++ sched2) /\ data <> [] /\
  let s1 := run data (start data false None [KPut; KPut; KPut; KGet]) sched1 in
  let s2 := run data s1 sched2 in
  put_says s1 2 Existed /\ block_file_now s1 = Some [] /\ get_not_begun s1 3 /\ get_says s2 3 (Some []).
Proof.
  exists [1; 2]%N,
    [(0, Go); (1, Go); (0, Block 0); (1, Block 0); (1, Go); (2, Go); (2, Block 0); (2, Go); (2, Go); (2, Go)],
    [(3, Go); (3, Go); (3, Go)].
  split; [repeat constructor; discriminate|]. split; [repeat constructor; discriminate|]. split; [discriminate|].
  split; [exists BLost; vm_compute; reflexivity|]. repeat split; vm_compute; reflexivity.
Qed.
Print Assumptions c17_existed_refuted.

(** Two puts, one of which is dropped: the same. *)
Theorem c17_dropped_refuted : exists data sched,
  Forall no_fail sched /\ data <> [] /\
  let s := run data (start data false None [KPut; KPut]) sched in
  put_says s 1 Existed /\ block_file_now s = Some [].
Proof.
  exists [1; 2]%N, [(0, Go); (0, Block 0); (0, Drop); (1, Go); (1, Block 0); (1, Go); (1, Go); (1, Go)].
  split; [repeat constructor; discriminate|]. split; [discriminate|].
  split; [exists BLost; vm_compute; reflexivity|vm_compute; reflexivity].
Qed.
Print Assumptions c17_dropped_refuted.

(** If one write fails while two other puts share its channel, two messages are sent on a channel of
    capacity one and the third put panics in the arm declared unreachable. *)
Theorem c17_write_failure_panics_refuted : exists data sched,
  put_says (run data (start data false None [KPut; KPut; KPut]) sched) 2 PutPanic.
Proof.
  exists [1; 2]%N,
    [(0, Go); (1, Go); (2, Go); (0, Block 0); (2, Block 0); (2, Go); (2, Go);
     (0, Fail); (0, Block 0); (1, Block 0); (1, Block 0); (1, Block 5); (1, Block 0); (1, Block 0);
     (0, Go); (0, Go); (1, Go); (1, Go); (2, Go)].
  exists BLost. vm_compute. reflexivity.
Qed.
Print Assumptions c17_write_failure_panics_refuted.

(** An ordinary run: one writes in two chunks over a leftover temporary file, one loses and waits, a
    get waits for the writer and returns the bytes. *)
Example c17_example :
  let s := run [1; 2]%N (start [1; 2]%N false (Some [9; 9; 9]%N) [KPut; KPut; KGet])
    [(0, Go); (1, Go); (2, Go); (0, Block 0); (1, Block 0); (0, Block 0); (0, Block 0); (0, Block 0); (1, Go);
     (1, Go); (0, Block 0); (0, Block 0); (0, Go); (0, Go); (1, Go); (2, Go); (2, Go); (2, Go); (2, Go); (2, Go)] in
  put_says s 0 NewBlock /\ put_says s 1 Existed /\ get_says s 2 (Some [1; 2]%N) /\ nobody_writing s.
Proof.
  split; [eexists; vm_compute; reflexivity|]. split; [eexists; vm_compute; reflexivity|]. split; [vm_compute; reflexivity|].
  intros n a b. destruct n as [|[|[|n]]]; vm_compute; try (intros [= <- <-]); try discriminate; try reflexivity.
  destruct n; discriminate.
Qed.
