(** C26-C29: block subscriptions, get_block and put_block.  Histories of the registry are lists of
    steps, latest first; [life_of] (SubsSpec.v) says what has become of each future. *)
From Verif Require Import Base Wire Cid FMap BlockSpec MemBlocks MemBlocksProofs SubsSpec Subs SubsProofs GetPut GetPutProofs GetPutMore.

Section Registry.
  Context {K V : Type}.
  Variable keqb : K -> K -> bool.
  Hypothesis keqb_spec : forall a b, reflect (a = b) (keqb a b).
  Variable debug : bool.
  Notation life_of := (life_of keqb).
  Notation eff := (effect_of keqb debug).
  Notation hist := (list (act K V)).

  (** Neither dropped, nor taken by a shutdown, nor polled. *)
  Definition left_alone (i : nat) (q : hist) : Prop :=
    Forall (fun a => match a with DropFut j | Poll j _ => j <> i | ShutTake => False | _ => True end) q.

  (** ** C26 *)

  (** A future subscribed to [k] yields the value [k] is finished with.  The history: created before
      any shutdown, inserted, anything, finished, anything, polled. *)
  Theorem c26_waiter_gets_the_value_partial : forall (p q1 q2 q3 : hist) k n v w,
    let i := begins p in
    flagged p = false ->
    Forall (fun a => a <> Insert i) q1 ->
    Forall (fun a => match a with DropFut j => j <> i | ShutTake => False | Finish k' _ => k' <> k | _ => True end) q2 ->
    left_alone i q3 ->
    ans (eff p (Begin k n)) = OId i /\
    ans (eff (q3 ++ Finish k v :: q2 ++ Insert i :: q1 ++ Begin k n :: p) (Poll i w)) = OReady (AVal v).
  Proof.
    intros p q1 q2 q3 k n v w i Hf H1 H2 H3. split; [rewrite (eff_begin keqb keqb_spec debug); reflexivity|].
    rewrite (eff_poll keqb keqb_spec debug). cbn [ans quiet].
    assert (Hc : life_of (q1 ++ Begin k n :: p) i = Creating k n false).
    { induction q1 as [|a q1 IH]; [cbn; unfold i; rewrite Nat.eqb_refl, Hf; reflexivity|].
      inversion H1; subst. specialize (IH H5). cbn [app SubsSpec.life_of].
      destruct a as [k' n'|j|j w1|k' v'|j|j| |]; rewrite ?IH; try reflexivity.
      - rewrite (not_next keqb keqb_spec debug _ _ _ IH) by discriminate. reflexivity.
      - destruct (Nat.eqb_spec j i) as [->|]; [congruence|reflexivity].
      - destruct (j =? i)%nat; reflexivity.
      - destruct (j =? i)%nat; reflexivity.
      - destruct (j =? i)%nat; reflexivity.
      - destruct (flagged _ && _); reflexivity. }
    destruct (life_waiting keqb keqb_spec debug (Insert i :: q1 ++ Begin k n :: p) i k n None q2) as [w' Hw]; [|exact H2|].
    { cbn [SubsSpec.life_of]. rewrite Nat.eqb_refl, Hc. reflexivity. }
    rewrite (life_steady keqb keqb_spec debug (Finish k v :: q2 ++ Insert i :: q1 ++ Begin k n :: p) i (Decided k v) q3); [reflexivity| |exact I|exact H3].
    cbn [SubsSpec.life_of]. rewrite Hw, (keqb_refl keqb keqb_spec). reflexivity.
  Qed.

  (** Every waiting future, in one theorem: at the moment of the finish they all get the value and
      their wakers are woken. *)
  Theorem c26_all_waiters_partial : forall (p q : hist) k v i n waker w,
    life_of p i = Waiting k n waker -> left_alone i q ->
    ans (eff (q ++ Finish k v :: p) (Poll i w)) = OReady (AVal v) /\
    (forall w', waker = Some w' -> In w' (woken (eff p (Finish k v)))).
  Proof.
    intros p q k v i n waker w Hl Hq. split.
    - rewrite (eff_poll keqb keqb_spec debug). cbn [ans quiet].
      rewrite (life_steady keqb keqb_spec debug (Finish k v :: p) i (Decided k v) q); [reflexivity| |exact I|exact Hq].
      cbn [SubsSpec.life_of]. rewrite Hl, (keqb_refl keqb keqb_spec). reflexivity.
    - intros w' ->. destruct (eff_finish keqb keqb_spec debug p k v) as (_ & Hw & _). apply Hw. eauto.
  Qed.

  (** A value yielded was given to [finish] for that request while this future waited for it. *)
  Theorem c26_only_finished_values : forall (p : hist) i w v,
    ans (eff p (Poll i w)) = OReady (AVal v) ->
    exists k q p0 n waker, p = q ++ Finish k v :: p0 /\ life_of p0 i = Waiting k n waker.
  Proof.
    intros p i w v. rewrite (eff_poll keqb keqb_spec debug). cbn [ans quiet]. destruct (life_of p i) eqn:E; cbn; try discriminate.
    intros [= ->]. destruct (decided_from keqb keqb_spec p i k v E) as (q & p0 & n & w' & ? & ?). eauto 8.
  Qed.

  (** And only once. *)
  Theorem c26_at_most_once : forall (p q : hist) i w v w',
    ans (eff p (Poll i w)) = OReady (AVal v) ->
    forall v', ans (eff (q ++ Poll i w :: p) (Poll i w')) <> OReady (AVal v').
  Proof.
    intros p q i w v w'. rewrite !(eff_poll keqb keqb_spec debug). cbn [ans quiet]. intros H v' H'.
    assert (Hs : spent (life_of (q ++ Poll i w :: p) i) = true).
    { apply (spent_stays keqb keqb_spec debug). cbn [SubsSpec.life_of]. rewrite Nat.eqb_refl. destruct (life_of p i); try discriminate; reflexivity. }
    destruct (life_of (q ++ Poll i w :: p) i); try discriminate.
  Qed.

  (** No wakeup is lost: whenever a step makes a future ready whose last poll left waker [w], the
      step wakes [w]. *)
  Theorem c26_no_lost_wakeup : forall (p : hist) a i k n w,
    life_of p i = Waiting k n (Some w) ->
    (exists r, ans (eff (a :: p) (Poll i 0)) = OReady r) ->
    In w (woken (eff p a)).
  Proof.
    intros p a i k n w Hl [r Hr]. rewrite (eff_poll keqb keqb_spec debug) in Hr. cbn [ans quiet SubsSpec.life_of] in Hr.
    destruct a as [k' n'|j|j w1|k' v'|j|j| |]; rewrite ?Hl in Hr; try discriminate.
    - destruct (begins p =? i)%nat; discriminate.
    - destruct (j =? i)%nat; discriminate.
    - destruct (j =? i)%nat; discriminate.
    - destruct (keqb_spec k' k) as [->|]; [|discriminate]. destruct (eff_finish keqb keqb_spec debug p k v') as (_ & Hw & _). apply Hw. eauto.
    - destruct (j =? i)%nat; discriminate.
    - destruct (j =? i)%nat; discriminate.
    - destruct (flagged p) eqn:E1; [|discriminate]. destruct (taken p) eqn:E2; [discriminate|].
      destruct (eff_take keqb keqb_spec debug p E1 E2) as [Hw _]. apply Hw. eauto.
  Qed.

  (** [finish] panics in exactly one case: in builds with debug assertions, when every future
      registered for the request already has its answer. *)
  Theorem c26_finish_panics_iff : forall (p : hist) k v,
    ans (eff p (Finish k v)) = OPanic <->
    debug = true /\ (exists i, holds keqb k (life_of p i) = true) /\ (forall i, waits keqb k (life_of p i) = false).
  Proof.
    intros p k v. destruct (eff_finish keqb keqb_spec debug p k v) as (_ & _ & ->).
    pose proof (someone_iff keqb keqb_spec debug (holds keqb k) p eq_refl) as Hh.
    pose proof (someone_iff keqb keqb_spec debug (waits keqb k) p eq_refl) as Hw.
    destruct debug; cbn [andb]; [|split; [discriminate|intros [[=] _]]].
    destruct (someone (holds keqb k) (life_of p) (begins p)); cbn [andb].
    2:{ split; [discriminate|]. intros (_ & Hx & _). apply Hh in Hx. discriminate. }
    destruct (someone (waits keqb k) (life_of p) (begins p)); cbn [negb].
    - split; [discriminate|]. intros (_ & _ & Hn). destruct (proj1 Hw eq_refl) as [i Hi]. rewrite Hn in Hi. discriminate.
    - split; [|reflexivity]. intros _. split; [reflexivity|]. split; [apply Hh; reflexivity|].
      intros i. apply not_true_iff_false. intros Hi. assert (X : false = true) by (apply Hw; eauto). discriminate.
  Qed.

  (** ** C27 *)

  (** Before shutdown an unwant notification is sent only by dropping a future which was waiting
      with a notifier when nobody else was registered for the request. *)
  Theorem c27_sent_only_by_last_drop : forall (p : hist) a k,
    flagged p = false -> In k (unwants (eff p a)) ->
    unwants (eff p a) = [k] /\
    exists i, a = DropNotify i /\
      exists q p0 w, p = q ++ DropFut i :: p0 /\ ~ In (DropNotify i) q /\ life_of p0 i = Waiting k true w /\
        forall j, j <> i -> holds keqb k (life_of p0 j) = false.
  Proof.
    intros p a k Hf Hin.
    destruct a as [k' n'|j|j w1|k' v'|j|j| |].
    - rewrite (eff_begin keqb keqb_spec debug) in Hin. rewrite Hf in Hin. destruct Hin.
    - rewrite (proj2 (eff_insert keqb debug p j)) in Hin. destruct Hin.
    - rewrite (eff_poll keqb keqb_spec debug) in Hin. destruct Hin.
    - rewrite (proj1 (eff_finish keqb keqb_spec debug p k' v')) in Hin. destruct Hin.
    - rewrite (proj2 (eff_drop keqb debug p j)) in Hin. destruct Hin.
    - rewrite (eff_notify keqb keqb_spec debug) in *. destruct (life_of p j) eqn:E; cbn [unwants quiet] in *; try contradiction.
      destruct last, n; cbn in Hin; try contradiction. destruct Hin as [->|[]]. split; [reflexivity|].
      exists j. split; [reflexivity|]. destruct (dropping_from keqb p j k true w true E) as (q & p0 & -> & Hl & Hq & Hlast).
      exists q, p0, w. repeat split; auto. intros i Hi. apply not_true_iff_false. intros Hh.
      symmetry in Hlast. apply negb_true_iff in Hlast. apply not_true_iff_false in Hlast. apply Hlast.
      apply existsb_exists. exists i. split.
      + apply in_seq. split; [lia|]. cbn. destruct (le_lt_dec (begins p0) i) as [Hle|]; [|assumption].
        rewrite (i_unborn _ _ _ (run_inv keqb keqb_spec debug p0) i Hle) in Hh. discriminate.
      + destruct (Nat.eqb_spec i j); [contradiction|]. rewrite Hh. reflexivity.
    - destruct Hin.
    - unfold effect_of in Hin. cbn [step] in Hin. rewrite (i_flag _ _ _ (run_inv keqb keqb_spec debug p)), Hf in Hin. destruct Hin.
  Qed.

  (** Dropping the last registered future sends it, whatever happens between the two halves of
      the drop. *)
  Theorem c27_last_drop_sends_partial : forall (p q : hist) i k w,
    life_of p i = Waiting k true w -> (forall j, j <> i -> holds keqb k (life_of p j) = false) ->
    Forall (fun a => a <> DropNotify i) q ->
    unwants (eff (q ++ DropFut i :: p) (DropNotify i)) = [k].
  Proof.
    intros p q i k w Hl Hn Hq. rewrite (eff_notify keqb keqb_spec debug).
    replace (life_of (q ++ DropFut i :: p) i) with (Dropping k true w true : life K V); [reflexivity|]. symmetry.
    induction q as [|a q IH].
    - cbn [app SubsSpec.life_of]. rewrite Nat.eqb_refl, Hl. f_equal. apply negb_true_iff. apply not_true_iff_false. rewrite existsb_exists.
      intros (j & _ & Hj). apply andb_prop in Hj as [Hne Hj]. destruct (Nat.eqb_spec j i); [discriminate|]. rewrite Hn in Hj by assumption. discriminate.
    - inversion Hq; subst. specialize (IH H2). cbn [app SubsSpec.life_of].
      destruct a as [k' n'|j|j w1|k' v'|j|j| |]; rewrite ?IH; try reflexivity.
      + rewrite (not_next keqb keqb_spec debug _ _ _ IH) by discriminate. reflexivity.
      + destruct (j =? i)%nat; reflexivity.
      + destruct (j =? i)%nat; reflexivity.
      + destruct (j =? i)%nat; reflexivity.
      + destruct (Nat.eqb_spec j i) as [->|]; [congruence|reflexivity].
      + destruct (flagged _ && _); reflexivity.
  Qed.

  (** ... and only once: a second notification for the same future is not possible. *)
  Theorem c27_once_per_future : forall (p q : hist) i,
    ans (eff p (DropNotify i)) <> ODisabled -> eff (q ++ DropNotify i :: p) (DropNotify i) = quiet ODisabled.
  Proof.
    intros p q i H. rewrite (eff_notify keqb keqb_spec debug) in H |- *.
    assert (Hd : life_of (q ++ DropNotify i :: p) i = Dropped).
    { induction q as [|a q IH].
      - cbn [app SubsSpec.life_of]. rewrite Nat.eqb_refl. destruct (life_of p i); cbn in H; try congruence.
      - cbn [app SubsSpec.life_of]. destruct a as [k' n'|j|j w1|k' v'|j|j| |]; rewrite ?IH; try reflexivity.
        + rewrite (not_next keqb keqb_spec debug _ _ _ IH) by discriminate. reflexivity.
        + destruct (j =? i)%nat; reflexivity.
        + destruct (j =? i)%nat; reflexivity.
        + destruct (j =? i)%nat; reflexivity.
        + destruct (j =? i)%nat; reflexivity.
        + destruct (flagged _ && _); reflexivity. }
    rewrite Hd. reflexivity.
  Qed.

  (** Nothing is sent for a drop made while another future waits. *)
  Theorem c27_silent_while_another_waits : forall (p q : hist) i j k n w k' n' w',
    life_of p i = Waiting k n w -> j <> i -> life_of p j = Waiting k' n' w' -> k' = k ->
    unwants (eff (q ++ DropFut i :: p) (DropNotify i)) = [].
  Proof.
    intros p q i j k n w k' n' w' Hi Hj Hl ->. rewrite (eff_notify keqb keqb_spec debug).
    assert (Hs : forall l, l = life_of (q ++ DropFut i :: p) i -> l = Dropping k n w false \/ l = Dropped).
    { intros l ->. induction q as [|a q IH].
      - left. cbn [app SubsSpec.life_of]. rewrite Nat.eqb_refl, Hi. f_equal. apply negb_false_iff. apply existsb_exists. exists j. split.
        + apply in_seq. split; [lia|]. cbn. destruct (le_lt_dec (begins p) j) as [Hle|]; [|assumption].
          rewrite (i_unborn _ _ _ (run_inv keqb keqb_spec debug p) j Hle) in Hl. discriminate.
        + destruct (Nat.eqb_spec j i); [contradiction|]. rewrite Hl. cbn. apply (keqb_refl keqb keqb_spec).
      - cbn [app SubsSpec.life_of]. destruct a as [k1 n1|j1|j1 w1|k1 v1|j1|j1| |];
          try (destruct (j1 =? i)%nat); destruct IH as [E|E]; rewrite ?E; auto.
        + rewrite (not_next keqb keqb_spec debug _ _ _ E) by discriminate. auto.
        + rewrite (not_next keqb keqb_spec debug _ _ _ E) by discriminate. auto.
        + destruct (flagged _ && _); auto.
        + destruct (flagged _ && _); auto. }
    destruct (Hs _ eq_refl) as [-> | ->]; reflexivity.
  Qed.

  (** ** C28 *)

  (** When shutdown takes the table every future there is woken, and from then on answers
      cancelled until it is dropped. *)
  Theorem c28_shutdown_releases : forall (p q : hist) i k w,
    flagged p = true -> taken p = false -> holds keqb k (life_of p i) = true ->
    Forall (fun a => a <> DropFut i) q ->
    ans (eff (q ++ ShutTake :: p) (Poll i w)) = OReady ACancelled /\
    (forall n w', life_of p i = Waiting k n (Some w') -> In w' (woken (eff p ShutTake))).
  Proof.
    intros p q i k w Hf Ht Hh Hq. split.
    - rewrite (eff_poll keqb keqb_spec debug). cbn [ans quiet]. apply over_answer. apply (over_stays keqb keqb_spec debug); [|exact Hq].
      cbn [SubsSpec.life_of]. rewrite Hf, Ht. cbn [andb negb]. destruct (life_of p i); try discriminate; reflexivity.
    - intros n w' Hl. destruct (eff_take keqb keqb_spec debug p Hf Ht) as [Hw _]. apply Hw. eauto.
  Qed.

  (** A future created after the flag was set is rejected, whatever happens. *)
  Theorem c28_later_are_rejected : forall (p q1 q2 : hist) k n w,
    let i := begins p in
    flagged p = true -> Forall (fun a => a <> Insert i) q1 -> Forall (fun a => a <> DropFut i) q2 ->
    ans (eff (q2 ++ Insert i :: q1 ++ Begin k n :: p) (Poll i w)) = OReady ACancelled.
  Proof.
    intros p q1 q2 k n w i Hf H1 H2. rewrite (eff_poll keqb keqb_spec debug). cbn [ans quiet]. apply over_answer.
    apply (over_stays keqb keqb_spec debug); [|exact H2]. cbn [SubsSpec.life_of]. rewrite Nat.eqb_refl.
    replace (life_of (q1 ++ Begin k n :: p) i) with (Creating k n true : life K V); [reflexivity|]. symmetry.
    induction q1 as [|a q1 IH]; [cbn; unfold i; rewrite Nat.eqb_refl, Hf; reflexivity|].
    inversion H1; subst. specialize (IH H4). cbn [app SubsSpec.life_of].
    destruct a as [k' n'|j|j w1|k' v'|j|j| |]; rewrite ?IH; try reflexivity.
    - rewrite (not_next keqb keqb_spec debug _ _ _ IH) by discriminate. reflexivity.
    - destruct (Nat.eqb_spec j i) as [->|]; [congruence|reflexivity].
    - destruct (j =? i)%nat; reflexivity.
    - destruct (j =? i)%nat; reflexivity.
    - destruct (j =? i)%nat; reflexivity.
    - destruct (flagged _ && _); reflexivity.
  Qed.

  (** The exact set released: after both halves of shutdown, a future which is still pending was
      being created when the flag was set. *)
  Lemma late_insert_spec (p q : hist) i k n w : life_of (q ++ ShutTake :: p) i = Waiting k n w ->
    flagged p = true -> taken p = false -> exists n', life_of p i = Creating k n' false.
  Proof.
    intros Hl Hf Ht.
    assert (Hfl : forall q, flagged (q ++ ShutTake :: p) = true).
    { intros q'. induction q' as [|a q' IH]; cbn; [exact Hf|]. unfold flagged in IH. rewrite IH. apply orb_true_r. }
    assert (Hgen : match life_of (q ++ ShutTake :: p) i with
              | Waiting k _ _ | Decided k _ | Creating k _ false => exists n', life_of p i = Creating k n' false
              | _ => True end).
    { clear Hl. induction q as [|a q IH].
      - cbn [app SubsSpec.life_of]. rewrite Hf, Ht. cbn [andb negb]. destruct (life_of p i) as [|? ? []| | | | | | |]; eauto.
      - cbn [app SubsSpec.life_of]. destruct a as [k1 n1|j1|j1 w1|k1 v1|j1|j1| |]; try exact IH.
        + destruct (begins (q ++ ShutTake :: p) =? i)%nat; [rewrite Hfl; exact I|exact IH].
        + destruct (j1 =? i)%nat; [|exact IH]. destruct (life_of (q ++ ShutTake :: p) i) as [|? ? []| | | | | | |]; auto.
        + destruct (j1 =? i)%nat; [|exact IH]. destruct (life_of (q ++ ShutTake :: p) i) as [|? ? []| | | | | | |]; auto.
        + destruct (life_of (q ++ ShutTake :: p) i) as [|? ? []|k2| | | | | |]; auto. destruct (keqb k1 k2); auto.
        + destruct (j1 =? i)%nat; [|exact IH]. destruct (life_of (q ++ ShutTake :: p) i) as [|? ? []| | | | | | |]; auto.
        + destruct (j1 =? i)%nat; [|exact IH]. destruct (life_of (q ++ ShutTake :: p) i) as [|? ? []| | | | | | |]; auto.
        + destruct (flagged _ && _); [|exact IH]. destruct (life_of (q ++ ShutTake :: p) i) as [|? ? []| | | | | | |]; auto. }
    rewrite Hl in Hgen. exact Hgen.
  Qed.
  Theorem c28_only_unfinished_creations_remain_partial : forall (p q : hist) i w,
    flagged p = true -> taken p = false -> ans (eff (q ++ ShutTake :: p) (Poll i w)) = OPending ->
    exists k n, life_of p i = Creating k n false.
  Proof.
    intros p q i w Hf Ht. rewrite (eff_poll keqb keqb_spec debug). cbn [ans quiet].
    destruct (life_of (q ++ ShutTake :: p) i) eqn:E; cbn; try discriminate. intros _.
    destruct (late_insert_spec p q i k n w0 E Hf Ht) as [n' H]. eauto.
  Qed.
End Registry.
Print Assumptions c26_waiter_gets_the_value_partial.
Print Assumptions c26_all_waiters_partial.
Print Assumptions c26_only_finished_values.
Print Assumptions c26_at_most_once.
Print Assumptions c26_no_lost_wakeup.
Print Assumptions c26_finish_panics_iff.
Print Assumptions c27_sent_only_by_last_drop.
Print Assumptions c27_last_drop_sends_partial.
Print Assumptions c27_once_per_future.
Print Assumptions c27_silent_while_another_waits.
Print Assumptions c28_shutdown_releases.
Print Assumptions c28_later_are_rejected.
Print Assumptions c28_only_unfinished_creations_remain_partial.

(** ** Concrete histories (oldest first, then reversed) *)
Definition N_life (h : list (act N N)) := life_of N.eqb (rev h).
Definition N_eff (debug : bool) (h : list (act N N)) (a : act N N) := effect_of N.eqb debug (rev h) a.
Definition N_spec : forall a b : N, reflect (a = b) (N.eqb a b) := N.eqb_spec.

(** Two waiters of one block and one of another; both get it and are woken. *)
Example c26_case :
  let h := [Begin 5%N true; Begin 5%N true; Insert 1; Insert 0; Begin 6%N true; Insert 2; Poll 0 70; Poll 1 71; Poll 2 72] in
  woken (N_eff true h (Finish 5%N 99%N)) = [71; 70] /\
  ans (N_eff true (h ++ [Finish 5%N 99%N]) (Poll 0 0)) = OReady (AVal 99%N) /\
  ans (N_eff true (h ++ [Finish 5%N 99%N]) (Poll 1 0)) = OReady (AVal 99%N) /\
  ans (N_eff true (h ++ [Finish 5%N 99%N]) (Poll 2 0)) = OPending.
Proof. vm_compute. repeat split. Qed.
(** The hypotheses of [c26_waiter_gets_the_value_partial] are met with other threads in between. *)
Example c26_hypotheses :
  let p := [Insert 0; Begin 5%N true] : list (act N N) in
  flagged p = false /\
  Forall (fun a => a <> Insert (begins p)) ([Poll 0 1] : list (act N N)) /\
  left_alone (begins p) ([Poll 0 3] : list (act N N)).
Proof.
  repeat split; repeat constructor; cbn; try discriminate.
Qed.

(** A future which has not been polled loses its value to a shutdown. *)
Theorem c26_shutdown_drops_value_refuted :
  let h := [Begin 5%N true; Insert 0; Finish 5%N 99%N; ShutFlag; ShutTake] in
  ans (N_eff true h (Poll 0 1)) = OReady ACancelled.
Proof. vm_compute. reflexivity. Qed.
(** A block put, removed and put again before the first waiter is polled: with debug assertions the
    second put panics. *)
Theorem c26_second_finish_panics_refuted :
  let h := [Begin 5%N true; Insert 0; Finish 5%N 99%N] in
  ans (N_eff true h (Finish 5%N 98%N)) = OPanic /\ ans (N_eff false h (Finish 5%N 98%N)) = ODone.
Proof. vm_compute. split; reflexivity. Qed.
Print Assumptions c26_shutdown_drops_value_refuted.
Print Assumptions c26_second_finish_panics_refuted.

(** The last waiter's drop is reported, the first one's is not. *)
Example c27_case :
  let h := [Begin 5%N true; Insert 0; Begin 5%N true; Insert 1; DropFut 0; DropNotify 0; DropFut 1] in
  unwants (N_eff true [Begin 5%N true; Insert 0; Begin 5%N true; Insert 1; DropFut 0] (DropNotify 0)) = [] /\
  unwants (N_eff true h (DropNotify 1)) = [5%N] /\
  (forall i, i <> 1 -> holds N.eqb 5%N (N_life [Begin 5%N true; Insert 0; Begin 5%N true; Insert 1; DropFut 0; DropNotify 0] i) = false).
Proof.
  vm_compute. split; [reflexivity|]. split; [reflexivity|]. intros [|[|i]] H; try reflexivity; congruence.
Qed.
(** A finished future nobody has polled hides that the last waiting one is dropped: block 5 is put
    (waiter 0 gets it, is not polled), removed, waited for again and given up; no unwant is sent. *)
Theorem c27_uncollected_result_hides_drop_refuted :
  let h := [Begin 5%N true; Insert 0; Finish 5%N 99%N; Begin 5%N true; Insert 1; DropFut 1] in
  (exists w, N_life [Begin 5%N true; Insert 0; Finish 5%N 99%N; Begin 5%N true; Insert 1] 1 = Waiting 5%N true w) /\
  (forall i, i <> 1 -> waits N.eqb 5%N (N_life [Begin 5%N true; Insert 0; Finish 5%N 99%N; Begin 5%N true; Insert 1] i) = false) /\
  unwants (N_eff true h (DropNotify 1)) = [] /\
  unwants (N_eff true (h ++ [DropNotify 1]) (DropFut 0)) = [].
Proof.
  vm_compute. split; [eexists; reflexivity|]. split; [|split; reflexivity]. intros [|[|i]] H; try reflexivity; congruence.
Qed.
(** The notification is sent after the lock is released: by then another future may wait. *)
Theorem c27_sent_while_another_waits_refuted :
  let h := [Begin 5%N true; Insert 0; DropFut 0; Begin 5%N true; Insert 1] in
  unwants (N_eff true h (DropNotify 0)) = [5%N] /\ waits N.eqb 5%N (N_life h 1) = true /\
  waits N.eqb 5%N (N_life (h ++ [DropNotify 0]) 1) = true.
Proof. vm_compute. repeat split. Qed.
Print Assumptions c27_uncollected_result_hides_drop_refuted.
Print Assumptions c27_sent_while_another_waits_refuted.

Example c28_case :
  let h := [Begin 5%N true; Insert 0; Poll 0 70; ShutFlag] in
  flagged (rev h : list (act N N)) = true /\ taken (rev h : list (act N N)) = false /\
  holds N.eqb 5%N (N_life h 0) = true /\
  woken (N_eff true h ShutTake) = [70] /\ ans (N_eff true (h ++ [ShutTake]) (Poll 0 71)) = OReady ACancelled.
Proof. vm_compute. repeat split. Qed.
(** A creation which read the flag before it was set and inserted after the table was taken waits
    for ever (unless the block arrives). *)
Theorem c28_creation_racing_shutdown_refuted :
  forall q, Forall (fun a => match a with DropFut j => j <> 0 | Finish _ _ => False | _ => True end) q ->
  forall w, ans (effect_of N.eqb true (q ++ rev [Begin 5%N true; ShutFlag; ShutTake; Insert 0] : list (act N N)) (Poll 0 w)) = OPending.
Proof.
  intros q Hq w. rewrite (eff_poll N.eqb N_spec true). cbn [ans quiet].
  assert (Hl : forall q, taken (q ++ rev [Begin 5%N true; ShutFlag; ShutTake; Insert 0] : list (act N N)) = true).
  { intros q'. induction q' as [|a q' IH]; [reflexivity|]. cbn [app taken]. destruct a; try exact IH. rewrite IH. apply orb_true_r. }
  assert (H : exists w, life_of N.eqb (q ++ rev [Begin 5%N true; ShutFlag; ShutTake; Insert 0] : list (act N N)) 0 = Waiting 5%N true w).
  { induction q as [|a q IH]; [exists None; reflexivity|]. inversion Hq; subst. destruct (IH H2) as [w' Hw]. cbn [app life_of].
    destruct a as [k1 n1|j1|j1 w1|k1 v1|j1|j1| |]; rewrite ?Hw; eauto; try contradiction.
    - destruct (Nat.eqb_spec (begins (q ++ rev [Begin 5%N true; ShutFlag; ShutTake; Insert 0])) 0) as [E|]; [|eauto].
      exfalso. clear -E. induction q as [|a q IH]; [discriminate|]. cbn [app begins] in E. destruct a; try discriminate; auto.
    - destruct (j1 =? 0)%nat; eauto.
    - destruct (j1 =? 0)%nat; eauto.
    - destruct (Nat.eqb_spec j1 0); [contradiction|eauto].
    - destruct (j1 =? 0)%nat; eauto.
    - rewrite Hl, andb_false_r. eauto. }
  destruct H as [w' ->]. reflexivity.
Qed.
Print Assumptions c28_creation_racing_shutdown_refuted.

(** ** C29: histories of get_block and put_block calls, oldest first; any [debug]. *)

(** A block which is stored is found at once, under any cid with its multihash. *)
Theorem c29_stored_is_returned : forall debug h c b,
  mget repo_cid_eqb c (store (grun debug h)) = Some b ->
  gout_of debug h (Look c) = GAnswer (Ok b).
Proof. intros debug h c b H. unfold gout_of. cbn [gstep]. unfold mem_get. rewrite H. reflexivity. Qed.

(** A get_block call which is subscribed when a put_block of a new block with its cid finishes
    returns a block with that cid which was put, whatever happens in between. *)
Theorem c29_subscribed_get_is_satisfied_partial : forall debug h q g c i t b w,
  nth_error (gets (grun debug h)) g = Some (Subscribed c i) -> ~ In ShutF h ->
  nth_error (puts (grun debug h)) t = Some (Stored b true) -> b_cid b = c ->
  Forall (fun a => match a with DropG g' | PollG g' _ => g' <> g | ShutT => False | _ => True end) q ->
  exists b', gout_of debug (h ++ FinishPut t :: q) (PollG g w) = GAnswer (Ok b') /\ b_cid b' = c /\ In (StorePut b') h.
Proof.
  intros debug h q g c i t b w Hg Hs Ht Hb Hq.
  destruct (finish_decides debug h g c i t b Hg Hs Ht Hb) as (v & Hg' & Hl & Hv & Hin).
  destruct (stay_decided debug (h ++ [FinishPut t]) q g c i v Hg' Hl Hq) as [Hg2 Hl2].
  rewrite <- app_assoc in Hg2, Hl2. cbn [app] in Hg2, Hl2. exists v. split; [|auto].
  rewrite (poll_subscribed debug _ g c i w Hg2), Hl2. reflexivity.
Qed.
(** If blocks are determined by their cid it is that block. *)
Theorem c29_it_is_that_block_partial : forall debug h q g c i t b w,
  (forall b1 b2, In (StorePut b1) h -> In (StorePut b2) h -> b_cid b1 = b_cid b2 -> b1 = b2) ->
  nth_error (gets (grun debug h)) g = Some (Subscribed c i) -> ~ In ShutF h ->
  nth_error (puts (grun debug h)) t = Some (Stored b true) -> b_cid b = c ->
  Forall (fun a => match a with DropG g' | PollG g' _ => g' <> g | ShutT => False | _ => True end) q ->
  gout_of debug (h ++ FinishPut t :: q) (PollG g w) = GAnswer (Ok b).
Proof.
  intros debug h q g c i t b w Hcol Hg Hs Ht Hb Hq.
  destruct (c29_subscribed_get_is_satisfied_partial debug h q g c i t b w Hg Hs Ht Hb Hq) as (b' & -> & Hb' & Hin).
  assert (b' = b) as ->; [|reflexivity]. apply Hcol; [exact Hin| |congruence]. eapply (g_puts _ _ (grun_gi debug h)). exact Ht.
Qed.

(** Whatever get_block returns was put and has the multihash asked for. *)
Theorem c29_returns_the_block_asked_for : forall debug h b,
  (forall c, gout_of debug h (Look c) = GAnswer (Ok b) -> cid_hash (b_cid b) = cid_hash c /\ In (StorePut b) h) /\
  (forall g w c i, nth_error (gets (grun debug h)) g = Some (Subscribed c i) ->
     gout_of debug h (PollG g w) = GAnswer (Ok b) -> b_cid b = c /\ In (StorePut b) h).
Proof.
  intros debug h b. split.
  - intros c. unfold gout_of. cbn [gstep]. unfold mem_get. destruct (mget repo_cid_eqb c (store (grun debug h))) as [b'|] eqn:E; [|discriminate].
    intros [= ->]. apply (found_hash debug). exact E.
  - intros g w c i Hg H. rewrite (poll_subscribed debug h g c i w Hg) in H.
    pose proof (g_sub _ _ (grun_gi debug h) _ _ _ Hg) as Hl.
    destruct (lives (past (grun debug h)) i) as [| | |k v| | | | |] eqn:E; try discriminate. injection H as ->. cbn in Hl. subst k.
    destruct (decided_from cid_eqb cid_eqb_spec _ _ _ _ E) as (q & p0 & n & w' & Ep & _).
    destruct (g_past _ _ (grun_gi debug h) c b) as [-> Hin]; [rewrite Ep; apply in_or_app; right; left; reflexivity|]. auto.
Qed.
Print Assumptions c29_stored_is_returned.
Print Assumptions c29_subscribed_get_is_satisfied_partial.
Print Assumptions c29_it_is_that_block_partial.
Print Assumptions c29_returns_the_block_asked_for.

Definition demo_v1 : cid := CidV1 codec_dagpb {| mh_code := sha2_256; mh_digest := repeat 7%N 32 |}.
Definition demo_v0 : cid := CidV0 (repeat 7%N 32).
Definition demo_b1 : block := mk_block demo_v1 [1; 2; 3]%N.
Definition demo_b0 : block := mk_block demo_v0 [1; 2; 3]%N.

Example c29_case :
  let h := [Look demo_v1; SubBegin 0; SubInsert 0; PollG 0 9; StorePut demo_b1] in
  nth_error (gets (grun true h)) 0 = Some (Subscribed demo_v1 0) /\
  nth_error (puts (grun true h)) 0 = Some (Stored demo_b1 true) /\
  gout_of true (h ++ [FinishPut 0; Look demo_v0]) (PollG 0 9) = GAnswer (Ok demo_b1).
Proof. vm_compute. repeat split. Qed.

(** The race: the block is put after get_block looked and before it subscribed.  From then on
    get_block stays pending through any number of further puts of the block (they find it stored),
    as long as it is not removed. *)
Theorem c29_lost_between_look_and_subscribe_refuted :
  let h := [Look demo_v1; StorePut demo_b1; FinishPut 0; SubBegin 0; SubInsert 0] in
  gout_of true [Look demo_v1] (StorePut demo_b1) = GPut true /\
  forall q, Forall (fun a => match a with DropG g' => g' <> 0 | RemoveB _ | ShutT => False | _ => True end) q ->
  forall w, gout_of true (h ++ q) (PollG 0 w) = GPending.
Proof.
  intros h. split; [vm_compute; reflexivity|]. intros q Hq w.
  assert (H0 : stuck demo_v1 0 0 (grun true h)).
  { split; [vm_compute; reflexivity|]. split; [exists None; vm_compute; reflexivity|]. split; [vm_compute; discriminate|].
    intros [|[|t]] b; vm_compute; discriminate. }
  destruct (stay_stuck true demo_v1 0 0 h q H0 Hq) as (Hg & [w' Hw] & _).
  rewrite (poll_subscribed true (h ++ q) 0 demo_v1 0 w Hg), Hw. reflexivity.
Qed.
(** Blocks are stored by multihash but waited for by cid: with get_block of the version 1 cid
    pending, putting the block under its version 0 cid does not satisfy it, nor does putting it
    under the version 1 cid afterwards; yet a new get_block returns at once. *)
Theorem c29_other_cid_version_refuted :
  let h := [Look demo_v1; SubBegin 0; SubInsert 0; StorePut demo_b0; FinishPut 0] in
  (forall q, Forall (fun a => match a with DropG g' => g' <> 0 | RemoveB _ | ShutT => False | _ => True end) q ->
   forall w, gout_of true (h ++ q) (PollG 0 w) = GPending) /\
  gout_of true h (Look demo_v1) = GAnswer (Ok demo_b0).
Proof.
  intros h. split; [|vm_compute; reflexivity]. intros q Hq w.
  assert (H0 : stuck demo_v1 0 0 (grun true h)).
  { split; [vm_compute; reflexivity|]. split; [exists None; vm_compute; reflexivity|]. split; [vm_compute; discriminate|].
    intros [|[|t]] b; vm_compute; discriminate. }
  destruct (stay_stuck true demo_v1 0 0 h q H0 Hq) as (Hg & [w' Hw] & _).
  rewrite (poll_subscribed true (h ++ q) 0 demo_v1 0 w Hg), Hw. reflexivity.
Qed.
Print Assumptions c29_lost_between_look_and_subscribe_refuted.
Print Assumptions c29_other_cid_version_refuted.

(** A get_block call which had subscribed when its block was not stored, and was not dropped: if blocks
    put under the multihash have its cid, and the block is stored, and no put_block of a new block is
    unfinished, then the call has been answered with it or is at the next poll. *)
Theorem c29_stored_block_is_delivered_partial : forall debug c g i h q,
  nth_error (gets (grun debug h)) g = Some (Subscribed c i) -> mget repo_cid_eqb c (store (grun debug h)) = None -> ~ In ShutF h ->
  Forall (fun a => match a with
                   | DropG g' => g' <> g
                   | ShutF | ShutT => False
                   | StorePut b => cid_hash (b_cid b) = cid_hash c -> b_cid b = c
                   | _ => True
                   end) q ->
  mget repo_cid_eqb c (store (grun debug (h ++ q))) <> None ->
  (forall t b, nth_error (puts (grun debug (h ++ q))) t <> Some (Stored b true)) ->
  exists b, b_cid b = c /\ In (StorePut b) (h ++ q) /\
    (nth_error (gets (grun debug (h ++ q))) g = Some (Answered (Ok b)) \/ forall w, gout_of debug (h ++ q) (PollG g w) = GAnswer (Ok b)).
Proof.
  intros debug c g i h q H1 H2 H3 H4 H5 H6. destruct (served_answer debug c g i h q H1 H2 H3 H4 H5 H6) as (v & Hv & Hp & [Ha|[_ Ha]]); exists v; auto.
Qed.
Print Assumptions c29_stored_block_is_delivered_partial.
Example c29_delivered_case :
  let h := [Look demo_v1; SubBegin 0; SubInsert 0] in let q := [PollG 0 9; StorePut demo_b1; RemoveB demo_v1; StorePut demo_b1; FinishPut 0; FinishPut 1] in
  nth_error (gets (grun true h)) 0 = Some (Subscribed demo_v1 0) /\ mget repo_cid_eqb demo_v1 (store (grun true h)) = None /\
  mget repo_cid_eqb demo_v1 (store (grun true (h ++ q))) <> None /\ puts (grun true (h ++ q)) = [PutDone; PutDone] /\ gout_of true (h ++ q) (PollG 0 9) = GAnswer (Ok demo_b1).
Proof. repeat split; try (vm_compute; reflexivity). vm_compute. discriminate. Qed.
