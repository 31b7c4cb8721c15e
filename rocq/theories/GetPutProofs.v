From Verif Require Import Base Wire Cid FMap BlockSpec MemBlocks MemBlocksProofs SubsSpec Subs SubsProofs GetPut.

Lemma nth_set {A} n (a x : A) l m : nth_error l n = Some x ->
  nth_error (set_nth n a l) m = if (n =? m)%nat then Some a else nth_error l m.
Proof.
  revert n m. induction l as [|y l IH]; intros [|n] m; cbn; try discriminate.
  - intros _. destruct m; reflexivity.
  - intros H. destruct m as [|m]; [reflexivity|]. apply IH. exact H.
Qed.
Lemma nth_snoc {A} (l : list A) a m x : nth_error (l ++ [a]) m = Some x -> nth_error l m = Some x \/ (m = length l /\ x = a).
Proof.
  intros H. destruct (lt_dec m (length l)) as [Hlt|Hge].
  - left. rewrite nth_error_app1 in H by exact Hlt. exact H.
  - rewrite nth_error_app2 in H by lia. destruct (m - length l)%nat as [|k] eqn:E; cbn in H.
    + right. split; [lia|congruence].
    + destruct k; discriminate.
Qed.
Lemma nth_snoc_old {A} (l : list A) a m x : nth_error l m = Some x -> nth_error (l ++ [a]) m = Some x.
Proof. intros H. rewrite nth_error_app1; [exact H|]. apply nth_error_Some. congruence. Qed.

Local Notation life := (life cid block).
Notation lives := (life_of cid_eqb).
Definition ok_start (c : cid) (l : life) : Prop := exists late, l = Creating c true late.
Definition ok_sub (c : cid) (l : life) : Prop :=
  match l with Waiting k n _ => k = c /\ n = true | Decided k _ | Rejected k | Lost k => k = c | _ => False end.

(** Registry steps about other futures. *)
Definition touches (i : nat) (a : act cid block) : Prop :=
  match a with Insert j | Poll j _ | DropFut j | DropNotify j => j = i | _ => False end.
Lemma born (p : list (act cid block)) i l : lives p i = l -> l <> Unborn -> (i < begins p)%nat.
Proof.
  intros <- Hl. destruct (le_lt_dec (begins p) i) as [Hle|]; [|assumption]. exfalso. apply Hl.
  exact (i_unborn _ _ _ (run_inv cid_eqb cid_eqb_spec false p) i Hle).
Qed.
Lemma frame_start (p : list (act cid block)) a i c : ok_start c (lives p i) -> ~ touches i a -> ok_start c (lives (a :: p) i).
Proof.
  intros [late Hl] Ht. assert (Hb := born p i _ Hl ltac:(discriminate)). exists late. cbn [life_of].
  destruct a as [k n|j|j w'|k v'|j|j| |]; cbn in Ht; rewrite ?Hl; try (destruct (Nat.eqb_spec j i); [congruence|reflexivity]); try reflexivity.
  - destruct (Nat.eqb_spec (begins p) i); [lia|reflexivity].
  - destruct (flagged p && negb (taken p)); reflexivity.
Qed.
Lemma frame_sub (p : list (act cid block)) a i c : ok_sub c (lives p i) -> ~ touches i a -> ok_sub c (lives (a :: p) i).
Proof.
  intros Hl Ht. assert (Hb : (i < begins p)%nat) by (apply (born p i _ eq_refl); intros E; rewrite E in Hl; exact Hl).
  cbn [life_of]. destruct a as [k n|j|j w'|k v'|j|j| |]; cbn in Ht; try (destruct (Nat.eqb_spec j i); [congruence|exact Hl]); try exact Hl.
  - destruct (Nat.eqb_spec (begins p) i); [lia|exact Hl].
  - destruct (lives p i); try contradiction; try exact Hl. destruct (cid_eqb k k0); cbn in *; tauto.
  - destruct (flagged p && negb (taken p)); [|exact Hl]. destruct (lives p i); try contradiction; cbn in *; tauto.
Qed.
(** A waiting future stays so unless finished or taken. *)
Lemma frame_wait (p : list (act cid block)) a i c : (exists w, lives p i = Waiting c true w) -> ~ touches i a -> a <> ShutTake ->
  (forall v, a <> Finish c v) -> exists w, lives (a :: p) i = Waiting c true w.
Proof.
  intros [w Hl] Ht Hs Hf. assert (Hb := born p i _ Hl ltac:(discriminate)). exists w. cbn [life_of].
  destruct a as [k n|j|j w'|k v'|j|j| |]; cbn in Ht; rewrite ?Hl; try (destruct (Nat.eqb_spec j i); [congruence|reflexivity]); try reflexivity.
  - destruct (Nat.eqb_spec (begins p) i); [lia|reflexivity].
  - destruct (cid_eqb_spec k c) as [->|]; [exfalso; apply (Hf v'); reflexivity|reflexivity].
  - congruence.
Qed.
(** A decided one keeps its value. *)
Lemma frame_decided (p : list (act cid block)) a i c v : lives p i = Decided c v -> ~ touches i a -> a <> ShutTake -> lives (a :: p) i = Decided c v.
Proof.
  intros Hl Ht Hs. assert (Hb := born p i _ Hl ltac:(discriminate)). cbn [life_of].
  destruct a as [k n|j|j w'|k v'|j|j| |]; cbn in Ht; rewrite ?Hl; try (destruct (Nat.eqb_spec j i); [congruence|reflexivity]); try reflexivity.
  - destruct (Nat.eqb_spec (begins p) i); [lia|reflexivity].
  - congruence.
Qed.

Section Proofs.
  Variable debug : bool.
  Notation gstep := (gstep debug).
  Notation grun := (grun debug).

  Definition idx (s : getst) : option nat := match s with Starting _ i | Subscribed _ i | Gone i => Some i | _ => None end.
  Record gi (h : list gact) (s : gp) : Prop := {
    g_mem : mem_ok (store s);
    g_store : forall k b, In (k, b) (store s) -> In (StorePut b) h;
    g_past : forall k v, In (Finish k v) (past s) -> k = b_cid v /\ In (StorePut v) h;
    g_puts : forall t b n, nth_error (puts s) t = Some (Stored b n) -> In (StorePut b) h;
    g_start : forall g c i, nth_error (gets s) g = Some (Starting c i) -> ok_start c (lives (past s) i);
    g_sub : forall g c i, nth_error (gets s) g = Some (Subscribed c i) -> ok_sub c (lives (past s) i);
    g_gone : forall g i, nth_error (gets s) g = Some (Gone i) -> spent (lives (past s) i) = true;
    g_inj : forall g g' x x' i, nth_error (gets s) g = Some x -> nth_error (gets s) g' = Some x' -> idx x = Some i -> idx x' = Some i -> g = g'
  }.

  Lemma gi_init : gi [] gp_init.
  Proof. constructor; cbn; intros; try contradiction; try (destruct t; discriminate); try (destruct g; discriminate). split; constructor. Qed.

  Lemma grun_snoc h a : grun (h ++ [a]) = fst (gstep (grun h) a).
  Proof. unfold GetPut.grun. rewrite fold_left_app. reflexivity. Qed.

  Lemma spent_cons (p : list (act cid block)) (a : act cid block) i : spent (lives p i) = true -> spent (lives (a :: p) i) = true.
  Proof. apply (spent_stays cid_eqb cid_eqb_spec false p i [a]). Qed.
  Lemma sub_not_spent c l : ok_sub c l -> match l with Lost _ => True | _ => spent l = false end.
  Proof. destruct l; cbn; tauto. Qed.

  Lemma begin_ans (p : list (act cid block)) (c : cid) : ans (effect_of cid_eqb debug p (Begin c true : act cid block)) = OId (begins p).
  Proof. rewrite (eff_begin cid_eqb cid_eqb_spec debug). reflexivity. Qed.
  Lemma poll_ans (p : list (act cid block)) i w : ans (effect_of cid_eqb debug p (Poll i w : act cid block)) = poll_answer (lives p i).
  Proof. rewrite (eff_poll cid_eqb cid_eqb_spec debug). reflexivity. Qed.

  (** Pushing a registry step for the get call [g], which moves from [x] to [y]. *)
  Lemma gi_push h s g x y a i : gi h s -> nth_error (gets s) g = Some x -> idx x = Some i ->
    touches i a \/ (forall j, ~ touches j a) -> (forall k v, a <> Finish k v) ->
    (forall j, touches j a -> j = i) ->
    match y with
    | Starting c j => j = i /\ ok_start c (lives (a :: past s) i)
    | Subscribed c j => j = i /\ ok_sub c (lives (a :: past s) i)
    | Gone j => j = i /\ spent (lives (a :: past s) i) = true
    | _ => True
    end ->
    gi h (mk_gp (store s) (a :: past s) (set_nth g y (gets s)) (puts s)).
  Proof.
    intros H Hx Hi _ Hnf Htouch Hy.
    assert (Hother : forall g' x' j, g' <> g -> nth_error (gets s) g' = Some x' -> idx x' = Some j -> ~ touches j a).
    { intros g' x' j Hne Hx' Hj Ht. apply Hne. apply Htouch in Ht. subst j. eapply (g_inj h s H); eassumption. }
    constructor; cbn [store past gets puts].
    - apply H.
    - apply H.
    - intros k v [E|Hin]; [exfalso; eapply Hnf; eassumption|]. eapply (g_past h s H); eassumption.
    - apply H.
    - intros g' c j. rewrite (nth_set g y x _ g' Hx). destruct (Nat.eqb_spec g g') as [<-|Hne].
      + intros [= ->]. destruct Hy as [-> Hy]. exact Hy.
      + intros E. apply frame_start; [eapply (g_start h s H); eassumption|]. eapply (Hother g'); [congruence|exact E|reflexivity].
    - intros g' c j. rewrite (nth_set g y x _ g' Hx). destruct (Nat.eqb_spec g g') as [<-|Hne].
      + intros [= ->]. destruct Hy as [-> Hy]. exact Hy.
      + intros E. apply frame_sub; [eapply (g_sub h s H); eassumption|]. eapply (Hother g'); [congruence|exact E|reflexivity].
    - intros g' j. rewrite (nth_set g y x _ g' Hx). destruct (Nat.eqb_spec g g') as [<-|Hne].
      + intros [= ->]. destruct Hy as [-> Hy]. exact Hy.
      + intros E. apply spent_cons. eapply (g_gone h s H); eassumption.
    - intros g1 g2 x1 x2 j. rewrite !(nth_set g y x _ _ Hx).
      destruct (Nat.eqb_spec g g1) as [<-|N1], (Nat.eqb_spec g g2) as [<-|N2]; intros E1 E2 I1 I2; try reflexivity.
      + injection E1 as <-. assert (j = i) as -> by (destruct y; cbn in I1; try discriminate; injection I1 as <-; apply Hy).
        eapply (g_inj h s H); eassumption.
      + injection E2 as <-. assert (j = i) as -> by (destruct y; cbn in I2; try discriminate; injection I2 as <-; apply Hy).
        eapply (g_inj h s H); eassumption.
      + eapply (g_inj h s H); eassumption.
  Qed.

  (** Steps which leave the get calls alone. *)
  Lemma gi_reg h s a : gi h s -> (forall j, ~ touches j a) -> (forall k v, a = Finish k v -> k = b_cid v /\ In (StorePut v) h) ->
    gi h (mk_gp (store s) (a :: past s) (gets s) (puts s)).
  Proof.
    intros H Ht Hf. constructor; cbn [store past gets puts].
    - apply H.
    - apply H.
    - intros k v [E|Hin]; [apply Hf; exact E|]. apply (g_past h s H). exact Hin.
    - apply H.
    - intros g c i E. apply frame_start; [eapply (g_start h s H); eassumption|apply Ht].
    - intros g c i E. apply frame_sub; [eapply (g_sub h s H); eassumption|apply Ht].
    - intros g i E. apply spent_cons. eapply (g_gone h s H); eassumption.
    - apply H.
  Qed.

  Lemma gi_more h a s : gi h s -> gi (h ++ [a]) s.
  Proof.
    intros H. constructor; try apply H.
    - intros k b Hin. apply in_or_app. left. eapply (g_store h s H); eassumption.
    - intros k v Hin. destruct (g_past h s H k v Hin). split; [assumption|]. apply in_or_app. auto.
    - intros t b n E. apply in_or_app. left. eapply (g_puts h s H); eassumption.
  Qed.

  Lemma gi_puts h s t y b n : gi h s -> nth_error (puts s) t = Some (Stored b n) -> y = PutDone ->
    gi h (mk_gp (store s) (past s) (gets s) (set_nth t y (puts s))).
  Proof.
    intros H Hx ->. constructor; cbn [store past gets puts]; try apply H.
    intros t' b' n'. rewrite (nth_set t PutDone _ _ t' Hx). destruct (t =? t')%nat; [discriminate|apply H].
  Qed.

  Lemma gi_step h s a : gi h s -> gi (h ++ [a]) (fst (gstep s a)).
  Proof.
    intros H0. pose proof (gi_more h a s H0) as H. destruct a as [c|g|g|g w|g|g|b|t|c| |]; cbn [GetPut.gstep].
    - (* Look *)
      assert (Hsnoc : forall y, idx y = None -> gi (h ++ [Look c]) (mk_gp (store s) (past s) (gets s ++ [y]) (puts s))).
      { intros y Hy. constructor; cbn [store past gets puts]; try apply H.
        - intros g c' i E. apply nth_snoc in E as [E|[_ <-]]; [|discriminate]. eapply (g_start _ _ H); eassumption.
        - intros g c' i E. apply nth_snoc in E as [E|[_ <-]]; [|discriminate]. eapply (g_sub _ _ H); eassumption.
        - intros g i E. apply nth_snoc in E as [E|[_ <-]]; [|discriminate]. eapply (g_gone _ _ H); eassumption.
        - intros g1 g2 x1 x2 j E1 E2 I1 I2. apply nth_snoc in E1 as [E1|[_ ->]]; [|congruence].
          apply nth_snoc in E2 as [E2|[_ ->]]; [|congruence]. eapply (g_inj _ _ H); eassumption. }
      unfold mem_get. destruct (mget repo_cid_eqb c (store s)); apply Hsnoc; reflexivity.
    - (* SubBegin *)
      destruct (nth_error (gets s) g) as [x|] eqn:Eg; [|exact H]. destruct x; try exact H.
      rewrite begin_ans. cbn [fst].
      assert (Hfresh : forall g' x' i, nth_error (gets s) g' = Some x' -> idx x' = Some i -> i <> begins (past s)).
      { intros g' x' i E Hi ->. pose proof (i_unborn _ _ _ (run_inv cid_eqb cid_eqb_spec false (past s)) (begins (past s)) (le_n _)) as Hu.
        destruct x'; cbn in Hi; try discriminate; injection Hi as ->.
        - destruct (g_start _ _ H _ _ _ E) as [l Hl]. rewrite Hu in Hl. discriminate.
        - pose proof (g_sub _ _ H _ _ _ E) as Hl. rewrite Hu in Hl. exact Hl.
        - pose proof (g_gone _ _ H _ _ E) as Hl. rewrite Hu in Hl. discriminate. }
      constructor; cbn [store past gets puts].
      + apply H.
      + apply H.
      + intros k v [E|Hin]; [discriminate|]. apply (g_past _ _ H). exact Hin.
      + apply H.
      + intros g' c' j. rewrite (nth_set g _ _ _ g' Eg). destruct (Nat.eqb_spec g g') as [<-|Hne].
        * intros [= <- <-]. exists (flagged (past s)). cbn [life_of]. rewrite Nat.eqb_refl. reflexivity.
        * intros E. apply frame_start; [eapply (g_start _ _ H); eassumption|]. intros [].
      + intros g' c' j. rewrite (nth_set g _ _ _ g' Eg). destruct (Nat.eqb_spec g g') as [<-|Hne]; [discriminate|].
        intros E. apply frame_sub; [eapply (g_sub _ _ H); eassumption|]. intros [].
      + intros g' j. rewrite (nth_set g _ _ _ g' Eg). destruct (Nat.eqb_spec g g') as [<-|Hne]; [discriminate|].
        intros E. apply spent_cons. eapply (g_gone _ _ H); eassumption.
      + intros g1 g2 x1 x2 j. rewrite !(nth_set g _ _ _ _ Eg).
        destruct (Nat.eqb_spec g g1) as [<-|N1], (Nat.eqb_spec g g2) as [<-|N2]; intros E1 E2 I1 I2; try reflexivity.
        * injection E1 as <-. cbn in I1. injection I1 as <-. exfalso. eapply Hfresh; [exact E2|exact I2|reflexivity].
        * injection E2 as <-. cbn in I2. injection I2 as <-. exfalso. eapply Hfresh; [exact E1|exact I1|reflexivity].
        * eapply (g_inj _ _ H); eassumption.
    - (* SubInsert *)
      destruct (nth_error (gets s) g) as [x|] eqn:Eg; [|exact H]. destruct x as [|c i| | |]; try exact H. cbn [fst].
      destruct (g_start _ _ H _ _ _ Eg) as [late Hl].
      eapply gi_push; try eassumption; try reflexivity; try discriminate; [left; reflexivity|intros j Hj; symmetry; exact Hj|].
      split; [reflexivity|]. cbn [life_of]. rewrite Nat.eqb_refl, Hl. destruct late; cbn; auto.
    - (* PollG *)
      destruct (nth_error (gets s) g) as [x|] eqn:Eg; [|exact H]. destruct x as [| |c i| |]; try exact H. cbn zeta. rewrite poll_ans.
      pose proof (g_sub _ _ H _ _ _ Eg) as Hl.
      assert (Hself : set_nth g (Subscribed c i) (gets s) = gets s).
      { clear -Eg. revert g Eg. induction (gets s) as [|y l IH]; intros [|g]; cbn; try discriminate; [intros [= ->]; reflexivity|].
        intros E. rewrite IH by exact E. reflexivity. }
      destruct (lives (past s) i) as [| |k n w'|k v|k|k|k|k n w' l'|] eqn:El; try contradiction; cbn [poll_answer fst].
      + destruct Hl as [-> ->]. rewrite <- Hself at 1.
        eapply gi_push; try eassumption; try reflexivity; try discriminate; [left; reflexivity|intros j Hj; symmetry; exact Hj|].
        split; [reflexivity|]. cbn [life_of]. rewrite Nat.eqb_refl, El. cbn. auto.
      + eapply gi_push; try eassumption; try reflexivity; try discriminate; [left; reflexivity|intros j Hj; symmetry; exact Hj].
      + eapply gi_push; try eassumption; try reflexivity; try discriminate; [left; reflexivity|intros j Hj; symmetry; exact Hj].
      + eapply gi_push; try eassumption; try reflexivity; try discriminate; [left; reflexivity|intros j Hj; symmetry; exact Hj].
    - (* DropG *)
      destruct (nth_error (gets s) g) as [x|] eqn:Eg; [|exact H]. destruct x as [| |c i| |]; try exact H. cbn [fst].
      pose proof (g_sub _ _ H _ _ _ Eg) as Hl.
      eapply gi_push; try eassumption; try reflexivity; try discriminate; [left; reflexivity|intros j Hj; symmetry; exact Hj|].
      split; [reflexivity|]. cbn [life_of]. rewrite Nat.eqb_refl. destruct (lives (past s) i); try contradiction; reflexivity.
    - (* NotifyG *)
      destruct (nth_error (gets s) g) as [x|] eqn:Eg; [|exact H]. destruct x as [| | | |i]; try exact H. cbn [fst].
      pose proof (g_gone _ _ H _ _ Eg) as Hl.
      assert (Hself : set_nth g (Gone i) (gets s) = gets s).
      { clear -Eg. revert g Eg. induction (gets s) as [|y l IH]; intros [|g]; cbn; try discriminate; [intros [= ->]; reflexivity|].
        intros E. rewrite IH by exact E. reflexivity. }
      rewrite <- Hself at 1.
      eapply gi_push; try eassumption; try reflexivity; try discriminate; [left; reflexivity|intros j Hj; symmetry; exact Hj|].
      split; [reflexivity|]. apply spent_cons. exact Hl.
    - (* StorePut *)
      pose proof (mem_step_ok _ (Put b) (g_mem _ _ H)) as Hm. cbn [mem_step] in Hm. unfold mem_put in *.
      destruct (mget repo_cid_eqb (b_cid b) (store s)); cbn [fst] in *.
      + constructor; cbn [store past gets puts]; try apply H.
        intros t b' n E. apply nth_snoc in E as [E|[_ E]]; [eapply (g_puts _ _ H); eassumption|]. injection E as -> ->.
        apply in_or_app. right. left. reflexivity.
      + constructor; cbn [store past gets puts]; try apply H; try exact Hm.
        * intros k b' [[= <- <-]|Hin]; [apply in_or_app; right; left; reflexivity|]. eapply (g_store _ _ H); eassumption.
        * intros t b' n E. apply nth_snoc in E as [E|[_ E]]; [eapply (g_puts _ _ H); eassumption|]. injection E as -> ->.
          apply in_or_app. right. left. reflexivity.
    - (* FinishPut *)
      destruct (nth_error (puts s) t) as [x|] eqn:Et; [|exact H]. destruct x as [b [|]|]; [| |exact H].
      + cbn [fst]. eapply (gi_puts _ (mk_gp (store s) (Finish (b_cid b) b :: past s) (gets s) (puts s))); [|exact Et|reflexivity].
        apply gi_reg; [exact H|intros j []|]. intros k v [= <- <-]. split; [reflexivity|]. eapply (g_puts _ _ H); eassumption.
      + cbn [fst]. eapply gi_puts; [exact H|exact Et|reflexivity].
    - (* RemoveB *)
      cbn [fst]. pose proof (mem_step_ok _ (Remove c) (g_mem _ _ H)) as Hm. cbn [mem_step] in Hm.
      constructor; cbn [store past gets puts]; try apply H; try exact Hm.
      intros k b. unfold mem_remove. destruct (mget repo_cid_eqb c (store s)); cbn [fst]; [|apply H].
      intros Hin. apply filter_In in Hin as [Hin _]. eapply (g_store _ _ H); eassumption.
    - apply gi_reg; [exact H|intros j []|discriminate].
    - apply gi_reg; [exact H|intros j []|discriminate].
  Qed.

  Lemma grun_gi h : gi h (grun h).
  Proof.
    induction h as [|a h IH] using rev_ind; [apply gi_init|]. rewrite grun_snoc. apply gi_step. exact IH.
  Qed.

  (** What a step adds to the registry's history. *)
  Lemma step_past s a : past (fst (gstep s a)) = past s \/
    exists x, past (fst (gstep s a)) = x :: past s /\
      (forall j, touches j x -> exists g y, nth_error (gets s) g = Some y /\ idx y = Some j /\
         match a with
         | SubInsert g' => g' = g /\ exists c, y = Starting c j
         | NotifyG g' => g' = g /\ y = Gone j
         | PollG g' _ | DropG g' => g' = g
         | _ => False
         end) /\
      (x = ShutTake -> a = ShutT) /\
      (forall k v, x = Finish k v -> exists t, nth_error (puts s) t = Some (Stored v true) /\ k = b_cid v).
  Proof.
    destruct a as [c|g|g|g w|g|g|b|t|c| |]; cbn [GetPut.gstep].
    - unfold mem_get. destruct (mget repo_cid_eqb c (store s)); left; reflexivity.
    - destruct (nth_error (gets s) g) as [[]|] eqn:Eg; try (left; reflexivity). rewrite begin_ans. right.
      eexists. split; [reflexivity|]. split; [intros j []|]. split; [discriminate|discriminate].
    - destruct (nth_error (gets s) g) as [[]|] eqn:Eg; try (left; reflexivity). right.
      eexists. split; [reflexivity|]. split; [intros j <-; eauto 8|]. split; [discriminate|discriminate].
    - destruct (nth_error (gets s) g) as [[]|] eqn:Eg; try (left; reflexivity). right. exists (Poll i w).
      split; [cbn zeta; destruct (ans _) as [| | |[]| |]; reflexivity|]. split; [intros j <-; eauto 8|]. split; [discriminate|discriminate].
    - destruct (nth_error (gets s) g) as [[]|] eqn:Eg; try (left; reflexivity). right.
      eexists. split; [reflexivity|]. split; [intros j <-; eauto 8|]. split; [discriminate|discriminate].
    - destruct (nth_error (gets s) g) as [[]|] eqn:Eg; try (left; reflexivity). right.
      eexists. split; [reflexivity|]. split; [intros j <-; eauto 8|]. split; [discriminate|discriminate].
    - unfold mem_put. destruct (mget repo_cid_eqb (b_cid b) (store s)); left; reflexivity.
    - destruct (nth_error (puts s) t) as [[b [|]|]|] eqn:Et; try (left; reflexivity). right.
      eexists. split; [reflexivity|]. split; [intros j []|]. split; [discriminate|]. intros k v [= <- <-]. eauto.
    - left. reflexivity.
    - right. eexists. split; [reflexivity|]. split; [intros j []|]. split; discriminate.
    - right. eexists. split; [reflexivity|]. split; [intros j []|]. split; [reflexivity|discriminate].
  Qed.

  (** A subscribed call stays so until it is polled with an answer or dropped. *)
  Lemma step_gets s a g c i : nth_error (gets s) g = Some (Subscribed c i) ->
    nth_error (gets (fst (gstep s a))) g = Some (Subscribed c i) \/
    a = DropG g \/ (exists w, a = PollG g w /\ poll_answer (lives (past s) i) <> OPending).
  Proof.
    intros H. destruct a as [c'|g'|g'|g' w|g'|g'|b|t|c'| |]; cbn [GetPut.gstep]; try (left; exact H).
    - unfold mem_get. destruct (mget repo_cid_eqb c' (store s)); left; apply nth_snoc_old; exact H.
    - destruct (nth_error (gets s) g') as [[]|] eqn:Eg; try (left; exact H). rewrite begin_ans. left. cbn [fst gets].
      rewrite (nth_set g' _ _ _ g Eg). destruct (Nat.eqb_spec g' g) as [->|]; [congruence|exact H].
    - destruct (nth_error (gets s) g') as [[]|] eqn:Eg; try (left; exact H). left. cbn [fst gets].
      rewrite (nth_set g' _ _ _ g Eg). destruct (Nat.eqb_spec g' g) as [->|]; [congruence|exact H].
    - destruct (nth_error (gets s) g') as [[]|] eqn:Eg; try (left; exact H). cbn zeta. rewrite poll_ans.
      destruct (Nat.eqb_spec g' g) as [->|Hne].
      + rewrite H in Eg. injection Eg as <- <-. destruct (poll_answer (lives (past s) i)) as [| | |[]| |] eqn:E; try (left; exact H);
          right; right; exists w; split; try reflexivity; discriminate.
      + left. destruct (poll_answer (lives (past s) i0)) as [| | |[]| |]; cbn [fst gets]; try exact H;
          rewrite (nth_set g' _ _ _ g Eg); destruct (Nat.eqb_spec g' g); congruence.
    - destruct (nth_error (gets s) g') as [[]|] eqn:Eg; try (left; exact H). destruct (Nat.eqb_spec g' g) as [->|Hne]; [right; left; reflexivity|].
      left. cbn [fst gets]. rewrite (nth_set g' _ _ _ g Eg). destruct (Nat.eqb_spec g' g); congruence.
    - destruct (nth_error (gets s) g') as [[]|] eqn:Eg; left; exact H.
    - unfold mem_put. destruct (mget repo_cid_eqb (b_cid b) (store s)); left; exact H.
    - destruct (nth_error (puts s) t) as [[b [|]|]|]; left; exact H.
  Qed.

  (** The step does not touch the future of [g]. *)
  Lemma untouched h a g c i x : nth_error (gets (grun h)) g = Some (Subscribed c i) ->
    (forall j, touches j x -> exists g y, nth_error (gets (grun h)) g = Some y /\ idx y = Some j /\
         match a with
         | SubInsert g' => g' = g /\ exists c, y = Starting c j
         | NotifyG g' => g' = g /\ y = Gone j
         | PollG g' _ | DropG g' => g' = g
         | _ => False
         end) ->
    match a with PollG g' _ | DropG g' => g' <> g | _ => True end ->
    ~ touches i x.
  Proof.
    intros Hg Hx Ha Ht. destruct (Hx i Ht) as (g' & y & Hy & Hi & Hm).
    assert (g' = g) as -> by (eapply (g_inj _ _ (grun_gi h)); [exact Hy|exact Hg|exact Hi|reflexivity]).
    rewrite Hg in Hy. injection Hy as <-. destruct a; try contradiction; try congruence.
    - destruct Hm as [_ [? [=]]].
    - destruct Hm as [_ [=]].
  Qed.

  Lemma stay_decided h q g c i v : nth_error (gets (grun h)) g = Some (Subscribed c i) -> lives (past (grun h)) i = Decided c v ->
    Forall (fun a => match a with DropG g' | PollG g' _ => g' <> g | ShutT => False | _ => True end) q ->
    nth_error (gets (grun (h ++ q))) g = Some (Subscribed c i) /\ lives (past (grun (h ++ q))) i = Decided c v.
  Proof.
    intros Hg Hl. induction q as [|a q IH] using rev_ind; intros Hq; [rewrite app_nil_r; auto|].
    apply Forall_app in Hq as [Hq Ha]. inversion Ha; subst. clear Ha. destruct (IH Hq) as [Hg' Hl'].
    rewrite app_assoc, grun_snoc. set (h' := h ++ q) in *.
    destruct (step_gets (grun h') a g c i Hg') as [Hs|[->|(w & -> & _)]]; try contradiction.
    split; [exact Hs|].
    destruct (step_past (grun h') a) as [->|(x & -> & Hx & Hs1 & _)]; [exact Hl'|].
    apply frame_decided; [exact Hl'| |intros ->; rewrite (Hs1 eq_refl) in H1; exact H1].
    apply (untouched h' a g c i x Hg' Hx). destruct a; auto.
  Qed.

  (** The subscribed call is polled. *)
  Lemma poll_subscribed h g c i w : nth_error (gets (grun h)) g = Some (Subscribed c i) ->
    gout_of debug h (PollG g w) =
    match lives (past (grun h)) i with
    | Decided _ v => GAnswer (Ok v)
    | Waiting _ _ _ => GPending
    | _ => GAnswer (Err tt)
    end.
  Proof.
    intros Hg. unfold gout_of. cbn [GetPut.gstep]. rewrite Hg. cbn zeta. rewrite poll_ans.
    pose proof (g_sub _ _ (grun_gi h) _ _ _ Hg) as Hl. destruct (lives (past (grun h)) i); cbn in Hl; try contradiction; reflexivity.
  Qed.
  (** Before shutdown a subscribed call is waiting or has its value. *)
  Lemma past_flag h : ~ In ShutF h -> flagged (past (grun h)) = false.
  Proof.
    induction h as [|a h IH] using rev_ind; intros Hn; [reflexivity|]. rewrite grun_snoc.
    assert (IH' : flagged (past (grun h)) = false) by (apply IH; intros Hi; apply Hn; apply in_or_app; auto).
    assert (Ha : a <> ShutF) by (intros ->; apply Hn; apply in_or_app; right; left; reflexivity).
    destruct a as [c|g|g|g w|g|g|b|t|c| |]; cbn [GetPut.gstep]; try exact IH'; try congruence.
    - unfold mem_get. destruct (mget repo_cid_eqb c (store (grun h))); exact IH'.
    - destruct (nth_error (gets (grun h)) g) as [[]|]; try exact IH'.
    - destruct (nth_error (gets (grun h)) g) as [[]|]; exact IH'.
    - destruct (nth_error (gets (grun h)) g) as [[]|]; try exact IH'. cbn zeta. destruct (ans _) as [| | |[]| |]; exact IH'.
    - destruct (nth_error (gets (grun h)) g) as [[]|]; exact IH'.
    - destruct (nth_error (gets (grun h)) g) as [[]|]; exact IH'.
    - unfold mem_put. destruct (mget repo_cid_eqb (b_cid b) (store (grun h))); exact IH'.
    - destruct (nth_error (puts (grun h)) t) as [[b [|]|]|]; exact IH'.
  Qed.
  Lemma unflagged_life (p : list (act cid block)) i : flagged p = false ->
    match lives p i with Rejected _ | Lost _ => False | Creating _ _ late => late = false | _ => True end.
  Proof.
    induction p as [|a p IH]; [intros; exact I|]. intros Hf. cbn in Hf. apply orb_false_iff in Hf as [Ha Hf]. specialize (IH Hf).
    cbn [life_of]. destruct a as [k n|j|j w'|k v'|j|j| |]; try exact IH; try discriminate.
    - destruct (begins p =? i)%nat; [exact Hf|exact IH].
    - destruct (j =? i)%nat; [|exact IH]. destruct (lives p i) as [|k n late| | | | | | |]; try exact IH. rewrite IH. exact I.
    - destruct (j =? i)%nat; [|exact IH]. destruct (lives p i); try exact IH; exact I.
    - destruct (lives p i); try exact IH. destruct (cid_eqb k k0); [exact I|exact IH].
    - destruct (j =? i)%nat; [|exact IH]. destruct (lives p i); try exact IH; exact I.
    - destruct (j =? i)%nat; [|exact IH]. destruct (lives p i); try exact IH; exact I.
    - fold (flagged p) in Hf; rewrite Hf. exact IH.
  Qed.

  Lemma finish_decides h g c i t b : nth_error (gets (grun h)) g = Some (Subscribed c i) -> ~ In ShutF h ->
    nth_error (puts (grun h)) t = Some (Stored b true) -> b_cid b = c ->
    exists v, nth_error (gets (grun (h ++ [FinishPut t]))) g = Some (Subscribed c i) /\
      lives (past (grun (h ++ [FinishPut t]))) i = Decided c v /\
      b_cid v = c /\ In (StorePut v) h.
  Proof.
    intros Hg Hsh Ht Hb. rewrite grun_snoc. cbn [GetPut.gstep]. rewrite Ht. cbn [fst gets past].
    pose proof (g_sub _ _ (grun_gi h) _ _ _ Hg) as Hl. pose proof (unflagged_life _ i (past_flag h Hsh)) as Hu. cbn [life_of].
    destruct (lives (past (grun h)) i) as [| |k n w|k v|k|k|k|k n w l|] eqn:El; cbn in Hl; try contradiction.
    - destruct Hl as [-> ->]. rewrite Hb. destruct (cid_eqb_spec c c); [|congruence]. exists b.
      repeat split; auto. eapply (g_puts _ _ (grun_gi h)). exact Ht.
    - subst k. exists v. split; [exact Hg|]. split; [reflexivity|].
      destruct (decided_from cid_eqb cid_eqb_spec _ _ _ _ El) as (q & p0 & n & w & E & _).
      destruct (g_past _ _ (grun_gi h) c v) as [-> Hin]; [rewrite E; apply in_or_app; right; left; reflexivity|]. auto.
  Qed.

  (** The lost case. *)
  Definition stuck (c : cid) (g i : nat) (s : gp) : Prop :=
    nth_error (gets s) g = Some (Subscribed c i) /\ (exists w, lives (past s) i = Waiting c true w) /\
    mget repo_cid_eqb c (store s) <> None /\
    forall t b, nth_error (puts s) t = Some (Stored b true) -> b_cid b <> c.
  Lemma stay_stuck c g i h q : stuck c g i (grun h) ->
    Forall (fun a => match a with DropG g' => g' <> g | RemoveB _ | ShutT => False | _ => True end) q ->
    stuck c g i (grun (h ++ q)).
  Proof.
    intros H0. induction q as [|a q IH] using rev_ind; intros Hq; [rewrite app_nil_r; exact H0|].
    apply Forall_app in Hq as [Hq Ha]. inversion Ha as [|? ? Ha' _]; subst. clear Ha. destruct (IH Hq) as (Hg & Hw & Hs & Hp).
    rewrite app_assoc, grun_snoc. set (h' := h ++ q) in *. split; [|split; [|split]].
    - destruct (step_gets (grun h') a g c i Hg) as [E|[->|(w & -> & E)]]; [exact E|contradiction|].
      destruct Hw as [w' Hw]. rewrite Hw in E. contradiction.
    - assert (Hpoll : forall w, a = PollG g w -> exists w', lives (past (fst (gstep (grun h') a))) i = Waiting c true w').
      { intros w ->. destruct Hw as [w' Hw]. cbn [GetPut.gstep]. rewrite Hg. cbn zeta. rewrite poll_ans, Hw. cbn [poll_answer fst past life_of].
        rewrite Nat.eqb_refl, Hw. eauto. }
      destruct (step_past (grun h') a) as [->|(x & E & Hx & Hs1 & Hf)]; [exact Hw|].
      destruct (match a with PollG g' _ => (g' =? g)%nat | _ => false end) eqn:Ea.
      + destruct a; try discriminate. apply Nat.eqb_eq in Ea. subst. eapply Hpoll. reflexivity.
      + rewrite E. apply frame_wait; [exact Hw| |intros ->; rewrite (Hs1 eq_refl) in Ha'; exact Ha'|].
        * apply (untouched h' a g c i x Hg Hx). destruct a; auto. apply Nat.eqb_neq in Ea. exact Ea.
        * intros v ->. destruct (Hf c v eq_refl) as (t & Ht & ->). eapply Hp; [exact Ht|reflexivity].
    - destruct a as [c'|g'|g'|g' w|g'|g'|b|t|c'| |]; cbn [GetPut.gstep]; try exact Hs; try contradiction.
      + unfold mem_get. destruct (mget repo_cid_eqb c' (store (grun h'))); exact Hs.
      + destruct (nth_error (gets (grun h')) g') as [[]|]; try exact Hs.
      + destruct (nth_error (gets (grun h')) g') as [[]|]; exact Hs.
      + destruct (nth_error (gets (grun h')) g') as [[]|]; try exact Hs. cbn zeta. destruct (ans _) as [| | |[]| |]; exact Hs.
      + destruct (nth_error (gets (grun h')) g') as [[]|]; exact Hs.
      + destruct (nth_error (gets (grun h')) g') as [[]|]; exact Hs.
      + unfold mem_put. destruct (mget repo_cid_eqb (b_cid b) (store (grun h'))) eqn:Eb; [exact Hs|].
        cbn [fst store mget]. destruct (repo_cid_eqb c (b_cid b)); [discriminate|exact Hs].
      + destruct (nth_error (puts (grun h')) t) as [[b [|]|]|]; exact Hs.
    - destruct a as [c'|g'|g'|g' w|g'|g'|b|t|c'| |]; cbn [GetPut.gstep]; try exact Hp; try contradiction.
      + unfold mem_get. destruct (mget repo_cid_eqb c' (store (grun h'))); exact Hp.
      + destruct (nth_error (gets (grun h')) g') as [[]|]; try exact Hp.
      + destruct (nth_error (gets (grun h')) g') as [[]|]; exact Hp.
      + destruct (nth_error (gets (grun h')) g') as [[]|]; try exact Hp. cbn zeta. destruct (ans _) as [| | |[]| |]; exact Hp.
      + destruct (nth_error (gets (grun h')) g') as [[]|]; exact Hp.
      + destruct (nth_error (gets (grun h')) g') as [[]|]; exact Hp.
      + unfold mem_put. destruct (mget repo_cid_eqb (b_cid b) (store (grun h'))) eqn:Eb; cbn [fst puts]; intros t' b' E;
          apply nth_snoc in E as [E|[_ E]]; try (eapply Hp; exact E).
        * discriminate.
        * injection E as ->. intros E. rewrite <- E in Hs. contradiction.
      + destruct (nth_error (puts (grun h')) t) as [x|] eqn:Et; [|exact Hp]. destruct x as [b [|]|]; cbn [fst puts]; try exact Hp;
          intros t' b'; rewrite (nth_set t _ _ _ t' Et); destruct (t =? t')%nat; try discriminate; apply Hp.
  Qed.

  (** A block in the store is found. *)
  Lemma found_hash h c b : mget repo_cid_eqb c (store (grun h)) = Some b -> cid_hash (b_cid b) = cid_hash c /\ In (StorePut b) h.
  Proof.
    intros H. destruct (g_mem _ _ (grun_gi h)) as [Hf _]. rewrite Forall_forall in Hf.
    assert (Hin : exists k, In (k, b) (store (grun h)) /\ cid_hash c = cid_hash k).
    { revert H. generalize (store (grun h)). intros m. induction m as [|[k v] m IH]; [discriminate|]. cbn [mget].
      destruct (repo_cid_eqb_hash c k) as [E|]; [intros [= ->]; exists k; split; [left; reflexivity|exact E]|].
      intros H. destruct (IH H) as (k' & Hin & E). exists k'. split; [right; exact Hin|exact E]. }
    destruct Hin as (k & Hin & E). split; [|eapply (g_store _ _ (grun_gi h)); exact Hin].
    rewrite E. f_equal. apply (Hf _ Hin).
  Qed.
End Proofs.
