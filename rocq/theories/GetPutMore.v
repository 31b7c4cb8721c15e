(** More lemmas about concurrent calls of get_block and put_block: a call which subscribed while the
    block was not stored. *)
From Verif Require Import Base Wire Cid FMap BlockSpec MemBlocks MemBlocksProofs SubsSpec Subs SubsProofs GetPut GetPutProofs.
Local Open Scope nat_scope.

Lemma get_same_hash {V} c c' (m : list (cid * V)) : cid_hash c = cid_hash c' -> mget repo_cid_eqb c m = mget repo_cid_eqb c' m.
Proof. intros E. induction m as [|[k v] m IH]; [reflexivity|]. cbn [mget]. unfold repo_cid_eqb in *. rewrite E, IH. reflexivity. Qed.
Lemma get_put b m c : mget repo_cid_eqb c (fst (mem_put b m)) = match mget repo_cid_eqb c m with Some x => Some x | None => if repo_cid_eqb c (b_cid b) then Some b else None end.
Proof.
  unfold mem_put. destruct (mget repo_cid_eqb (b_cid b) m) as [x|] eqn:E; cbn [fst mget].
  - destruct (mget repo_cid_eqb c m) eqn:Ec; [reflexivity|]. destruct (repo_cid_eqb_hash c (b_cid b)) as [Eh|]; [|reflexivity]. rewrite (get_same_hash _ _ _ Eh) in Ec. congruence.
  - destruct (repo_cid_eqb_hash c (b_cid b)) as [Eh|]; [|destruct (mget repo_cid_eqb c m); reflexivity]. rewrite (get_same_hash _ _ _ Eh), E. reflexivity.
Qed.

Section Wait.
  Variable debug : bool.
  Notation gstep := (gstep debug).
  Notation grun := (grun debug).
  Variables (c : cid) (g i : nat).

  (** The call has its answer, or can have it, or a block that would give it one is not there or on its way. *)
  Definition served (s : gp) : Prop :=
    (exists v, nth_error (gets s) g = Some (Answered (Ok v)) /\ b_cid v = c) \/
    (nth_error (gets s) g = Some (Subscribed c i) /\ exists v, lives (past s) i = Decided c v) \/
    (nth_error (gets s) g = Some (Subscribed c i) /\ (exists w, lives (past s) i = Waiting c true w) /\
     (mget repo_cid_eqb c (store s) = None \/ exists t k, nth_error (puts s) t = Some (Stored k true) /\ b_cid k = c)).
  Definition calm (a : gact) : Prop :=
    match a with
    | DropG g' => g' <> g
    | ShutF | ShutT => False
    | StorePut b => cid_hash (b_cid b) = cid_hash c -> b_cid b = c
    | _ => True
    end.

  Lemma decided_block h v : lives (past (grun h)) i = Decided c v -> b_cid v = c /\ In (StorePut v) h.
  Proof.
    intros E. destruct (decided_from cid_eqb cid_eqb_spec _ _ _ _ E) as (q & p0 & n & w' & Ep & _).
    destruct (g_past _ _ (grun_gi debug h) c v) as [-> Hin]; [rewrite Ep; apply in_or_app; right; left; reflexivity|]. auto.
  Qed.
  Lemma answered_stays s a r : nth_error (gets s) g = Some (Answered r) -> nth_error (gets (fst (gstep s a))) g = Some (Answered r).
  Proof.
    intros H. destruct a as [c'|g'|g'|g' w|g'|g'|b|t|c'| |]; cbn [GetPut.gstep]; try exact H.
    - unfold mem_get. destruct (mget repo_cid_eqb c' (store s)); apply nth_snoc_old; exact H.
    - destruct (nth_error (gets s) g') as [[]|] eqn:Eg; try exact H. rewrite begin_ans. cbn [fst gets]. rewrite (nth_set g' _ _ _ g Eg). destruct (Nat.eqb_spec g' g) as [->|]; [congruence|exact H].
    - destruct (nth_error (gets s) g') as [[]|] eqn:Eg; try exact H. cbn [fst gets]. rewrite (nth_set g' _ _ _ g Eg). destruct (Nat.eqb_spec g' g) as [->|]; [congruence|exact H].
    - destruct (nth_error (gets s) g') as [[]|] eqn:Eg; try exact H. cbn zeta. rewrite poll_ans.
      destruct (poll_answer _) as [| | |[]| |]; cbn [fst gets]; try exact H; rewrite (nth_set g' _ _ _ g Eg); destruct (Nat.eqb_spec g' g) as [->|]; congruence.
    - destruct (nth_error (gets s) g') as [[]|] eqn:Eg; try exact H. cbn [fst gets]. rewrite (nth_set g' _ _ _ g Eg). destruct (Nat.eqb_spec g' g) as [->|]; [congruence|exact H].
    - destruct (nth_error (gets s) g') as [[]|] eqn:Eg; exact H.
    - unfold mem_put. destruct (mget repo_cid_eqb (b_cid b) (store s)); exact H.
    - destruct (nth_error (puts s) t) as [[b [|]|]|]; exact H.
  Qed.
  (** The store and the puts under a step. *)
  Lemma calm_store s a : calm a ->
    mget repo_cid_eqb c (store s) = None \/ (exists t k, nth_error (puts s) t = Some (Stored k true) /\ b_cid k = c) ->
    (exists t k, a = FinishPut t /\ nth_error (puts s) t = Some (Stored k true) /\ b_cid k = c) \/
    mget repo_cid_eqb c (store (fst (gstep s a))) = None \/ (exists t k, nth_error (puts (fst (gstep s a))) t = Some (Stored k true) /\ b_cid k = c).
  Proof.
    intros Ha Hs. assert (Hsame : forall s', store s' = store s -> puts s' = puts s -> (exists t k, a = FinishPut t /\ nth_error (puts s) t = Some (Stored k true) /\ b_cid k = c) \/
      mget repo_cid_eqb c (store s') = None \/ (exists t k, nth_error (puts s') t = Some (Stored k true) /\ b_cid k = c)) by (intros s' -> ->; auto).
    destruct a as [c'|g'|g'|g' w|g'|g'|b|t|c'| |]; cbn [GetPut.gstep].
    - unfold mem_get. destruct (mget repo_cid_eqb c' (store s)); apply Hsame; reflexivity.
    - destruct (nth_error (gets s) g') as [[]|]; apply Hsame; reflexivity.
    - destruct (nth_error (gets s) g') as [[]|]; apply Hsame; reflexivity.
    - destruct (nth_error (gets s) g') as [[]|]; try (apply Hsame; reflexivity). cbn zeta. destruct (ans _) as [| | |[]| |]; apply Hsame; reflexivity.
    - destruct (nth_error (gets s) g') as [[]|]; apply Hsame; reflexivity.
    - destruct (nth_error (gets s) g') as [[]|]; apply Hsame; reflexivity.
    - right. pose proof (get_put b (store s) c) as Ep. destruct (mem_put b (store s)) as [m r] eqn:Em.
      assert (Hr : exists x, r = RPut x (match mget repo_cid_eqb (b_cid b) (store s) with None => true | Some _ => false end)) by (unfold mem_put in Em; destruct (mget repo_cid_eqb (b_cid b) (store s)); injection Em as _ <-; eauto).
      destruct Hr as (x & ->). cbn [fst store puts] in *. rewrite Ep. destruct Hs as [Hs|(t & k & Ht & Hk)].
      + rewrite Hs. destruct (repo_cid_eqb_hash c (b_cid b)) as [E|E]; [|left; reflexivity]. right. exists (length (puts s)), b. split; [|apply Ha; congruence].
        rewrite nth_error_app2, Nat.sub_diag by lia. cbn. rewrite <- (get_same_hash _ _ _ E), Hs. reflexivity.
      + right. exists t, k. split; [apply nth_snoc_old; exact Ht|exact Hk].
    - destruct (nth_error (puts s) t) as [[b [|]|]|] eqn:Et; try (apply Hsame; reflexivity).
      + destruct Hs as [Hs|(t' & k & Ht & Hk)]; [right; left; exact Hs|]. destruct (Nat.eqb_spec t t') as [->|Hne]; [left; exists t', k; auto|].
        right. right. exists t', k. cbn [fst puts]. rewrite (nth_set t _ _ _ t' Et). destruct (Nat.eqb_spec t t'); [congruence|auto].
      + destruct Hs as [Hs|(t' & k & Ht & Hk)]; [right; left; exact Hs|]. right. right. exists t', k. cbn [fst puts]. rewrite (nth_set t _ _ _ t' Et). destruct (Nat.eqb_spec t t') as [->|]; [congruence|auto].
    - right. destruct Hs as [Hs|Hs]; [left|right; exact Hs]. unfold mem_remove. cbn [fst store].
      assert (Hd : forall m : list (cid * block), mget repo_cid_eqb c m = None -> mget repo_cid_eqb c (mdel repo_cid_eqb c' m) = None).
      { clear. induction m as [|[k v] m IH]; [reflexivity|]. cbn [mget]. destruct (repo_cid_eqb c k) eqn:E; [discriminate|]. intros H. unfold mdel in *. cbn [filter fst].
        destruct (repo_cid_eqb c' k); cbn [negb mget]; [apply IH; exact H|]. rewrite E. apply IH. exact H. }
      destruct (mget repo_cid_eqb c' (store s)); cbn [fst]; auto.
    - destruct Ha.
    - destruct Ha.
  Qed.

  Lemma served_step h a : ~ In ShutF h -> calm a -> served (grun h) -> served (grun (h ++ [a])).
  Proof.
    intros Hsh Ha HS. rewrite grun_snoc. destruct HS as [(v & Hv & Hc)|[(Hg & v & Hv)|(Hg & Hw & Hs)]].
    - left. exists v. split; [apply answered_stays; exact Hv|exact Hc].
    - destruct (match a with PollG g' _ => (g' =? g) | _ => false end) eqn:Ea.
      + destruct a as [| | |g' w| | | | | | |]; try discriminate. apply Nat.eqb_eq in Ea. subst g'. left. exists v. destruct (decided_block h v Hv) as [Hc _]. split; [|exact Hc].
        cbn [GetPut.gstep]. rewrite Hg. cbn zeta. rewrite poll_ans, Hv. cbn [poll_answer fst gets]. rewrite (nth_set g _ _ _ g Hg), Nat.eqb_refl. reflexivity.
      + right. left. destruct (step_gets debug (grun h) a g c i Hg) as [E|[->|(w & -> & _)]]; [|cbn in Ha; congruence|rewrite Nat.eqb_refl in Ea; discriminate].
        split; [exact E|]. exists v. destruct (step_past debug (grun h) a) as [->|(x & -> & Hx & Hs1 & _)]; [exact Hv|].
        apply frame_decided; [exact Hv| |intros ->; rewrite (Hs1 eq_refl) in Ha; exact Ha].
        apply (untouched debug h a g c i x Hg Hx). destruct a; auto. apply Nat.eqb_neq in Ea. exact Ea.
    - destruct (calm_store (grun h) a Ha Hs) as [(t & k & -> & Ht & Hk)|Hs'].
      + right. left. destruct (finish_decides debug h g c i t k Hg Hsh Ht Hk) as (v & Hg' & Hl & _). rewrite grun_snoc in Hg', Hl. eauto.
      + destruct Hw as [w0 Hw]. assert (Hg' : nth_error (gets (fst (gstep (grun h) a))) g = Some (Subscribed c i)).
        { destruct (step_gets debug (grun h) a g c i Hg) as [E|[->|(w & -> & E)]]; [exact E|cbn in Ha; congruence|]. rewrite Hw in E. cbn in E. congruence. }
        destruct (match a with PollG g' _ => (g' =? g) | _ => false end) eqn:Ea.
        * destruct a as [| | |g' w| | | | | | |]; try discriminate. apply Nat.eqb_eq in Ea. subst g'. right. right. split; [exact Hg'|]. split; [|exact Hs'].
          cbn [GetPut.gstep]. rewrite Hg. cbn zeta. rewrite poll_ans, Hw. cbn [poll_answer fst past life_of]. rewrite Nat.eqb_refl, Hw. eauto.
        * destruct (step_past debug (grun h) a) as [E|(x & E & Hx & Hs1 & Hf)].
          { right. right. rewrite E. eauto. }
          assert (Hu : ~ touches i x) by (apply (untouched debug h a g c i x Hg Hx); destruct a; auto; apply Nat.eqb_neq in Ea; exact Ea).
          destruct (match x with Finish k _ => cid_eqb k c | _ => false end) eqn:Ex.
          { destruct x as [| | |k v| | | |]; try discriminate. destruct (cid_eqb_spec k c) as [->|]; [|discriminate]. right. left. split; [exact Hg'|]. exists v. rewrite E. cbn [life_of]. rewrite Hw.
            destruct (cid_eqb_spec c c); [reflexivity|congruence]. }
          right. right. split; [exact Hg'|]. split; [|exact Hs']. rewrite E. apply frame_wait; [eauto|exact Hu|intros ->; rewrite (Hs1 eq_refl) in Ha; exact Ha|].
          intros v ->. destruct (cid_eqb_spec c c); [discriminate|congruence].
  Qed.
  Lemma served_run h q : nth_error (gets (grun h)) g = Some (Subscribed c i) -> mget repo_cid_eqb c (store (grun h)) = None ->
    ~ In ShutF h -> Forall calm q -> served (grun (h ++ q)).
  Proof.
    intros Hg Hst Hsh. induction q as [|a q IH] using rev_ind; intros Hq.
    - rewrite app_nil_r. right. pose proof (g_sub _ _ (grun_gi debug h) _ _ _ Hg) as Hl. pose proof (unflagged_life _ i (past_flag debug h Hsh)) as Hu.
      destruct (lives (past (grun h)) i) as [| |k n w|k v|k|k|k|k n w l|] eqn:El; cbn in Hl; try contradiction.
      + right. destruct Hl as [-> ->]. split; [exact Hg|]. split; [eauto|]. left. exact Hst.
      + left. subst k. eauto.
    - apply Forall_app in Hq as [Hq Ha]. inversion Ha; subst. rewrite app_assoc. apply served_step; auto.
      intros Hin. apply in_app_or in Hin as [Hin|Hin]; [auto|]. rewrite Forall_forall in Hq. exact (Hq _ Hin).
  Qed.
  Lemma answered_put h v : nth_error (gets (grun h)) g = Some (Answered (Ok v)) -> In (StorePut v) h.
  Proof.
    revert v. induction h as [|a h IH] using rev_ind; intros v; [destruct g; discriminate|]. rewrite grun_snoc. intros E. apply in_or_app.
    assert (Hold : nth_error (gets (grun h)) g = Some (Answered (Ok v)) -> In (StorePut v) h \/ In (StorePut v) [a]) by (intros X; left; apply IH; exact X).
    destruct a as [c'|g'|g'|g' w|g'|g'|b|t|c'| |]; cbn [GetPut.gstep] in E; try (apply Hold; exact E).
    - unfold mem_get in E. destruct (mget repo_cid_eqb c' (store (grun h))) eqn:Em; cbn [fst gets] in E; apply nth_snoc in E as [E|[_ E]]; try (apply Hold; exact E); try discriminate.
      injection E as ->. left. exact (proj2 (found_hash debug h _ _ Em)).
    - destruct (nth_error (gets (grun h)) g') as [[]|] eqn:Eg; try (apply Hold; exact E). rewrite begin_ans in E. cbn [fst gets] in E. rewrite (nth_set g' _ _ _ g Eg) in E. destruct (g' =? g); [discriminate|apply Hold; exact E].
    - destruct (nth_error (gets (grun h)) g') as [[]|] eqn:Eg; try (apply Hold; exact E). cbn [fst gets] in E. rewrite (nth_set g' _ _ _ g Eg) in E. destruct (g' =? g); [discriminate|apply Hold; exact E].
    - destruct (nth_error (gets (grun h)) g') as [[| |c1 i1| |]|] eqn:Eg; try (apply Hold; exact E). cbn zeta in E. rewrite poll_ans in E.
      pose proof (g_sub _ _ (grun_gi debug h) _ _ _ Eg) as Hl. destruct (lives (past (grun h)) i1) as [| |k n w0|k v0|k|k|k|k n w0 l|] eqn:El; cbn in Hl; try contradiction; cbn [poll_answer fst gets] in E; try (apply Hold; exact E);
        rewrite (nth_set g' _ _ _ g Eg) in E; (destruct (g' =? g); [|apply Hold; exact E]); try discriminate. injection E as ->.
      destruct (decided_from cid_eqb cid_eqb_spec _ _ _ _ El) as (q & p0 & n & w' & Ep & _). left.
      apply (g_past _ _ (grun_gi debug h) k v). rewrite Ep. apply in_or_app. right. left. reflexivity.
    - destruct (nth_error (gets (grun h)) g') as [[]|] eqn:Eg; try (apply Hold; exact E). cbn [fst gets] in E. rewrite (nth_set g' _ _ _ g Eg) in E. destruct (g' =? g); [discriminate|apply Hold; exact E].
    - destruct (nth_error (gets (grun h)) g') as [[]|] eqn:Eg; apply Hold; exact E.
    - unfold mem_put in E. destruct (mget repo_cid_eqb (b_cid b) (store (grun h))); apply Hold; exact E.
    - destruct (nth_error (puts (grun h)) t) as [[b [|]|]|]; apply Hold; exact E.
  Qed.
  Lemma served_answer h q : nth_error (gets (grun h)) g = Some (Subscribed c i) -> mget repo_cid_eqb c (store (grun h)) = None ->
    ~ In ShutF h -> Forall calm q -> mget repo_cid_eqb c (store (grun (h ++ q))) <> None ->
    (forall t k, nth_error (puts (grun (h ++ q))) t <> Some (Stored k true)) ->
    exists v, b_cid v = c /\ In (StorePut v) (h ++ q) /\
      (nth_error (gets (grun (h ++ q))) g = Some (Answered (Ok v)) \/
       (nth_error (gets (grun (h ++ q))) g = Some (Subscribed c i) /\ forall w, gout_of debug (h ++ q) (PollG g w) = GAnswer (Ok v))).
  Proof.
    intros Hg Hst Hsh Hq Hhas Hp. destruct (served_run h q Hg Hst Hsh Hq) as [(v & Hv & Hc)|[(Hg' & v & Hv)|(_ & _ & [Hs|(t & k & Ht & _)])]].
    - exists v. split; [exact Hc|]. split; [apply answered_put; exact Hv|left; exact Hv].
    - destruct (decided_block _ v Hv) as [Hc Hin]. exists v. split; [exact Hc|]. split; [exact Hin|]. right. split; [exact Hg'|].
      intros w. rewrite (poll_subscribed debug _ g c i w Hg'), Hv. reflexivity.
    - congruence.
    - exfalso. exact (Hp t k Ht).
  Qed.
End Wait.
