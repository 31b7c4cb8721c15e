(** Lemmas about what calls of get_block are answered when nodes exchange blocks. *)
From Verif Require Import Base Wire Cid FMap BlockSpec MemBlocks MemBlocksProofs SubsSpec Subs SubsProofs GetPut GetPutProofs GetPutMore BitswapMsg BitswapMsgSpec BitswapMsgProofs Bitswap BitswapSpec BitswapProofs BitswapMore BitswapPeers Exchange ExchangeSpec ExchangeProofs ExchangePipe ExchangeArrive.
Local Open Scope N_scope.

Lemma from_to b : from_repo (to_repo b) = b.
Proof. destruct b. reflexivity. Qed.
Lemma to_from b : to_repo (from_repo b) = b.
Proof. destruct b. reflexivity. Qed.
Lemma inbound_digest hasher s m : upgrade_inbound hasher s = Some m -> msg_P (digest_of hasher) m.
Proof.
  unfold upgrade_inbound, msg_P. destruct (read_varint64 s) as [[n r]|]; [|discriminate]. destruct (max_buf_size <? n); [discriminate|]. destruct (n <=? blen r); [|discriminate]. apply received_digest.
Qed.

Section Answers.
  Variable hasher : N -> option (bytes -> bytes).
  Variable debug : bool.
  Variables (Q : cid -> Prop) (P : block -> Prop) (B : bitswap -> Prop) (H : message -> Prop).
  Notation world_ok := (world_ok debug Q P B H).
  Lemma look_answer w n c k : world_ok w -> snd (wstep hasher debug w (WRepo n (Look c))) = Some (GAnswer (Ok k)) ->
    cid_hash (BlockSpec.b_cid k) = cid_hash c /\ P (from_repo k).
  Proof.
    intros [HW _] E. destruct (HW n) as [_ _ (hg & Er & Hg) _ _]. cbn [wstep] in E. unfold node_repo in E. rewrite Er in E. cbn [gstep] in E. unfold mem_get in E.
    destruct (mget repo_cid_eqb c (store (grun debug hg))) as [k'|] eqn:Em; cbn [snd] in E; [|discriminate]. injection E as ->.
    destruct (found_hash debug hg c k Em) as [H1 H2]. split; [exact H1|]. rewrite Forall_forall in Hg. exact (Hg _ H2).
  Qed.
  Lemma poll_answered w n g wk c i k : world_ok w -> call w n g = Some (Subscribed c i) -> snd (wstep hasher debug w (WRepo n (PollG g wk))) = Some (GAnswer (Ok k)) ->
    BlockSpec.b_cid k = c /\ P (from_repo k).
  Proof.
    intros [HW _] Hc E. destruct (HW n) as [_ _ (hg & Er & Hg) _ _]. cbn [wstep] in E. unfold node_repo in E. destruct (negb (existsb (Nat.eqb g) (n_asked (w_node w n)))); [discriminate|].
    destruct (gstep debug (n_repo (w_node w n)) (PollG g wk)) as [r o] eqn:Eg. cbn [snd] in E. injection E as ->. unfold call in Hc. rewrite Er in Hc, Eg.
    pose proof (poll_subscribed debug hg g c i wk Hc) as Ep. unfold gout_of in Ep. rewrite Eg in Ep. cbn [snd] in Ep.
    pose proof (g_sub _ _ (grun_gi debug hg) _ _ _ Hc) as Hl. destruct (lives (past (grun debug hg)) i) as [| | |c' v| | | | |] eqn:El; try discriminate. injection Ep as ->. cbn in Hl. subst c'.
    destruct (decided_block debug c i hg v El) as [H1 H2]. split; [exact H1|]. rewrite Forall_forall in Hg. exact (Hg _ H2).
  Qed.
End Answers.

Section Calls.
  Variable hasher : N -> option (bytes -> bytes).
  Variable debug : bool.
  Notation wstep := (wstep hasher debug).
  Notation wrun := (wrun hasher debug).

  (** Whatever peers send. *)
  Definition digest_world : world -> Prop := world_ok debug (fun _ => True) (digest_of hasher) (fun _ => True) (fun _ => True).
  Lemma digest_run h : (forall n b, put_at n b h -> digest_of hasher (from_repo b)) -> digest_world (wrun h).
  Proof.
    intros Hp. apply world_run; auto.
    - intros s o s' act _ _ _ _. split; [exact Logic.I|]. destruct act as [[]|]; exact Logic.I.
    - intros m m' _ _ _ E. eapply inbound_digest. exact E.
    - apply Forall_forall. intros o Ho. destruct o as [n a| | | | | | | | |n p bs]; cbn; try exact Logic.I.
      + destruct a; try exact Logic.I. apply (Hp n). exact Ho.
      + intros m E. eapply inbound_digest. exact E.
  Qed.

  (** All peers run this code. *)
  Definition put_P (H : list wop) (b : block) : Prop := block_ok hasher b /\ exists n, put_at n (to_repo b) H.
  Definition put_world (H : list wop) : world -> Prop := world_ok debug wf_cid (put_P H) (state_ok hasher) (honest hasher).
  Lemma put_run H h : no_forging h -> Forall (fair_caller hasher) h -> incl h H -> put_world H (wrun h).
  Proof.
    intros H1 H2 Hi. apply world_run.
    - intros b Hb. apply Hb.
    - split; constructor.
    - intros s o s' act E HQ HP HS. apply (good_B hasher s o s' act E HQ); [|exact HS]. destruct o; cbn in *; try exact Logic.I; [apply HP|]. unfold msg_P in *. eapply Forall_impl; [|exact HP]. intros x Hx. apply Hx.
    - intros m m' Hm HP Hl E. destruct (honest_send hasher m Hm Hl m' E) as (_ & _ & Eb). unfold msg_P. rewrite <- Eb. exact HP.
    - apply Forall_forall. intros o Ho. unfold no_forging in H1. rewrite Forall_forall in H1, H2. specialize (H1 _ Ho). specialize (H2 _ Ho).
      destruct o as [n a| | | | | | | | |]; cbn in *; try exact Logic.I; [|destruct H1]. destruct a; try exact Logic.I; try exact H2. split; [exact H2|]. exists n. rewrite to_from. apply Hi. exact Ho.
  Qed.

  (** The steps of the repo of a node: those of its callers, and the blocks it received. *)
  Definition from_here (n : peer) (H : list wop) (q : list wop) (x : gact) : Prop :=
    In (WRepo n x) q \/ exists k, x = StorePut (to_repo k) /\ put_P H k.
  Lemma repo_history H n h q hg : no_forging (h ++ q) -> Forall (fair_caller hasher) (h ++ q) -> incl (h ++ q) H -> n_repo (w_node (wrun h) n) = grun debug hg ->
    exists qg, n_repo (w_node (wrun (h ++ q)) n) = grun debug (hg ++ qg) /\ Forall (from_here n H q) qg.
  Proof.
    intros H1 H2 Hi Eh. induction q as [|o q IH] using rev_ind.
    - exists []. rewrite !app_nil_r. split; [exact Eh|constructor].
    - rewrite app_assoc in H1, H2, Hi |- *. unfold no_forging in *. apply Forall_app in H1 as [H1 _]. apply Forall_app in H2 as [H2 _].
      assert (Hi' : incl (h ++ q) H) by (intros x Hx; apply Hi; apply in_or_app; auto). destruct (IH H1 H2 Hi') as (qg & E & HF).
      assert (HF' : Forall (from_here n H (q ++ [o])) qg) by (eapply Forall_impl; [|exact HF]; intros x [Hx|Hx]; [left; apply in_or_app; auto|right; exact Hx]).
      rewrite wrun_snoc. destruct (repo_of_step hasher debug (wrun (h ++ q)) o n) as [->|[(g & -> & ->)|(k & -> & Hk)]].
      + eauto.
      + exists (qg ++ [g]). rewrite app_assoc, grun_snoc, <- E. split; [reflexivity|]. apply Forall_app. split; [exact HF'|]. constructor; [|constructor]. left. apply in_or_app. right. left. reflexivity.
      + exists (qg ++ [StorePut (to_repo k)]). rewrite app_assoc, grun_snoc, <- E. split; [reflexivity|]. apply Forall_app. split; [exact HF'|]. constructor; [|constructor]. right. exists k. split; [reflexivity|].
        destruct (put_run H (h ++ q) H1 H2 Hi') as [HW _]. pose proof (k_tasks _ _ _ _ _ (HW n)) as Ht. rewrite Forall_forall in Ht. exact (Ht _ Hk).
  Qed.

  Variables a b : peer.
  Variable c : cid.
  Variable g : nat.
  (** The call on [b] has not told the background task yet, or that one has not told bitswap yet. *)
  Definition asking (w : world) : Prop :=
    (~ In g (n_asked (w_node w b)) /\ exists i, call w b g = Some (Subscribed c i)) \/ In (EWant c) (n_chan (w_node w b)).
  Lemma want_there w : connected w b a -> n_chan (w_node w b) <> [] -> hd_error (n_chan (w_node w b)) = Some (EWant c) -> want_waits (fst (wstep w (WBack b))) b a c.
  Proof.
    intros Hc _ Hh. unfold want_waits. cbn [Exchange.wstep fst]. rewrite set_same. unfold node_back. destruct (n_chan (w_node w b)) as [|e r]; [discriminate Hh|]. cbn in Hh. injection Hh as ->. cbn [n_bs with_chan with_bs].
    unfold connected in Hc. destruct (get_peer a (n_bs (w_node w b))) as [l|] eqn:El; [|congruence].
    exists (m_want_block c 1 (l_message l)). split.
    - apply waiting_in. right. exists (with_message (m_want_block c 1 (l_message l)) l). split; [|reflexivity].
      unfold want_block, get_peer. cbn [b_peers with_wanted with_peers]. unfold get_peer in El. revert El. generalize (b_peers (n_bs (w_node w b))). intros m. unfold each_ledger.
      induction m as [|[p l0] m IH]; [discriminate|]. cbn [map mget fst snd]. destruct (a =? p); [intros [= ->]; reflexivity|exact IH].
    - unfold wants, m_want_block. cbn [m_want]. rewrite (mget_mset _ cid_eqb_spec). destruct (cid_eqb_spec c c); [discriminate|congruence].
  Qed.
  Lemma asking_step w o : good_world hasher debug w -> connected w b a -> call_stays b g o -> asking w ->
    asking (fst (wstep w o)) \/ want_waits (fst (wstep w o)) b a c.
  Proof.
    intros HG Hc Hst [(Hn & i & Hi)|Hin].
    - assert (Hcall : call (fst (wstep w o)) b g = Some (Subscribed c i)).
      { assert (Hsame : forall x, n_repo x = n_repo (w_node w b) -> nth_error (gets (n_repo x)) g = Some (Subscribed c i)) by (intros x ->; exact Hi).
        destruct (match o with WRepo m (PollG g' _) => (m =? b) && (g' =? g)%nat | _ => false end) eqn:Ep.
        - destruct o as [m [| | |g' wk| | | | | | |]| | | | | | | | |]; try discriminate. apply andb_true_iff in Ep as [Em Eg]. apply N.eqb_eq in Em. apply Nat.eqb_eq in Eg. subst m g'.
          cbn [Exchange.wstep]. unfold node_repo. assert (Hf : existsb (Nat.eqb g) (n_asked (w_node w b)) = false).
          { destruct (existsb _ _) eqn:E; [|reflexivity]. exfalso. apply existsb_exists in E as (x & Hx & Ex). apply Nat.eqb_eq in Ex. subst x. exact (Hn Hx). }
          rewrite Hf. cbn [negb fst]. unfold call. rewrite set_same. exact Hi.
        - unfold call. destruct (repo_of_step hasher debug w o b) as [E|[(x & -> & E)|(k & E & _)]]; rewrite E.
          + exact Hi.
          + destruct (step_gets debug _ x g c i Hi) as [E'|[->|(wk & -> & _)]]; [exact E'| |].
            * exfalso. apply Hst. auto.
            * rewrite N.eqb_refl, Nat.eqb_refl in Ep. discriminate.
          + destruct (step_gets debug _ (StorePut (to_repo k)) g c i Hi) as [E'|[E'|(wk & E' & _)]]; [exact E'|discriminate|discriminate]. }
      destruct (existsb (Nat.eqb g) (n_asked (w_node (fst (wstep w o)) b))) eqn:Ee.
      + left. right. apply existsb_exists in Ee as (x & Hx & Ex). apply Nat.eqb_eq in Ex. subst x.
        destruct o as [n x|n g'|n|n j|n order|n p|n p|j|j|n p bs]; cbn [Exchange.wstep] in Hx |- *.
        * exfalso. destruct (node_repo debug (w_node w n) x) as [y out] eqn:E. cbn [fst] in Hx. destruct (N.eqb_spec b n) as [->|Hne]; [|rewrite set_other in Hx by exact Hne; auto]. rewrite set_same in Hx.
          apply Hn. unfold node_repo in E. destruct (match x with PollG g _ => _ | _ => _ end); [injection E as <- <-; exact Hx|]. destruct (gstep debug _ x). injection E as <- <-. exact Hx.
        * cbn [fst] in *. destruct (N.eqb_spec b n) as [->|Hne]; [|exfalso; rewrite set_other in Hx by exact Hne; auto]. rewrite set_same in *. unfold node_ask in *.
          destruct (nth_error (gets (n_repo (w_node w n))) g') as [[| |c1 i1| |]|] eqn:Eg; try (exfalso; exact (Hn Hx)). destruct (existsb (Nat.eqb g') (n_asked (w_node w n))); [exfalso; exact (Hn Hx)|].
          cbn [n_asked n_chan with_chan with_asked] in *. destruct Hx as [->|Hx]; [|exfalso; exact (Hn Hx)]. unfold call in Hi. rewrite Hi in Eg. injection Eg as <- <-. apply in_or_app. right. left. reflexivity.
        * exfalso. cbn [fst] in Hx. destruct (N.eqb_spec b n) as [->|Hne]; [|rewrite set_other in Hx by exact Hne; auto]. rewrite set_same in Hx. apply Hn. unfold node_back in Hx. destruct (n_chan (w_node w n)) as [|[]]; exact Hx.
        * exfalso. cbn [fst] in Hx. destruct (N.eqb_spec b n) as [->|Hne]; [|rewrite set_other in Hx by exact Hne; auto]. rewrite set_same in Hx. apply Hn. unfold node_task in Hx.
          destruct (nth_error (n_tasks (w_node w n)) j) as [[k|p c1|c1]|]; try exact Hx. unfold mem_get in Hx. destruct (mget repo_cid_eqb c1 _); exact Hx.
        * exfalso. destruct (node_poll n (w_node w n) order) as [x l] eqn:E. cbn [fst] in Hx. destruct (N.eqb_spec b n) as [->|Hne]; [|rewrite set_other in Hx by exact Hne; auto]. rewrite set_same in Hx. apply Hn. unfold node_poll in E.
          destruct (poll order (n_bs (w_node w n))) as [y [[q|q z|[q k|q c1 z|q c1]]|]]; injection E as <- _; exact Hx.
        * exfalso. cbn [fst] in Hx. destruct (N.eqb_spec b n) as [->|Hne]; [|rewrite set_other in Hx by exact Hne; auto]. rewrite set_same in Hx. exact (Hn Hx).
        * exfalso. cbn [fst] in Hx. destruct (N.eqb_spec b n) as [->|Hne]; [|rewrite set_other in Hx by exact Hne; auto]. rewrite set_same in Hx. exact (Hn Hx).
        * exfalso. destruct (nth_error (w_net w) j) as [[[p n] s]|]; [|exact (Hn Hx)]. destruct (is_up w n p); [|exact (Hn Hx)]. cbn [fst] in Hx. destruct (N.eqb_spec b n) as [->|Hne]; [|rewrite set_other in Hx by exact Hne; auto]. rewrite set_same in Hx.
          apply Hn. unfold node_hear in Hx. destruct (upgrade_inbound hasher s); [|exact Hx]. destruct (received p _ _); exact Hx.
        * exact (False_ind _ (Hn Hx)).
        * exfalso. destruct (is_up w n p); [|exact (Hn Hx)]. cbn [fst] in Hx. destruct (N.eqb_spec b n) as [->|Hne]; [|rewrite set_other in Hx by exact Hne; auto]. rewrite set_same in Hx.
          apply Hn. unfold node_hear in Hx. destruct (upgrade_inbound hasher bs); [|exact Hx]. destruct (received p _ _); exact Hx.
      + left. left. split; [|eauto]. intros Hx. assert (Ht : existsb (Nat.eqb g) (n_asked (w_node (fst (wstep w o)) b)) = true) by (apply existsb_exists; exists g; split; [exact Hx|apply Nat.eqb_refl]). congruence.
    - assert (Hmv : (exists r, o = WBack b /\ n_chan (w_node w b) = EWant c :: r) \/ In (EWant c) (n_chan (w_node (fst (wstep w o)) b))).
      { destruct o as [n x|n g'|n|n j|n order|n p|n p|j|j|n p bs]; cbn [Exchange.wstep].
        - right. destruct (node_repo debug (w_node w n) x) as [y out] eqn:E. cbn [fst]. destruct (N.eqb_spec b n) as [->|Hne]; [|rewrite set_other by exact Hne; auto]. rewrite set_same.
          unfold node_repo in E. destruct (match x with PollG g _ => _ | _ => _ end); [injection E as <- <-; exact Hin|]. destruct (gstep debug _ x). injection E as <- <-. apply in_or_app. auto.
        - right. cbn [fst]. destruct (N.eqb_spec b n) as [->|Hne]; [|rewrite set_other by exact Hne; auto]. rewrite set_same. unfold node_ask.
          destruct (nth_error (gets (n_repo (w_node w n))) g') as [[]|]; try exact Hin. destruct (existsb (Nat.eqb g') (n_asked (w_node w n))); [exact Hin|]. apply in_or_app. auto.
        - cbn [fst]. destruct (N.eqb_spec b n) as [->|Hne]; [|right; rewrite set_other by exact Hne; auto]. rewrite set_same. unfold node_back.
          destruct (n_chan (w_node w n)) as [|e r] eqn:Ec; [destruct Hin|]. destruct Hin as [->|Hin]; [left; eauto|]. right. destruct e; exact Hin.
        - right. cbn [fst]. destruct (N.eqb_spec b n) as [->|Hne]; [|rewrite set_other by exact Hne; auto]. rewrite set_same. unfold node_task.
          destruct (nth_error (n_tasks (w_node w n)) j) as [[k|p c1|c1]|]; try exact Hin; [unfold mem_get; destruct (mget repo_cid_eqb c1 _); exact Hin|]. apply in_or_app. auto.
        - right. destruct (node_poll n (w_node w n) order) as [x l] eqn:E. cbn [fst]. destruct (N.eqb_spec b n) as [->|Hne]; [|rewrite set_other by exact Hne; auto]. rewrite set_same. unfold node_poll in E.
          destruct (poll order (n_bs (w_node w n))) as [y [[q|q z|[q k|q c1 z|q c1]]|]]; injection E as <- _; exact Hin.
        - right. cbn [fst]. destruct (N.eqb_spec b n) as [->|Hne]; [|rewrite set_other by exact Hne; auto]. rewrite set_same. exact Hin.
        - right. cbn [fst]. destruct (N.eqb_spec b n) as [->|Hne]; [|rewrite set_other by exact Hne; auto]. rewrite set_same. exact Hin.
        - right. destruct (nth_error (w_net w) j) as [[[p n] s]|]; [|exact Hin]. destruct (is_up w n p); [|exact Hin]. cbn [fst]. destruct (N.eqb_spec b n) as [->|Hne]; [|rewrite set_other by exact Hne; auto]. rewrite set_same.
          unfold node_hear. destruct (upgrade_inbound hasher s); [|exact Hin]. destruct (received p _ _); exact Hin.
        - right. exact Hin.
        - right. destruct (is_up w n p); [|exact Hin]. cbn [fst]. destruct (N.eqb_spec b n) as [->|Hne]; [|rewrite set_other by exact Hne; auto]. rewrite set_same.
          unfold node_hear. destruct (upgrade_inbound hasher bs); [|exact Hin]. destruct (received p _ _); exact Hin. }
      destruct Hmv as [(r & -> & Er)|Hmv]; [right|left; right; exact Hmv]. apply want_there; [exact Hc|rewrite Er; discriminate|rewrite Er; reflexivity].
  Qed.

  Lemma asked_run h q k : a <> b -> no_forging (h ++ q) -> Forall (fair_caller hasher) (h ++ q) -> steady hasher debug a b c h q -> Forall (call_stays b g) q ->
    connected (wrun h) b a -> has (wrun h) a c = Some k -> BlockSpec.b_cid k = c -> ~ wants_itself (wrun h) a c -> asking (wrun h) \/ stage hasher a b c (wrun h) ->
    let w := wrun (h ++ q) in (asking w \/ stage hasher a b c w) /\ connected w b a /\ has w a c = Some k /\ ~ wants_itself w a c.
  Proof.
    intros Hab. induction q as [|o q IH] using rev_ind; intros Hf Hfair HS HD Hc Hk Ek Hn St; cbn zeta.
    - rewrite app_nil_r. auto.
    - rewrite app_assoc in Hf, Hfair |- *. unfold no_forging in *. apply Forall_app in Hf as [Hf Hfo]. apply Forall_app in Hfair as [Hfair _]. apply Forall_app in HD as [HD Hdo]. inversion Hdo as [|? ? Hdo' _]; subst.
      apply steady_snoc in HS as [HS HSo]. destruct (IH Hf Hfair HS HD Hc Hk Ek Hn St) as (St' & Hc' & Hk' & Hn').
      rewrite wrun_snoc. pose proof (good_run hasher debug (h ++ q) Hf Hfair) as HG. split; [|split; [|split]].
      + destruct St' as [St'|St']; [|right; eapply stage_step; eauto]. destruct (asking_step _ o HG Hc' Hdo' St') as [X|X]; [left; exact X|right; apply s_want; exact X].
      + apply (connected_stays hasher debug a b c); auto. right. auto.
      + apply (has_stays hasher debug a b); auto.
      + eapply unwanting_stays; eauto.
  Qed.
  Lemma quiet_asking w : quiet w a b -> ~ asking w.
  Proof.
    intros (_ & (B1 & _ & _ & _ & _ & _ & B7) & _) [(Hn & i & Hi)|Hin].
    - specialize (B7 g). rewrite Hi in B7. exact (Hn B7).
    - rewrite B1 in Hin. destruct Hin.
  Qed.

  Lemma fetched h q k i : a <> b -> no_forging (h ++ q) -> Forall (fair_caller hasher) (h ++ q) -> steady hasher debug a b c h q ->
    (forall n x, put_at n x (h ++ q) -> cid_hash (BlockSpec.b_cid x) = cid_hash c -> BlockSpec.b_cid x = c) ->
    ~ In (WRepo b ShutF) h -> Forall (call_stays b g) q ->
    connected (wrun h) b a -> has (wrun h) a c = Some k -> ~ wants_itself (wrun h) a c ->
    call (wrun h) b g = Some (Subscribed c i) -> ~ In g (n_asked (w_node (wrun h) b)) -> has (wrun h) b c = None ->
    quiet (wrun (h ++ q)) a b ->
    exists v, BlockSpec.b_cid v = c /\ digest_of hasher (from_repo v) /\ (exists n, put_at n v (h ++ q)) /\
      (call (wrun (h ++ q)) b g = Some (Answered (Ok v)) \/ forall wk, wanswer hasher debug (h ++ q) (WRepo b (PollG g wk)) = Some (GAnswer (Ok v))).
  Proof.
    intros Hab Hf Hfair HS Hcol Hsh HD Hc Hk Hn Hg Hna Hb HQ.
    assert (Hf1 : no_forging h) by (unfold no_forging in *; apply Forall_app in Hf; apply Hf).
    assert (Hfair1 : Forall (fair_caller hasher) h) by (apply Forall_app in Hfair; apply Hfair).
    assert (Hih : incl h (h ++ q)) by (intros x Hx; apply in_or_app; auto).
    assert (Ek : BlockSpec.b_cid k = c).
    { destruct (put_run (h ++ q) h Hf1 Hfair1 Hih) as [HW _]. pose proof (stored_P _ _ _ _ _ _ _ (HW a) Hk) as [_ (n & Hp)]. rewrite to_from in Hp. apply (Hcol _ _ Hp).
      destruct (HW a) as [_ _ (hg & Er & _) _ _]. unfold has in Hk. rewrite Er in Hk. exact (proj1 (found_hash debug hg c k Hk)). }
    destruct (asked_run h q k Hab Hf Hfair HS HD Hc Hk Ek Hn (or_introl (or_introl (conj Hna (ex_intro _ i Hg))))) as (St & Hc' & _ & _).
    destruct St as [St|St]; [exfalso; exact (quiet_asking _ HQ St)|]. pose proof (quiet_stage hasher a b c _ Hc' HQ St) as Hhas.
    (* the repo of [b] *)
    destruct (repo_history (h ++ q) b [] h []) as (hg & Eh & HFh); [exact Hf1|exact Hfair1|exact Hih|reflexivity|]. cbn [app] in Eh, HFh.
    destruct (repo_history (h ++ q) b h q hg) as (qg & Eq & HFq); [exact Hf|exact Hfair|apply incl_refl|exact Eh|].
    unfold call, has in Hg, Hb, Hhas |- *. rewrite Eh in Hg, Hb. rewrite Eq in Hhas |- *.
    destruct (served_answer debug c g i hg qg Hg Hb) as (v & Hv & Hput & Hans).
    - intros Hin. rewrite Forall_forall in HFh. destruct (HFh _ Hin) as [X|(x & [=] & _)]. exact (Hsh X).
    - eapply Forall_impl; [|rewrite Forall_forall in HFq; apply Forall_forall; exact HFq]. intros x [Hx|(y & -> & Hy)].
      + rewrite Forall_forall in HD. specialize (HD _ Hx). destruct x as [c'|g'|g'|g' w|g'|g'|b'|t|c'| |]; cbn in *; try exact Logic.I.
        * intros ->. apply HD. auto.
        * intros E. apply (Hcol b); [|exact E]. apply in_or_app. right. exact Hx.
        * congruence.
        * congruence.
      + cbn. destruct Hy as [_ (n & Hy)]. exact (Hcol n _ Hy).
    - exact Hhas.
    - intros t x E. destruct HQ as (_ & (_ & _ & _ & _ & _ & B6 & _) & _). apply (B6 t x true). rewrite Eq. exact E.
    - exists v. split; [exact Hv|]. assert (HP : put_P (h ++ q) (from_repo v)).
      { apply in_app_or in Hput as [Hput|Hput].
        - rewrite Forall_forall in HFh. destruct (HFh _ Hput) as [X|(y & [= ->] & Hy)]; [|rewrite from_to; exact Hy]. rewrite Forall_forall in Hfair. pose proof (Hfair _ (Hih _ X)) as Hfv.
          split; [exact Hfv|]. exists b. rewrite to_from. apply Hih. exact X.
        - rewrite Forall_forall in HFq. destruct (HFq _ Hput) as [X|(y & [= ->] & Hy)]; [|rewrite from_to; exact Hy]. rewrite Forall_forall in Hfair. pose proof (Hfair _ (in_or_app _ _ _ (or_intror X))) as Hfv.
          split; [exact Hfv|]. exists b. rewrite to_from. apply in_or_app. right. exact X. }
      destruct HP as [[_ Hdig] (n & Hn')]. rewrite to_from in Hn'. split; [exact Hdig|]. split; [eauto|].
      destruct Hans as [Hans|[Hg' Hans]]; [left; exact Hans|right]. intros wk. unfold wanswer. cbn [Exchange.wstep]. unfold node_repo.
      destruct HQ as (_ & (_ & _ & _ & _ & _ & _ & B7) & _). specialize (B7 g). unfold call in B7. rewrite Eq, Hg' in B7.
      assert (Hex : existsb (Nat.eqb g) (n_asked (w_node (wrun (h ++ q)) b)) = true) by (apply existsb_exists; exists g; split; [exact B7|apply Nat.eqb_refl]). rewrite Hex. cbn [negb].
      rewrite Eq. specialize (Hans wk). unfold gout_of in Hans. destruct (gstep debug (grun debug (hg ++ qg)) (PollG g wk)) as [r o]. cbn [snd] in *. rewrite Hans. reflexivity.
  Qed.
End Calls.
