(** Lemmas about the statistics: the invariants. *)
From Verif Require Import Base Wire Cid FMap BlockSpec MemBlocks BitswapMsg Bitswap BitswapSpec BitswapProofs Exchange ExchangePipe Transfers TransfersSpec TransfersProofs.
From Coq Require Import Permutation.
Local Open Scope N_scope.

Definition spawn (a : option action) : list (peer * stage) := match a with Some (Report (ReceivedBlock p b)) => [(p, Storing b)] | _ => [] end.
Definition shown (a : option action) : Transfers.out := match a with Some a => Acted a | None => Quiet end.
Definition opened_counts (o : Bitswap.op) (l : list (peer * counts)) : list (peer * counts) :=
  match o with OEstablished p _ => match mget N.eqb p l with Some _ => l | None => mset N.eqb p counts0 l end | _ => l end.

(** What a step does, case by case. *)
Inductive does (s : node) : Transfers.op -> node -> Transfers.out -> Prop :=
| D_nothing o : match o with PutBlock _ | RemoveBlock _ => False | _ => True end -> does s o s Quiet
| D_swarm o b a : n_read s = None -> Bitswap.step (n_bs s) o = Some (b, a) ->
    match a with Some (Report (ReceivedBlock p _)) => has_stats p b | _ => True end ->
    does s (Swarm o) (mk_node b (n_store s) (opened_counts o (n_counts s)) (n_jobs s ++ spawn a) None) (shown a)
| D_fault i p b j1 j2 : n_jobs s = j1 ++ (p, Storing b) :: j2 -> does s (Job i true) (with_jobs (j1 ++ j2) s) (Kept p b None)
| D_store i p b j1 j2 m x : n_jobs s = j1 ++ (p, Storing b) :: j2 -> mem_put (to_repo b) (n_store s) = (m, RPut (b_cid b) x) ->
    does s (Job i false) (with_jobs (j1 ++ (p, CountBlock x (blen (b_data b))) :: j2) (with_store m s)) (Kept p b (Some x))
| D_block i y p x n j1 j2 : n_jobs s = j1 ++ (p, CountBlock x n) :: j2 ->
    does s (Job i y) (with_jobs (j1 ++ (p, CountData x n) :: j2) (with_counts (at_counts p (add_block x) (n_counts s)) s)) (CountedBlock p x)
| D_data i y p x n j1 j2 : n_jobs s = j1 ++ (p, CountData x n) :: j2 ->
    does s (Job i y) (with_jobs (j1 ++ j2) (with_counts (at_counts p (add_data x n) (n_counts s)) s)) (CountedData p x n)
| D_put b : does s (PutBlock b) (with_store (fst (mem_put b (n_store s))) s) Quiet
| D_remove c : does s (RemoveBlock c) (with_store (fst (mem_remove c (n_store s))) s) Quiet
| D_begin order : n_read s = None -> is_order order (map fst (b_stats (n_bs s))) = true ->
    does s (Begin order) (with_read (Some (mk_reading (plan order) (fun _ => 0))) s) Started
| D_load p f l t : n_read s = Some (mk_reading ((p, f) :: l) t) ->
    does s Load (with_read (Some (mk_reading l (fun g => if field_eqb f g then fetch_add (t g) (load s p f) else t g))) s) Quiet
| D_report t : n_read s = Some (mk_reading [] t) ->
    does s Load (with_read None s) (Reported (mk_report (t SentBlocks) (t SentData) (t GotBlocks) (t GotData) (t DupBlocks) (t DupData)
                            (map fst (b_peers (n_bs s))) (local_wantlist (n_bs s)))).

Lemma mem_put_answer b m m' r : mem_put b m = (m', r) -> exists x, r = RPut (BlockSpec.b_cid b) x.
Proof. unfold mem_put. destruct (mget repo_cid_eqb (BlockSpec.b_cid b) m); intros [= <- <-]; eexists; reflexivity. Qed.

Lemma step_does s o s' a : Transfers.step s o = Some (s', a) -> does s o s' a.
Proof.
  intros S.
  destruct o as [o|i y|b|c|order|]; cbn [Transfers.step] in S.
  - destruct (n_read s) eqn:R; [assert (s' = s /\ a = Quiet) as [-> ->] by (split; congruence); constructor; exact I|].
    destruct (Bitswap.step (n_bs s) o) as [[b x]|] eqn:B; [|discriminate].
    set (s1 := match o with OEstablished p _ => _ | _ => with_bs b s end) in S.
    assert (E : s1 = mk_node b (n_store s) (opened_counts o (n_counts s)) (n_jobs s) None).
    { unfold s1, opened_counts, with_bs, with_counts. cbn [n_bs n_counts n_store n_jobs n_read]. rewrite R. destruct o; try reflexivity. destruct (mget N.eqb p (n_counts s)); reflexivity. }
    clearbody s1. subst s1. cbn zeta in S. destruct x as [[p|p m|e]|].
    + assert (s' = mk_node b (n_store s) (opened_counts o (n_counts s)) (n_jobs s ++ spawn (Some (Dial p))) None /\ a = shown (Some (Dial p))) as [-> ->] by (split; cbn [spawn shown]; rewrite ?app_nil_r; congruence). constructor; auto.
    + assert (s' = mk_node b (n_store s) (opened_counts o (n_counts s)) (n_jobs s ++ spawn (Some (Notify p m))) None /\ a = shown (Some (Notify p m))) as [-> ->] by (split; cbn [spawn shown]; rewrite ?app_nil_r; congruence). constructor; auto.
    + destruct (node_event b e) as [u|] eqn:Ne; [|discriminate].
      assert (s' = mk_node b (n_store s) (opened_counts o (n_counts s)) (n_jobs s ++ spawn (Some (Report e))) None) as ->
        by (apply (f_equal (fun x => match x with Some (y, _) => y | None => s end)) in S; rewrite <- S; destruct e; cbn [spawn]; rewrite ?app_nil_r; reflexivity).
      assert (a = shown (Some (Report e))) as -> by (apply (f_equal (fun x => match x with Some (_, y) => y | None => Quiet end)) in S; rewrite <- S; reflexivity).
      constructor; auto. destruct e as [p k|p c z|p c]; auto. unfold node_event in Ne. destruct (mget N.eqb p (b_stats b)) as [v|] eqn:G; [|discriminate]. apply (mget_in _ N.eqb_spec) in G. exact (in_map fst _ _ G).
    + assert (s' = mk_node b (n_store s) (opened_counts o (n_counts s)) (n_jobs s ++ spawn None) None /\ a = shown None) as [-> ->] by (split; cbn [spawn shown]; rewrite ?app_nil_r; congruence). constructor; auto.
  - destruct (nth_error (n_jobs s) i) as [[p [b|x n|x n]]|] eqn:E.
    + destruct (replace_split _ _ _ E) as (j1 & j2 & J & Rp). rewrite !Rp in S. destruct y.
      * assert (s' = with_jobs (j1 ++ j2) s /\ a = Kept p b None) as [-> ->] by (split; cbn [app] in S; congruence). econstructor. exact J.
      * destruct (mem_put (to_repo b) (n_store s)) as [m r] eqn:M. destruct (mem_put_answer _ _ _ _ M) as (x & ->). rewrite ?Rp in S. cbn [app] in S.
        assert (s' = with_jobs (j1 ++ (p, CountBlock x (blen (b_data b))) :: j2) (with_store m s)) as ->
          by (apply (f_equal (fun x => match x with Some (y, _) => y | None => s end)) in S; symmetry; exact S).
        assert (a = Kept p b (Some x)) as -> by (apply (f_equal (fun x => match x with Some (_, y) => y | None => Quiet end)) in S; symmetry; exact S). econstructor; [exact J|exact M].
    + destruct (replace_split _ _ _ E) as (j1 & j2 & J & Rp). rewrite !Rp in S. cbn [app] in S. 
      assert (s' = with_jobs (j1 ++ (p, CountData x n) :: j2) (with_counts (at_counts p (add_block x) (n_counts s)) s) /\ a = CountedBlock p x) as [-> ->] by (split; congruence). econstructor. exact J.
    + destruct (replace_split _ _ _ E) as (j1 & j2 & J & Rp). rewrite !Rp in S. cbn [app] in S. 
      assert (s' = with_jobs (j1 ++ j2) (with_counts (at_counts p (add_data x n) (n_counts s)) s) /\ a = CountedData p x n) as [-> ->] by (split; congruence). econstructor. exact J.
    + assert (s' = s /\ a = Quiet) as [-> ->] by (split; congruence). constructor; exact I.
  - assert (s' = with_store (fst (mem_put b (n_store s))) s /\ a = Quiet) as [-> ->] by (split; congruence). constructor.
  - assert (s' = with_store (fst (mem_remove c (n_store s))) s /\ a = Quiet) as [-> ->] by (split; congruence). constructor.
  - destruct (n_read s) eqn:R; [assert (s' = s /\ a = Quiet) as [-> ->] by (split; congruence); constructor; exact I|].
    destruct (is_order order (map fst (b_stats (n_bs s)))) eqn:O.
    + assert (s' = with_read (Some (mk_reading (plan order) (fun _ => 0))) s /\ a = Started) as [-> ->] by (split; congruence). constructor; assumption.
    + assert (s' = s /\ a = Quiet) as [-> ->] by (split; congruence). constructor; exact I.
  - destruct (n_read s) as [[[|[p f] l] t]|] eqn:R.
    + injection S as <- <-. constructor. exact R.
    + injection S as <- <-. constructor. exact R.
    + assert (s' = s /\ a = Quiet) as [-> ->] by (split; congruence). constructor; exact I.
Qed.

(** The counters are what was added to them, up to wrapping around. *)
Record counters (t : trace) (s : node) : Prop := {
  v_bs : bs_inv (n_bs s);
  v_keys : forall p, In p (map fst (n_counts s)) <-> has_stats p (n_bs s);
  v_jobs : forall j, In j (n_jobs s) -> has_stats (fst j) (n_bs s);
  v_count : forall f p, load s p f = tally f p t mod u64_max1;
  v_peers : forall f x, In x (contribs f t) -> has_stats (fst x) (n_bs s) }.

Lemma contribs_app f a b : contribs f (a ++ b) = contribs f a ++ contribs f b.
Proof. apply flat_map_app. Qed.
Lemma tally_snoc f p t e : tally f p (t ++ [e]) = tally f p t + for_peer p (contrib f e).
Proof. rewrite tally_app. unfold tally at 2, contribs. cbn [flat_map]. rewrite app_nil_r. reflexivity. Qed.
Lemma total_snoc f t e : total f (t ++ [e]) = total f t + sumN (map snd (contrib f e)).
Proof. rewrite total_app. unfold total at 2, contribs. cbn [flat_map]. rewrite app_nil_r. reflexivity. Qed.

(** A step which leaves the counters and adds nothing. *)
Lemma counters_same t s s' e : n_bs s' = n_bs s -> n_counts s' = n_counts s -> (forall j, In j (n_jobs s') -> exists j', In j' (n_jobs s) /\ fst j = fst j') ->
  (forall f, contrib f e = []) -> counters t s -> counters (t ++ [e]) s'.
Proof.
  intros E1 E2 J C [V1 V2 V3 V4 V5]. split; rewrite ?E1, ?E2; auto.
  - intros j Hj. destruct (J j Hj) as (j' & Hj' & ->). exact (V3 j' Hj').
  - intros f p. rewrite tally_snoc, C. unfold for_peer. cbn [filter map sumN]. rewrite N.add_0_r, <- (V4 f p). unfold load. rewrite E1, E2. reflexivity.
  - intros f x. rewrite contribs_app. unfold contribs at 2. cbn [flat_map]. rewrite C, !app_nil_r. apply V5.
Qed.

Lemma for_peer_one p q n : for_peer p [(q, n)] = if p =? q then n else 0.
Proof. unfold for_peer. cbn [filter fst]. destruct (p =? q); cbn [map snd sumN]; lia. Qed.
Lemma wrap_add a b : (a mod u64_max1 + b) mod u64_max1 = (a + b) mod u64_max1.
Proof. apply N.add_mod_idemp_l. discriminate. Qed.
Lemma field_eqb_eq f g : field_eqb f g = true <-> f = g.
Proof. destruct f, g; cbn; split; congruence. Qed.

Lemma counters_step t s o s' a : counters t s -> Transfers.step s o = Some (s', a) -> counters (t ++ [(o, a)]) s'.
Proof.
  intros V S. apply step_does in S. destruct S as [o H|o b a R B X|i p b j1 j2 J|i p b j1 j2 m x J M|i y p x n j1 j2 J|i y p x n j1 j2 J|b|c|order R O|p f l k R|k R].
  - apply (counters_same t s); auto; [intros j Hj; eauto|intros []; reflexivity].
  - destruct V as [V1 V2 V3 V4 V5]. destruct (bs_step _ _ _ _ B V1) as (W1 & W2 & W3 & W4 & W5).
    assert (L0 : forall p, get0 p (n_bs s) < u64_max1) by (intros p; change (get0 p (n_bs s)) with (load s p SentBlocks); rewrite V4; apply N.mod_lt; discriminate).
    split; cbn [n_bs n_store n_counts n_jobs n_read]; [exact W1| | | |].
    + intros p. rewrite W2, <- V2. unfold opened_counts. destruct o; try (split; [auto|intros [H|(k9 & H)]; [exact H|discriminate]]).
      destruct (mget N.eqb p0 (n_counts s)) eqn:G; [|rewrite keys_mset; split; [intros [->|H]; [right; eexists; reflexivity|left; exact H]|intros [H|(k' & [= -> _])]; auto]].
      split; [auto|]. intros [H|(k' & [= <- _])]; [exact H|]. apply (mget_in _ N.eqb_spec) in G. exact (in_map fst _ _ G).
    + intros j Hj. apply in_app_or in Hj. destruct Hj as [Hj|Hj]; [apply W2; left; exact (V3 j Hj)|]. destruct a as [[| |[p k| |]]|]; cbn [spawn] in Hj; try contradiction. destruct Hj as [<-|[]]. exact X.
    + intros f p. rewrite tally_snoc. destruct f.
      * change (load {| n_bs := b; n_store := n_store s; n_counts := opened_counts o (n_counts s); n_jobs := n_jobs s ++ spawn a; n_read := None |} p SentBlocks) with (get0 p b).
        rewrite <- (N.mod_small (get0 p b) u64_max1) by (apply W4, L0). rewrite W3. change (get0 p (n_bs s)) with (load s p SentBlocks). rewrite V4, wrap_add. f_equal. f_equal.
        destruct a as [[| |]|]; cbn [contrib shown snd gain]; try reflexivity. rewrite for_peer_one. reflexivity.
      * assert (C : contrib SentData (Swarm o, shown a) = []) by (destruct a as [[| |]|]; reflexivity). rewrite C. unfold for_peer. cbn [filter map sumN]. rewrite N.add_0_r, <- V4. unfold load. cbn [n_counts].
        unfold opened_counts. destruct o; try reflexivity. destruct (mget N.eqb p0 (n_counts s)) eqn:G; [reflexivity|]. rewrite (mget_mset _ N.eqb_spec). destruct (N.eqb_spec p p0) as [->|]; [rewrite G|]; reflexivity.
      * assert (C : contrib GotBlocks (Swarm o, shown a) = []) by (destruct a as [[| |]|]; reflexivity). rewrite C. unfold for_peer. cbn [filter map sumN]. rewrite N.add_0_r, <- V4. unfold load. cbn [n_counts].
        unfold opened_counts. destruct o; try reflexivity. destruct (mget N.eqb p0 (n_counts s)) eqn:G; [reflexivity|]. rewrite (mget_mset _ N.eqb_spec). destruct (N.eqb_spec p p0) as [->|]; [rewrite G|]; reflexivity.
      * assert (C : contrib GotData (Swarm o, shown a) = []) by (destruct a as [[| |]|]; reflexivity). rewrite C. unfold for_peer. cbn [filter map sumN]. rewrite N.add_0_r, <- V4. unfold load. cbn [n_counts].
        unfold opened_counts. destruct o; try reflexivity. destruct (mget N.eqb p0 (n_counts s)) eqn:G; [reflexivity|]. rewrite (mget_mset _ N.eqb_spec). destruct (N.eqb_spec p p0) as [->|]; [rewrite G|]; reflexivity.
      * assert (C : contrib DupBlocks (Swarm o, shown a) = []) by (destruct a as [[| |]|]; reflexivity). rewrite C. unfold for_peer. cbn [filter map sumN]. rewrite N.add_0_r, <- V4. unfold load. cbn [n_counts].
        unfold opened_counts. destruct o; try reflexivity. destruct (mget N.eqb p0 (n_counts s)) eqn:G; [reflexivity|]. rewrite (mget_mset _ N.eqb_spec). destruct (N.eqb_spec p p0) as [->|]; [rewrite G|]; reflexivity.
      * assert (C : contrib DupData (Swarm o, shown a) = []) by (destruct a as [[| |]|]; reflexivity). rewrite C. unfold for_peer. cbn [filter map sumN]. rewrite N.add_0_r, <- V4. unfold load. cbn [n_counts].
        unfold opened_counts. destruct o; try reflexivity. destruct (mget N.eqb p0 (n_counts s)) eqn:G; [reflexivity|]. rewrite (mget_mset _ N.eqb_spec). destruct (N.eqb_spec p p0) as [->|]; [rewrite G|]; reflexivity.
    + intros f x Hx. rewrite contribs_app in Hx. apply in_app_or in Hx. destruct Hx as [Hx|Hx]; [apply W2; left; exact (V5 f x Hx)|].
      unfold contribs in Hx. cbn [flat_map] in Hx. rewrite app_nil_r in Hx. destruct f, a as [[|p m|]|]; cbn [contrib shown snd] in Hx; try contradiction. destruct Hx as [<-|[]]. apply W2. left. exact W5.
  - apply (counters_same t s); auto; [|intros []; reflexivity]. cbn [n_jobs with_jobs]. rewrite J. intros j Hj. exists j. split; [|reflexivity]. rewrite in_app_iff in *. cbn [In]. tauto.
  - apply (counters_same t s); auto; [|intros []; reflexivity]. cbn [n_jobs with_jobs]. rewrite J. intros j Hj. rewrite in_app_iff in Hj. cbn [In] in Hj. destruct Hj as [Hj|[<-|Hj]];
      [exists j|exists (p, Storing b)|exists j]; (split; [|reflexivity]); rewrite in_app_iff; cbn [In]; tauto.
  - destruct V as [V1 V2 V3 V4 V5].
    assert (Hp : has_stats p (n_bs s)) by (apply (V3 (p, CountBlock x n)); rewrite J, in_app_iff; right; left; reflexivity).
    split; cbn [n_bs n_store n_counts n_jobs n_read with_jobs with_counts]; [exact V1|rewrite keys_at_counts; exact V2| | |].
    + intros j Hj. rewrite in_app_iff in Hj. cbn [In] in Hj. destruct Hj as [Hj|[<-|Hj]]; [|exact Hp|]; apply V3; rewrite J, in_app_iff; cbn [In]; tauto.
    + intros f q. rewrite tally_snoc. rewrite <- wrap_add, <- V4. pose proof (V4 f q) as L. unfold load in *. cbn [n_bs n_counts with_jobs with_counts]. rewrite get_at_counts.
      assert (G : mget N.eqb p (n_counts s) <> None) by (intros G; apply (mget_none _ N.eqb_spec) in G; apply G, V2, Hp).
      assert (W : forall u, u mod u64_max1 = (u mod u64_max1 + 0) mod u64_max1) by (intros u; rewrite N.add_0_r, N.mod_mod by discriminate; reflexivity).
      destruct f, x; cbn [contrib snd]; rewrite ?for_peer_one; unfold for_peer; cbn [filter map sumN];
        (destruct (N.eqb_spec q p) as [E|D]; [subst q|]); try (match type of L with context [mget N.eqb ?z (n_counts s)] => destruct (mget N.eqb z (n_counts s)) as [k|] eqn:Gk end); try contradiction;
        cbn [option_map add_block k_sent_data k_got k_got_data k_dup k_dup_data fetch_add]; try reflexivity; rewrite ?L; try (apply W); try reflexivity.
    + intros f z Hz. rewrite contribs_app in Hz. apply in_app_or in Hz. destruct Hz as [Hz|Hz]; [exact (V5 f z Hz)|].
      unfold contribs in Hz. cbn [flat_map] in Hz. rewrite app_nil_r in Hz. destruct f, x; cbn [contrib snd] in Hz; try contradiction; destruct Hz as [<-|[]]; exact Hp.
  - destruct V as [V1 V2 V3 V4 V5].
    assert (Hp : has_stats p (n_bs s)) by (apply (V3 (p, CountData x n)); rewrite J, in_app_iff; right; left; reflexivity).
    split; cbn [n_bs n_store n_counts n_jobs n_read with_jobs with_counts]; [exact V1|rewrite keys_at_counts; exact V2| | |].
    + intros j Hj. rewrite in_app_iff in Hj. apply V3; rewrite J, in_app_iff; cbn [In]; tauto.
    + intros f q. rewrite tally_snoc. rewrite <- wrap_add, <- V4. pose proof (V4 f q) as L. unfold load in *. cbn [n_bs n_counts with_jobs with_counts]. rewrite get_at_counts.
      assert (G : mget N.eqb p (n_counts s) <> None) by (intros G; apply (mget_none _ N.eqb_spec) in G; apply G, V2, Hp).
      assert (W : forall u, u mod u64_max1 = (u mod u64_max1 + 0) mod u64_max1) by (intros u; rewrite N.add_0_r, N.mod_mod by discriminate; reflexivity).
      destruct f, x; cbn [contrib snd]; rewrite ?for_peer_one; unfold for_peer; cbn [filter map sumN];
        (destruct (N.eqb_spec q p) as [E|D]; [subst q|]); try (match type of L with context [mget N.eqb ?z (n_counts s)] => destruct (mget N.eqb z (n_counts s)) as [k|] eqn:Gk end); try contradiction;
        cbn [option_map add_data k_sent_data k_got k_got_data k_dup k_dup_data fetch_add]; try reflexivity; rewrite ?L; try (apply W); try reflexivity.
    + intros f z Hz. rewrite contribs_app in Hz. apply in_app_or in Hz. destruct Hz as [Hz|Hz]; [exact (V5 f z Hz)|].
      unfold contribs in Hz. cbn [flat_map] in Hz. rewrite app_nil_r in Hz. destruct f, x; cbn [contrib snd] in Hz; try contradiction; destruct Hz as [<-|[]]; exact Hp.
  - apply (counters_same t s); auto; [intros j Hj; eauto|intros []; reflexivity].
  - apply (counters_same t s); auto; [intros j Hj; eauto|intros []; reflexivity].
  - apply (counters_same t s); auto; [intros j Hj; eauto|intros []; reflexivity].
  - apply (counters_same t s); auto; [intros j Hj; eauto|intros []; reflexivity].
  - apply (counters_same t s); auto; [intros j Hj; eauto|intros []; reflexivity].
Qed.
Lemma counters_ok h s t : Transfers.run node0 h = Some (s, t) -> counters t s.
Proof.
  apply run_inv; [|exact counters_step]. split.
  - split; [apply NoDup_nil|intros p []|intros a []].
  - intros p. split; intros [].
  - intros j [].
  - intros f p. destruct f; reflexivity.
  - intros f x Hx. destruct Hx.
Qed.

(** What the spawned tasks still have to do. *)
Definition f_block (x : bool) : field := if x then GotBlocks else DupBlocks.
Definition f_data (x : bool) : field := if x then GotData else DupData.
Definition owes_block (x : bool) (j : peer * stage) : N := match snd j with CountBlock y _ => if Bool.eqb y x then 1 else 0 | _ => 0 end.
Definition owes_data (x : bool) (j : peer * stage) : N := match snd j with CountBlock y n | CountData y n => if Bool.eqb y x then n else 0 | _ => 0 end.
Definition owes_end (x : bool) (j : peer * stage) : N := match snd j with CountData y _ => if Bool.eqb y x then 1 else 0 | _ => 0 end.
Definition stores (j : peer * stage) : list (peer * block) := match snd j with Storing b => [(fst j, b)] | _ => [] end.
Definition owed (w : peer * stage -> N) (l : list (peer * stage)) : N := sumN (map w l).
Record tasks (t : trace) (s : node) : Prop := {
  w_block : forall x, number (kept x t) = total (f_block x) t + owed (owes_block x) (n_jobs s);
  w_data : forall x, bytes_in (kept x t) = total (f_data x) t + owed (owes_data x) (n_jobs s);
  w_fin : forall x, sumN (finished x t) = total (f_data x) t;
  w_fins : forall x, blen (finished x t) + owed (owes_end x) (n_jobs s) = total (f_block x) t;
  w_end : length (received_blocks t) = (ended t + length (n_jobs s))%nat;
  w_tried : Permutation (received_blocks t) (tried t ++ flat_map stores (n_jobs s)) }.

Lemma owed_app w a b : owed w (a ++ b) = owed w a + owed w b.
Proof. unfold owed. rewrite map_app. apply sumN_app. Qed.
Lemma owed_cons w a b : owed w (a :: b) = w a + owed w b.
Proof. reflexivity. Qed.
Lemma flat_snoc {A B} (f : A -> list B) l x : flat_map f (l ++ [x]) = flat_map f l ++ f x.
Proof. rewrite flat_map_app. cbn [flat_map]. rewrite app_nil_r. reflexivity. Qed.
Lemma bytes_app a b : bytes_in (a ++ b) = bytes_in a + bytes_in b.
Proof. unfold bytes_in. rewrite map_app. apply sumN_app. Qed.
Lemma number_app a b : number (a ++ b) = number a + number b.
Proof. apply blen_app. Qed.
Lemma ended_snoc t e : ended (t ++ [e]) = (ended t + match snd e with Kept _ _ None => 1 | CountedData _ _ _ => 1 | _ => 0 end)%nat.
Proof. unfold ended. rewrite filter_app, app_length. cbn [filter]. destruct (snd e) as [| |p b [y|]| | | |]; reflexivity. Qed.

Lemma tasks_same t s s' e : n_jobs s' = n_jobs s -> match snd e with Kept _ _ _ | CountedBlock _ _ | CountedData _ _ _ | Acted (Report (ReceivedBlock _ _)) => False | _ => True end ->
  tasks t s -> tasks (t ++ [e]) s'.
Proof.
  intros J H [W1 W2 W3 W4 W5 W6].
  assert (T : forall x, total (f_block x) (t ++ [e]) = total (f_block x) t /\ total (f_data x) (t ++ [e]) = total (f_data x) t).
  { intros x. rewrite !total_snoc. destruct e as [o a]. cbn [snd] in H. destruct x, a as [|[| |[]]| | | | |]; try contradiction; cbn [f_block f_data contrib snd map sumN]; lia. }
  assert (K : forall x, kept x (t ++ [e]) = kept x t) by (intros x; unfold kept; rewrite flat_snoc; destruct e as [o a]; cbn [snd] in *; destruct a; try contradiction; apply app_nil_r).
  assert (F : forall x, finished x (t ++ [e]) = finished x t) by (intros x; unfold finished; rewrite flat_snoc; destruct e as [o a]; cbn [snd] in *; destruct a; try contradiction; apply app_nil_r).
  assert (R : received_blocks (t ++ [e]) = received_blocks t) by (unfold received_blocks; rewrite flat_snoc; destruct e as [o a]; cbn [snd] in *; destruct a as [|[| |[]]| | | | |]; try contradiction; apply app_nil_r).
  assert (Y : tried (t ++ [e]) = tried t) by (unfold tried; rewrite flat_snoc; destruct e as [o a]; cbn [snd] in *; destruct a; try contradiction; apply app_nil_r).
  assert (N : ended (t ++ [e]) = ended t) by (rewrite ended_snoc; destruct e as [o a]; cbn [snd] in *; destruct a; try contradiction; lia).
  split; intros; try destruct (T x) as [T1 T2]; rewrite ?K, ?F, ?R, ?Y, ?N, ?T1, ?T2, ?J; auto.
Qed.

Lemma tasks_step t s o s' a : tasks t s -> Transfers.step s o = Some (s', a) -> tasks (t ++ [(o, a)]) s'.
Proof.
  intros V S. apply step_does in S. destruct S as [o H|o b a R B X|i p b j1 j2 J|i p b j1 j2 m x J M|i y p x n j1 j2 J|i y p x n j1 j2 J|b|c|order R O|p f l k R|k R];
    try (apply (tasks_same t s); [reflexivity|exact I|exact V]).
  - destruct a as [[q|q m|[q k|q c z|q c]]|]; try (apply (tasks_same t s); [cbn [n_jobs spawn]; apply app_nil_r|exact I|exact V]).
    destruct V as [W1 W2 W3 W4 W5 W6]. split; cbn [n_jobs spawn shown]; intros; unfold kept, finished, received_blocks, tried; rewrite ?flat_snoc, ?total_snoc, ?ended_snoc, ?owed_app, ?app_length; cbn [snd length];
      rewrite ?app_nil_r; fold (received_blocks t) (tried t); try fold (kept x t); try fold (finished x t).
    + destruct x; cbn [f_block contrib snd map sumN owed owes_block]; rewrite (W1 _); cbn [f_block]; unfold owed; cbn [map owes_block snd sumN]; lia.
    + destruct x; cbn [f_data contrib snd map sumN]; rewrite (W2 _); cbn [f_data]; unfold owed; cbn [map owes_data snd sumN]; lia.
    + destruct x; cbn [f_data contrib snd map sumN]; rewrite (W3 _); cbn [f_data]; lia.
    + pose proof (W4 x) as W. destruct x; cbn [f_block contrib snd map sumN] in *; unfold owed in *; cbn [map owes_end snd sumN]; lia.
    + lia.
    + cbn [stores snd fst]. rewrite app_assoc. apply Permutation_app_tail. exact W6.
  - destruct V as [W1 W2 W3 W4 W5 W6]. rewrite J in *. split; cbn [n_jobs with_jobs]; intros; unfold kept, finished, received_blocks, tried; rewrite ?flat_snoc, ?total_snoc, ?ended_snoc; cbn [snd]; rewrite ?app_nil_r;
      fold (received_blocks t) (tried t); try fold (kept x t); try fold (finished x t).
    + rewrite (W1 _), !owed_app, owed_cons. destruct x; cbn [f_block contrib snd map sumN owes_block]; lia.
    + rewrite (W2 _), !owed_app, owed_cons. destruct x; cbn [f_data contrib snd map sumN owes_data]; lia.
    + rewrite (W3 _). destruct x; cbn [f_data contrib snd map sumN]; lia.
    + pose proof (W4 x) as W. rewrite !owed_app, owed_cons in *. destruct x; cbn [f_block contrib snd map sumN owes_end] in *; lia.
    + rewrite W5, !app_length. cbn [length]. lia.
    + rewrite W6, !flat_map_app. cbn [flat_map stores snd fst app]. rewrite <- !app_assoc. apply Permutation_app_head. cbn [app]. symmetry. apply Permutation_middle.
  - destruct V as [W1 W2 W3 W4 W5 W6]. rewrite J in *. split; cbn [n_jobs with_jobs with_store]; intros; unfold kept, finished, received_blocks, tried; rewrite ?flat_snoc, ?total_snoc, ?ended_snoc; cbn [snd]; rewrite ?app_nil_r;
      fold (received_blocks t) (tried t); try fold (kept x0 t); try fold (finished x0 t).
    + rewrite number_app, (W1 _), !owed_app, !owed_cons. destruct x0, x; cbn [f_block contrib snd map sumN owes_block Bool.eqb]; unfold number, blen; cbn [length]; lia.
    + rewrite bytes_app, (W2 _), !owed_app, !owed_cons. unfold bytes_in. destruct x0, x; cbn [f_data contrib snd map sumN owes_data Bool.eqb]; lia.
    + rewrite (W3 _). destruct x0; cbn [f_data contrib snd map sumN]; lia.
    + pose proof (W4 x0) as W. rewrite !owed_app, !owed_cons in *. destruct x0; cbn [f_block contrib snd map sumN owes_end] in *; lia.
    + rewrite W5, !app_length. cbn [length]. lia.
    + rewrite W6, !flat_map_app. cbn [flat_map stores snd fst app]. rewrite <- !app_assoc. apply Permutation_app_head. cbn [app]. symmetry. apply Permutation_middle.
  - destruct V as [W1 W2 W3 W4 W5 W6]. rewrite J in *. split; cbn [n_jobs with_jobs with_counts]; intros; unfold kept, finished, received_blocks, tried; rewrite ?flat_snoc, ?total_snoc, ?ended_snoc; cbn [snd]; rewrite ?app_nil_r;
      fold (received_blocks t) (tried t); try fold (kept x0 t); try fold (finished x0 t).
    + rewrite (W1 _), !owed_app, !owed_cons. destruct x0, x; cbn [f_block contrib snd map sumN owes_block Bool.eqb]; lia.
    + rewrite (W2 _), !owed_app, !owed_cons. destruct x0, x; cbn [f_data contrib snd map sumN owes_data Bool.eqb]; lia.
    + rewrite (W3 _). destruct x0, x; cbn [f_data contrib snd map sumN]; lia.
    + pose proof (W4 x0) as W. rewrite !owed_app, !owed_cons in *. destruct x0, x; cbn [f_block contrib snd map sumN owes_end Bool.eqb] in *; lia.
    + rewrite W5, !app_length. cbn [length]. lia.
    + rewrite W6, !flat_map_app. reflexivity.
  - destruct V as [W1 W2 W3 W4 W5 W6]. rewrite J in *. split; cbn [n_jobs with_jobs with_counts]; intros; unfold kept, finished, received_blocks, tried; rewrite ?flat_snoc, ?total_snoc, ?ended_snoc; cbn [snd]; rewrite ?app_nil_r;
      fold (received_blocks t) (tried t); try fold (kept x0 t); try fold (finished x0 t).
    + rewrite (W1 _), !owed_app, !owed_cons. destruct x0, x; cbn [f_block contrib snd map sumN owes_block Bool.eqb]; lia.
    + rewrite (W2 _), !owed_app, !owed_cons. destruct x0, x; cbn [f_data contrib snd map sumN owes_data Bool.eqb]; lia.
    + rewrite sumN_app, (W3 _). destruct x0, x; cbn [f_data contrib snd map sumN Bool.eqb]; lia.
    + pose proof (W4 x0) as W. rewrite blen_app, !owed_app, !owed_cons in *. destruct x0, x; cbn [f_block contrib snd map sumN owes_end Bool.eqb] in *; unfold blen in *; cbn [length] in *; lia.
    + rewrite W5, !app_length. cbn [length]. lia.
    + rewrite W6, !flat_map_app. reflexivity.
Qed.
Lemma tasks_ok h s t : Transfers.run node0 h = Some (s, t) -> tasks t s.
Proof. apply run_inv; [|exact tasks_step]. split; intros; try destruct x; try reflexivity. Qed.

(** The store. *)
Lemma holds_snoc h t e : holds h (t ++ [e]) = holds_step h (holds h t) e.
Proof. unfold holds. rewrite fold_left_app. reflexivity. Qed.
Definition stored_as (t : trace) (s : node) : Prop := forall c, is_some (mget repo_cid_eqb c (n_store s)) = holds (cid_hash c) t.
Lemma mh_eqb_sym a b : mh_eqb a b = mh_eqb b a.
Proof. destruct (mh_eqb_spec a b), (mh_eqb_spec b a); congruence. Qed.
Lemma put_holds b m c : is_some (mget repo_cid_eqb c (fst (mem_put b m))) = if mh_eqb (cid_hash (BlockSpec.b_cid b)) (cid_hash c) then true else is_some (mget repo_cid_eqb c m).
Proof.
  rewrite store_put. rewrite mh_eqb_sym. change (mh_eqb (cid_hash c) (cid_hash (BlockSpec.b_cid b))) with (repo_cid_eqb c (BlockSpec.b_cid b)).
  destruct (mget repo_cid_eqb c m), (repo_cid_eqb c (BlockSpec.b_cid b)); reflexivity.
Qed.
Lemma remove_holds c' m c : is_some (mget repo_cid_eqb c (fst (mem_remove c' m))) = if mh_eqb (cid_hash c') (cid_hash c) then false else is_some (mget repo_cid_eqb c m).
Proof.
  unfold mem_remove. destruct (mh_eqb_spec (cid_hash c') (cid_hash c)) as [E|E].
  - rewrite (mget_same_hash c c') by congruence. destruct (mget repo_cid_eqb c' m) eqn:G; cbn [fst]; [|rewrite G; reflexivity].
    assert (X : mget repo_cid_eqb c' (mdel repo_cid_eqb c' m) = None); [|rewrite X; reflexivity]. clear. unfold mdel. induction m as [|[k v] m IH]; [reflexivity|]. cbn [filter fst].
    destruct (repo_cid_eqb c' k) eqn:E; cbn [negb]; [exact IH|]. cbn [mget]. rewrite E. exact IH.
  - destruct (mget repo_cid_eqb c' m); cbn [fst]; [rewrite store_del by exact E|]; reflexivity.
Qed.
Lemma stored_step t s o s' a : stored_as t s -> Transfers.step s o = Some (s', a) -> stored_as (t ++ [(o, a)]) s'.
Proof.
  intros V S c. rewrite holds_snoc, <- (V c). apply step_does in S. destruct S as [o H|o b a R B X|i p b j1 j2 J|i p b j1 j2 m x J M|i y p x n j1 j2 J|i y p x n j1 j2 J|b|c'|order R O|p f l k R|k R]; try reflexivity.
  - destruct o; try contradiction; reflexivity.
  - cbn [n_store]. destruct a as [[]|]; reflexivity.
  - cbn [n_store with_jobs with_store holds_step]. apply (f_equal fst) in M. cbn [fst] in M. rewrite <- M. apply put_holds.
  - apply put_holds.
  - apply remove_holds.
Qed.
Lemma stored_ok h s t : Transfers.run node0 h = Some (s, t) -> stored_as t s.
Proof. apply run_inv; [|exact stored_step]. intros c. reflexivity. Qed.

(** A report under way since the trace [t1]. *)
Definition part (f : field) (l : list (peer * field)) (t : trace) : N := sumN (map (fun e => if field_eqb (snd e) f then tally f (fst e) t else 0) l).
Definition under_way (t1 t : trace) (keys : list peer) (r : reading) : Prop :=
  exists order done d, t = t1 ++ d /\ Permutation keys order /\ plan order = done ++ todo r /\
    forall f, exists n, part f done t1 <= n <= part f done t /\ sums r f = n mod u64_max1.

Lemma part_app f a b t : part f (a ++ b) t = part f a t + part f b t.
Proof. unfold part. rewrite map_app. apply sumN_app. Qed.
Lemma part_mono f l t e : part f l t <= part f l (t ++ [e]).
Proof.
  induction l as [|[p g] l IH]; [apply N.le_refl|]. unfold part in *. cbn [map sumN fst snd]. destruct (field_eqb g f); [rewrite tally_app|]; lia.
Qed.
Lemma part_plan f order t : part f (plan order) t = sumN (map (fun p => tally f p t) order).
Proof.
  unfold plan. induction order as [|p order IH]; [reflexivity|]. cbn [flat_map]. rewrite part_app, IH. cbn [map sumN]. f_equal. unfold part. cbn [map sumN fst snd].
  destruct f; cbn [field_eqb]; lia.
Qed.
Lemma sumN_perm a b : Permutation a b -> sumN a = sumN b.
Proof. induction 1; cbn [sumN]; lia. Qed.
Lemma total_keys f t s keys order : counters t s -> NoDup keys -> (forall p, has_stats p (n_bs s) -> In p keys) -> Permutation keys order -> part f (plan order) t = total f t.
Proof.
  intros V N K P. rewrite part_plan. rewrite <- (sumN_perm _ _ (Permutation_map (fun p => tally f p t) P)). apply sum_over; [exact N|]. intros x Hx. apply K. exact (v_peers _ _ V f x Hx).
Qed.

(** While a report is under way, bitswap rests. *)
Lemma reading_steps t2 : forall s s' (t1 t : trace) r, counters t s -> (forall o, ~ In (o, Started) t2) -> n_read s = Some r -> under_way t1 t (map fst (b_stats (n_bs s))) r ->
  Transfers.run s (map fst t2) = Some (s', t2) ->
  (n_bs s' = n_bs s /\ sent t2 = [] /\ received_blocks t2 = [] /\ (forall o x, ~ In (o, Reported x) t2) /\ exists r', n_read s' = Some r' /\ under_way t1 (t ++ t2) (map fst (b_stats (n_bs s))) r') \/
  exists a r' b, t2 = a ++ (Load, Reported r') :: b.
Proof.
  induction t2 as [|[o a] t2 IH]; intros s s' t1 t r V NS R U Run.
  - cbn in Run. injection Run as <-. left. repeat split; try reflexivity; [intros o x []|]. exists r. rewrite app_nil_r. auto.
  - cbn [map fst Transfers.run] in Run. destruct (Transfers.step s o) as [[s1 a']|] eqn:S; [|discriminate]. destruct (Transfers.run s1 (map fst t2)) as [[s2 t']|] eqn:E; [|discriminate].
    cbn [option_map fst snd] in Run. assert (s2 = s' /\ a' = a /\ t' = t2) as (-> & -> & ->) by (repeat split; congruence). clear Run.
    pose proof (counters_step _ _ _ _ _ V S) as V'. apply step_does in S.
    assert (NS' : forall o, ~ In (o, Started) t2) by (intros o' Ho; apply (NS o'); right; exact Ho).
    assert (Go : n_bs s1 = n_bs s -> match a with Acted (Notify _ _) | Acted (Report _) | Reported _ => False | _ => True end -> (exists r1, n_read s1 = Some r1 /\ under_way t1 (t ++ [(o, a)]) (map fst (b_stats (n_bs s1))) r1) ->
      (n_bs s' = n_bs s /\ sent ((o, a) :: t2) = [] /\ received_blocks ((o, a) :: t2) = [] /\ (forall o' x, ~ In (o', Reported x) ((o, a) :: t2)) /\
        exists r', n_read s' = Some r' /\ under_way t1 (t ++ (o, a) :: t2) (map fst (b_stats (n_bs s))) r') \/ exists a0 r' b, (o, a) :: t2 = a0 ++ (Load, Reported r') :: b).
    { intros Eb Ha (r1 & R1 & U1). destruct (IH _ _ _ _ _ V' NS' R1 U1 E) as [(X1 & X2 & X3 & X5 & r' & X4 & X6)|(x & r' & y & ->)].
      - left. rewrite Eb in *. split; [exact X1|]. unfold sent, received_blocks in *. cbn [flat_map snd]. rewrite X2, X3. split; [|split; [|split]].
        + destruct a as [|[| |[]]| | | | |]; try contradiction; reflexivity.
        + destruct a as [|[| |[]]| | | | |]; try contradiction; reflexivity.
        + intros o' x [[= <- ->]|Hi]; [exact Ha|exact (X5 o' x Hi)].
        + exists r'. split; [exact X4|]. rewrite <- app_assoc in X6. exact X6.
      - right. exists ((o, a) :: x), r', y. reflexivity. }
    assert (Keep : forall r1, todo r1 = todo r -> sums r1 = sums r -> under_way t1 (t ++ [(o, a)]) (map fst (b_stats (n_bs s))) r1).
    { intros r1 E1 E2. destruct U as (order & done & d & -> & P & D & F). exists order, done, (d ++ [(o, a)]). split; [rewrite app_assoc; reflexivity|]. split; [exact P|]. rewrite E1, E2. split; [exact D|]. intros f. destruct (F f) as (n & Hn & Es). exists n. split; [|exact Es]. pose proof (part_mono f done (t1 ++ d) (o, a)). lia. }
    inversion S; subst; try congruence.
    all: try (apply Go; [reflexivity|exact I|exists r; split; [exact R|apply Keep; reflexivity]]).
    + assert (Er : r = {| todo := (p, f) :: l; sums := t0 |}) by congruence. subst r. apply Go; [reflexivity|exact I|]. eexists. split; [reflexivity|].
      destruct U as (order & done & d & -> & P & D & F). exists order, (done ++ [(p, f)]), (d ++ [(Load, Quiet)]). split; [rewrite app_assoc; reflexivity|]. split; [exact P|]. split; [rewrite <- app_assoc; exact D|].
      intros g. destruct (F g) as (n & Hn & Es). cbn [sums] in *. rewrite !part_app. unfold part at 2 4. cbn [map sumN fst snd]. pose proof (part_mono g done (t1 ++ d) (Load, Quiet)).
      destruct (field_eqb f g) eqn:Eg.
      * apply field_eqb_eq in Eg. subst g. exists (n + tally f p (t1 ++ d)). rewrite !tally_app, !N.add_0_r. split; [lia|].
        rewrite <- tally_app. rewrite (v_count _ _ V), Es. unfold fetch_add. rewrite N.add_mod by discriminate. rewrite !N.mod_mod by discriminate. rewrite <- N.add_mod by discriminate. reflexivity.
      * exists n. split; [lia|exact Es].
    + right. eexists [], _, t2. reflexivity.
Qed.

(** No report ends unless one was begun. *)
Lemma no_reading t : forall s s', n_read s = None -> (forall o, ~ In (o, Started) t) -> Transfers.run s (map fst t) = Some (s', t) -> forall o r, ~ In (o, Reported r) t.
Proof.
  induction t as [|[o a] t IH]; intros s s' R NS Run o' r Hi; [destruct Hi|].
  cbn [map fst Transfers.run] in Run. destruct (Transfers.step s o) as [[s1 a']|] eqn:S; [|discriminate]. destruct (Transfers.run s1 (map fst t)) as [[s2 t']|] eqn:E; [|discriminate].
  cbn [option_map fst snd] in Run. assert (s2 = s' /\ a' = a /\ t' = t) as (-> & -> & ->) by (repeat split; congruence). clear Run. apply step_does in S.
  assert (X : n_read s1 = None /\ forall r, a <> Reported r).
  { inversion S; subst; try congruence; try (split; [first [exact R|reflexivity]|discriminate]).
    - split; [reflexivity|]. destruct a0; discriminate.
    - exfalso. apply (NS (Begin order)). left. reflexivity. }
  destruct X as [X1 X2]. destruct Hi as [[= <- ->]|Hi]; [exact (X2 r eq_refl)|]. refine (IH _ _ X1 _ E _ _ Hi). intros o'' Ho. apply (NS o''). right. exact Ho.
Qed.

Definition shows (r : report) (f : field) : N :=
  match f with
  | SentBlocks => blocks_sent r | SentData => data_sent r | GotBlocks => blocks_received r | GotData => data_received r
  | DupBlocks => dup_blks_received r | DupData => dup_data_received r
  end.
Lemma is_order_perm order keys : NoDup keys -> is_order order keys = true -> Permutation keys order.
Proof.
  intros N H. unfold is_order in H. apply andb_true_iff in H. destruct H as [H1 H2]. apply Nat.eqb_eq in H1. apply NoDup_Permutation_bis; [exact N|lia|].
  intros p Hp. rewrite forallb_forall in H2. specialize (H2 p Hp). apply existsb_exists in H2. destruct H2 as (q & Hq & E). apply N.eqb_eq in E. subst q. exact Hq.
Qed.

(** A report. *)
Lemma report_ok h s t1 order t2 r : Transfers.run node0 h = Some (s, t1 ++ (Begin order, Started) :: t2 ++ [(Load, Reported r)]) -> (forall o, ~ In (o, Started) t2) ->
  sent t2 = [] /\ received_blocks t2 = [] /\
  (forall f, exists n, total f t1 <= n <= total f (t1 ++ t2) /\ shows r f = n mod u64_max1) /\
  exists s1, Transfers.run node0 (map fst t1) = Some (s1, t1) /\ r_peers r = map fst (b_peers (n_bs s1)) /\ r_wantlist r = local_wantlist (n_bs s1).
Proof.
  intros Run NS. destruct (run_split _ _ _ _ _ Run) as (s1 & R1 & R2). cbn [map fst Transfers.run] in R2.
  destruct (Transfers.step s1 (Begin order)) as [[s2 a]|] eqn:S; [|discriminate].
  destruct (Transfers.run s2 (map fst (t2 ++ [(Load, Reported r)]))) as [[s3 t']|] eqn:E; [|discriminate]. cbn [option_map fst snd] in R2.
  assert (s3 = s /\ a = Started /\ t' = t2 ++ [(Load, Reported r)]) as (-> & -> & ->) by (repeat split; congruence). clear R2.
  destruct (run_split _ _ _ _ _ E) as (s4 & R4 & R5).
  pose proof (counters_ok _ _ _ R1) as V1. pose proof (counters_step _ _ _ _ _ V1 S) as V2. apply step_does in S. inversion S as [| | | | | | | |x RN O| |]; subst.
  set (s2 := with_read (Some {| todo := plan order; sums := fun _ => 0 |}) s1) in *. pose proof (is_order_perm _ _ (bi_nodup _ (v_bs _ _ V1)) O) as P.
  assert (U : under_way (t1 ++ [(Begin order, Started)]) (t1 ++ [(Begin order, Started)]) (map fst (b_stats (n_bs s2))) {| todo := plan order; sums := fun _ => 0 |}).
  { exists order, [], []. split; [rewrite app_nil_r; reflexivity|]. split; [exact P|]. split; [reflexivity|]. intros f. exists 0. split; [cbn; lia|reflexivity]. }
  cbn [map fst Transfers.run] in R5. destruct (Transfers.step s4 Load) as [[s5 a]|] eqn:S5; [|discriminate]. cbn [option_map fst snd] in R5. assert (s5 = s /\ a = Reported r) as [-> ->] by (split; congruence). clear R5.
  destruct (reading_steps _ _ _ _ _ _ V2 NS eq_refl U R4) as [(X1 & X2 & X3 & _ & r' & X4 & X5)|(x & r' & y & ->)].
  - split; [exact X2|]. split; [exact X3|]. apply step_does in S5. inversion S5 as [| | | | | | | | | |k Rk]; subst.
    rewrite X4 in Rk. injection Rk as ->. destruct X5 as (ord & done & d & _ & P' & D & F). cbn [todo] in D. rewrite app_nil_r in D. subst done. cbn [shows sums] in *.
    split; [|exists s1; split; [exact R1|]; cbn [r_peers r_wantlist]; rewrite X1; split; reflexivity].
    assert (K1 : forall f, part f (plan ord) (t1 ++ [(Begin order, Started)]) = total f t1).
    { intros f. rewrite (total_keys f _ s2 _ ord V2 (bi_nodup _ (v_bs _ _ V2)) (fun p Hp => Hp) P'), total_snoc. destruct f; cbn [contrib snd map sumN]; lia. }
    destruct (run_split _ _ _ _ _ Run) as (s1' & _ & _).
    assert (R6 : Transfers.run node0 (map fst ((t1 ++ [(Begin order, Started)]) ++ t2)) = Some (s4, (t1 ++ [(Begin order, Started)]) ++ t2)).
    { replace (t1 ++ (Begin order, Started) :: t2 ++ [(Load, Reported (mk_report (k SentBlocks) (k SentData) (k GotBlocks) (k GotData) (k DupBlocks) (k DupData) (map fst (b_peers (n_bs s4))) (local_wantlist (n_bs s4))))])
        with (((t1 ++ [(Begin order, Started)]) ++ t2) ++ [(Load, Reported (mk_report (k SentBlocks) (k SentData) (k GotBlocks) (k GotData) (k DupBlocks) (k DupData) (map fst (b_peers (n_bs s4))) (local_wantlist (n_bs s4))))]) in Run by (rewrite <- !app_assoc; reflexivity).
      destruct (run_split _ _ _ _ _ Run) as (s6 & Ra & Rb). assert (s6 = s4); [|subst; exact Ra].
      rewrite map_app, run_app in Ra. rewrite map_app, run_app, R1 in Ra. cbn [map fst Transfers.run] in Ra.
      assert (St : Transfers.step s1 (Begin order) = Some (s2, Started)) by (cbn [Transfers.step]; rewrite RN, O; reflexivity). rewrite St in Ra. cbn [option_map fst snd] in Ra. rewrite R4 in Ra. cbn [option_map fst] in Ra. congruence. }
    pose proof (counters_ok _ _ _ R6) as V4.
    assert (K2 : forall f, part f (plan ord) ((t1 ++ [(Begin order, Started)]) ++ t2) = total f (t1 ++ t2)).
    { intros f. rewrite (total_keys f _ s4 _ ord V4 (bi_nodup _ (v_bs _ _ V4)) (fun p Hp => Hp)), !total_app; [|rewrite X1; exact P']. unfold total at 2, contribs. cbn [flat_map]. destruct f; cbn [contrib snd app map sumN]; lia. }
    intros f. destruct (F f) as (n & Hn & Es). rewrite K1, K2 in Hn. exists n. split; [exact Hn|]. rewrite <- Es. destruct f; reflexivity.
  - exfalso. destruct (run_split _ _ _ _ _ R4) as (s6 & Ra & Rb). cbn [map fst Transfers.run] in Rb. destruct (Transfers.step s6 Load) as [[s7 a]|] eqn:S7; [|discriminate].
    destruct (Transfers.run s7 (map fst y)) as [[s8 y']|] eqn:Ey; [|discriminate]. cbn [option_map fst snd] in Rb. assert (s8 = s4 /\ a = Reported r' /\ y' = y) as (-> & -> & ->) by (repeat split; congruence).
    apply step_does in S7. inversion S7; subst.
    assert (Rz : Transfers.run (with_read None s6) (map fst (y ++ [(Load, Reported r)])) = Some (s, y ++ [(Load, Reported r)])).
    { rewrite map_app, run_app, Ey. cbn [map fst Transfers.run]. rewrite S5. reflexivity. }
    refine (no_reading _ (with_read None s6) s eq_refl _ Rz Load r _); [|apply in_or_app; right; left; reflexivity].
    intros o Ho. apply in_app_or in Ho. destruct Ho as [Ho|[Ho|[]]]; [|discriminate]. apply (NS o). apply in_or_app. right. right. exact Ho.
Qed.

(** Bitswap has gone through what was done with it. *)
Definition busy (s : node) : bool := match n_read s with Some _ => true | None => false end.
Lemma done_with_run t : forall s s', Transfers.run s (map fst t) = Some (s', t) -> exists tb, Bitswap.run (n_bs s) (done_with (busy s) t) = Some (n_bs s', tb).
Proof.
  induction t as [|[o a] t IH]; intros s s' Run; [cbn in Run; injection Run as <-; exists []; reflexivity|].
  cbn [map fst Transfers.run] in Run. destruct (Transfers.step s o) as [[s1 a']|] eqn:S; [|discriminate]. destruct (Transfers.run s1 (map fst t)) as [[s2 t']|] eqn:E; [|discriminate].
  cbn [option_map fst snd] in Run. assert (s2 = s' /\ a' = a /\ t' = t) as (-> & -> & ->) by (repeat split; congruence). clear Run. destruct (IH _ _ E) as (tb & B). unfold busy in *.
  destruct o as [o|i y|b|c|order|].
  - cbn [Transfers.step done_with] in *. destruct (n_read s) eqn:R.
    + assert (s1 = s) as -> by congruence. rewrite R in B. exists tb. exact B.
    + destruct (Bitswap.step (n_bs s) o) as [[b x]|] eqn:Sb; [|discriminate].
      assert (X : n_bs s1 = b /\ n_read s1 = None).
      { clear E B IH. assert (Y : forall z : node, n_bs z = b -> n_read z = None -> Some (z, a) = Some (s1, a) -> n_bs s1 = b /\ n_read s1 = None) by (intros z ? ? [= <-]; auto).
        set (s3 := match o with OEstablished p _ => _ | _ => with_bs b s end) in S.
        assert (Z : n_bs s3 = b /\ n_read s3 = None) by (unfold s3; destruct o; try destruct (mget N.eqb p (n_counts (with_bs b s))); split; try reflexivity; exact R).
        clearbody s3. destruct Z as [Z1 Z2]. destruct x as [[q|q m|e]|]; try (apply (Y s3); congruence).
        destruct (node_event b e); [|discriminate]. destruct e; first [apply (Y s3); congruence|apply (Y (with_jobs (n_jobs s3 ++ [(p, Storing b0)]) s3)); [exact Z1|exact Z2|congruence]]. }
      destruct X as [X1 X2]. rewrite X2, X1 in B. cbn [Bitswap.run]. rewrite Sb, B. eexists. reflexivity.
  - apply step_does in S. inversion S; subst; cbn [done_with]; exists tb; exact B.
  - apply step_does in S. inversion S; subst; cbn [done_with]; try contradiction; exists tb; exact B.
  - apply step_does in S. inversion S; subst; cbn [done_with]; try contradiction; exists tb; exact B.
  - apply step_does in S. inversion S; subst; cbn [done_with]; exists tb; exact B.
  - apply step_does in S. inversion S; subst; cbn [done_with]; exists tb; try (rewrite H); exact B.
Qed.
