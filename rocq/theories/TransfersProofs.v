(** Lemmas about the statistics. *)
From Verif Require Import Base Wire Cid FMap BlockSpec MemBlocks BitswapMsg Bitswap BitswapSpec BitswapProofs Exchange Transfers TransfersSpec.
From Coq Require Import Permutation.
Local Open Scope N_scope.

(** What each step adds to each counter. *)
Definition contrib (f : field) (e : Transfers.op * Transfers.out) : list (peer * N) :=
  match f, snd e with
  | SentBlocks, Acted (Notify p m) => [(p, blen (m_blocks m))]
  | GotBlocks, CountedBlock p true => [(p, 1)]
  | GotData, CountedData p true n => [(p, n)]
  | DupBlocks, CountedBlock p false => [(p, 1)]
  | DupData, CountedData p false n => [(p, n)]
  | _, _ => []
  end.
Definition contribs (f : field) (t : trace) : list (peer * N) := flat_map (contrib f) t.
Definition total (f : field) (t : trace) : N := sumN (map snd (contribs f t)).
Definition for_peer (p : peer) (l : list (peer * N)) : N := sumN (map snd (filter (fun x => p =? fst x) l)).
Definition tally (f : field) (p : peer) (t : trace) : N := for_peer p (contribs f t).

Lemma for_peer_app p a b : for_peer p (a ++ b) = for_peer p a + for_peer p b.
Proof. unfold for_peer. rewrite filter_app, map_app. apply sumN_app. Qed.
Lemma total_app f a b : total f (a ++ b) = total f a + total f b.
Proof. unfold total, contribs. rewrite flat_map_app, map_app. apply sumN_app. Qed.
Lemma tally_app f p a b : tally f p (a ++ b) = tally f p a + tally f p b.
Proof. unfold tally, contribs. rewrite flat_map_app. apply for_peer_app. Qed.

(** The sum over the peers is the total. *)
Lemma sum_over keys l : NoDup keys -> (forall x, In x l -> In (fst x) keys) -> sumN (map (fun p => for_peer p l) keys) = sumN (map snd l).
Proof.
  intros N. induction l as [|[q n] l IH]; intros K.
  - cbn [map sumN]. clear. induction keys; [reflexivity|]. cbn [map sumN]. rewrite IHkeys. reflexivity.
  - cbn [map snd sumN]. rewrite <- IH by (intros x I; apply K; right; exact I).
    assert (I : In q keys) by (exact (K (q, n) (or_introl eq_refl))). clear K IH.
    assert (E : forall ks, ~ In q ks -> map (fun p => for_peer p ((q, n) :: l)) ks = map (fun p => for_peer p l) ks).
    { intros ks H. apply map_ext_in. intros p Hp. unfold for_peer. cbn [filter fst]. destruct (N.eqb_spec p q); [subst; contradiction|reflexivity]. }
    assert (Q : for_peer q ((q, n) :: l) = n + for_peer q l) by (unfold for_peer; cbn [filter fst]; rewrite N.eqb_refl; reflexivity).
    apply in_split in I. destruct I as (a & b & ->). apply NoDup_remove_2 in N. rewrite in_app_iff in N.
    rewrite !map_app, !sumN_app. cbn [map sumN]. rewrite Q, !E by tauto. lia.
Qed.

Lemma run_app s h1 h2 : Transfers.run s (h1 ++ h2) =
  match Transfers.run s h1 with None => None | Some (s1, t1) => option_map (fun r => (fst r, t1 ++ snd r)) (Transfers.run s1 h2) end.
Proof.
  revert s. induction h1 as [|o h IH]; intros s; cbn [app Transfers.run]; [destruct (Transfers.run s h2) as [[? ?]|]; reflexivity|].
  destruct (Transfers.step s o) as [[s' a]|]; [|reflexivity]. rewrite IH. destruct (Transfers.run s' h) as [[s1 t1]|]; [|reflexivity]. cbn [option_map fst snd].
  destruct (Transfers.run s1 h2) as [[? ?]|]; reflexivity.
Qed.
Lemma run_ops h : forall s s' t, Transfers.run s h = Some (s', t) -> map fst t = h.
Proof.
  induction h as [|o h IH]; intros s s' t; cbn [Transfers.run]; [intros [= <- <-]; reflexivity|]. destruct (Transfers.step s o) as [[s1 a]|]; [|discriminate].
  destruct (Transfers.run s1 h) as [[s2 t2]|] eqn:E; [|discriminate]. intros [= <- <-]. cbn [map fst snd]. f_equal. exact (IH _ _ _ E).
Qed.
(** A run splits where its trace does. *)
Lemma run_split t1 : forall h s s' t2, Transfers.run s h = Some (s', t1 ++ t2) ->
  exists s1, Transfers.run s (map fst t1) = Some (s1, t1) /\ Transfers.run s1 (map fst t2) = Some (s', t2).
Proof.
  induction t1 as [|[o a] t1 IH]; intros h s s' t2 R.
  - exists s. split; [reflexivity|]. cbn [app] in R. rewrite (run_ops _ _ _ _ R). exact R.
  - destruct h as [|o' h]; [discriminate|]. cbn [Transfers.run] in R. cbn [map fst Transfers.run]. destruct (Transfers.step s o') as [[s1 a']|] eqn:S; [|discriminate].
    destruct (Transfers.run s1 h) as [[s2 t']|] eqn:E; [|discriminate]. cbn [option_map fst snd app] in R. injection R as <- <- <- ->.
    destruct (IH _ _ _ _ E) as (s3 & R1 & R2). exists s3. rewrite S, R1. split; [reflexivity|exact R2].
Qed.
Lemma run_inv (P : trace -> node -> Prop) : P [] node0 ->
  (forall t s o s' a, P t s -> Transfers.step s o = Some (s', a) -> P (t ++ [(o, a)]) s') ->
  forall h s t, Transfers.run node0 h = Some (s, t) -> P t s.
Proof.
  intros P0 PS h. induction h as [|o h IH] using rev_ind; intros s t R; [cbn in R; injection R as <- <-; exact P0|].
  rewrite run_app in R. destruct (Transfers.run node0 h) as [[s1 t1]|] eqn:E; [|discriminate]. cbn [Transfers.run] in R.
  destruct (Transfers.step s1 o) as [[s2 a]|] eqn:S; [|discriminate]. cbn [option_map fst snd] in R. injection R as <- <-. exact (PS _ _ _ _ _ (IH _ _ eq_refl) S).
Qed.

(** Jobs. *)
Lemma replace_split {A} i (l : list A) x : nth_error l i = Some x -> exists a b, l = a ++ x :: b /\ forall y, replace i y l = a ++ y ++ b.
Proof.
  intros E. exists (firstn i l), (skipn (S i) l). split; [|reflexivity].
  revert l E. induction i as [|i IH]; intros [|y l] E; try discriminate; cbn [nth_error] in E; [injection E as ->; reflexivity|].
  cbn [firstn skipn app]. f_equal. exact (IH _ E).
Qed.

Lemma get_at_counts q f p l : mget N.eqb p (at_counts q f l) = if p =? q then option_map f (mget N.eqb p l) else mget N.eqb p l.
Proof.
  induction l as [|[p' k] l IH]; cbn [at_counts map mget fst]; [destruct (p =? q); reflexivity|]. fold (at_counts q f l).
  destruct (N.eqb_spec q p'); cbn [mget fst]; rewrite IH; destruct (N.eqb_spec p p'); destruct (N.eqb_spec p q); try congruence; try reflexivity.
Qed.
Lemma keys_at_counts q f l : map fst (at_counts q f l) = map fst l.
Proof. unfold at_counts. rewrite map_map. apply map_ext. intros [p k]. cbn [fst]. destruct (q =? p); reflexivity. Qed.

(** Bitswap's part. *)
Definition get0 (p : peer) (s : bitswap) : N := match mget N.eqb p (b_stats s) with Some v => v | None => 0 end.
Definition has_stats (p : peer) (s : bitswap) : Prop := In p (map fst (b_stats s)).
Definition plain (s : bitswap) (a : action) : Prop := match a with Notify p m => m_blocks m = [] /\ has_stats p s | _ => True end.
Record bs_inv (s : bitswap) : Prop := {
  bi_nodup : NoDup (map fst (b_stats s));
  bi_peers : forall p, In p (map fst (b_peers s)) -> has_stats p s;
  bi_events : forall a, In a (b_events s) -> plain s a }.
Definition gain (p : peer) (a : option action) : N := match a with Some (Notify q m) => if p =? q then blen (m_blocks m) else 0 | _ => 0 end.

Lemma bs_inv_same s s' : b_stats s' = b_stats s -> (forall p, In p (map fst (b_peers s')) -> In p (map fst (b_peers s))) ->
  (forall a, In a (b_events s') -> In a (b_events s) \/ plain s a) -> bs_inv s -> bs_inv s'.
Proof.
  intros E P V [I1 I2 I3].
  assert (H : forall a, plain s a -> plain s' a) by (intros [p|p m|e]; cbn; unfold has_stats; rewrite ?E; tauto).
  split; unfold has_stats; rewrite ?E; [exact I1|intros p Hp; exact (I2 p (P p Hp))|]. intros a Ha. apply H. destruct (V a Ha) as [X|X]; [exact (I3 a X)|exact X].
Qed.

Lemma send_blocks_shape l : forall s, let s' := fold_left (fun s pb => send_block (fst pb) (snd pb) s) l s in
  b_stats s' = b_stats s /\ b_events s' = b_events s /\ map fst (b_peers s') = map fst (b_peers s).
Proof.
  induction l as [|[p b] l IH]; intros s; cbn [fold_left fst snd]; [repeat split|]. destruct (IH (send_block p b s)) as (E1 & E2 & E3).
  cbn zeta. rewrite E1, E2, E3. unfold send_block. cbn [b_stats b_events b_peers with_peers]. rewrite keys_at. repeat split.
Qed.
Lemma receive_blocks_shape p bs : forall s, let s' := fold_left (receive_block p) bs s in
  b_stats s' = b_stats s /\ map fst (b_peers s') = map fst (b_peers s) /\ exists e, b_events s' = b_events s ++ e /\ forall a, In a e -> plain s a.
Proof.
  induction bs as [|b bs IH]; intros s; cbn [fold_left]; cbn zeta; [repeat split; exists []; rewrite app_nil_r; split; [reflexivity|intros ? []]|].
  destruct (IH (receive_block p s b)) as (E1 & E2 & e & E3 & H). rewrite E1, E2, E3. unfold receive_block, cancel_block.
  cbn [b_stats b_events b_peers with_peers with_wanted push with_events]. rewrite keys_each. repeat split.
  exists ([Report (ReceivedBlock p b)] ++ e). rewrite app_assoc. split; [reflexivity|]. intros a [<-|Ha]; [exact I|]. specialize (H a Ha). destruct a; try exact I. exact H.
Qed.

Lemma received_shape2 p m s s' : received p m s = Some s' ->
  b_stats s' = b_stats s /\ map fst (b_peers s') = map fst (b_peers s) /\ exists e, b_events s' = b_events s ++ e /\ forall a, In a e -> plain s a.
Proof.
  unfold received. destruct (get_peer p s); [|discriminate]. intros H. apply (f_equal (fun x => match x with Some y => y | None => s end)) in H. cbn in H. subst s'.
  destruct (receive_cancels_shape p (m_cancel m) s) as (f & e1 & E1 & _ & P1 & _).
  set (s1 := fold_left (receive_cancel p) (m_cancel m) s) in *.
  destruct (receive_wants_shape p (filter (fun w => negb (existsb (fun c => cid_eqb c (fst w)) (map fst (local_wantlist s)))) (m_want m)) s1) as (g & e2 & E2 & _ & P2 & _).
  set (s2 := fold_left (receive_want p) _ s1) in *.
  destruct (receive_blocks_shape p (m_blocks m) s2) as (B1 & B2 & e3 & B3 & P3). cbn zeta in B1, B2, B3. rewrite B1, B2, B3.
  assert (S1 : b_stats s1 = b_stats s) by (rewrite E1; reflexivity). assert (S2 : b_stats s2 = b_stats s) by (rewrite E2; exact S1).
  assert (V : b_events s2 = b_events s ++ e1 ++ e2) by (rewrite E2; cbn [b_events with_events]; rewrite E1; cbn [b_events with_events]; rewrite app_assoc; reflexivity).
  repeat split; [exact S2| |].
  - rewrite E2. cbn [b_peers with_events with_peers]. rewrite keys_at, E1. cbn [b_peers with_events with_peers]. apply keys_at.
  - exists ((e1 ++ e2) ++ e3). rewrite V, !app_assoc. split; [reflexivity|]. intros a Ha. rewrite !in_app_iff in Ha. destruct Ha as [[Ha|Ha]|Ha].
    + destruct (P1 a Ha) as (c & ->). exact I.
    + destruct (P2 a Ha) as (c & z & ->). exact I.
    + specialize (P3 a Ha). destruct a; try exact I. cbn in *. unfold has_stats in *. rewrite S2 in P3. exact P3.
Qed.

Lemma poll_peers_stats order s s' a : poll_peers order s = (s', a) ->
  (s' = s /\ a = None) \/
  (exists p l m l', get_peer p s = Some l /\ a = Some (Notify p m) /\ b_events s' = b_events s /\ b_peers s' = at_ledger p l' (b_peers s) /\
    b_stats s' = match mget N.eqb p (b_stats s) with Some n => mset N.eqb p ((n + blen (m_blocks m)) mod u64_max1) (b_stats s) | None => b_stats s end).
Proof.
  induction order as [|p order IH]; cbn [poll_peers]; [intros [= <- <-]; left; split; reflexivity|]. destruct (get_peer p s) as [l|] eqn:El; [|exact IH].
  destruct (ledger_send l) as [[m l']|]; [|exact IH]. intros H. right. exists p, l, m, (fun _ => l'). split; [exact El|].
  assert (a = Some (Notify p m)) as -> by congruence. split; [reflexivity|]. apply (f_equal fst) in H. cbn [fst] in H. subst s'. repeat split.
Qed.

Lemma get_in p (s : bitswap) l : get_peer p s = Some l -> In p (map fst (b_peers s)).
Proof. intros E. apply (mget_in _ N.eqb_spec) in E. exact (in_map fst _ _ E). Qed.
Lemma stats_get p s : has_stats p s -> mget N.eqb p (b_stats s) <> None.
Proof. intros H E. apply (mget_none _ N.eqb_spec) in E. exact (E H). Qed.
Lemma keys_mset {V} p (v : V) m q : In q (map fst (mset N.eqb p v m)) <-> q = p \/ In q (map fst m).
Proof.
  unfold mset, mdel. cbn [map fst]. split.
  - intros [<-|H]; [left; reflexivity|]. right. apply in_map_iff in H. destruct H as (x & <- & Hx). apply filter_In in Hx. apply in_map. tauto.
  - intros [->|H]; [left; reflexivity|]. destruct (N.eqb_spec p q) as [->|D]; [left; reflexivity|]. right. apply in_map_iff in H. destruct H as (x & <- & Hx). apply in_map. apply filter_In. split; [exact Hx|].
    destruct (N.eqb_spec p (fst x)); [congruence|reflexivity].
Qed.
Lemma nodup_mset {V} p (v : V) m : NoDup (map fst m) -> NoDup (map fst (mset N.eqb p v m)).
Proof.
  intros H. unfold mset, mdel. cbn [map fst]. constructor.
  - intros Hi. apply in_map_iff in Hi. destruct Hi as (x & E & Hx). apply filter_In in Hx. rewrite E, N.eqb_refl in Hx. destruct Hx as [_ Hx]. discriminate.
  - induction m as [|[q w] m IH]; cbn [filter map fst]; [constructor|]. cbn [map fst] in H. apply NoDup_cons_iff in H. destruct H as [H1 H2].
    destruct (negb (p =? q)); cbn [map fst]; [|exact (IH H2)]. constructor; [|exact (IH H2)]. intros Hi. apply H1. apply in_map_iff in Hi. destruct Hi as (x & <- & Hx).
    apply filter_In in Hx. apply in_map. tauto.
Qed.

(** One step of bitswap: the counters, their keys and the invariant. *)
Lemma bs_step s o s' a : Bitswap.step s o = Some (s', a) -> bs_inv s ->
  bs_inv s' /\ (forall p, has_stats p s' <-> has_stats p s \/ exists k, o = OEstablished p k) /\
  (forall p, (get0 p s') mod u64_max1 = (get0 p s + gain p a) mod u64_max1) /\
  (forall p, get0 p s < u64_max1 -> get0 p s' < u64_max1) /\
  match a with Some (Notify p _) => has_stats p s | _ => True end.
Proof.
  intros S I.
  assert (Same : forall s', b_stats s' = b_stats s -> (forall p, In p (map fst (b_peers s')) -> In p (map fst (b_peers s))) ->
    (forall a, In a (b_events s') -> In a (b_events s) \/ plain s a) -> (forall p k, o <> OEstablished p k) ->
    bs_inv s' /\ (forall p, has_stats p s' <-> has_stats p s \/ exists k, o = OEstablished p k) /\
    (forall p, (get0 p s') mod u64_max1 = (get0 p s + 0) mod u64_max1) /\ (forall p, get0 p s < u64_max1 -> get0 p s' < u64_max1) /\ True).
  { intros x E1 E2 E3 NE. split; [exact (bs_inv_same s x E1 E2 E3 I)|]. unfold has_stats, get0. rewrite E1. split; [|split; [intros p; rewrite N.add_0_r; reflexivity|split; [auto|exact Logic.I]]].
    intros p. split; [auto|]. intros [H|(k & H)]; [exact H|]. exfalso. exact (NE _ _ H). }
  destruct o as [p|p b|c pr|c|p k|p k|p k m|p k|order]; cbn [Bitswap.step] in S.
  - assert (s' = connect p s /\ a = None) as [-> ->] by (split; congruence). apply Same; [| | |discriminate]; unfold connect; destruct (existsb (N.eqb p) (b_targets s)); cbn [b_stats b_peers b_events push with_events with_targets]; auto.
    intros x Hx. apply in_app_or in Hx. destruct Hx as [Hx|[<-|[]]]; [left; exact Hx|right; exact Logic.I].
  - assert (s' = with_ready (b_ready s ++ [(p, b)]) s /\ a = None) as [-> ->] by (split; congruence). apply Same; cbn [b_stats b_peers b_events with_ready]; auto. discriminate.
  - assert (s' = want_block c pr s /\ a = None) as [-> ->] by (split; congruence). apply Same; unfold want_block; cbn [b_stats b_peers b_events with_wanted with_peers]; auto; [|discriminate]. intros q. rewrite keys_each. auto.
  - assert (s' = cancel_block c s /\ a = None) as [-> ->] by (split; congruence). apply Same; unfold cancel_block; cbn [b_stats b_peers b_events with_wanted with_peers]; auto; [|discriminate]. intros q. rewrite keys_each. auto.
  - assert (s' = established p s /\ a = None) as [-> ->] by (split; congruence). clear Same S. cbn [gain].
    set (st := match mget N.eqb p (b_stats s) with Some _ => b_stats s | None => mset N.eqb p 0 (b_stats s) end).
    assert (Ks : forall q, In q (map fst st) <-> has_stats q s \/ q = p).
    { intros q. unfold st, has_stats. destruct (mget N.eqb p (b_stats s)) as [v|] eqn:E; [|rewrite keys_mset; tauto].
      split; [auto|]. intros [H| ->]; [exact H|]. apply (mget_in _ N.eqb_spec) in E. exact (in_map fst _ _ E). }
    assert (Es : b_stats (established p s) = st) by (unfold established, send_want_list; fold st; cbn [b_wanted with_peers with_stats]; destruct (is_empty (b_wanted s)); reflexivity).
    assert (Ep : b_peers (established p s) = mset N.eqb p ledger0 (b_peers s)) by (unfold established, send_want_list; fold st; cbn [b_wanted with_peers with_stats]; destruct (is_empty (b_wanted s)); reflexivity).
    assert (Ev : forall x, In x (b_events (established p s)) -> In x (b_events s) \/ exists m, x = Notify p m /\ m_blocks m = []).
    { intros x. unfold established, send_want_list; fold st; cbn [b_wanted with_peers with_stats]; destruct (is_empty (b_wanted s)); cbn [b_events push with_events with_peers with_stats]; [auto|].
      intros Hx. apply in_app_or in Hx. destruct Hx as [Hx|[<-|[]]]; [left; exact Hx|]. right. eexists. split; [reflexivity|]. apply wantlist_message_blocks. }
    destruct I as [I1 I2 I3]. split; [|split; [|split; [|split; [|exact Logic.I]]]].
    + split; unfold has_stats; rewrite ?Es, ?Ep.
      * unfold st. destruct (mget N.eqb p (b_stats s)); [exact I1|]. apply nodup_mset. exact I1.
      * intros q Hq. apply Ks. apply keys_mset in Hq. destruct Hq as [->|Hq]; [right; reflexivity|]. left. exact (I2 q Hq).
      * intros x Hx. destruct (Ev x Hx) as [Hx'|(m & -> & Hm)].
        -- specialize (I3 x Hx'). destruct x; cbn in *; auto. unfold has_stats. rewrite Es. split; [tauto|]. apply Ks. left. tauto.
        -- cbn. split; [exact Hm|]. unfold has_stats. rewrite Es. apply Ks. right. reflexivity.
    + intros q. unfold has_stats at 1. rewrite Es, Ks. split; intros [H|H]; auto; [subst; right; exists k; reflexivity|]. destruct H as (k' & H). right. congruence.
    + intros q. rewrite N.add_0_r. unfold get0. rewrite Es. unfold st. destruct (mget N.eqb p (b_stats s)) eqn:E; [reflexivity|]. rewrite (mget_mset _ N.eqb_spec). destruct (N.eqb_spec q p) as [->|]; [rewrite E|]; reflexivity.
    + intros q. unfold get0. rewrite Es. unfold st. destruct (mget N.eqb p (b_stats s)) eqn:E; [auto|]. rewrite (mget_mset _ N.eqb_spec). destruct (N.eqb_spec q p) as [->|]; [rewrite E|]; auto.
  - assert (s' = closed p s /\ a = None) as [-> ->] by (split; congruence). apply Same; unfold closed; cbn [b_stats b_peers b_events with_peers]; auto; [|discriminate].
    intros q Hq. unfold mdel in Hq. apply in_map_iff in Hq. destruct Hq as (x & <- & Hx). apply filter_In in Hx. apply in_map. tauto.
  - destruct (received p m s) as [x|] eqn:R; [|discriminate]. cbn [option_map] in S. assert (s' = x /\ a = None) as [-> ->] by (split; congruence).
    destruct (received_shape2 _ _ _ _ R) as (E1 & E2 & e & E3 & H). apply Same; [exact E1|rewrite E2; auto| |discriminate]. intros y Hy. rewrite E3 in Hy. apply in_app_or in Hy. destruct Hy; [left|right]; auto.
  - assert (s' = s /\ a = None) as [-> ->] by (split; congruence). apply Same; auto. discriminate.
  - assert (P : poll order s = (s', a)) by congruence. clear S. unfold poll in P.
    destruct (send_blocks_shape (b_ready s) s) as (E1 & E2 & E3). cbn zeta in E1, E2, E3.
    set (d := with_ready [] (fold_left (fun s pb => send_block (fst pb) (snd pb) s) (b_ready s) s)) in *.
    assert (D1 : b_stats d = b_stats s) by exact E1. assert (D2 : b_events d = b_events s) by exact E2. assert (D3 : map fst (b_peers d) = map fst (b_peers s)) by exact E3. clearbody d. clear E1 E2 E3.
    rewrite D2 in P. destruct (b_events s) as [|e r] eqn:Ev.
    + destruct (poll_peers_stats _ _ _ _ P) as [[-> ->]|(p & l & m & l' & G & -> & V & B & St)].
      * apply Same; [exact D1|rewrite D3; auto| |discriminate]. rewrite D2. intros ? [].
      * assert (Hp : has_stats p s) by (apply (bi_peers _ I); rewrite <- D3; exact (get_in _ _ _ G)).
        rewrite D1 in St. destruct (mget N.eqb p (b_stats s)) as [n|] eqn:E; [|exfalso; exact (stats_get _ _ Hp E)].
        assert (Ks : forall q, has_stats q s' <-> has_stats q s).
        { intros q. unfold has_stats. rewrite St, keys_mset. split; [intros [->|H]; [exact Hp|exact H]|auto]. }
        split; [|split; [|split; [|split; [|exact Hp]]]].
        -- split; [rewrite St; apply nodup_mset; exact (bi_nodup _ I)| |rewrite V, D2; intros ? []]. intros q. rewrite B, keys_at, D3. intros Hq. apply Ks. exact (bi_peers _ I q Hq).
        -- intros q. rewrite Ks. split; [auto|]. intros [H|(k & H)]; [exact H|discriminate].
        -- intros q. unfold get0. rewrite St, (mget_mset _ N.eqb_spec). cbn [gain]. destruct (N.eqb_spec q p) as [->|]; [rewrite E; apply N.mod_mod; discriminate|rewrite N.add_0_r; reflexivity].
        -- intros q. unfold get0. rewrite St, (mget_mset _ N.eqb_spec). destruct (N.eqb_spec q p) as [->|]; [intros _; apply N.mod_lt; discriminate|auto].
    + assert (s' = with_events r d /\ a = Some e) as [-> ->] by (split; congruence). pose proof (bi_events _ I e) as Pe. rewrite Ev in Pe. specialize (Pe (or_introl eq_refl)).
      assert (G : forall p, gain p (Some e) = 0) by (intros p; destruct e; cbn; try reflexivity; destruct Pe as [-> _]; destruct (p =? p0); reflexivity).
      assert (X : bs_inv (with_events r d) /\ (forall p, has_stats p (with_events r d) <-> has_stats p s \/ exists k, OPoll order = OEstablished p k) /\
        (forall p, (get0 p (with_events r d)) mod u64_max1 = (get0 p s + 0) mod u64_max1) /\ (forall p, get0 p s < u64_max1 -> get0 p (with_events r d) < u64_max1) /\ True).
      { apply Same; [exact D1|cbn [b_peers with_events]; rewrite D3; auto| |discriminate]. cbn [b_events with_events]. rewrite ?Ev. intros x Hx. left. right. exact Hx. }
      destruct X as (X1 & X2 & X3 & X4 & _). split; [exact X1|]. split; [exact X2|]. split; [intros p; rewrite G; exact (X3 p)|]. split; [exact X4|]. destruct e; try exact Logic.I. exact (proj2 Pe).
Qed.
