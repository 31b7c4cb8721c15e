(** Lemmas about [Listen]. *)
From Coq Require Import Permutation.
From Verif Require Import Base Wire Cid FMap Addr AddrProofs Listen ListenSpec.
Local Open Scope N_scope.

Definition fit0 (a k : multiaddr) : bool :=
  match k, a with [ipk; PTcp n], [ipa; PTcp m] => proto_eqb ipk ipa && ((n =? m) || (n =? 0)) | _, _ => false end.
Definition family (x y : proto) : bool := match x, y with PIp4 _, PIp4 _ | PIp6 _, PIp6 _ => true | _, _ => false end.
Definition fit1 (a k : multiaddr) : bool :=
  match k, a with [ipk; PTcp n], [ipa; PTcp m] => family ipk ipa && ((n =? m) || (n =? 0)) | _, _ => false end.

Lemma port_case m n : m <> 0 -> bound_from (PTcp m) (PTcp n) = Some ((n =? m) || (n =? 0)).
Proof.
  intros H. unfold bound_from. cbn [proto_eqb]. destruct n as [|p].
  - destruct (N.eqb_spec m 0); [lia|]. destruct (0 =? m); reflexivity.
  - cbn [N.eqb orb]. rewrite orb_false_r. reflexivity.
Qed.
Lemma cbb0 a k : bound_addr a -> tcp_addr k -> could_be_bound 0 a k = Some (fit0 a k).
Proof.
  intros (ipa & m & -> & Hm & Ha) (ipk & n & -> & Hk). unfold could_be_bound, fit0. cbn [skipn].
  destruct ipa as [x|x| | | | | | |]; try contradiction; destruct ipk as [y|y| | | | | | |]; try contradiction; try reflexivity.
  - change (addr_size [PIp4 x; PTcp m] =? addr_size [PIp4 y; PTcp n]) with true. cbn [negb all_bound_from]. change (bound_from (PIp4 x) (PIp4 y)) with (Some (y =? x)). cbn [proto_eqb].
    destruct (y =? x); [|reflexivity]. rewrite port_case by assumption. cbn [andb]. destruct ((n =? m) || (n =? 0)); reflexivity.
  - change (addr_size [PIp6 x; PTcp m] =? addr_size [PIp6 y; PTcp n]) with true. cbn [negb all_bound_from]. change (bound_from (PIp6 x) (PIp6 y)) with (Some (y =? x)). cbn [proto_eqb].
    destruct (y =? x); [|reflexivity]. rewrite port_case by assumption. cbn [andb]. destruct ((n =? m) || (n =? 0)); reflexivity.
Qed.
Lemma cbb1 a k : bound_addr a -> tcp_addr k -> could_be_bound 1 a k = Some (fit1 a k).
Proof.
  intros (ipa & m & -> & Hm & Ha) (ipk & n & -> & Hk). unfold could_be_bound, fit1. cbn [skipn].
  destruct ipa as [x|x| | | | | | |]; try contradiction; destruct ipk as [y|y| | | | | | |]; try contradiction; try reflexivity.
  - change (addr_size [PIp4 x; PTcp m] =? addr_size [PIp4 y; PTcp n]) with true. cbn [negb all_bound_from]. rewrite port_case by assumption. cbn [family andb]. destruct ((n =? m) || (n =? 0)); reflexivity.
  - change (addr_size [PIp6 x; PTcp m] =? addr_size [PIp6 y; PTcp n]) with true. cbn [negb all_bound_from]. rewrite port_case by assumption. cbn [family andb]. destruct ((n =? m) || (n =? 0)); reflexivity.
Qed.

(** [fits] in terms of the two. *)
Lemma unspecified_b k : starts_unspecified k = true <-> unspecified k.
Proof.
  unfold unspecified. split.
  - destruct k as [|[[]|[]| | | | | | |] k]; try discriminate; intros _; eauto.
  - intros (r & [->| ->]); reflexivity.
Qed.
Lemma all_b k : all_addresses k = starts_unspecified k.
Proof. destruct k as [|[[]|[]| | | | | | |] k]; reflexivity. Qed.
Lemma fit0_spec a k : fit0 a k = true -> exists ip n m, k = [ip; PTcp n] /\ a = [ip; PTcp m] /\ (n = m \/ n = 0).
Proof.
  unfold fit0. destruct k as [|ipk [|[] [|? ?]]]; try discriminate. destruct a as [|ipa [|[] [|? ?]]]; try discriminate.
  intros H. apply andb_prop in H as [H1 H2]. destruct (proto_eqb_spec ipk ipa) as [->|]; [|discriminate]. eexists _, _, _. split; [reflexivity|]. split; [reflexivity|].
  apply orb_prop in H2 as [H2|H2]; apply N.eqb_eq in H2; auto.
Qed.
Lemma fit0_fits a k : fit0 a k = true -> fits k a.
Proof. intros H. apply fit0_spec in H as (ip & n & m & -> & -> & H). cbn. auto. Qed.
Lemma fit1_fits a k : fit1 a k = true -> starts_unspecified k = true -> fits k a.
Proof.
  unfold fit1. destruct k as [|ipk [|[] [|? ?]]]; try discriminate. destruct a as [|ipa [|[] [|? ?]]]; try discriminate.
  intros H U. apply andb_prop in H as [H1 H2]. apply orb_prop in H2. rewrite !N.eqb_eq in H2. cbn [fits]. split; [|exact H2].
  destruct ipk as [[]|[]| | | | | | |]; try discriminate; destruct ipa; try discriminate; eauto.
Qed.
Lemma fits_fit0 a k : fits k a -> starts_unspecified k = false -> fit0 a k = true.
Proof.
  unfold fits, fit0. destruct k as [|ipk [|[] [|? ?]]]; try contradiction. destruct a as [|ipa [|[] [|? ?]]]; try contradiction.
  intros [H1 H2] U. rewrite <- !N.eqb_eq in H2. destruct H1 as [->|[(x & -> & _)|(x & -> & _)]]; try discriminate.
  destruct (proto_eqb_spec ipa ipa); [|congruence]. cbn [andb]. apply orb_true_iff. exact H2.
Qed.
Lemma fits_fit1 a k : fits k a -> starts_unspecified k = true -> fit1 a k = true.
Proof.
  unfold fits, fit1. destruct k as [|ipk [|[] [|? ?]]]; try contradiction. destruct a as [|ipa [|[] [|? ?]]]; try contradiction.
  intros [H1 H2] U. rewrite <- !N.eqb_eq in H2. apply andb_true_iff. split; [|apply orb_true_iff; exact H2].
  destruct H1 as [->|[(x & -> & ->)|(x & -> & ->)]]; try reflexivity. destruct ipa as [[]|[]| | | | | | |]; try discriminate; reflexivity.
Qed.

(** The two searches. *)
Lemma matching_is a keys : bound_addr a -> Forall tcp_addr keys -> matching a keys = Some (filter (fit0 a) keys).
Proof.
  intros Ha. induction 1 as [|k keys Hk _ IH]; cbn [matching filter]; [reflexivity|]. rewrite cbb0, IH by assumption. reflexivity.
Qed.
Definition candidate (a : multiaddr) (x : multiaddr * (N * option N)) : bool :=
  starts_unspecified (fst x) && fit1 a (fst x) && is_some (snd (snd x)).
Lemma guess_is a t : bound_addr a -> Forall tcp_addr (map fst t) -> guess a t = Some (option_map fst (find (candidate a) t)).
Proof.
  intros Ha. induction t as [|[k [id s]] t IH]; cbn [guess map fst find]; [reflexivity|]. intros H. apply Forall_cons_iff in H as [Hk Ht]. rewrite IH by assumption.
  change (candidate a (k, (id, s))) with (starts_unspecified k && fit1 a k && is_some s). destruct (starts_unspecified k); [|reflexivity]. rewrite cbb1 by assumption. cbn [andb]. destruct (fit1 a k && is_some s); reflexivity.
Qed.
Lemma rotate_in {T} n (t : list T) x : In x (skipn n t ++ firstn n t) <-> In x t.
Proof. rewrite in_app_iff. rewrite <- (firstn_skipn n t) at 3. rewrite in_app_iff. tauto. Qed.
Lemma filter_two (keys : list multiaddr) a : NoDup keys -> ~ In a keys -> (length (filter (fit0 a) keys) <= 1)%nat.
Proof.
  intros N Ha. destruct (filter (fit0 a) keys) as [|x [|y l]] eqn:E; cbn; try lia. exfalso.
  assert (Hx : In x (filter (fit0 a) keys)) by (rewrite E; left; reflexivity).
  assert (Hy : In y (filter (fit0 a) keys)) by (rewrite E; right; left; reflexivity).
  pose proof (NoDup_filter (fit0 a) N) as Nf. rewrite E in Nf. apply NoDup_cons_iff in Nf as [Nf _].
  apply filter_In in Hx as [Ix Fx]. apply filter_In in Hy as [Iy Fy].
  apply fit0_spec in Fx as (ip & n & m & -> & Ea & Hn). apply fit0_spec in Fy as (ip' & n' & m' & -> & Ea' & Hn').
  rewrite Ea in Ea'. injection Ea' as <- <-. destruct Hn as [->| ->]; [subst a; contradiction|]. destruct Hn' as [->| ->]; [subst a; contradiction|].
  apply Nf. left. reflexivity.
Qed.


(** ** Without the law *)
Lemma rotate_keys n (t : table) x : In x (map fst (skipn n t ++ firstn n t)) <-> In x (map fst t).
Proof. rewrite !in_map_iff. split; intros (y & E & H); exists y; (split; [exact E|]); apply (rotate_in n t y); exact H. Qed.
Lemma matching_in a keys : forall l, matching a keys = Some l -> incl l keys.
Proof.
  induction keys as [|k keys IH]; cbn [matching]; intros l E; [injection E as <-; intros x []|].
  destruct (could_be_bound 0 a k) as [b|]; [|discriminate]. destruct (matching a keys) as [l'|]; [|discriminate]. injection E as <-. specialize (IH _ eq_refl).
  destruct b; intros x H; [destruct H as [<-|H]; [left; reflexivity|right; auto]|right; auto].
Qed.
Lemma guess_in a (t : table) k : guess a t = Some (Some k) -> In k (map fst t).
Proof.
  induction t as [|[k' [id s]] t IH]; cbn [guess map fst]; [discriminate|]. destruct (starts_unspecified k'); [|right; auto].
  destruct (could_be_bound 1 a k') as [b|]; [|discriminate]. destruct (b && is_some s); [intros [= ->]; left; reflexivity|right; auto].
Qed.
Lemma complete_some t a pick t' s : complete t a pick = Some (t', s) ->
  (exists id, mget addr_eqb a t = Some (id, s) /\ t' = mset addr_eqb a (id, None) t) \/
  (mget addr_eqb a t = None /\ exists k id, mget addr_eqb k t = Some (id, s) /\ t' = mset addr_eqb a (id, None) (mdel addr_eqb k t)) \/
  (mget addr_eqb a t = None /\ t' = t /\ s = None).
Proof.
  unfold complete. destruct (mget addr_eqb a t) as [[id s0]|] eqn:E; [intros [= <- <-]; eauto|].
  assert (M : forall k, In k (map fst t) -> move k a t = (t', s) -> exists k id, mget addr_eqb k t = Some (id, s) /\ t' = mset addr_eqb a (id, None) (mdel addr_eqb k t)).
  { intros k Hk. apply (in_mkeys addr_eqb addr_eqb_spec) in Hk as ((id & s0) & Hk). unfold move. rewrite Hk. intros [= <- <-]. eauto. }
  destruct (matching a (map fst t)) as [[|k [|? ?]]|] eqn:Em; try discriminate.
  - destruct (guess a _) as [[k|]|] eqn:Eg; try discriminate.
    + intros [= H]. right. left. split; [reflexivity|]. apply (M k); [|exact H]. apply guess_in in Eg. apply rotate_keys in Eg. exact Eg.
    + intros [= <- <-]. auto.
  - intros [= H]. right. left. split; [reflexivity|]. apply (M k); [|exact H]. apply (matching_in _ _ _ Em). left. reflexivity.
Qed.

Lemma run_snoc h o x t' : run (h ++ [(o, x)]) t' -> exists t, run h t /\ step t o = Some (t', x).
Proof.
  intros H. inversion H as [E|h0 t0 o0 t0' a0 H1 H2 E]; [destruct h; discriminate|]. subst. apply app_inj_tail in E as [-> [= -> ->]]. eauto.
Qed.
Lemma run_exec l : forall t h t' r, exec t l = Some (t', r) -> run h t -> run (h ++ combine l r) t'.
Proof.
  induction l as [|o l IH]; intros t h t' r E H; cbn [exec] in E; [injection E as <- <-; cbn [combine]; rewrite app_nil_r; exact H|].
  destruct (step t o) as [[t1 a]|] eqn:Es; [|discriminate]. destruct (exec t1 l) as [[t2 r2]|] eqn:El; [|discriminate]. injection E as <- <-.
  cbn [combine]. replace (h ++ (o, a) :: combine l r2) with ((h ++ [(o, a)]) ++ combine l r2) by (rewrite <- app_assoc; reflexivity). apply (IH t1); [exact El|]. eapply run_step; eauto.
Qed.

Lemma keys_nodup h t : run h t -> NoDup (map fst t).
Proof.
  induction 1 as [|h t o t' x H IH Hs]; [constructor|]. unfold step in Hs. destruct o as [r a l|id a n|id|a ok].
  - injection Hs as Hs. unfold start in Hs. destruct (_ && _); [injection Hs as <- _; exact IH|]. destruct (mget addr_eqb a t); [injection Hs as <- _; exact IH|].
    destruct l; injection Hs as <- _; [apply (mset_nodup addr_eqb addr_eqb_spec)|]; exact IH.
  - destruct (complete t a n) as [[t1 s]|] eqn:E; [|discriminate]. injection Hs as <- _. apply complete_some in E as [(i & _ & ->)|[(_ & k & i & _ & ->)|(_ & -> & _)]]; [| |exact IH].
    + apply (mset_nodup addr_eqb addr_eqb_spec). exact IH.
    + apply (mset_nodup addr_eqb addr_eqb_spec). apply (mdel_nodup addr_eqb). exact IH.
  - injection Hs as <- _. exact IH.
  - destruct (mget addr_eqb a t) as [[i s]|]; injection Hs as <- _; [|exact IH]. apply (mdel_nodup addr_eqb). exact IH.
Qed.

(** Requests are neither lost nor answered twice. *)
Definition holds (r : N) (x : multiaddr * (N * option N)) : bool := match snd (snd x) with Some q => r =? q | None => false end.
Definition waiting (r : N) (t : table) : nat := length (filter (holds r) t).
Definition one (r : N) (s : option N) : nat := match s with Some q => if r =? q then 1%nat else 0%nat | None => 0%nat end.
Lemma waiting_mdel r k id s t : NoDup (map fst t) -> mget addr_eqb k t = Some (id, s) -> waiting r t = (waiting r (mdel addr_eqb k t) + one r s)%nat.
Proof.
  unfold waiting. induction t as [|[k0 [i0 s0]] t IH]; cbn [mget map fst]; [discriminate|]. intros N E. apply NoDup_cons_iff in N as [N1 N2].
  unfold mdel. cbn [filter fst]. destruct (addr_eqb_spec k k0) as [->|D]; cbn [negb].
  - injection E as <- <-. change (filter (fun kv : multiaddr * (N * option N) => negb (addr_eqb k0 (fst kv))) t) with (mdel addr_eqb k0 t). rewrite (mdel_id addr_eqb k0 t) by (apply (mget_none _ addr_eqb_spec); exact N1).
    unfold holds at 1, one. cbn [snd]. destruct s0 as [q|]; [destruct (r =? q)|]; cbn [length]; lia.
  - specialize (IH N2 E). unfold mdel in IH. cbn [filter]. destruct (holds r (k0, (i0, s0))); cbn [length]; lia.
Qed.
Lemma waiting_mset r k id s t : waiting r (mset addr_eqb k (id, s) t) = (one r s + waiting r (mdel addr_eqb k t))%nat.
Proof. unfold waiting, mset. cbn [filter]. unfold holds at 1, one. cbn [snd]. destruct s as [q|]; [destruct (r =? q)|]; reflexivity. Qed.
Lemma conserved h t r : run h t -> (length (answers_to r h) + waiting r t = count_occ N.eq_dec (requests h) r)%nat.
Proof.
  induction 1 as [|h t o t' x H IH Hs]; [reflexivity|]. pose proof (keys_nodup _ _ H) as N. unfold answers_to, requests in *. rewrite !flat_map_app, app_length, count_occ_app. cbn [flat_map fst snd]. rewrite !app_nil_r.
  enough ((length match to_add x with Some (q, y) => if (r =? q)%N then [y] else [] | None => [] end + waiting r t' = waiting r t + count_occ N.eq_dec match o with Add (Some r) _ _ => [r] | _ => [] end r)%nat) by lia.
  clear IH H. unfold step in Hs. destruct o as [r0 a l|id a n|id|a ok].
  - assert (C : count_occ N.eq_dec match r0 with Some r => [r] | None => [] end r = one r r0).
    { destruct r0 as [q|]; [|reflexivity]. cbn [count_occ one]. destruct (N.eqb_spec r q) as [->|D]; [destruct (N.eq_dec q q); congruence|]. destruct (N.eq_dec q r); congruence. }
    injection Hs as Hs. assert (C' : (length match to_add x with Some (q, y) => if (r =? q)%N then [y] else [] | None => [] end + waiting r t' = waiting r t + one r r0)%nat); [|rewrite C'; destruct r0; cbn in C |- *; lia].
    assert (R : forall z, length match to_add (refuse r0 z) with Some (q, y) => if r =? q then [y] else [] | None => [] end = one r r0).
    { intros z. destruct r0 as [q|]; cbn; [destruct (r =? q)|]; reflexivity. }
    unfold start in Hs. destruct (_ && _); [injection Hs as <- <-; rewrite R; lia|]. destruct (mget addr_eqb a t) eqn:E; [injection Hs as <- <-; rewrite R; lia|].
    destruct l; injection Hs as <- <-; [|rewrite R; lia]. cbn [to_add]. rewrite waiting_mset, (mdel_id _ a t) by exact E. cbn [length]. lia.
  - destruct (complete t a n) as [[t1 s]|] eqn:E; [|discriminate]. injection Hs as <- <-. cbn [to_add count_occ].
    assert (A : length match option_map (fun r => (r, Bound a)) s with Some (q, y) => if r =? q then [y] else [] | None => [] end = one r s).
    { destruct s as [q|]; cbn; [destruct (r =? q)|]; reflexivity. }
    rewrite A. apply complete_some in E as [(i & E & ->)|[(En & k & i & E & ->)|(_ & -> & ->)]].
    + rewrite waiting_mset, (waiting_mdel r _ _ _ _ N E). cbn [one]. lia.
    + rewrite waiting_mset, (mdel_id addr_eqb a) by (rewrite (mget_mdel _ addr_eqb_spec), En; destruct (addr_eqb a k); reflexivity). rewrite (waiting_mdel r _ _ _ _ N E). cbn [one]. lia.
    + cbn [one]. lia.
  - injection Hs as <- <-. cbn. lia.
  - destruct (mget addr_eqb a t) as [[i s]|] eqn:E; injection Hs as <- <-; cbn [to_add count_occ]; [|cbn [length]; lia].
    rewrite (waiting_mdel r _ _ _ _ N E). destruct s as [q|]; cbn [option_map one]; [destruct (r =? q)|]; cbn [length]; lia.
Qed.

(** ** Only tcp addresses *)
Lemma bound_tcp a : bound_addr a -> tcp_addr a.
Proof. intros (ip & n & -> & _ & H). exists ip, n. split; [reflexivity|]. destruct ip; try contradiction; exact I. Qed.
Definition all_tcp (t : table) : Prop := forall k, In k (map fst t) -> tcp_addr k.
Lemma mset_in (k x : multiaddr) v (t : table) : In x (map fst (mset addr_eqb k v t)) -> x = k \/ In x (map fst t).
Proof. unfold mset. cbn [map fst]. intros [H|H]; [auto|]. apply (mdel_keys _ addr_eqb_spec) in H. tauto. Qed.
Lemma mdel_in (k x : multiaddr) (t : table) : In x (map fst (mdel addr_eqb k t)) -> In x (map fst t).
Proof. intros H. apply (mdel_keys _ addr_eqb_spec) in H. tauto. Qed.
Definition tcp_step (o : op) (x : reply) : Prop :=
  match o with Add _ k _ => opened x <> None -> tcp_addr k | Report _ a _ => bound_addr a | _ => True end.
Lemma all_tcp_step t o t' x : step t o = Some (t', x) -> tcp_step o x -> all_tcp t -> all_tcp t'.
Proof.
  intros Hs Ho IH. unfold step in Hs. destruct o as [r a l|id a n|id|a ok].
  - injection Hs as Hs. unfold start in Hs. destruct (_ && _); [injection Hs as <- _; exact IH|]. destruct (mget addr_eqb a t); [injection Hs as <- _; exact IH|].
    destruct l; injection Hs as <- <-; [|exact IH]. intros k Hk. apply mset_in in Hk as [->|Hk]; [|auto]. apply Ho. discriminate.
  - destruct (complete t a n) as [[t1 s]|] eqn:E; [|discriminate]. injection Hs as <- _. apply bound_tcp in Ho.
    apply complete_some in E as [(i & _ & ->)|[(_ & k & i & _ & ->)|(_ & -> & _)]]; [| |exact IH]; intros x0 Hx; apply mset_in in Hx as [->|Hx]; auto. apply mdel_in in Hx. auto.
  - injection Hs as <- _. exact IH.
  - destruct (mget addr_eqb a t) as [[i s]|]; injection Hs as <- _; [|exact IH]. intros k Hk. apply mdel_in in Hk. auto.
Qed.
Lemma all_tcp_run h t : run h t -> tcp_only h -> all_tcp t.
Proof.
  induction 1 as [|h t o t' x H IH Hs]; intros T; [intros k []|]. eapply all_tcp_step; [exact Hs| |].
  - assert (Hi : In (o, x) (h ++ [(o, x)])) by (apply in_app_iff; right; left; reflexivity). specialize (T o x Hi). destruct o; exact T.
  - apply IH. intros o' x' Hi. apply T. apply in_app_iff. auto.
Qed.
Lemma complete_tcp t a pick : NoDup (map fst t) -> all_tcp t -> bound_addr a ->
  exists t' s, complete t a pick = Some (t', s) /\
  ((exists id, mget addr_eqb a t = Some (id, s) /\ t' = mset addr_eqb a (id, None) t) \/
   (mget addr_eqb a t = None /\ exists k id, mget addr_eqb k t = Some (id, s) /\ t' = mset addr_eqb a (id, None) (mdel addr_eqb k t) /\
      (fit0 a k = true \/ (starts_unspecified k = true /\ fit1 a k = true /\ s <> None /\ forall x, In x (map fst t) -> fit0 a x = false))) \/
   (mget addr_eqb a t = None /\ t' = t /\ s = None /\ (forall x, In x (map fst t) -> fit0 a x = false) /\
      (forall k id r, mget addr_eqb k t = Some (id, Some r) -> starts_unspecified k = true -> fit1 a k = false))).
Proof.
  intros N T Ha. unfold complete. destruct (mget addr_eqb a t) as [[id s]|] eqn:E; [eexists _, _; split; [reflexivity|]; eauto|].
  assert (E' := E). apply (mget_none _ addr_eqb_spec) in E'. rewrite matching_is by (auto; apply Forall_forall; exact T).
  pose proof (filter_two _ _ N E') as L. assert (F : forall x, In x (map fst t) -> fit0 a x = true -> In x (filter (fit0 a) (map fst t))) by (intros; apply filter_In; auto).
  assert (M : forall k, In k (map fst t) -> exists id s, mget addr_eqb k t = Some (id, s) /\ move k a t = (mset addr_eqb a (id, None) (mdel addr_eqb k t), s)).
  { intros k Hk. apply (in_mkeys addr_eqb addr_eqb_spec) in Hk as ((id & s0) & Hk). exists id, s0. unfold move. rewrite Hk. auto. }
  destruct (filter (fit0 a) (map fst t)) as [|k [|k2 l]] eqn:Ef; [| |cbn [length] in L; lia].
  - assert (F0 : forall x, In x (map fst t) -> fit0 a x = false). { intros x Hx. destruct (fit0 a x) eqn:Ex; [destruct (F x Hx Ex)|reflexivity]. }
    assert (T' : Forall tcp_addr (map fst (skipn pick t ++ firstn pick t))). { apply Forall_forall. intros x Hx. apply rotate_keys in Hx. auto. }
    rewrite guess_is by assumption. destruct (find (candidate a) (skipn pick t ++ firstn pick t)) as [[k [id s]]|] eqn:Eg; cbn [option_map fst].
    + apply find_some in Eg as [Eg1 Eg2]. apply rotate_in in Eg1. unfold candidate in Eg2. cbn [fst snd] in Eg2. apply andb_prop in Eg2 as [Eg2 Eg3]. apply andb_prop in Eg2 as [Eg2 Eg4].
      pose proof (in_mget _ addr_eqb_spec _ _ _ N Eg1) as Hk. destruct (M k) as (id' & s' & Hk' & Mk). { apply in_map_iff. exists (k, (id, s)). auto. }
      rewrite Hk in Hk'. injection Hk' as <- <-. rewrite Mk. eexists _, _. split; [reflexivity|]. right. left. split; [reflexivity|]. exists k, id. split; [exact Hk|]. split; [reflexivity|]. right.
      repeat split; auto. destruct s; [discriminate|discriminate].
    + eexists _, _. split; [reflexivity|]. right. right. repeat split; auto. intros k id r Hk U. apply (mget_in _ addr_eqb_spec) in Hk. apply (rotate_in pick) in Hk. apply (find_none _ _ Eg) in Hk.
      unfold candidate in Hk. cbn [fst snd is_some] in Hk. rewrite U, andb_true_r in Hk. exact Hk.
  - destruct (M k) as (id & s & Hk & Mk). { assert (Hi : In k (filter (fit0 a) (map fst t))) by (rewrite Ef; left; reflexivity). apply filter_In in Hi. tauto. }
    rewrite Mk. eexists _, _. split; [reflexivity|]. right. left. split; [reflexivity|]. exists k, id. repeat split; auto. left.
    assert (Hi : In k (filter (fit0 a) (map fst t))) by (rewrite Ef; left; reflexivity). apply filter_In in Hi. tauto.
Qed.
Lemma no_panic h t o : run h t -> tcp_only h -> tcp_step o nothing -> step t o <> None.
Proof.
  intros H T Ho. unfold step. destruct o as [r a l|id a n|id|a ok]; try discriminate.
  - destruct (complete_tcp t a n (keys_nodup _ _ H) (all_tcp_run _ _ H T) Ho) as (t' & s & -> & _). discriminate.
  - destruct (mget addr_eqb a t) as [[i s]|]; discriminate.
Qed.
(** Every waiting request was made for the key it waits under. *)
Lemma waits_as_asked h t : run h t -> forall k id r, mget addr_eqb k t = Some (id, Some r) -> In (Add (Some r) k (Some id), mk_reply None (Some id) None) h.
Proof.
  induction 1 as [|h t o t' x H IH Hs]; intros k id r Hk; [discriminate|]. apply in_app_iff. unfold step in Hs. destruct o as [r0 a l|i a n|i|a ok].
  - injection Hs as Hs. unfold start in Hs. destruct (_ && _); [injection Hs as <- _; eauto|]. destruct (mget addr_eqb a t); [injection Hs as <- _; eauto|].
    destruct l; injection Hs as <- <-; [|eauto]. rewrite (mget_mset _ addr_eqb_spec) in Hk. destruct (addr_eqb_spec k a) as [->|]; [|eauto]. injection Hk as -> ->. right. left. reflexivity.
  - destruct (complete t a n) as [[t1 s]|] eqn:E; [|discriminate]. injection Hs as <- _. left. apply complete_some in E as [(j & _ & ->)|[(_ & k' & j & _ & ->)|(_ & -> & _)]]; [| |eauto].
    + rewrite (mget_mset _ addr_eqb_spec) in Hk. destruct (addr_eqb_spec k a); [discriminate|eauto].
    + rewrite (mget_mset _ addr_eqb_spec) in Hk. destruct (addr_eqb_spec k a); [discriminate|]. rewrite (mget_mdel _ addr_eqb_spec) in Hk. destruct (addr_eqb k k'); [discriminate|eauto].
  - injection Hs as <- _. eauto.
  - destruct (mget addr_eqb a t) as [[j s]|]; injection Hs as <- _; [|eauto]. rewrite (mget_mdel _ addr_eqb_spec) in Hk. destruct (addr_eqb k a); [discriminate|eauto].
Qed.

(** ** Lawful histories *)
Lemma listener_opened id past p : listener id past = Some p -> exists y, In y past /\ opened (snd y) = Some id.
Proof.
  induction past as [|[o x] past IH]; cbn [listener]; [discriminate|]. intros E.
  assert (X : listener id past = Some p \/ opened x = Some id).
  { destruct o; destruct (opened x) as [j|]; destruct (to_remove x) as [[i|i|]|];
      try (left; exact E); try (destruct (N.eqb_spec id j) as [->|]; [right; reflexivity|left; exact E]); destruct (id =? i); try discriminate; left; exact E. }
  destruct X as [X|X]; [destruct (IH X) as (y & Hy & Ey); exists y; split; [right; exact Hy|exact Ey]|]. exists (o, x). split; [left; reflexivity|exact X].
Qed.
Lemma report_opened past : lawful past -> forall id, reports id past <> [] -> exists y, In y past /\ opened (snd y) = Some id.
Proof.
  induction past as [|[o x] past IH]; intros L id E; [exfalso; apply E; reflexivity|]. destruct L as [L1 L2].
  assert (X : reports id past <> [] \/ exists a n, o = Report id a n).
  { unfold reports in E. cbn [flat_map fst] in E. destruct o as [| j a n| |]; try (left; exact E). destruct (N.eqb_spec id j) as [Ej|]; [right; subst j; eauto|left; exact E]. }
  destruct X as [X|(a & n & ->)].
  - destruct (IH L2 id X) as (y & Hy & Ey). exists y. split; [right; exact Hy|exact Ey].
  - cbn [lawful_step fst] in L1. destruct L1 as (k & r & Hk & _). destruct (listener_opened _ _ _ Hk) as (y & Hy & Ey). exists y. split; [right; exact Hy|exact Ey].
Qed.

(** The key and the request of a listener. *)
Definition place (id : N) (past : list (op * reply)) : option (multiaddr * option N) :=
  match listener id past with
  | None => None
  | Some (k, r) =>
      match rev (reports id past) with
      | [] => Some (k, r)
      | a :: _ => Some (if starts_unspecified k && negb (is_some r) then k else a, None)
      end
  end.
Lemma place_known id past : known_as id past = option_map fst (place id past).
Proof.
  unfold known_as, place. destruct (listener id past) as [[k r]|]; [|reflexivity]. destruct (rev (reports id past)) as [|a l]; [reflexivity|]. rewrite all_b.
  destruct r; cbn [is_some negb]; [rewrite andb_false_r; reflexivity|]. rewrite andb_true_r. reflexivity.
Qed.
Definition agrees (t : table) (past : list (op * reply)) : Prop :=
  forall key id m, mget addr_eqb key t = Some (id, m) <-> place id past = Some (key, m).

Lemma lawful_tcp past o x : lawful_step past (o, x) -> tcp_step o x.
Proof.
  unfold lawful_step. cbn [fst snd]. destruct o as [r a l|id a n| |]; cbn [tcp_step]; auto.
  - destruct (opened x); [intros (_ & H) _; exact H|intros _ H; congruence].
  - intros (k & r & _ & H & _). exact H.
Qed.
Lemma lawful_tcp_only past : lawful past -> tcp_only past.
Proof.
  induction past as [|[o x] past IH]; intros L o' x' H; [destruct H|]. destruct L as [L1 L2]. destruct H as [[= <- <-]|H]; [|apply IH; assumption].
  apply lawful_tcp in L1. destruct o; exact L1.
Qed.
Lemma tcp_only_rev h : tcp_only (rev h) -> tcp_only h.
Proof. intros T o x H. apply T. apply -> in_rev. exact H. Qed.
(** Live listeners report what fits them. *)
Lemma reports_ok past : lawful past -> forall id k r, listener id past = Some (k, r) -> forall a, In a (reports id past) -> bound_addr a /\ fits k a.
Proof.
  induction past as [|[o x] past IH]; intros L id k r E a Ha; [discriminate|]. destruct L as [L1 L2].
  assert (Same : forall p, listener id past = Some p -> (o, x) = (o, x) -> True) by auto. clear Same.
  destruct o as [r0 k0 l0|j b n|j|b ok].
  - cbn [listener] in E. change (reports id ((Add r0 k0 l0, x) :: past)) with (reports id past) in Ha. unfold lawful_step in L1. cbn [fst snd] in L1.
    destruct (opened x) as [j|] eqn:Eo.
    + destruct (N.eqb_spec id j) as [->|]; [|eapply IH; eauto]. exfalso.
      destruct (report_opened past L2 j) as (y & Hy & Ey); [destruct (reports j past); [destruct Ha|discriminate]|]. exact (proj1 L1 y Hy Ey).
    + destruct (to_remove x) as [[i|i|]|]; try (eapply IH; eauto; fail); destruct (id =? i); try discriminate; eapply IH; eauto.
  - unfold reports in Ha. cbn [flat_map fst] in Ha. fold (reports id past) in Ha.
    assert (E' : listener id past = Some (k, r)).
    { cbn [listener] in E. destruct (opened x); destruct (to_remove x) as [[i|i|]|]; try exact E; destruct (id =? i); try discriminate; exact E. }
    apply in_app_iff in Ha as [Ha|Ha]; [|eapply IH; eauto]. destruct (N.eqb_spec id j) as [->|]; [|destruct Ha]. destruct Ha as [->|[]].
    unfold lawful_step in L1. cbn [fst] in L1. destruct L1 as (k' & r' & Hk & Hb & Hf & _). rewrite E' in Hk. injection Hk as <- <-. auto.
  - change (reports id ((Gone j, x) :: past)) with (reports id past) in Ha. assert (E' : listener id past = Some (k, r)).
    { cbn [listener] in E. destruct (opened x); destruct (to_remove x) as [[i|i|]|]; try exact E; destruct (id =? i); try discriminate; exact E. }
    eapply IH; eauto.
  - change (reports id ((Remove b ok, x) :: past)) with (reports id past) in Ha. assert (E' : listener id past = Some (k, r)).
    { cbn [listener] in E. destruct (opened x); destruct (to_remove x) as [[i|i|]|]; try exact E; destruct (id =? i); try discriminate; exact E. }
    eapply IH; eauto.
Qed.
Lemma place_in id past key m : place id past = Some (key, m) -> exists k r, listener id past = Some (k, r) /\
  ((key = k /\ reports id past = [] /\ m = r) \/ (reports id past <> [] /\ m = None /\ ((key = k /\ starts_unspecified k = true /\ r = None) \/ (In key (reports id past) /\ starts_unspecified k && negb (is_some r) = false)))).
Proof.
  unfold place. destruct (listener id past) as [[k r]|]; [|discriminate]. intros E. exists k, r. split; [reflexivity|].
  destruct (rev (reports id past)) as [|a l] eqn:Er.
  - injection E as <- <-. left. apply (f_equal (@rev _)) in Er. rewrite rev_involutive in Er. auto.
  - assert (Hi : In a (reports id past)) by (apply in_rev; rewrite Er; left; reflexivity). right.
    split; [intros Z; rewrite Z in Er; discriminate|]. destruct (starts_unspecified k && negb (is_some r)) eqn:B; injection E as <- <-; (split; [reflexivity|]).
    + left. apply andb_prop in B as [B1 B2]. destruct r; [discriminate|]. auto.
    + right. auto.
Qed.
Lemma bound_eq a b : bound_addr a -> bound_addr b -> fit0 a b = true -> a = b.
Proof.
  intros (ip & n & -> & Hn & _) (ip' & n' & -> & Hn' & _) F. apply fit0_spec in F as (i & x & y & E1 & E2 & H). injection E1 as -> ->. injection E2 as -> ->. destruct H; congruence.
Qed.
Lemma unspecified_fit0 a k : bound_addr a -> starts_unspecified k = true -> fit0 a k = false.
Proof.
  intros (ip & n & -> & Hn & Hi) U. destruct (fit0 _ k) eqn:F; [|reflexivity]. apply fit0_spec in F as (i & x & y & -> & E2 & _). injection E2 as <- _.
  destruct ip as [[]|[]| | | | | | |]; try discriminate; congruence.
Qed.

Lemma report_step t past id a pick k r : NoDup (map fst t) -> agrees t past -> lawful past -> all_tcp t ->
  lawful_step past (Report id a pick, nothing) -> listener id past = Some (k, r) ->
  exists t', complete t a pick = Some (t', match reports id past with [] => r | _ => None end) /\
    forall key, mget addr_eqb key t' =
      if match reports id past with [] => negb (starts_unspecified k && negb (is_some r)) | _ => false end
      then if addr_eqb key a then Some (id, None) else if addr_eqb key k then None else mget addr_eqb key t
      else mget addr_eqb key t.
Proof.
  intros N A L T Ls Ek. unfold lawful_step in Ls. cbn [fst] in Ls. destruct Ls as (k' & r' & Ek' & Hb & Hf & Hsame & Hother & Hun). rewrite Ek in Ek'. injection Ek' as <- <-.
  (* an entry under the address itself is the listener's own *)
  assert (Own : forall i m, mget addr_eqb a t = Some (i, m) -> i = id).
  { intros i m E. apply A in E. destruct (N.eq_dec i id) as [|D]; [assumption|]. exfalso. apply place_in in E as (ki & ri & Ei & X). destruct (Hother i ki ri D Ei) as [H1 H2].
    destruct X as [(-> & _)|(_ & _ & [(-> & _)|(X & _)])]; auto. }
  (* a key the address could have come from belongs to a listener which has not reported *)
  assert (Fit : forall key i m, mget addr_eqb key t = Some (i, m) -> mget addr_eqb a t = None -> fit0 a key = true -> i = id /\ reports id past = [] /\ key = k /\ m = r).
  { intros key i m E En F. assert (E' := E). apply A in E'. apply place_in in E' as (ki & ri & Ei & X).
    destruct X as [(-> & Hr & ->)|(_ & _ & [(-> & U & _)|(X & _)])].
    - destruct (N.eq_dec i id) as [->|D]; [rewrite Ek in Ei; injection Ei as <- <-; auto|]. exfalso.
      destruct (starts_unspecified k) eqn:U.
      + apply unspecified_b in U. exact (Hun U i ki ri D Ei Hr (fit0_fits _ _ F)).
      + pose proof (fits_fit0 _ _ Hf U) as F'. apply fit0_spec in F as (ip & n & p & Eki & Ea & Hn). apply fit0_spec in F' as (ip' & n' & p' & Ek0 & Ea' & Hn'). rewrite Ea in Ea'. injection Ea' as <- <-.
        destruct (Hother i ki ri D Ei) as [D1 _]. destruct Hn as [->| ->]; [congruence|]. destruct Hn' as [->| ->].
        * (* own key is the address itself, so it is in the table *)
          destruct (reports id past) as [|b l] eqn:Er.
          -- assert (P : place id past = Some (k, r)) by (unfold place; rewrite Ek, Er; reflexivity). apply A in P. subst k a. congruence.
          -- assert (Hne : ~ unspecified k) by (intros Z; apply unspecified_b in Z; congruence). assert (P : place id past = Some (a, None)).
             { unfold place. rewrite Ek, Er. destruct (rev (b :: l)) as [|c l'] eqn:Erev; [apply (f_equal (@length _)) in Erev; rewrite rev_length in Erev; discriminate|].
               rewrite U. cbn [andb]. do 2 f_equal. apply (Hsame Hne). rewrite ?Er. apply in_rev. rewrite Erev. left. reflexivity. }
             apply A in P. congruence.
        * (* both ask for any port at the address: one key *)
          assert (Kk : ki = k) by congruence. subst ki.
          destruct (reports id past) as [|b l] eqn:Er.
          -- assert (P : place id past = Some (k, r)) by (unfold place; rewrite Ek, Er; reflexivity). apply A in P. congruence.
          -- assert (Hne : ~ unspecified k) by (intros Z; apply unspecified_b in Z; congruence). assert (P : place id past = Some (a, None)).
             { unfold place. rewrite Ek, Er. destruct (rev (b :: l)) as [|c l'] eqn:Erev; [apply (f_equal (@length _)) in Erev; rewrite rev_length in Erev; discriminate|].
               rewrite U. cbn [andb]. do 2 f_equal. apply (Hsame Hne). rewrite ?Er. apply in_rev. rewrite Erev. left. reflexivity. }
             apply A in P. congruence.
    - exfalso. rewrite (unspecified_fit0 _ _ Hb U) in F. discriminate.
    - exfalso. destruct (reports_ok past L _ _ _ Ei _ X) as [Hb' _]. pose proof (bound_eq _ _ Hb Hb' F). subst key. congruence. }
  destruct (complete_tcp t a pick N T Hb) as (t' & s & -> & C). exists t'.
  destruct C as [(i & Ei & ->)|[(En & key & i & Ei & -> & C)|(En & -> & -> & C0 & C1)]].
  - (* the address is a key already *)
    pose proof (Own _ _ Ei) as ->. assert (Ei' := Ei). apply A in Ei'. apply place_in in Ei' as (ki & ri & Ek2 & X). rewrite Ek in Ek2. injection Ek2 as <- <-.
    destruct X as [(<- & Hr & ->)|(Hr & -> & X)].
    + rewrite Hr. split; [reflexivity|]. intros key. rewrite (mget_mset _ addr_eqb_spec).
      assert (U : starts_unspecified a = false). { destruct Hb as (ip & n & -> & _ & Hi). destruct ip as [[]|[]| | | | | | |]; try reflexivity; congruence. }
      rewrite U. cbn [andb negb]. destruct (addr_eqb key a) eqn:Eka; [reflexivity|]. reflexivity.
    + destruct (reports id past) as [|b l]; [congruence|]. split; [reflexivity|]. intros key. rewrite (mget_mset _ addr_eqb_spec). destruct (addr_eqb_spec key a) as [->|]; congruence.
  - destruct C as [F|(U & F & Hs & Hnone)].
    + destruct (Fit _ _ _ Ei En F) as (-> & Hr & -> & ->). rewrite Hr. split; [reflexivity|]. intros key.
      assert (U : starts_unspecified k = false). { destruct (starts_unspecified k) eqn:U; [|reflexivity]. rewrite (unspecified_fit0 _ _ Hb U) in F. discriminate. }
      rewrite U. cbn [andb negb]. rewrite (mget_mset _ addr_eqb_spec). destruct (addr_eqb key a); [reflexivity|]. apply (mget_mdel _ addr_eqb_spec).
    + (* a listener for all addresses which has not reported *)
      destruct s as [q|]; [clear Hs|congruence]. assert (E' := Ei). apply A in E'. apply place_in in E' as (ki & ri & Eki & X). destruct X as [(-> & Hr & Hq)|(_ & X & _)]; [|discriminate].
      destruct (N.eq_dec i id) as [->|D].
      * rewrite Ek in Eki. injection Eki as <- <-. subst r. rewrite Hr. split; [reflexivity|]. intros key. rewrite andb_false_r. cbn [negb]. rewrite (mget_mset _ addr_eqb_spec). destruct (addr_eqb key a); [reflexivity|]. apply (mget_mdel _ addr_eqb_spec).
      * exfalso. destruct (starts_unspecified k) eqn:Uk.
        -- apply unspecified_b in Uk. exact (Hun Uk i ki ri D Eki Hr (fit1_fits _ _ F U)).
        -- (* a listener for one address has a key which matches *)
           pose proof (fits_fit0 _ _ Hf Uk) as F'. destruct (place id past) as [[key m]|] eqn:P; [|unfold place in P; rewrite Ek in P; destruct (rev (reports id past)); discriminate].
           assert (P' := P). apply A in P'. apply place_in in P as (k2 & r2 & E2 & X). rewrite Ek in E2. injection E2 as <- <-.
           assert (Hin : In key (map fst t)). { apply (mget_in _ addr_eqb_spec) in P'. apply in_map_iff. exists (key, (id, m)). auto. }
           destruct X as [(-> & _)|(Hrr & _ & [(-> & U2 & _)|(X & _)])]; [rewrite (Hnone _ Hin) in F'; discriminate|congruence|].
           assert (Hne : ~ unspecified k) by (intros Z; apply unspecified_b in Z; congruence). rewrite (Hsame Hne _ X) in P'. congruence.
  - (* nothing matches *)
    destruct (reports id past) as [|b l] eqn:Hr.
    + assert (P : place id past = Some (k, r)) by (unfold place; rewrite Ek, Hr; reflexivity). apply A in P.
      destruct (starts_unspecified k) eqn:U.
      * destruct r as [q|]; [|cbn; auto]. exfalso. specialize (C1 k id q P U). rewrite (fits_fit1 _ _ Hf U) in C1. discriminate.
      * exfalso. pose proof (fits_fit0 _ _ Hf U) as F. rewrite C0 in F; [discriminate|]. apply (mget_in _ addr_eqb_spec) in P. apply in_map_iff. exists (k, (id, r)). auto.
    + split; [reflexivity|]. reflexivity.
Qed.

Lemma lawful_reply past id a n x y : lawful_step past (Report id a n, x) -> lawful_step past (Report id a n, y).
Proof. exact (fun H => H). Qed.
Lemma agrees_run h t : run h t -> lawful (rev h) -> agrees t (rev h).
Proof.
  induction 1 as [|h t o t' x H IH Hs]; intros L; [intros key id m; split; discriminate|].
  rewrite rev_app_distr in *. cbn [rev app lawful] in *. destruct L as [L1 L2]. specialize (IH L2). set (past := rev h) in *.
  pose proof (keys_nodup _ _ H) as Nd. assert (T : all_tcp t). { apply (all_tcp_run _ _ H). apply tcp_only_rev. apply lawful_tcp_only. exact L2. }
  unfold step in Hs. destruct o as [r a l|id a n|id|a ok].
  - injection Hs as Hs. unfold start in Hs.
    assert (Same : forall y, opened y = None -> to_remove y = None -> forall i, place i ((Add r a l, y) :: past) = place i past).
    { intros y E1 E2 i. unfold place. cbn [listener]. rewrite E1, E2. reflexivity. }
    assert (Ref : forall z, opened (refuse r z) = None /\ to_remove (refuse r z) = None) by (split; reflexivity).
    destruct (_ && _); [injection Hs as <- <-; intros key i m; rewrite Same by apply Ref; apply IH|].
    destruct (mget addr_eqb a t) eqn:E; [injection Hs as <- <-; intros key i m; rewrite Same by apply Ref; apply IH|].
    destruct l as [j|]; injection Hs as <- <-; [|intros key i m; rewrite Same by apply Ref; apply IH].
    unfold lawful_step in L1. cbn [fst snd opened] in L1. destruct L1 as [Fresh _].
    assert (Nl : listener j past = None). { destruct (listener j past) eqn:El; [|reflexivity]. destruct (listener_opened _ _ _ El) as (y & Hy & Ey). destruct (Fresh y Hy Ey). }
    assert (Nr : reports j past = []). { destruct (reports j past) eqn:El; [reflexivity|]. destruct (report_opened past L2 j) as (y & Hy & Ey); [congruence|]. destruct (Fresh y Hy Ey). }
    intros key i m. rewrite (mget_mset _ addr_eqb_spec). unfold place. cbn [listener opened]. change (reports i ((Add r a (Some j), mk_reply None (Some j) None) :: past)) with (reports i past).
    destruct (N.eqb_spec i j) as [Ei|Di].
    + subst i. rewrite Nr. cbn [rev]. destruct (addr_eqb_spec key a) as [->|Dk].
      * split; [intros [= <-]; reflexivity|intros [= <-]; reflexivity].
      * split; [|intros [= <- _]; congruence]. intros Hk. apply IH in Hk. unfold place in Hk. rewrite Nl in Hk. discriminate.
    + fold (place i past). destruct (addr_eqb_spec key a) as [->|Dk]; [|apply IH]. split; [intros [= <- _]; congruence|]. intros Hp. apply IH in Hp. congruence.
  - destruct (complete t a n) as [[t1 s]|] eqn:E; [|discriminate]. injection Hs as <- <-.
    destruct (lawful_reply past id a n _ nothing L1) as (k & r & Ek & Hb & _).
    destruct (report_step t past id a n k r Nd IH L2 T (lawful_reply past id a n _ nothing L1) Ek) as (t2 & E2 & G). rewrite E in E2. injection E2 as <- ->.
    intros key i m. rewrite G. unfold place. cbn [listener opened to_remove]. unfold reports at 2. cbn [flat_map fst]. fold (reports i past).
    destruct (N.eqb_spec i id) as [Ei|Di].
    + subst i. rewrite Ek. cbn [app rev]. destruct (reports id past) as [|b l] eqn:Er.
      * cbn [rev app]. destruct (starts_unspecified k && negb (is_some r)) eqn:B; cbn [negb].
        -- rewrite (IH key id m). unfold place. rewrite Ek, Er. cbn [rev]. apply andb_prop in B as [_ B]. destruct r; [discriminate|]. tauto.
        -- destruct (addr_eqb_spec key a) as [->|Dk]; [split; intros [= <-]; reflexivity|]. split; [|intros [= -> _]; congruence].
           destruct (addr_eqb_spec key k) as [->|Dk2]; [discriminate|]. intros Hk. apply IH in Hk. unfold place in Hk. rewrite Ek, Er in Hk. cbn [rev] in Hk. injection Hk as -> _. congruence.
      * rewrite (IH key id m). unfold place. rewrite Ek, Er. cbn [rev]. destruct (rev l ++ [b]) as [|c l'] eqn:Erl; [apply (f_equal (@length _)) in Erl; rewrite app_length in Erl; cbn in Erl; lia|]. cbn [app]. tauto.
    + cbn [app]. fold (place i past). destruct (match reports id past with [] => negb (starts_unspecified k && negb (is_some r)) | _ => false end) eqn:B; [|apply IH].
      destruct (reports id past) as [|b l] eqn:Er; [|discriminate]. assert (P : place id past = Some (k, r)) by (unfold place; rewrite Ek, Er; reflexivity).
      destruct (addr_eqb_spec key a) as [->|Dk].
      * split; [intros [= <- _]; congruence|]. intros Hp. exfalso. apply place_in in Hp as (ki & ri & Ei & X). destruct L1 as (k' & r' & Ek' & _ & _ & _ & Hother & _). destruct (Hother i ki ri Di Ei) as [H1 H2].
        destruct X as [(-> & _)|(_ & _ & [(-> & _)|(X & _)])]; auto.
      * destruct (addr_eqb_spec key k) as [->|Dk2]; [|apply IH]. split; [discriminate|]. intros Hp. apply IH in Hp. apply IH in P. congruence.
  - injection Hs as <- <-. intros key i m. rewrite (IH key i m). reflexivity.
  - destruct (mget addr_eqb a t) as [[j s]|] eqn:E; injection Hs as <- <-; [|intros key i m; rewrite (IH key i m); reflexivity].
    intros key i m. rewrite (mget_mdel _ addr_eqb_spec). unfold place. cbn [listener opened to_remove].
    change (reports i ((Remove a ok, mk_reply (option_map (fun r : N => (r, Dropped)) s) None (Some (if ok then Stopped j else NotStopped j))) :: past)) with (reports i past).
    replace (match (if ok then Stopped j else NotStopped j) with Stopped j0 => if i =? j0 then None else listener i past | NotStopped j0 => if i =? j0 then None else listener i past | Unknown => listener i past end) with (if i =? j then None else listener i past) by (destruct ok; reflexivity).
    apply IH in E. destruct (N.eqb_spec i j) as [Ei|Di].
    + subst i. split; [|discriminate]. destruct (addr_eqb_spec key a); [discriminate|]. intros Hk. apply IH in Hk. congruence.
    + fold (place i past). destruct (addr_eqb_spec key a) as [->|]; [|apply IH]. split; [discriminate|]. intros Hp. apply IH in Hp. apply IH in E. congruence.
Qed.
