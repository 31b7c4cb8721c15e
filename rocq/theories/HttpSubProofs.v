(** Lemmas about [HttpSub]. *)
From Verif Require Import Base FMap Pubsub PubsubSpec PubsubProofs HttpSub HttpSubSpec.
Local Open Scope N_scope.

(** * Streams and who holds them *)
Definition holds (x : task) : option serial :=
  match x with Reading k | Locking k _ | Resubscribing k | Leaving k _ => Some k | Gone _ => None end.
(** The task is in the map: unless it has removed itself. *)
Definition stays (x : task) : bool := match x with Leaving _ p | Gone p => p | _ => true end.
Definition panicked (x : task) : bool := match x with Leaving _ p | Gone p => p | _ => false end.

Definition holding := chan -> option (topic * serial).
Record sinv (n : pubsub) (H : holding) : Prop := {
  si_inv : inv n;
  si_held : forall c t k, H c = Some (t, k) -> exists y, get_stream k n = Some y /\ st_topic y = t /\ st_alive y = true;
  si_sole : forall c c' t t' k, H c = Some (t, k) -> H c' = Some (t', k) -> c = c';
  si_alive : forall k y, get_stream k n = Some y -> st_alive y = true -> exists c t, H c = Some (t, k);
  si_on : forall k y, get_stream k n = Some y -> cur (st_topic y) n = Some k -> st_alive y = true -> st_on_drop y = true;
  si_off : forall k y, get_stream k n = Some y -> cur (st_topic y) n = Some k -> st_alive y = false -> In (st_topic y) (ps_unsubs n) }.
Lemma sinv_ext n H H' : (forall c, H' c = H c) -> sinv n H -> sinv n H'.
Proof.
  intros E [A1 A2 A3 A4 A5 A6]. split; [exact A1| | | |exact A5|exact A6].
  - intros c t k. rewrite E. apply A2.
  - intros c c' t t' k. rewrite !E. apply A3.
  - intros k y Hy Ha. destruct (A4 _ _ Hy Ha) as (c & t & Hc). exists c, t. rewrite E. exact Hc.
Qed.
Lemma sinv0 : sinv pubsub0 (fun _ => None).
Proof. split; [exact inv0|discriminate|discriminate|cbn; discriminate|cbn; discriminate|cbn; discriminate]. Qed.

Definition put (c : chan) (x : option (topic * serial)) (H : holding) : holding := fun c' => if c' =? c then x else H c'.

Lemma get_drop k n y j : get_stream k n = Some y -> st_alive y = true -> get_stream j (drop_stream k n) = if j =? k then Some (mk_stream (st_topic y) [] false false) else get_stream j n.
Proof. intros Hy Ha. unfold drop_stream. rewrite Hy, Ha. assert (E : get_stream j (set_stream k (mk_stream (st_topic y) [] false false) n) = if j =? k then Some (mk_stream (st_topic y) [] false false) else get_stream j n) by apply get_set. destruct (st_on_drop y); exact E. Qed.
Lemma cur_drop k n u : cur u (drop_stream k n) = cur u n.
Proof. unfold drop_stream. destruct (get_stream k n) as [y|]; [|reflexivity]. destruct (st_alive y); [|reflexivity]. destruct (st_on_drop y); reflexivity. Qed.
Lemma unsubs_drop k n y : get_stream k n = Some y -> st_alive y = true -> ps_unsubs (drop_stream k n) = ps_unsubs n ++ (if st_on_drop y then [st_topic y] else []).
Proof. intros Hy Ha. unfold drop_stream. rewrite Hy, Ha. destruct (st_on_drop y); cbn; [reflexivity|rewrite app_nil_r; reflexivity]. Qed.
Lemma events_drop k n : ps_events (drop_stream k n) = ps_events n.
Proof. unfold drop_stream. destruct (get_stream k n) as [y|]; [|reflexivity]. destruct (st_alive y); [|reflexivity]. destruct (st_on_drop y); reflexivity. Qed.
Lemma next_drop k n : ps_next (drop_stream k n) = ps_next n.
Proof. unfold drop_stream. destruct (get_stream k n) as [y|]; [|reflexivity]. destruct (st_alive y); [|reflexivity]. destruct (st_on_drop y); reflexivity. Qed.

(** Dropping a held stream. *)
Lemma sinv_drop n H c t k : sinv n H -> H c = Some (t, k) -> sinv (drop_stream k n) (put c None H).
Proof.
  intros A Hc. destruct A as [A1 A2 A3 A4 A5 A6]. destruct (A2 _ _ _ Hc) as (y & Hy & Ht & Ha). pose proof (fun j => get_drop k n y j Hy Ha) as G. split.
  - apply inv_drop. exact A1.
  - intros c' t' k'. unfold put. destruct (N.eqb_spec c' c) as [|Hn]; [discriminate|]. intros Hc'. destruct (A2 _ _ _ Hc') as (z & Hz & Hzt & Hza). exists z. rewrite G.
    destruct (N.eqb_spec k' k) as [->|]; [|auto]. exfalso. apply Hn. eapply A3; eauto.
  - intros c1 c2 t1 t2 j. unfold put. destruct (c1 =? c); [discriminate|]. destruct (c2 =? c); [discriminate|]. apply A3.
  - intros j z. rewrite G. destruct (N.eqb_spec j k) as [->|Hn]; [intros [= <-]; discriminate|]. intros Hz Hza. destruct (A4 _ _ Hz Hza) as (c1 & t1 & H1). exists c1, t1. unfold put.
    destruct (N.eqb_spec c1 c) as [->|]; [congruence|exact H1].
  - intros j z. rewrite G, cur_drop. destruct (N.eqb_spec j k) as [->|Hn]; [intros [= <-]; discriminate|]. apply A5.
  - intros j z. rewrite G, cur_drop, (unsubs_drop _ _ _ Hy Ha). destruct (N.eqb_spec j k) as [->|Hn].
    + intros [= <-]. cbn [st_topic]. intros Hcur _. rewrite (A5 _ _ Hy Hcur Ha). apply in_app_iff. right. left. reflexivity.
    + intros Hz Hcur Hd. apply in_app_iff. left. eapply A6; eauto.
Qed.
(** A new stream, held by nobody so far. *)
Lemma sinv_created n H c t : sinv n H -> cur t n = None -> (forall t' k, H c <> Some (t', k)) -> sinv (created t n) (put c (Some (t, ps_next n)) H).
Proof.
  intros [A1 A2 A3 A4 A5 A6] Hc Hf. assert (L : forall c' t' k', H c' = Some (t', k') -> k' <> ps_next n). { intros c' t' k' H1. destruct (A2 _ _ _ H1) as (y & Hy & _). pose proof (i_next n A1 _ _ Hy). lia. }
  split.
  - apply inv_created; assumption.
  - intros c' t' k'. unfold put. destruct (N.eqb_spec c' c) as [|Hn].
    + intros [= <- <-]. eexists. rewrite get_created, N.eqb_refl. split; [reflexivity|auto].
    + intros H1. destruct (A2 _ _ _ H1) as (y & Hy & B). exists y. rewrite get_created. pose proof (L _ _ _ H1). destruct (N.eqb_spec k' (ps_next n)); [contradiction|auto].
  - intros c1 c2 t1 t2 j. unfold put. destruct (N.eqb_spec c1 c), (N.eqb_spec c2 c); try congruence.
    + intros [= <- <-] H2. exfalso. exact (L _ _ _ H2 eq_refl).
    + intros H2 [= <- <-]. exfalso. exact (L _ _ _ H2 eq_refl).
    + apply A3.
  - intros j z. rewrite get_created. destruct (N.eqb_spec j (ps_next n)) as [->|Hn].
    + intros [= <-] _. exists c, t. unfold put. rewrite N.eqb_refl. reflexivity.
    + intros Hz Ha. destruct (A4 _ _ Hz Ha) as (c1 & t1 & H1). exists c1, t1. unfold put. destruct (N.eqb_spec c1 c) as [->|]; [exfalso; exact (Hf _ _ H1)|exact H1].
  - intros j z. rewrite get_created, cur_created. destruct (N.eqb_spec j (ps_next n)) as [->|Hn]; [intros [= <-]; reflexivity|]. destruct (st_topic z =? t); [intros _ [= E]; congruence|apply A5].
  - intros j z. rewrite get_created, cur_created. destruct (N.eqb_spec j (ps_next n)) as [->|Hn]; [intros [= <-]; discriminate|]. destruct (st_topic z =? t); [intros _ [= E]; congruence|apply A6].
Qed.
Lemma get_next_of k n j : exists q d, get_stream j (fst (next_of k n)) = match get_stream j n with Some y => Some (mk_stream (st_topic y) q (st_alive y) d) | None => None end /\
  forall y, get_stream j n = Some y -> (j <> k -> q = st_queue y) /\ (j = k -> st_alive y = true -> st_queue y = match snd (next_of k n) with Next m => m :: q | _ => q end) /\ (d = false -> st_on_drop y = false \/ (j = k /\ has_sender k n = false)).
Proof.
  assert (T : forall n', get_stream j n' = get_stream j n -> (forall y, get_stream j n = Some y -> j = k -> st_alive y = true -> match snd (next_of k n) with Next m => False | _ => True end) -> exists q d, get_stream j n' = match get_stream j n with Some y => Some (mk_stream (st_topic y) q (st_alive y) d) | None => None end /\
    forall y, get_stream j n = Some y -> (j <> k -> q = st_queue y) /\ (j = k -> st_alive y = true -> st_queue y = match snd (next_of k n) with Next m => m :: q | _ => q end) /\ (d = false -> st_on_drop y = false \/ (j = k /\ has_sender k n = false))).
  { intros n' E F. rewrite E. destruct (get_stream j n) as [y|]; [|exists [], true; split; [reflexivity|discriminate]]. exists (st_queue y), (st_on_drop y). split; [destruct y; reflexivity|]. intros z [= <-]. split; [reflexivity|]. split; [|auto].
    intros Hj Ha. specialize (F _ eq_refl Hj Ha). destruct (snd (next_of k n)); [destruct F|reflexivity|reflexivity]. }
  unfold next_of in *. destruct (get_stream k n) as [x|] eqn:Ek; [|apply T; [reflexivity|cbn; auto]]. destruct (st_alive x) eqn:Ea; cbn [negb] in *; [|apply T; [reflexivity|cbn; auto]].
  destruct (st_queue x) as [|m q] eqn:Eq.
  - destruct (has_sender k n) eqn:Es; [apply T; [reflexivity|cbn; auto]|]. cbn [fst snd]. rewrite get_set. destruct (N.eqb_spec j k) as [->|Hn].
    + exists [], false. rewrite Ek, Ea. split; [reflexivity|]. intros y [= <-]. split; [congruence|]. split; [auto|]. auto.
    + apply T; [reflexivity|cbn; auto].
  - cbn [fst snd] in *. rewrite get_set. destruct (N.eqb_spec j k) as [->|Hn].
    + exists q, (st_on_drop x). rewrite Ek, Ea. split; [reflexivity|]. intros y [= <-]. split; [congruence|]. auto.
    + apply T; [reflexivity|congruence].
Qed.
Lemma next_of_same k n : (forall u, cur u (fst (next_of k n)) = cur u n) /\ ps_unsubs (fst (next_of k n)) = ps_unsubs n /\ ps_events (fst (next_of k n)) = ps_events n /\ ps_next (fst (next_of k n)) = ps_next n.
Proof. unfold next_of. destruct (get_stream k n) as [x|]; [|auto]. destruct (negb (st_alive x)); [auto|]. destruct (st_queue x); [|cbn; auto]. destruct (has_sender k n); cbn; auto. Qed.
Lemma sinv_next n H k : sinv n H -> sinv (fst (next_of k n)) H.
Proof.
  intros [A1 A2 A3 A4 A5 A6]. destruct (next_of_same k n) as (S1 & S2 & _).
  assert (B : forall j z, get_stream j (fst (next_of k n)) = Some z -> exists y, get_stream j n = Some y /\ st_topic z = st_topic y /\ st_alive z = st_alive y /\ (st_on_drop z = false -> st_on_drop y = false \/ (j = k /\ has_sender k n = false))).
  { intros j z Hz. destruct (get_next_of k n j) as (q & d & E & F). rewrite E in Hz. destruct (get_stream j n) as [y|]; [|discriminate]. injection Hz as <-. exists y. destruct (F _ eq_refl) as (_ & _ & F3). auto. }
  split.
  - apply inv_next_of. exact A1.
  - intros c t j Hc. destruct (A2 _ _ _ Hc) as (y & Hy & Ht & Ha). destruct (get_next_of k n j) as (q & d & E & _). rewrite E, Hy. eexists. split; [reflexivity|auto].
  - exact A3.
  - intros j z Hz Ha. destruct (B _ _ Hz) as (y & Hy & _ & E & _). apply (A4 _ _ Hy). congruence.
  - intros j z Hz. destruct (B _ _ Hz) as (y & Hy & -> & -> & E). rewrite S1. intros Hc Ha. destruct (st_on_drop z) eqn:Ed; [reflexivity|]. exfalso. destruct (E eq_refl) as [X|(-> & X)].
    + pose proof (A5 _ _ Hy Hc Ha). congruence.
    + assert (has_sender k n = true) by (apply has_sender_cur; [exact A1|eauto]). congruence.
  - intros j z Hz. destruct (B _ _ Hz) as (y & Hy & -> & -> & _). rewrite S1, S2. apply A6. exact Hy.
Qed.
Lemma sinv_removed n H u : sinv n H -> sinv (removed u n) H.
Proof.
  intros [A1 A2 A3 A4 A5 A6]. split; [apply inv_removed; exact A1|exact A2|exact A3|exact A4| |].
  - intros j z Hz. rewrite cur_removed. destruct (st_topic z =? u); [discriminate|]. apply A5. exact Hz.
  - intros j z Hz. rewrite cur_removed. destruct (st_topic z =? u); [discriminate|]. apply A6. exact Hz.
Qed.
Lemma sinv_events n H l : sinv n H -> sinv (with_events l n) H.
Proof. intros [A1 A2 A3 A4 A5 A6]. split; [apply inv_events; exact A1|exact A2|exact A3|exact A4|exact A5|exact A6]. Qed.
Lemma sinv_poll n H n' d a : sinv n H -> polled n n' d a -> sinv n' H.
Proof.
  intros [A1 A2 A3 A4 A5 A6] P.
  assert (B : forall j z, get_stream j n' = Some z -> exists y, get_stream j n = Some y /\ st_topic z = st_topic y /\ st_alive z = st_alive y /\ st_on_drop z = st_on_drop y).
  { intros j z Hz. destruct (get_stream j n) as [y|] eqn:Ey; [|rewrite (p_none _ _ _ _ P _ Ey) in Hz; discriminate]. rewrite (p_get _ _ _ _ P _ _ Ey) in Hz. injection Hz as <-. exists y. split; [reflexivity|].
    destruct (_ && st_alive y && _) eqn:E; [|auto]. cbn. apply andb_prop in E as [E _]. apply andb_prop in E as [_ E]. auto. }
  assert (C : forall u k, cur u n' = Some k -> cur u n = Some k /\ ~ In u (ps_unsubs n)).
  { intros u k Hc. split; [|intros X; rewrite (p_gone _ _ _ _ P _ X) in Hc; discriminate]. destruct (p_cur _ _ _ _ P u) as [E|(E & _)]; congruence. }
  split.
  - exact (p_inv _ _ _ _ P).
  - intros c t j Hc. destruct (A2 _ _ _ Hc) as (y & Hy & Ht & Ha). rewrite (p_get _ _ _ _ P _ _ Hy). eexists. split; [reflexivity|]. destruct (_ && st_alive y && _); auto.
  - exact A3.
  - intros j z Hz Ha. destruct (B _ _ Hz) as (y & Hy & _ & E & _). apply (A4 _ _ Hy). congruence.
  - intros j z Hz. destruct (B _ _ Hz) as (y & Hy & -> & -> & ->). intros Hc. destruct (C _ _ Hc). apply (A5 _ _ Hy). assumption.
  - intros j z Hz. destruct (B _ _ Hz) as (y & Hy & -> & -> & _). intros Hc Hd. destruct (C _ _ Hc) as [C1 C2]. exfalso. apply C2. exact (A6 _ _ Hy C1 Hd).
Qed.

(** * The invariant *)
Definition hold (s : http) : holding :=
  fun c => match task_of c s with Some (t, x) => match holds x with Some k => Some (t, k) | None => None end | None => None end.
Definition live (tw : topic * caller) : bool := match snd tw with ByNobody => false | _ => true end.
Record hinv (s : http) : Prop := {
  v_streams : sinv (h_node s) (hold s);
  v_entry : forall t c, entry t s = Some c <-> exists x, task_of c s = Some (t, x) /\ stays x = true;
  v_next : forall c t x, task_of c s = Some (t, x) -> c < h_next s;
  v_keys : NoDup (map fst (h_responses s));
  v_pos : forall r x, response_of r s = Some x -> (re_pos x <= length (log (re_chan x) s))%nat /\ re_chan x < h_next s;
  v_open : forall r x, response_of r s = Some x -> re_open x = true -> exists t y, task_of (re_chan x) s = Some (t, y) /\ stays y = true;
  v_by_task : forall t c, In (t, ByTask c) (h_calls s) -> exists k, task_of c s = Some (t, Resubscribing k);
  v_by_request : forall t r, In (t, ByRequest r) (h_calls s) -> entry t s = None /\ response_of r s = None;
  v_lock : length (filter live (h_calls s)) = if h_locked s then 1%nat else 0%nat }.

Lemma hinv0 : hinv http0.
Proof.
  split; cbn; try discriminate; try contradiction.
  - eapply sinv_ext; [|exact sinv0]. reflexivity.
  - intros t c. unfold entry, task_of. cbn. split; [discriminate|]. intros (x & E & _). discriminate.
  - constructor.
  - reflexivity.
Qed.

Lemma task_set c t x s c' : task_of c' (set_task c t x s) = if c' =? c then Some (t, x) else task_of c' s.
Proof. unfold task_of, set_task. cbn [h_tasks on_tasks]. apply (mget_mset _ N.eqb_spec). Qed.
Lemma response_set r x s r' : response_of r' (set_response r x s) = if r' =? r then Some x else response_of r' s.
Proof. unfold response_of, set_response. cbn [h_responses on_responses]. apply (mget_mset _ N.eqb_spec). Qed.
Lemma hold_set c t x s c' : hold (set_task c t x s) c' = put c (match holds x with Some k => Some (t, k) | None => None end) (hold s) c'.
Proof. unfold hold, put. rewrite task_set. destruct (c' =? c); reflexivity. Qed.
Lemma log_set c l s c' : log c' (on_logs (mset N.eqb c l (h_logs s)) s) = if c' =? c then l else log c' s.
Proof. unfold log. cbn [h_logs on_logs]. rewrite (mget_mset _ N.eqb_spec). destruct (c' =? c); reflexivity. Qed.
Lemma entry_set t c s t' : entry t' (on_entries (mset N.eqb t c (h_entries s)) s) = if t' =? t then Some c else entry t' s.
Proof. unfold entry. cbn [h_entries on_entries]. apply (mget_mset _ N.eqb_spec). Qed.
Lemma entry_del t s t' : entry t' (on_entries (mdel N.eqb t (h_entries s)) s) = if t' =? t then None else entry t' s.
Proof. unfold entry. cbn [h_entries on_entries]. apply (mget_mdel _ N.eqb_spec). Qed.

Lemma receivers_pos r x s : response_of r s = Some x -> re_open x = true -> receivers (re_chan x) s <> O.
Proof.
  intros Hr Ho. apply (mget_in _ N.eqb_spec) in Hr. unfold receivers. intros E. apply length_zero_iff_nil in E.
  assert (X : In (r, x) (filter (fun rx => re_open (snd rx) && (re_chan (snd rx) =? re_chan x)) (h_responses s))) by (apply filter_In; split; [exact Hr|cbn [snd]; rewrite Ho, N.eqb_refl; reflexivity]).
  rewrite E in X. destruct X.
Qed.
Lemma receivers_none c s : hinv s -> (forall r x, response_of r s = Some x -> re_open x = true -> re_chan x <> c) -> receivers c s = O.
Proof.
  intros V F. unfold receivers. destruct (filter _ _) as [|[r x] l] eqn:E; [reflexivity|]. exfalso.
  assert (X : In (r, x) (filter (fun rx => re_open (snd rx) && (re_chan (snd rx) =? c)) (h_responses s))) by (rewrite E; left; reflexivity).
  apply filter_In in X as [X1 X2]. cbn [snd] in X2. apply andb_prop in X2 as [X2 X3]. apply N.eqb_eq in X3. apply (in_mget _ N.eqb_spec) in X1; [|exact (v_keys s V)]. exact (F _ _ X1 X2 X3).
Qed.

(** Only the task of one channel changes, in a way the map does not see. *)
Lemma hinv_task c t x x' n s : hinv s -> task_of c s = Some (t, x) -> stays x' = stays x -> (forall k, x <> Resubscribing k) -> sinv n (put c (match holds x' with Some k => Some (t, k) | None => None end) (hold s)) ->
  hinv (set_task c t x' (on_node n s)).
Proof.
  intros [V1 V2 V3 V4 V5 V6 V7 V8 V9] Hc Hs Hr Hn. split.
  - eapply sinv_ext; [intros c'; apply hold_set|]. exact Hn.
  - intros u d. rewrite task_set. change (entry u (set_task c t x' (on_node n s))) with (entry u s). rewrite V2. destruct (N.eqb_spec d c) as [->|]; [|reflexivity]. split; intros (z & E & F).
    + rewrite Hc in E. injection E as <- <-. exists x'. split; [reflexivity|congruence].
    + injection E as <- <-. exists x. split; [exact Hc|congruence].
  - intros d u z. rewrite task_set. destruct (N.eqb_spec d c) as [->|]; [intros _; eapply V3; exact Hc|apply V3].
  - exact V4.
  - exact V5.
  - intros r y Hy Ho. destruct (V6 _ _ Hy Ho) as (u & z & E & F). rewrite task_set. destruct (N.eqb_spec (re_chan y) c) as [Ec|]; [|eauto]. rewrite Ec, Hc in E. injection E as <- <-. exists t, x'. split; [reflexivity|congruence].
  - intros u d Hd. destruct (V7 _ _ Hd) as (k & Hk). exists k. rewrite task_set. destruct (N.eqb_spec d c) as [->|]; [|exact Hk]. exfalso. rewrite Hc in Hk. injection Hk as <- Hk. exact (Hr _ Hk).
  - exact V8.
  - exact V9.
Qed.
(** Only the node changes. *)
Lemma hinv_node n s : hinv s -> sinv n (hold s) -> hinv (on_node n s).
Proof. intros [V1 V2 V3 V4 V5 V6 V7 V8 V9] Hn. split; assumption. Qed.
(** A response is read or closed. *)
Lemma hinv_response r x x' s : hinv s -> response_of r s = Some x -> re_chan x' = re_chan x -> (re_pos x' <= length (log (re_chan x) s))%nat -> (re_open x' = true -> re_open x = true) -> hinv (set_response r x' s).
Proof.
  intros [V1 V2 V3 V4 V5 V6 V7 V8 V9] Hr E1 E2 E3. split; try assumption.
  - apply (mset_nodup _ N.eqb_spec). exact V4.
  - intros r' y. rewrite response_set. destruct (N.eqb_spec r' r) as [->|]; [|apply V5]. intros [= <-]. rewrite E1. split; [exact E2|]. apply (V5 _ _ Hr).
  - intros r' y. rewrite response_set. destruct (N.eqb_spec r' r) as [->|]; [|apply V6]. intros [= <-]. intros Ho. rewrite E1. apply (V6 _ _ Hr). auto.
  - intros t r' Hc. destruct (V8 _ _ Hc) as [F1 F2]. split; [exact F1|]. rewrite response_set. destruct (N.eqb_spec r' r) as [->|]; [congruence|exact F2].
Qed.
Lemma live_none s : hinv s -> h_locked s = false -> forall tw, In tw (h_calls s) -> snd tw = ByNobody.
Proof.
  intros V L tw H. pose proof (v_lock s V) as E. rewrite L in E. apply length_zero_iff_nil in E. destruct tw as [t w]. cbn [snd]. destruct w; [| |reflexivity]; exfalso.
  - assert (X : In (t, ByRequest r) (filter live (h_calls s))) by (apply filter_In; auto). rewrite E in X. destruct X.
  - assert (X : In (t, ByTask c) (filter live (h_calls s))) by (apply filter_In; auto). rewrite E in X. destruct X.
Qed.
Lemma live_locked s tw : hinv s -> In tw (h_calls s) -> live tw = true -> h_locked s = true.
Proof. intros V H L. destruct (h_locked s) eqn:E; [reflexivity|]. pose proof (live_none s V E _ H). destruct tw as [t w]. cbn in *. subst. discriminate. Qed.
Lemma live_sole s tw q : hinv s -> h_calls s = tw :: q -> live tw = true -> forall x, In x q -> snd x = ByNobody.
Proof.
  intros V E L x Hx. pose proof (v_lock s V) as K. rewrite E in K. cbn [filter] in K. rewrite L in K. cbn [length] in K. assert (Z : length (filter live q) = 0%nat) by (destruct (h_locked s); lia). apply length_zero_iff_nil in Z.
  destruct (live x) eqn:Ex; [|destruct x as [t w]; destruct w; [discriminate|discriminate|reflexivity]]. exfalso. assert (X : In x (filter live q)) by (apply filter_In; auto). rewrite Z in X. destruct X.
Qed.
Lemma live_quiet q : (forall x : topic * caller, In x q -> snd x = ByNobody) -> length (filter live q) = 0%nat.
Proof. induction q as [|x q IH]; [reflexivity|]. intros F. cbn [filter]. unfold live at 1. rewrite (F x (or_introl eq_refl)). apply IH. intros y Hy. apply F. right. exact Hy. Qed.

(** * Each step keeps it *)
Lemma request_ok r t s : hinv s -> hinv (fst (request r t s)).
Proof.
  intros V. unfold request. destruct (h_locked s) eqn:El; [exact V|]. destruct (response_of r s) eqn:Er; [exact V|]. destruct (existsb _ (h_calls s)) eqn:Ex; [exact V|].
  pose proof (live_none s V El) as Q. destruct V as [V1 V2 V3 V4 V5 V6 V7 V8 V9]. destruct (entry t s) as [c|] eqn:Ee; cbn [fst].
  - assert (Hc := proj1 (V2 t c) Ee). destruct Hc as (x & Hx & Hs). split; try assumption.
    + apply (mset_nodup _ N.eqb_spec). exact V4.
    + intros r' y. unfold join. rewrite response_set. destruct (N.eqb_spec r' r) as [->|]; [|apply V5]. intros [= <-]. cbn [re_pos re_chan]. split; [|eapply V3; exact Hx]. apply Nat.le_refl.
    + intros r' y. unfold join. rewrite response_set. destruct (N.eqb_spec r' r) as [->|]; [|apply V6]. intros [= <-] _. cbn [re_chan]. exists t, x. auto.
    + intros u r' Hc. specialize (Q _ Hc). discriminate.
  - split; try assumption.
    + intros u c Hc. cbn [h_calls on_locked on_calls] in Hc. apply in_app_iff in Hc as [Hc|[[= -> ->]|[]]]. apply V7. exact Hc.
    + intros u r' Hc. cbn [h_calls on_locked on_calls] in Hc. apply in_app_iff in Hc as [Hc|[[= -> ->]|[]]]; [apply V8; exact Hc|]. split; assumption.
    + cbn [h_calls h_locked on_locked on_calls]. rewrite filter_app, app_length, (live_quiet _ Q). reflexivity.
Qed.
Lemma abandon_in r l x : In x (abandon r l) -> In x l \/ snd x = ByNobody.
Proof.
  induction l as [|[t w] l IH]; [intros []|]. cbn [abandon]. destruct w as [r'|c|].
  - destruct (r =? r'); intros [<-|H]; [right; reflexivity|left; right; exact H|left; left; reflexivity|]. destruct (IH H); [left; right; assumption|right; assumption].
  - intros [<-|H]; [left; left; reflexivity|]. destruct (IH H); [left; right; assumption|right; assumption].
  - intros [<-|H]; [left; left; reflexivity|]. destruct (IH H); [left; right; assumption|right; assumption].
Qed.
Lemma abandon_live r l : existsb (fun tw => match snd tw with ByRequest r' => r =? r' | _ => false end) l = true -> length (filter live l) = S (length (filter live (abandon r l))).
Proof.
  induction l as [|[t w] l IH]; [discriminate|]. cbn [existsb abandon snd]. destruct w as [r'|c|].
  - destruct (r =? r') eqn:E; [intros _; reflexivity|]. cbn [orb]. intros H. cbn [filter live snd length]. rewrite (IH H). reflexivity.
  - cbn [orb]. intros H. cbn [filter live snd length]. rewrite (IH H). reflexivity.
  - cbn [orb]. intros H. cbn [filter live snd length]. apply IH. exact H.
Qed.
Lemma cancel_ok r s : hinv s -> hinv (fst (cancel r s)).
Proof.
  intros V. unfold cancel. destruct (existsb _ (h_calls s)) eqn:Ex; [|exact V]. cbn [fst]. destruct V as [V1 V2 V3 V4 V5 V6 V7 V8 V9]. split; try assumption.
  - intros u c Hc. cbn [h_calls on_locked on_calls] in Hc. apply abandon_in in Hc as [Hc|[=]]. apply V7. exact Hc.
  - intros u c Hc. cbn [h_calls on_locked on_calls] in Hc. apply abandon_in in Hc as [Hc|[=]]. apply V8. exact Hc.
  - cbn [h_calls h_locked on_locked on_calls]. rewrite (abandon_live _ _ Ex) in V9. destruct (h_locked s); lia.
Qed.
Lemma read_ok r s : hinv s -> hinv (fst (read_response r s)).
Proof.
  intros V. unfold read_response. destruct (response_of r s) as [x|] eqn:Er; [|exact V]. destruct (re_open x) eqn:Eo; [|exact V]. cbn [negb]. destruct (re_over x); [exact V|].
  pose proof (v_pos s V _ _ Er) as [P _]. destruct (nth_error _ _) eqn:En.
  - destruct (Nat.ltb _ _); cbn [fst]; eapply hinv_response; eauto. cbn [re_pos]. apply nth_error_Some. congruence.
  - destruct (has_tx _ _); [exact V|]. eapply hinv_response; eauto.
Qed.
Lemma close_ok r s : hinv s -> hinv (fst (close_response r s)).
Proof.
  intros V. unfold close_response. destruct (response_of r s) as [x|] eqn:Er; [|exact V]. destruct (re_open x) eqn:Eo; [|exact V]. pose proof (v_pos s V _ _ Er) as [P _]. eapply hinv_response; eauto.
Qed.
Lemma hold_task c t x k s : task_of c s = Some (t, x) -> holds x = Some k -> hold s c = Some (t, k).
Proof. intros E F. unfold hold. rewrite E, F. reflexivity. Qed.
Lemma put_same c v H : H c = v -> forall c', put c v H c' = H c'.
Proof. intros E c'. unfold put. destruct (N.eqb_spec c' c) as [->|]; [symmetry; exact E|reflexivity]. Qed.
Lemma task_ok c t x x' s : hinv s -> task_of c s = Some (t, x) -> stays x' = stays x -> (forall k, x <> Resubscribing k) -> holds x' = holds x -> hinv (set_task c t x' s).
Proof.
  intros V Hc Hs Hr Hh. replace s with (on_node (h_node s) s) by (destruct s; reflexivity). eapply hinv_task; [exact V|exact Hc|exact Hs|exact Hr|]. eapply sinv_ext; [|exact (v_streams s V)]. apply put_same. unfold hold. rewrite Hc, Hh. reflexivity.
Qed.
Lemma hinv_log c m s : hinv s -> hinv (on_logs (mset N.eqb c (log c s ++ [m]) (h_logs s)) s).
Proof.
  intros [V1 V2 V3 V4 V5 V6 V7 V8 V9]. split; try assumption. intros r x Hr. destruct (V5 _ _ Hr) as [P L]. rewrite log_set. split; [|exact L]. destruct (N.eqb_spec (re_chan x) c) as [E|]; [|exact P]. rewrite E in P. rewrite app_length. lia.
Qed.
Lemma shovel_ok c s : hinv s -> hinv (fst (shovel c s)).
Proof.
  intros V. unfold shovel. destruct (task_of c s) as [[t [k|k u|k|k p|p]]|] eqn:Ec; try exact V.
  pose proof (sinv_next _ _ k (v_streams s V)) as N1. destruct (next_of k (h_node s)) as [n a] eqn:En. cbn [fst] in N1.
  assert (V1 : hinv (on_node n s)) by (apply hinv_node; assumption). assert (Ec1 : task_of c (on_node n s) = Some (t, Reading k)) by exact Ec.
  destruct a as [m| |]; cbn [fst].
  - destruct (receivers c (on_node n s)); [eapply task_ok; eauto; discriminate|]. apply hinv_log. exact V1.
  - eapply task_ok; eauto; discriminate.
  - exact V1.
Qed.
Lemma timeout_ok c s : hinv s -> hinv (fst (time_out c s)).
Proof.
  intros V. unfold time_out. destruct (task_of c s) as [[t [k|k u|k|k p|p]]|] eqn:Ec; try exact V. destruct (receivers c s); [|exact V]. eapply task_ok; eauto; discriminate.
Qed.
Lemma lock_ok c s : hinv s -> hinv (fst (lock c s)) /\ forall t, snd (lock c s) <> Unreachable t.
Proof.
  intros V. unfold lock. destruct (task_of c s) as [[t [k|k u|k|k p|p]]|] eqn:Ec; try (split; [exact V|discriminate]). destruct (h_locked s) eqn:El; [split; [exact V|discriminate]|].
  assert (Ee : entry t s = Some c) by (apply (v_entry s V); eexists; split; [exact Ec|reflexivity]). rewrite Ee. destruct (receivers c s) eqn:Er.
  - split; [|discriminate]. cbn [fst]. destruct V as [V1 V2 V3 V4 V5 V6 V7 V8 V9].
    assert (T : forall d, task_of d (set_task c t (Leaving k false) (on_entries (mdel N.eqb t (h_entries s)) s)) = if d =? c then Some (t, Leaving k false) else task_of d s) by (intros d; rewrite task_set; reflexivity).
    split; try assumption.
    + eapply sinv_ext; [|exact V1]. intros d. rewrite hold_set. apply put_same. unfold hold. change (task_of c (on_entries (mdel N.eqb t (h_entries s)) s)) with (task_of c s). rewrite Ec. reflexivity.
    + intros u' d. rewrite T. change (entry u' (set_task c t (Leaving k false) (on_entries (mdel N.eqb t (h_entries s)) s))) with (entry u' (on_entries (mdel N.eqb t (h_entries s)) s)). rewrite entry_del.
      destruct (N.eqb_spec u' t) as [->|Hn].
      * split; [discriminate|]. intros (z & E & F). destruct (N.eqb_spec d c) as [->|]; [injection E as <-; discriminate|]. assert (X : entry t s = Some d) by (apply V2; eauto). congruence.
      * rewrite V2. destruct (N.eqb_spec d c) as [->|]; [|reflexivity]. split; intros (z & E & F); [rewrite Ec in E|]; congruence.
    + intros d u' z. rewrite T. destruct (N.eqb_spec d c) as [->|]; [intros _; eapply V3; exact Ec|apply V3].
    + intros r y Hy Ho. destruct (V6 _ _ Hy Ho) as (u' & z & E & F). rewrite T. destruct (N.eqb_spec (re_chan y) c) as [Hd|]; [|eauto]. exfalso. apply (receivers_pos _ _ _ Hy Ho). rewrite Hd. exact Er.
    + intros u' d Hd. destruct (V7 _ _ Hd) as (j & Hj). exists j. rewrite T. destruct (N.eqb_spec d c) as [->|]; [congruence|exact Hj].
    + intros u' r Hr. destruct (V8 _ _ Hr) as [F1 F2]. split; [|exact F2]. change (entry u' (on_entries (mdel N.eqb t (h_entries s)) s) = None). rewrite entry_del. destruct (u' =? t); [reflexivity|exact F1].
  - destruct u; [|split; [cbn [fst]; eapply task_ok; eauto; discriminate|discriminate]].
    split; [|discriminate]. cbn [fst]. pose proof (live_none s V El) as Q. destruct V as [V1 V2 V3 V4 V5 V6 V7 V8 V9]. set (s1 := on_calls (h_calls s ++ [(t, ByTask c)]) s).
    assert (T : forall d, task_of d (on_locked true (set_task c t (Resubscribing k) s1)) = if d =? c then Some (t, Resubscribing k) else task_of d s) by (intros d; change (task_of d (set_task c t (Resubscribing k) s1) = if d =? c then Some (t, Resubscribing k) else task_of d s); rewrite task_set; reflexivity).
    split; try assumption.
    + eapply sinv_ext; [|exact V1]. intros d. change (hold (on_locked true (set_task c t (Resubscribing k) s1)) d) with (hold (set_task c t (Resubscribing k) s1) d). rewrite hold_set. apply put_same. unfold hold. change (task_of c s1) with (task_of c s). rewrite Ec. reflexivity.
    + intros u d. rewrite T. change (entry u (on_locked true (set_task c t (Resubscribing k) s1))) with (entry u s). rewrite V2. destruct (N.eqb_spec d c) as [->|]; [|reflexivity]. split; intros (z & E & F).
      * rewrite Ec in E. injection E as <- <-. eexists. split; reflexivity.
      * injection E as <- <-. eexists. split; [exact Ec|reflexivity].
    + intros d u z. rewrite T. destruct (N.eqb_spec d c) as [->|]; [intros _; eapply V3; exact Ec|apply V3].
    + intros r y Hy Ho. destruct (V6 _ _ Hy Ho) as (u & z & E & F). rewrite T. destruct (N.eqb_spec (re_chan y) c) as [Hd|]; [|eauto]. eexists _, _. split; reflexivity.
    + intros u d Hd. cbn [h_calls on_locked set_task on_tasks on_calls s1] in Hd. rewrite T. apply in_app_iff in Hd as [Hd|[[= <- <-]|[]]].
      * specialize (Q _ Hd). discriminate.
      * rewrite N.eqb_refl. eauto.
    + intros u r Hr. cbn [h_calls on_locked set_task on_tasks on_calls s1] in Hr. apply in_app_iff in Hr as [Hr|[[= -> ->]|[]]]. apply V8. exact Hr.
    + cbn [h_calls h_locked on_locked set_task on_tasks on_calls s1]. rewrite filter_app, app_length, (live_quiet _ Q). reflexivity.
Qed.
Lemma drop_does k n : step n (ODrop k) = Some (drop_stream k n, ANone).
Proof. reflexivity. Qed.
Lemma leave_ok c s : hinv s -> exists s' a, leave c s = Some (s', a) /\ hinv s'.
Proof.
  intros V. unfold leave. destruct (task_of c s) as [[t [k|k u|k|k p|p]]|] eqn:Ec; try (eexists _, _; split; [reflexivity|exact V]).
  unfold node_does. rewrite drop_does. eexists _, _. split; [reflexivity|]. eapply hinv_task; [exact V|exact Ec|reflexivity|discriminate|]. cbn [holds]. eapply sinv_drop; [exact (v_streams s V)|]. eapply hold_task; [exact Ec|reflexivity].
Qed.

(** What serving a call does: the four outcomes for a stream or none. *)
Lemma hinv_pop s n t w q : hinv s -> h_calls s = (t, w) :: q -> sinv n (hold s) -> hinv (on_locked (if live (t, w) then false else h_locked s) (on_calls q (on_node n s))).
Proof.
  intros V E Hn. pose proof (live_sole s (t, w) q V E) as Q. destruct V as [V1 V2 V3 V4 V5 V6 V7 V8 V9]. rewrite E in *. split; try assumption.
  - intros u c Hc. apply V7. right. exact Hc.
  - intros u r Hr. apply V8. right. exact Hr.
  - cbn [h_calls h_locked on_locked on_calls on_node]. cbn [filter] in V9. destruct (live (t, w)) eqn:L; [|exact V9]. apply live_quiet. apply Q. reflexivity.
Qed.
Lemma serve_ok s : hinv s -> exists s' a, serve s = Some (s', a) /\ hinv s'.
Proof.
  intros V. unfold serve. destruct (h_calls s) as [|[t w] q] eqn:E; [eexists _, _; split; [reflexivity|exact V]|].
  pose proof (v_streams s V) as N1. pose proof (si_inv _ _ N1) as I1. rewrite (subscribe_shape t (h_node s) I1). pose proof (fun n => hinv_pop s n t w q V E) as P.
  pose proof (live_sole s (t, w) q V E) as Q. destruct (cur t (h_node s)) as [k|] eqn:Ec.
  - specialize (P _ N1). destruct w as [r|c|]; cbn [live snd] in P.
    + eexists _, _. split; [reflexivity|exact P].
    + assert (Hin : In (t, ByTask c) (h_calls s)) by (rewrite E; left; reflexivity). destruct (v_by_task s V _ _ Hin) as (j & Hj).
      change (task_of c (on_calls q (on_node (h_node s) s))) with (task_of c s). rewrite Hj. eexists _, _. split; [reflexivity|].
      destruct P as [P1 P2 P3 P4 P5 P6 P7 P8 P9]. set (s1 := on_calls q (on_node (h_node s) s)) in *.
      assert (T : forall d, task_of d (on_locked false (set_task c t (Leaving j true) s1)) = if d =? c then Some (t, Leaving j true) else task_of d s) by (intros d; change (task_of d (set_task c t (Leaving j true) s1) = if d =? c then Some (t, Leaving j true) else task_of d s); rewrite task_set; reflexivity).
      split; try assumption.
      * eapply sinv_ext; [|exact P1]. intros d. change (hold (on_locked false (set_task c t (Leaving j true) s1)) d) with (hold (set_task c t (Leaving j true) s1) d). rewrite hold_set. change (hold (on_locked false s1) d) with (hold s1 d). apply put_same. unfold hold. change (task_of c s1) with (task_of c s). rewrite Hj. reflexivity.
      * intros u d. rewrite T. change (entry u (on_locked false (set_task c t (Leaving j true) s1))) with (entry u s). rewrite (v_entry s V). destruct (N.eqb_spec d c) as [->|]; [|reflexivity]. split; intros (z & F & G).
        -- rewrite Hj in F. injection F as <- <-. eexists. split; reflexivity.
        -- injection F as <- <-. eexists. split; [exact Hj|reflexivity].
      * intros d u z. rewrite T. destruct (N.eqb_spec d c) as [->|]; [intros _; eapply P3; exact Hj|apply P3].
      * intros r y Hy Ho. destruct (P6 _ _ Hy Ho) as (u & z & F & G). rewrite T. destruct (N.eqb_spec (re_chan y) c) as [Hd|]; [|eauto]. eexists _, _. split; reflexivity.
      * intros u d Hd. cbn in Hd. specialize (Q eq_refl _ Hd). discriminate.
    + eexists _, _. split; [reflexivity|]. destruct s. exact P.
  - destruct w as [r|c|]; cbn [live snd] in P.
    + eexists _, _. split; [reflexivity|]. assert (Hin : In (t, ByRequest r) (h_calls s)) by (rewrite E; left; reflexivity). destruct (v_by_request s V _ _ Hin) as (R1 & R2). destruct V as [V1 V2 V3 V4 V5 V6 V7 V8 V9].
      set (s1 := on_calls q (on_node (created t (h_node s)) s)). change (h_next s1) with (h_next s). set (c := h_next s). set (s2 := on_next (c + 1) _).
      assert (Fresh : task_of c s = None). { destruct (task_of c s) as [[u z]|] eqn:Ez; [|reflexivity]. apply V3 in Ez. lia. }
      assert (T : forall d, task_of d (on_locked false (set_task c t (Reading (ps_next (h_node s))) (join r c s2))) = if d =? c then Some (t, Reading (ps_next (h_node s))) else task_of d s) by (intros d; change (task_of d (set_task c t (Reading (ps_next (h_node s))) (join r c s2)) = if d =? c then Some (t, Reading (ps_next (h_node s))) else task_of d s); rewrite task_set; reflexivity).
      assert (R : forall r', response_of r' (on_locked false (set_task c t (Reading (ps_next (h_node s))) (join r c s2))) = if r' =? r then Some (mk_response c 0 false true) else response_of r' s).
      { intros r'. change (response_of r' (join r c s2) = if r' =? r then Some (mk_response c 0 false true) else response_of r' s). unfold join. rewrite response_set. destruct (r' =? r); [|reflexivity]. do 2 f_equal.
        unfold s2, log. cbn [h_logs on_next on_entries on_logs]. rewrite (mget_mset _ N.eqb_spec), N.eqb_refl. reflexivity. }
      assert (L : forall d, d <> c -> log d (on_locked false (set_task c t (Reading (ps_next (h_node s))) (join r c s2))) = log d s).
      { intros d Hd. unfold log, join, s2. cbn [h_logs on_locked set_task on_tasks set_response on_responses on_next on_entries on_logs]. rewrite (mget_mset _ N.eqb_spec). destruct (N.eqb_spec d c); [contradiction|reflexivity]. }
      split.
      * eapply sinv_ext; [intros d; apply (hold_set c t (Reading (ps_next (h_node s))) (join r c s2))|]. cbn [holds]. apply (sinv_ext _ (put c (Some (t, ps_next (h_node s))) (hold s))); [reflexivity|].
        apply sinv_created; [exact V1|exact Ec|]. intros t' k. unfold hold. rewrite Fresh. discriminate.
      * intros u d. rewrite T. change (entry u (on_locked false (set_task c t (Reading (ps_next (h_node s))) (join r c s2)))) with (mget N.eqb u (mset N.eqb t c (h_entries s))). rewrite (mget_mset _ N.eqb_spec). destruct (N.eqb_spec u t) as [->|Hn].
        -- split; [intros [= <-]; rewrite N.eqb_refl; eexists; split; reflexivity|]. destruct (N.eqb_spec d c) as [->|]; [reflexivity|]. intros X. apply V2 in X. congruence.
        -- fold (entry u s). rewrite V2. destruct (N.eqb_spec d c) as [->|]; [|reflexivity]. split; intros (z & F & G); congruence.
      * intros d u z. rewrite T. change (h_next (on_locked false (set_task c t (Reading (ps_next (h_node s))) (join r c s2)))) with (h_next s + 1). destruct (N.eqb_spec d c) as [->|]; [intros _; unfold c; lia|]. intros F. apply V3 in F. lia.
      * apply (mset_nodup _ N.eqb_spec). exact V4.
      * intros r' y. rewrite R. change (h_next (on_locked false (set_task c t (Reading (ps_next (h_node s))) (join r c s2)))) with (h_next s + 1). destruct (r' =? r).
        -- intros [= <-]. cbn [re_pos re_chan]. unfold c. lia.
        -- intros Hy. destruct (V5 _ _ Hy) as [F G]. rewrite L by (unfold c; lia). split; [exact F|lia].
      * intros r' y. rewrite R, T. destruct (r' =? r).
        -- intros [= <-] _. cbn [re_chan]. rewrite N.eqb_refl. eexists _, _. split; reflexivity.
        -- intros Hy Ho. destruct (V6 _ _ Hy Ho) as (u & z & F & G). destruct (N.eqb_spec (re_chan y) c) as [X|]; [congruence|eauto].
      * intros u d Hd. specialize (Q eq_refl _ Hd). discriminate.
      * intros u d Hd. specialize (Q eq_refl _ Hd). discriminate.
      * cbn. apply live_quiet. apply Q. reflexivity.
    + assert (Hin : In (t, ByTask c) (h_calls s)) by (rewrite E; left; reflexivity). destruct (v_by_task s V _ _ Hin) as (j & Hj). set (s1 := on_calls q (on_node (created t (h_node s)) s)).
      change (task_of c s1) with (task_of c s). rewrite Hj. unfold node_does. rewrite drop_does. eexists _, _. split; [reflexivity|].
      assert (Hne : forall t' k', put c None (hold s) c <> Some (t', k')) by (intros t' k'; unfold put; rewrite N.eqb_refl; discriminate).
      assert (S1 : sinv (drop_stream j (created t (h_node s))) (put c (Some (t, ps_next (h_node s))) (hold s))).
      { (* the old stream goes, then the new one is there: the two commute *)
        pose proof (hold_task _ _ _ j _ Hj eq_refl) as Hh. pose proof (sinv_drop _ _ _ _ _ N1 Hh) as N2. pose proof (sinv_created _ _ c t N2) as N3. rewrite cur_drop in N3. specialize (N3 Ec Hne). rewrite next_drop in N3.
        destruct (si_held _ _ N1 _ _ _ Hh) as (y & Hy & Ht & Ha). assert (Ln : j <> ps_next (h_node s)) by (pose proof (i_next _ I1 _ _ Hy); lia).
        assert (Hy' : get_stream j (created t (h_node s)) = Some y) by (rewrite get_created; destruct (N.eqb_spec j (ps_next (h_node s))); [contradiction|exact Hy]).
        assert (G : forall i, get_stream i (drop_stream j (created t (h_node s))) = get_stream i (created t (drop_stream j (h_node s)))).
        { intros i. rewrite (get_drop _ _ _ _ Hy' Ha), !get_created, (get_drop _ _ _ _ Hy Ha), next_drop. destruct (N.eqb_spec i j) as [->|]; [|reflexivity]. destruct (N.eqb_spec j (ps_next (h_node s))); [contradiction|reflexivity]. }
        assert (C : forall u, cur u (drop_stream j (created t (h_node s))) = cur u (created t (drop_stream j (h_node s)))) by (intros u; rewrite cur_drop, !cur_created, cur_drop, next_drop; reflexivity).
        assert (U : ps_unsubs (drop_stream j (created t (h_node s))) = ps_unsubs (created t (drop_stream j (h_node s)))) by (rewrite (unsubs_drop _ _ _ Hy' Ha); symmetry; apply (unsubs_drop _ _ _ Hy Ha)).
        destruct N3 as [B1 B2 B3 B4 B5 B6]. assert (X : forall d, put c (Some (t, ps_next (h_node s))) (put c None (hold s)) d = put c (Some (t, ps_next (h_node s))) (hold s) d) by (intros d; unfold put; destruct (d =? c); reflexivity).
        apply (sinv_ext _ (put c (Some (t, ps_next (h_node s))) (put c None (hold s)))); [intros d; symmetry; apply X|]. split.
        - apply inv_drop. apply inv_created; assumption.
        - intros d u k. rewrite G. apply B2.
        - exact B3.
        - intros k z. rewrite G. apply B4.
        - intros k z. rewrite G, C. apply B5.
        - intros k z. rewrite G, C, U. apply B6. }
      destruct V as [V1 V2 V3 V4 V5 V6 V7 V8 V9]. set (s2 := on_node (drop_stream j (h_node s1)) s1).
      assert (T : forall d, task_of d (on_locked false (set_task c t (Reading (ps_next (h_node s))) s2)) = if d =? c then Some (t, Reading (ps_next (h_node s))) else task_of d s) by (intros d; change (task_of d (set_task c t (Reading (ps_next (h_node s))) s2) = if d =? c then Some (t, Reading (ps_next (h_node s))) else task_of d s); rewrite task_set; reflexivity).
      split; try assumption.
      * eapply sinv_ext; [intros d; apply (hold_set c t (Reading (ps_next (h_node s))) s2)|]. exact S1.
      * intros u d. rewrite T. change (entry u (on_locked false (set_task c t (Reading (ps_next (h_node s))) s2))) with (entry u s). rewrite V2. destruct (N.eqb_spec d c) as [->|]; [|reflexivity]. split; intros (z & F & G).
        -- rewrite Hj in F. injection F as <- <-. eexists. split; reflexivity.
        -- injection F as <- <-. eexists. split; [exact Hj|reflexivity].
      * intros d u z. rewrite T. destruct (N.eqb_spec d c) as [->|]; [intros _; eapply V3; exact Hj|apply V3].
      * intros r y Hy Ho. destruct (V6 _ _ Hy Ho) as (u & z & F & G). rewrite T. destruct (N.eqb_spec (re_chan y) c) as [Hd|]; [|eauto]. eexists _, _. split; reflexivity.
      * intros u d Hd. cbn in Hd. specialize (Q eq_refl _ Hd). discriminate.
      * intros u d Hd. cbn in Hd. specialize (Q eq_refl _ Hd). discriminate.
      * cbn. apply live_quiet. apply Q. reflexivity.
    + unfold node_does. rewrite drop_does. eexists _, _. split; [reflexivity|].
      assert (S1 : sinv (drop_stream (ps_next (h_node s)) (created t (h_node s))) (hold s)).
      { set (c := h_next s). assert (Fresh : hold s c = None). { unfold hold. destruct (task_of c s) as [[u z]|] eqn:Ez; [|reflexivity]. apply (v_next s V) in Ez. lia. }
        assert (S2 : sinv (created t (h_node s)) (put c (Some (t, ps_next (h_node s))) (hold s))) by (apply sinv_created; [exact N1|exact Ec|rewrite Fresh; discriminate]).
        pose proof (sinv_drop _ _ c t (ps_next (h_node s)) S2) as S3. eapply sinv_ext; [|apply S3; unfold put; rewrite N.eqb_refl; reflexivity]. intros d. unfold put. destruct (N.eqb_spec d c) as [->|]; [exact Fresh|reflexivity]. }
      specialize (P _ S1). destruct s. exact P.
Qed.
Lemma node_ok o s : hinv s -> (forall n a, step (h_node s) o = Some (n, a) -> sinv n (hold s)) -> exists s', node_does o s = Some s' /\ hinv s' /\ exists n a, step (h_node s) o = Some (n, a) /\ s' = on_node n s.
Proof.
  intros V F. destruct (step_total (h_node s) o (si_inv _ _ (v_streams s V))) as (n & a & E & _). unfold node_does. rewrite E. eexists. split; [reflexivity|]. split; [|eauto]. apply hinv_node; [exact V|]. eapply F. exact E.
Qed.
Lemma hstep_ok s o : hinv s -> exists s' a, hstep s o = Some (s', a) /\ hinv s'.
Proof.
  intros V. pose proof (v_streams s V) as N1. pose proof (si_inv _ _ N1) as I1.
  destruct o as [r t|r| |r|r|c|c|c|c|t|e|]; cbn [hstep].
  - destruct (request r t s) as [s' a] eqn:E. eexists _, _. split; [reflexivity|]. pose proof (request_ok r t s V). rewrite E in H. exact H.
  - destruct (cancel r s) as [s' a] eqn:E. eexists _, _. split; [reflexivity|]. pose proof (cancel_ok r s V). rewrite E in H. exact H.
  - apply serve_ok. exact V.
  - destruct (read_response r s) as [s' a] eqn:E. eexists _, _. split; [reflexivity|]. pose proof (read_ok r s V). rewrite E in H. exact H.
  - destruct (close_response r s) as [s' a] eqn:E. eexists _, _. split; [reflexivity|]. pose proof (close_ok r s V). rewrite E in H. exact H.
  - destruct (shovel c s) as [s' a] eqn:E. eexists _, _. split; [reflexivity|]. pose proof (shovel_ok c s V). rewrite E in H. exact H.
  - destruct (time_out c s) as [s' a] eqn:E. eexists _, _. split; [reflexivity|]. pose proof (timeout_ok c s V). rewrite E in H. exact H.
  - destruct (lock c s) as [s' a] eqn:E. eexists _, _. split; [reflexivity|]. destruct (lock_ok c s V) as [H _]. rewrite E in H. exact H.
  - apply leave_ok. exact V.
  - destruct (node_ok (OUnsubscribe t) s V) as (s' & -> & V' & _); [|eauto]. intros n a. cbn [step]. rewrite (unsubscribe_shape t _ I1). intros [= <- <-]. destruct (cur t (h_node s)); [apply sinv_removed|]; exact N1.
  - destruct (node_ok (OFlood e) s V) as (s' & -> & V' & _); [|eauto]. intros n a. cbn [step]. intros [= <- <-]. apply sinv_events. exact N1.
  - destruct (node_ok OPoll s V) as (s' & -> & V' & _); [|eauto]. intros n a. cbn [step]. destruct (poll_shape _ I1) as (n' & d & b & -> & P). intros [= <- <-]. eapply sinv_poll; eauto.
Qed.
Lemma hstep_inv s o s' a : hinv s -> hstep s o = Some (s', a) -> hinv s'.
Proof. intros V E. destruct (hstep_ok s o V) as (s1 & b & E1 & V1). congruence. Qed.
Lemma hrun_ok h : forall s, hinv s -> exists s' tr, hrun s h = Some (s', tr) /\ hinv s'.
Proof.
  induction h as [|o h IH]; intros s V; [exists s, []; auto|]. cbn [hrun]. destruct (hstep_ok s o V) as (s1 & a & -> & V1). destruct (IH s1 V1) as (s2 & tr & -> & V2). eauto.
Qed.
Lemma hrun_inv s h s' tr : hinv s -> hrun s h = Some (s', tr) -> hinv s'.
Proof. intros V E. destruct (hrun_ok h s V) as (s1 & b & E1 & V1). congruence. Qed.

(** * What flows through a channel *)
Lemma part_refl {A} (l : list A) : part_of l l.
Proof. induction l; constructor; assumption. Qed.
Lemma part_none {A} (l : list A) : part_of [] l.
Proof. induction l; constructor; assumption. Qed.
Lemma part_app {A} (a a' b b' : list A) : part_of a a' -> part_of b b' -> part_of (a ++ b) (a' ++ b').
Proof. induction 1; cbn; [auto| |]; intros; constructor; auto. Qed.
Lemma part_trans {A} (a b c : list A) : part_of a b -> part_of b c -> part_of a c.
Proof.
  intros H1 H2. revert a H1. induction H2 as [|x l l' H IH|x l l' H IH]; intros a H1; [exact H1| |constructor; auto]. inversion H1; subst; constructor; auto.
Qed.
Lemma part_eq {A} (a b : list A) : a = b -> part_of a b.
Proof. intros ->. apply part_refl. Qed.
Lemma part_left {A} (a b c : list A) : part_of (a ++ b) c -> part_of a c.
Proof. intros H. eapply part_trans; [|exact H]. rewrite <- (app_nil_r a) at 1. apply part_app; [apply part_refl|apply part_none]. Qed.
Lemma part_in {A} (a b : list A) x : part_of a b -> In x a -> In x b.
Proof. induction 1; cbn; [auto| |]; intuition. Qed.

Definition stockc (c : chan) (s : http) : list msg := match hold s c with Some (_, k) => unread k (h_node s) | None => [] end.
Definition exact_at (c : chan) (t : topic) (s : http) : Prop :=
  receivers c s <> O /\ exists k x, task_of c s = Some (t, x) /\ holds x = Some k /\ (forall j p, x <> Leaving j p) /\ cur t (h_node s) = Some k /\ ~ In t (ps_unsubs (h_node s)).
Definition flows (c : chan) (t : topic) (s : http) (o : hop) (s' : http) : Prop :=
  exists x', task_of c s' = Some (t, x') /\ exists d, log c s' = log c s ++ d /\
    part_of (d ++ stockc c s' ++ coming t s') (stockc c s ++ coming t s ++ for_topic t (hfloods [o])) /\
    (exact_at c t s -> d ++ stockc c s' ++ coming t s' = stockc c s ++ coming t s ++ for_topic t (hfloods [o])).

(** Steps that leave the channel as it is. *)
Lemma flows_same c t x s o s' x' : task_of c s = Some (t, x) -> task_of c s' = Some (t, x') -> holds x' = holds x -> log c s' = log c s -> hfloods [o] = [] ->
  (forall k, holds x = Some k -> unread k (h_node s') = unread k (h_node s)) -> ps_events (h_node s') = ps_events (h_node s) -> flows c t s o s'.
Proof.
  intros H1 H2 H3 H4 H5 H6 H7. exists x'. split; [exact H2|]. exists []. rewrite app_nil_r. split; [exact H4|].
  assert (E : [] ++ stockc c s' ++ coming t s' = stockc c s ++ coming t s ++ for_topic t (hfloods [o])).
  { rewrite H5. unfold coming, backlog. rewrite H7. change (for_topic t []) with (@nil msg). rewrite app_nil_r. cbn [app]. f_equal. unfold stockc, hold. rewrite H1, H2, H3. destruct (holds x) as [k|] eqn:E; [apply H6; reflexivity|reflexivity]. }
  split; [apply part_eq; exact E|intros _; exact E].
Qed.
Lemma unread_same k n n' : get_stream k n' = get_stream k n -> unread k n' = unread k n.
Proof. unfold unread. intros ->. reflexivity. Qed.
Lemma request_same r t s : let s' := fst (request r t s) in h_node s' = h_node s /\ h_tasks s' = h_tasks s /\ h_logs s' = h_logs s.
Proof. unfold request. destruct (h_locked s); [auto|]. destruct (response_of r s); [auto|]. destruct (existsb _ _); [auto|]. destruct (entry t s); cbn; auto. Qed.
Lemma cancel_same r s : let s' := fst (cancel r s) in h_node s' = h_node s /\ h_tasks s' = h_tasks s /\ h_logs s' = h_logs s.
Proof. unfold cancel. destruct (existsb _ _); cbn; auto. Qed.
Lemma read_same r s : let s' := fst (read_response r s) in h_node s' = h_node s /\ h_tasks s' = h_tasks s /\ h_logs s' = h_logs s.
Proof. unfold read_response. destruct (response_of r s) as [x|]; [|auto]. destruct (negb (re_open x)); [auto|]. destruct (re_over x); [auto|]. destruct (nth_error _ _); [destruct (Nat.ltb _ _); cbn; auto|]. destruct (has_tx _ _); cbn; auto. Qed.
Lemma close_same r s : let s' := fst (close_response r s) in h_node s' = h_node s /\ h_tasks s' = h_tasks s /\ h_logs s' = h_logs s.
Proof. unfold close_response. destruct (response_of r s) as [x|]; [|auto]. destruct (re_open x); cbn; auto. Qed.
Lemma flows_kept c t x s o s' : task_of c s = Some (t, x) -> h_node s' = h_node s /\ h_tasks s' = h_tasks s /\ h_logs s' = h_logs s -> hfloods [o] = [] -> flows c t s o s'.
Proof.
  intros H (E1 & E2 & E3) F. eapply flows_same; [exact H| | | |exact F| |]; [unfold task_of; rewrite E2; exact H|reflexivity|unfold log; rewrite E3; reflexivity|rewrite E1; reflexivity|rewrite E1; reflexivity].
Qed.
Lemma get_held c t k s : hinv s -> hold s c = Some (t, k) -> exists y, get_stream k (h_node s) = Some y /\ st_topic y = t /\ st_alive y = true /\ k < ps_next (h_node s).
Proof. intros V H. destruct (si_held _ _ (v_streams s V) _ _ _ H) as (y & Hy & Ht & Ha). exists y. repeat (split; [assumption|]). exact (i_next _ (si_inv _ _ (v_streams s V)) _ _ Hy). Qed.
Lemma unread_drop j k n y : get_stream j n = Some y -> st_alive y = true -> k <> j -> unread k (drop_stream j n) = unread k n.
Proof. intros Hy Ha Hn. apply unread_same. rewrite (get_drop _ _ _ _ Hy Ha). destruct (N.eqb_spec k j); [contradiction|reflexivity]. Qed.
Lemma held_other c c' t t' k k' s : hinv s -> hold s c = Some (t, k) -> hold s c' = Some (t', k') -> c <> c' -> k <> k'.
Proof. intros V H H' Hn ->. apply Hn. exact (si_sole _ _ (v_streams s V) _ _ _ _ _ H H'). Qed.

Lemma flow_step c t x s o s' a : hinv s -> task_of c s = Some (t, x) -> hstep s o = Some (s', a) -> flows c t s o s'.
Proof.
  intros V Hc E. pose proof (v_streams s V) as N1. pose proof (si_inv _ _ N1) as I1.
  destruct o as [r u|r| |r|r|c'|c'|c'|c'|u|e|]; cbn [hstep] in E.
  - eapply flows_kept; [exact Hc| |reflexivity]. injection E as E. pose proof (request_same r u s) as H. rewrite E in H. exact H.
  - eapply flows_kept; [exact Hc| |reflexivity]. injection E as E. pose proof (cancel_same r s) as H. rewrite E in H. exact H.
  - (* serve *)
    unfold serve in E. destruct (h_calls s) as [|[u w] q] eqn:Eq; [injection E as <- <-; eapply flows_kept; [exact Hc|auto|reflexivity]|].
    rewrite (subscribe_shape u _ I1) in E. destruct (cur u (h_node s)) as [j|] eqn:Eu.
    + destruct w as [r|c'|].
      * injection E as <- <-. eapply flows_kept; [exact Hc|auto|reflexivity].
      * change (task_of c' (on_calls q (on_node (h_node s) s))) with (task_of c' s) in E. destruct (task_of c' s) as [[v [k|k b|k|k p|p]]|] eqn:Et; try discriminate. injection E as <- <-.
        eapply (flows_same c t x _ _ _ (if c =? c' then Leaving k true else x)); [exact Hc| | |reflexivity|reflexivity|reflexivity|reflexivity].
        -- change (task_of c (set_task c' v (Leaving k true) s) = Some (t, if c =? c' then Leaving k true else x)). rewrite task_set. destruct (N.eqb_spec c c') as [->|]; [congruence|exact Hc].
        -- destruct (N.eqb_spec c c') as [->|]; [|reflexivity]. rewrite Hc in Et. injection Et as <- ->. reflexivity.
      * injection E as <- <-. eapply flows_kept; [exact Hc|auto|reflexivity].
    + assert (Hother : forall k, holds x = Some k -> k < ps_next (h_node s)). { intros k Hk. destruct (get_held c t k s V (hold_task _ _ _ _ _ Hc Hk)) as (_ & _ & _ & _ & L). exact L. }
      assert (Hcr : forall k, holds x = Some k -> unread k (created u (h_node s)) = unread k (h_node s)). { intros k Hk. apply unread_same. rewrite get_created. specialize (Hother _ Hk). destruct (N.eqb_spec k (ps_next (h_node s))); [lia|reflexivity]. }
      destruct w as [r|c'|].
      * cbv zeta in E. change (h_next (on_calls q (on_node (created u (h_node s)) s))) with (h_next s) in E. injection E as <- <-.
        assert (Hn : c <> h_next s) by (pose proof (v_next s V _ _ _ Hc); lia). eapply (flows_same c t x _ _ _ x); [exact Hc| |reflexivity| |reflexivity|exact Hcr|reflexivity].
        -- match goal with |- task_of c (on_locked false (set_task ?d ?v ?z ?s1)) = _ => change (task_of c (set_task d v z s1) = Some (t, x)) end. rewrite task_set. destruct (N.eqb_spec c (h_next s)); [contradiction|exact Hc].
        -- unfold log, join. cbn [h_logs on_locked set_task on_tasks set_response on_responses on_next on_entries on_logs]. rewrite (mget_mset _ N.eqb_spec). destruct (N.eqb_spec c (h_next s)); [contradiction|reflexivity].
      * change (task_of c' (on_calls q (on_node (created u (h_node s)) s))) with (task_of c' s) in E. destruct (task_of c' s) as [[v [k|k b|k|k p|p]]|] eqn:Et; try discriminate.
        unfold node_does in E. rewrite drop_does in E. cbn [h_node on_calls on_node] in E. injection E as <- <-.
        assert (Hk := hold_task c' v _ k s Et eq_refl). destruct (get_held _ _ _ _ V Hk) as (y & Hy & Hyt & Hya & Ly).
        assert (Hy' : get_stream k (created u (h_node s)) = Some y) by (rewrite get_created; destruct (N.eqb_spec k (ps_next (h_node s))); [lia|exact Hy]).
        destruct (N.eqb_spec c c') as [->|Hn].
        -- rewrite Hc in Et. injection Et as <- ->. exists (Reading (ps_next (h_node s))). split.
           { match goal with |- task_of c' (on_locked false (set_task ?d ?v ?z ?s1)) = _ => change (task_of c' (set_task d v z s1) = Some (t, z)) end. rewrite task_set, N.eqb_refl. reflexivity. }
           exists []. rewrite app_nil_r. split; [reflexivity|]. split.
           ++ cbn [app hfloods map concat]. change (for_topic t []) with (@nil msg). rewrite app_nil_r. apply part_app.
              ** assert (Z : stockc c' (on_locked false (set_task c' t (Reading (ps_next (h_node s))) (on_node (drop_stream k (created u (h_node s))) (on_calls q (on_node (created u (h_node s)) s))))) = []).
                 { unfold stockc. match goal with |- context[hold (on_locked false (set_task ?d ?v ?z ?s1)) c'] => change (hold (on_locked false (set_task d v z s1)) c') with (hold (set_task d v z s1) c') end. rewrite hold_set. unfold put. rewrite N.eqb_refl. cbn [holds].
                   change (unread (ps_next (h_node s)) (drop_stream k (created u (h_node s))) = []). rewrite (unread_drop _ _ _ _ Hy' Hya) by lia. apply (unread_get _ _ (mk_stream u [] true true)). rewrite get_created, N.eqb_refl. reflexivity. }
                 cbn [on_calls on_node] in Z |- *. rewrite Z. apply part_none.
              ** apply part_eq. unfold coming, backlog. cbn [h_node on_locked set_task on_tasks on_node]. rewrite events_drop. reflexivity.
           ++ intros (_ & k0 & x0 & F1 & F2 & _ & F3 & _). rewrite Hc in F1. injection F1 as <-. injection F2 as <-. destruct (v_by_task s V u c') as (z & Hz); [rewrite Eq; left; reflexivity|]. rewrite Hc in Hz. injection Hz as <- <-. congruence.
        -- eapply (flows_same c t x _ _ _ x); [exact Hc| |reflexivity|reflexivity|reflexivity| |].
           { match goal with |- task_of c (on_locked false (set_task ?d ?v ?z ?s1)) = _ => change (task_of c (set_task d v z s1) = Some (t, x)) end. rewrite task_set. destruct (N.eqb_spec c c'); [contradiction|exact Hc]. }
           { intros i Hi. rewrite <- (Hcr _ Hi). apply (unread_drop _ _ _ _ Hy' Hya). eapply held_other; [exact V|exact (hold_task _ _ _ _ _ Hc Hi)|exact Hk|exact Hn]. }
           { exact (events_drop k (created u (h_node s))). }
      * unfold node_does in E. rewrite drop_does in E. cbn [h_node on_calls on_node] in E. injection E as <- <-. eapply (flows_same c t x _ _ _ x); [exact Hc|exact Hc|reflexivity|reflexivity|reflexivity| |cbn [h_node set_task on_tasks on_node]; rewrite events_drop; reflexivity].
        intros i Hi. rewrite <- (Hcr _ Hi). apply (unread_drop _ _ _ (mk_stream u [] true true)); [rewrite get_created, N.eqb_refl; reflexivity|reflexivity|]. specialize (Hother _ Hi). lia.
  - eapply flows_kept; [exact Hc| |reflexivity]. injection E as E. pose proof (read_same r s) as H. rewrite E in H. exact H.
  - eapply flows_kept; [exact Hc| |reflexivity]. injection E as E. pose proof (close_same r s) as H. rewrite E in H. exact H.
  - (* shovel *)
    injection E as E. unfold shovel in E. destruct (task_of c' s) as [[v [k|k b|k|k p|p]]|] eqn:Et; try (injection E as <- <-; eapply flows_kept; [exact Hc|auto|reflexivity]).
    assert (Hk := hold_task c' v _ k s Et eq_refl). destruct (get_held _ _ _ _ V Hk) as (y & Hy & Hyt & Hya & Ly). destruct (next_of_same k (h_node s)) as (M1 & M2 & M3 & M4).
    assert (Hoth : forall i, i <> k -> unread i (fst (next_of k (h_node s))) = unread i (h_node s)).
    { intros i Hi. destruct (get_next_of k (h_node s) i) as (q & d & G & F). unfold unread. rewrite G. destruct (get_stream i (h_node s)) as [z|]; [|reflexivity]. destruct (F _ eq_refl) as (F1 & _). cbn [st_queue]. apply F1. exact Hi. }
    assert (Hown : unread k (h_node s) = match snd (next_of k (h_node s)) with Next m => m :: unread k (fst (next_of k (h_node s))) | _ => unread k (fst (next_of k (h_node s))) end).
    { destruct (get_next_of k (h_node s) k) as (q & d & G & F). rewrite Hy in G. rewrite (unread_get _ _ _ Hy), (unread_get _ _ _ G). cbn [st_queue]. destruct (F _ Hy) as (_ & F2 & _). apply F2; [reflexivity|exact Hya]. }
    destruct (next_of k (h_node s)) as [n b] eqn:En. cbn [fst snd] in *.
    destruct (N.eqb_spec c c') as [<-|Hn].
    + rewrite Hc in Et. injection Et as <- ->. assert (Sk : stockc c s = unread k (h_node s)) by (unfold stockc; rewrite Hk; reflexivity). destruct b as [m| |].
      * change (receivers c (on_node n s)) with (receivers c s) in E. destruct (receivers c s) eqn:Er; injection E as <- <-.
        -- exists (Locking k false). split; [rewrite task_set, N.eqb_refl; reflexivity|]. exists []. rewrite app_nil_r. split; [reflexivity|]. split; [|intros (X & _); contradiction].
           cbn [app hfloods map concat]. change (for_topic t []) with (@nil msg). rewrite app_nil_r. apply part_app; [|apply part_eq; unfold coming, backlog; cbn [h_node set_task on_tasks on_node]; rewrite M3; reflexivity].
           rewrite Sk, Hown. unfold stockc. rewrite hold_set. unfold put. rewrite N.eqb_refl. cbn [holds h_node set_task on_tasks on_node]. constructor. apply part_refl.
        -- exists (Reading k). split; [exact Hc|]. exists [m]. split; [change (h_logs s) with (h_logs (on_node n s)); rewrite log_set, N.eqb_refl; reflexivity|].
           assert (X : [m] ++ stockc c (on_logs (mset N.eqb c (log c (on_node n s) ++ [m]) (h_logs (on_node n s))) (on_node n s)) ++ coming t (on_logs (mset N.eqb c (log c (on_node n s) ++ [m]) (h_logs (on_node n s))) (on_node n s)) = stockc c s ++ coming t s ++ for_topic t (hfloods [HShovel c])).
           { cbn [hfloods map concat app]. change (for_topic t []) with (@nil msg). rewrite app_nil_r, Sk, Hown. unfold coming, backlog. cbn [h_node on_logs on_node]. rewrite M3. unfold stockc. match goal with |- context[hold ?z c] => change (hold z c) with (hold s c) end. rewrite Hk. reflexivity. }
           split; [apply part_eq; exact X|intros _; exact X].
      * injection E as <- <-. eapply flows_same; [exact Hc|rewrite task_set, N.eqb_refl; reflexivity|reflexivity|reflexivity|reflexivity| |exact M3]. intros i [= <-]. symmetry. exact Hown.
      * injection E as <- <-. eapply flows_same; [exact Hc|exact Hc|reflexivity|reflexivity|reflexivity| |exact M3]. intros i [= <-]. symmetry. exact Hown.
    + assert (Hun : forall i, holds x = Some i -> unread i n = unread i (h_node s)). { intros i Hi. apply Hoth. eapply held_other; [exact V|exact (hold_task _ _ _ _ _ Hc Hi)|exact Hk|exact Hn]. }
      assert (T : forall z, task_of c (set_task c' v z (on_node n s)) = Some (t, x)) by (intros z; rewrite task_set; destruct (N.eqb_spec c c'); [contradiction|exact Hc]).
      destruct b as [m| |].
      * destruct (receivers c' (on_node n s)); injection E as <- <-.
        -- eapply flows_same; [exact Hc|apply T|reflexivity|reflexivity|reflexivity|exact Hun|exact M3].
        -- eapply flows_same; [exact Hc|exact Hc|reflexivity| |reflexivity|exact Hun|exact M3]. change (h_logs s) with (h_logs (on_node n s)). rewrite log_set. destruct (N.eqb_spec c c'); [contradiction|reflexivity].
      * injection E as <- <-. eapply flows_same; [exact Hc|apply T|reflexivity|reflexivity|reflexivity|exact Hun|exact M3].
      * injection E as <- <-. eapply flows_same; [exact Hc|exact Hc|reflexivity|reflexivity|reflexivity|exact Hun|exact M3].
  - (* timeout *)
    injection E as E. unfold time_out in E. destruct (task_of c' s) as [[v [k|k b|k|k p|p]]|] eqn:Et; try (injection E as <- <-; eapply flows_kept; [exact Hc|auto|reflexivity]).
    destruct (receivers c' s); injection E as <- <-; [|eapply flows_kept; [exact Hc|auto|reflexivity]].
    eapply (flows_same c t x _ _ _ (if c =? c' then Locking k true else x)); [exact Hc| | |reflexivity|reflexivity|reflexivity|reflexivity].
    + rewrite task_set. destruct (N.eqb_spec c c') as [->|]; [congruence|exact Hc].
    + destruct (N.eqb_spec c c') as [->|]; [|reflexivity]. rewrite Hc in Et. injection Et as <- ->. reflexivity.
  - (* lock *)
    injection E as E. unfold lock in E. destruct (task_of c' s) as [[v [k|k b|k|k p|p]]|] eqn:Et; try (injection E as <- <-; eapply flows_kept; [exact Hc|auto|reflexivity]).
    assert (G : forall z s1, holds z = Some k -> h_node s1 = h_node s -> h_tasks s1 = h_tasks s -> h_logs s1 = h_logs s -> flows c t s (HLock c') (set_task c' v z s1)).
    { intros z s1 Z1 Z2 Z3 Z4. eapply (flows_same c t x _ _ _ (if c =? c' then z else x)); [exact Hc| | |unfold log; cbn [h_logs set_task on_tasks]; rewrite Z4; reflexivity|reflexivity|cbn [h_node set_task on_tasks]; rewrite Z2; reflexivity|cbn [h_node set_task on_tasks]; rewrite Z2; reflexivity].
      - rewrite task_set. destruct (N.eqb_spec c c') as [->|]; [congruence|]. unfold task_of. rewrite Z3. exact Hc.
      - destruct (N.eqb_spec c c') as [->|]; [|reflexivity]. rewrite Hc in Et. injection Et as <- ->. exact Z1. }
    destruct (h_locked s); [injection E as <- <-; eapply flows_kept; [exact Hc|auto|reflexivity]|]. destruct (entry v s) as [e|]; [|injection E as <- <-; apply G; reflexivity].
    destruct (receivers e s); [injection E as <- <-; apply G; reflexivity|]. destruct b; injection E as <- <-; [|apply G; reflexivity].
    apply (G (Resubscribing k) (on_locked true (on_calls (h_calls s ++ [(v, ByTask c')]) s))); reflexivity.
  - (* leave *)
    unfold leave in E. destruct (task_of c' s) as [[v [k|k b|k|k p|p]]|] eqn:Et; try (injection E as <- <-; eapply flows_kept; [exact Hc|solve [auto]|reflexivity]).
    unfold node_does in E. rewrite drop_does in E. injection E as <- <-. assert (Hk := hold_task c' v _ k s Et eq_refl). destruct (get_held _ _ _ _ V Hk) as (y & Hy & Hyt & Hya & Ly).
    destruct (N.eqb_spec c c') as [<-|Hn].
    + rewrite Hc in Et. injection Et as <- ->. exists (Gone p). split; [rewrite task_set, N.eqb_refl; reflexivity|]. exists []. rewrite app_nil_r. split; [reflexivity|]. split.
      * cbn [app hfloods map concat]. change (for_topic t []) with (@nil msg). rewrite app_nil_r. apply part_app.
        -- unfold stockc. rewrite hold_set. unfold put. rewrite N.eqb_refl. cbn [holds]. apply part_none.
        -- apply part_eq. unfold coming, backlog. cbn [h_node set_task on_tasks on_node]. rewrite events_drop. reflexivity.
      * intros (_ & k0 & x0 & F1 & _ & F2 & _). rewrite Hc in F1. injection F1 as <-. edestruct F2. reflexivity.
    + eapply (flows_same c t x _ _ _ x); [exact Hc| |reflexivity|reflexivity|reflexivity| |cbn [h_node set_task on_tasks on_node]; rewrite events_drop; reflexivity].
      * rewrite task_set. destruct (N.eqb_spec c c'); [contradiction|exact Hc].
      * intros i Hi. apply (unread_drop _ _ _ _ Hy Hya). eapply held_other; [exact V|exact (hold_task _ _ _ _ _ Hc Hi)|exact Hk|exact Hn].
  - (* unsubscribe *)
    unfold node_does in E. cbn [step] in E. rewrite (unsubscribe_shape u _ I1) in E. injection E as <- <-. eapply (flows_same c t x _ _ _ x); [exact Hc|exact Hc|reflexivity|reflexivity|reflexivity| |]; cbn [h_node on_node]; destruct (cur u (h_node s)); reflexivity.
  - (* flood *)
    unfold node_does in E. cbn [step] in E. injection E as <- <-. exists x. split; [exact Hc|]. exists []. rewrite app_nil_r. split; [reflexivity|].
    assert (X : [] ++ stockc c (on_node (with_events (ps_events (h_node s) ++ [e]) (h_node s)) s) ++ coming t (on_node (with_events (ps_events (h_node s) ++ [e]) (h_node s)) s) = stockc c s ++ coming t s ++ for_topic t (hfloods [HFlood e])).
    { cbn [app hfloods map concat]. unfold coming, backlog. cbn [h_node on_node ps_events with_events]. rewrite for_topic_app. reflexivity. }
    split; [apply part_eq; exact X|intros _; exact X].
  - (* poll *)
    unfold node_does in E. cbn [step] in E. destruct (poll_shape _ I1) as (n & d & b & Ep & P). rewrite Ep in E. injection E as <- <-. exists x. split; [exact Hc|]. exists []. rewrite app_nil_r. split; [reflexivity|].
    cbn [app hfloods map concat]. change (for_topic t []) with (@nil msg). rewrite app_nil_r. unfold coming, backlog. cbn [h_node on_node]. rewrite (p_events _ _ _ _ P), for_topic_app. unfold stockc. change (hold (on_node n s) c) with (hold s c). cbn [h_node on_node].
    destruct (hold s c) as [[v k]|] eqn:Eh.
    + assert (v = t) by (unfold hold in Eh; rewrite Hc in Eh; destruct (holds x); congruence). subst v. destruct (get_held _ _ _ _ V Eh) as (y & Hy & Hyt & Hya & _). pose proof (p_get _ _ _ _ P _ _ Hy) as G. rewrite (unread_get _ _ _ Hy), (unread_get _ _ _ G). split.
      * rewrite app_assoc. apply part_app; [|apply part_refl]. clear G. rewrite Hyt. match goal with |- context[if ?z then _ else _] => destruct z end; cbn [st_queue]; [apply part_refl|]. rewrite <- (app_nil_r (st_queue y)) at 1. apply part_app; [apply part_refl|apply part_none].
      * intros (_ & k0 & x0 & F1 & F2 & _ & F3 & F4). rewrite Hc in F1. injection F1 as <-. pose proof (hold_task _ _ _ _ _ Hc F2) as F5. rewrite Eh in F5. injection F5 as <-. rewrite Hyt, F3, N.eqb_refl, Hya. cbn [andb].
        destruct (existsb (N.eqb t) (ps_unsubs (h_node s))) eqn:Ex; [apply existsb_N in Ex; contradiction|]. cbn [negb st_queue]. rewrite <- app_assoc. reflexivity.
    + split; [rewrite <- (app_nil_l (for_topic t (ps_events n))) at 1; cbn [app]; rewrite <- (app_nil_l (for_topic t (ps_events n))) at 1; apply part_app; [apply part_none|apply part_refl]|].
      intros (_ & k0 & x0 & F1 & F2 & _). rewrite (hold_task _ _ _ _ _ F1 F2) in Eh. discriminate.
Qed.

(** * A response *)
Lemma unsent_same r s s' x : response_of r s = Some x -> response_of r s' = Some x -> (re_pos x <= length (log (re_chan x) s))%nat -> forall d, log (re_chan x) s' = log (re_chan x) s ++ d -> unsent r s' = unsent r s ++ d.
Proof. intros H H' P d E. unfold unsent. rewrite H, H', E, skipn_app. replace (re_pos x - length (log (re_chan x) s))%nat with 0%nat by lia. reflexivity. Qed.
Lemma skipn_nth {A} (l : list A) i m : nth_error l i = Some m -> skipn i l = m :: skipn (S i) l.
Proof. revert i. induction l as [|y l IH]; intros [|i] H; try discriminate; [cbn in *; congruence|]. apply (IH i H). Qed.
Lemma lines_app r a b : lines r (a ++ b) = lines r a ++ lines r b.
Proof. unfold lines. rewrite map_app, concat_app. reflexivity. Qed.

Definition goes_on (r : rid) (x : response) (s : http) (o : hop) (s' : http) (a : hanswer) : Prop :=
  exists x', response_of r s' = Some x' /\ re_chan x' = re_chan x /\ (o <> HClose r -> re_open x' = re_open x) /\ (re_over x = true -> re_over x' = true /\ lines r [(o, a)] = []) /\
  forall d, log (re_chan x) s' = log (re_chan x) s ++ d -> lines r [(o, a)] ++ unsent r s' = unsent r s ++ d.
Lemma goes_same r x s o s' a : hinv s -> response_of r s = Some x -> response_of r s' = Some x -> lines r [(o, a)] = [] -> goes_on r x s o s' a.
Proof.
  intros V H H' L. exists x. split; [exact H'|]. split; [reflexivity|]. split; [reflexivity|]. split; [auto|]. intros d E. rewrite L. cbn [app]. eapply unsent_same; eauto. apply (v_pos s V _ _ H).
Qed.
Lemma response_step r x s o s' a : hinv s -> response_of r s = Some x -> hstep s o = Some (s', a) -> goes_on r x s o s' a.
Proof.
  intros V Hr E. pose proof (v_streams s V) as N1. pose proof (si_inv _ _ N1) as I1.
  assert (K : forall s'', h_responses s'' = h_responses s -> response_of r s'' = Some x) by (intros s'' F; unfold response_of; rewrite F; exact Hr).
  destruct o as [r' u|r'| |r'|r'|c'|c'|c'|c'|u|e|]; cbn [hstep] in E.
  - injection E as E. unfold request in E. destruct (h_locked s); [injection E as <- <-; apply goes_same; auto|]. destruct (response_of r' s) eqn:Er; [injection E as <- <-; apply goes_same; auto|].
    destruct (existsb _ _); [injection E as <- <-; apply goes_same; auto|]. destruct (entry u s) as [c|]; injection E as <- <-; [|apply goes_same; auto].
    apply goes_same; [exact V|exact Hr| |reflexivity]. unfold join. rewrite response_set. destruct (N.eqb_spec r r') as [->|]; [congruence|exact Hr].
  - injection E as E. unfold cancel in E. destruct (existsb _ _); injection E as <- <-; apply goes_same; auto.
  - unfold serve in E. destruct (h_calls s) as [|[u w] q] eqn:Eq; [injection E as <- <-; apply goes_same; auto|]. destruct (subscribe u (h_node s)) as [[n k]|]; [|discriminate]. cbv zeta in E. destruct w as [r'|c'|].
    + destruct k as [k|]; injection E as <- <-; [|apply goes_same; auto]. apply goes_same; [exact V|exact Hr| |reflexivity].
      match goal with |- response_of r (on_locked false (set_task ?d ?v ?z (join ?r1 ?c1 ?s1))) = _ => change (response_of r (join r1 c1 s1) = Some x) end. unfold join. rewrite response_set. destruct (N.eqb_spec r r') as [<-|]; [|exact Hr].
      destruct (v_by_request s V u r) as [_ X]; [rewrite Eq; left; reflexivity|]. congruence.
    + destruct k as [k|]; (destruct (task_of c' _) as [[v [j|j b|j|j p|p]]|]; try discriminate); [|injection E as <- <-; apply goes_same; auto]. unfold node_does in E. rewrite drop_does in E. injection E as <- <-. apply goes_same; auto.
    + destruct k as [k|]; [|injection E as <- <-; apply goes_same; auto]. unfold node_does in E. rewrite drop_does in E. injection E as <- <-. apply goes_same; auto.
  - injection E as E. unfold read_response in E. destruct (response_of r' s) as [y|] eqn:Er; [|injection E as <- <-; apply goes_same; auto]. destruct (re_open y) eqn:Eo; cbn [negb] in E; [|injection E as <- <-; apply goes_same; auto].
    destruct (re_over y) eqn:Ev; [injection E as <- <-; apply goes_same; auto|]. pose proof (v_pos s V _ _ Er) as [P _]. pose proof (v_pos s V _ _ Hr) as [Px _].
    assert (Oth : forall z b, r <> r' -> goes_on r x s (HRead r') (set_response r' z s) b).
    { intros z b Hn. apply goes_same; [exact V|exact Hr|rewrite response_set; destruct (N.eqb_spec r r'); [contradiction|exact Hr]|]. unfold lines. cbn [map concat]. destruct b; try reflexivity. destruct (N.eqb_spec r r'); [contradiction|reflexivity]. }
    assert (Own : forall z b, r = r' -> z = mk_response (re_chan x) (re_pos x) true true -> lines r [(HRead r', b)] = [] -> goes_on r x s (HRead r') (set_response r' z s) b).
    { intros z b <- -> L. assert (y = x) by congruence. subst y. eexists. split; [rewrite response_set, N.eqb_refl; reflexivity|]. split; [reflexivity|]. split; [intros _; cbn; congruence|]. split; [congruence|]. intros d Ed. rewrite L. cbn [app].
      unfold unsent. rewrite response_set, N.eqb_refl, Hr. cbn [re_chan re_pos]. rewrite Ed, skipn_app. replace (re_pos x - length (log (re_chan x) s))%nat with 0%nat by lia. reflexivity. }
    destruct (nth_error _ _) as [m|] eqn:En.
    + destruct (Nat.ltb _ _); injection E as <- <-.
      * destruct (N.eqb_spec r r') as [<-|Hn]; [|apply Oth; exact Hn]. assert (y = x) by congruence. subst y. apply Own; reflexivity.
      * destruct (N.eqb_spec r r') as [<-|Hn]; [|apply Oth; exact Hn]. assert (y = x) by congruence. subst y. eexists. split; [rewrite response_set, N.eqb_refl; reflexivity|]. split; [reflexivity|]. split; [intros _; cbn; congruence|]. split; [congruence|].
        intros d Ed. change (log (re_chan x) s = log (re_chan x) s ++ d) in Ed. assert (d = []) by (apply (app_inv_head (log (re_chan x) s)); rewrite app_nil_r; symmetry; exact Ed). subst d.
        unfold lines, unsent. cbn [map concat]. rewrite N.eqb_refl, response_set, N.eqb_refl, Hr. cbn [re_chan re_pos]. rewrite !app_nil_r. change (log (re_chan x) (set_response r (mk_response (re_chan x) (S (re_pos x)) false true) s)) with (log (re_chan x) s). rewrite (skipn_nth _ _ _ En). reflexivity.
    + destruct (has_tx _ _); injection E as <- <-; [apply goes_same; auto|]. destruct (N.eqb_spec r r') as [<-|Hn]; [|apply Oth; exact Hn]. assert (y = x) by congruence. subst y. apply Own; reflexivity.
  - injection E as E. unfold close_response in E. destruct (response_of r' s) as [y|] eqn:Er; [|injection E as <- <-; apply goes_same; auto]. destruct (re_open y) eqn:Eo; injection E as <- <-; [|apply goes_same; auto].
    destruct (N.eqb_spec r r') as [<-|Hn].
    + assert (y = x) by congruence. subst y. pose proof (v_pos s V _ _ Hr) as [Px _]. eexists. split; [rewrite response_set, N.eqb_refl; reflexivity|]. split; [reflexivity|]. split; [congruence|]. split; [cbn; auto|]. intros d Ed. cbn [lines map concat app].
      unfold unsent. rewrite response_set, N.eqb_refl, Hr. cbn [re_chan re_pos]. rewrite Ed, skipn_app. replace (re_pos x - length (log (re_chan x) s))%nat with 0%nat by lia. reflexivity.
    + apply goes_same; [exact V|exact Hr|rewrite response_set; destruct (N.eqb_spec r r'); [contradiction|exact Hr]|reflexivity].
  - injection E as E. unfold shovel in E. destruct (task_of c' s) as [[v [k|k b|k|k p|p]]|]; try (injection E as <- <-; apply goes_same; auto). destruct (next_of k (h_node s)) as [n b]. destruct b as [m| |]; [destruct (receivers c' (on_node n s))| |]; injection E as <- <-; apply goes_same; auto.
  - injection E as E. unfold time_out in E. destruct (task_of c' s) as [[v [k|k b|k|k p|p]]|]; try (injection E as <- <-; apply goes_same; auto). destruct (receivers c' s); injection E as <- <-; apply goes_same; auto.
  - injection E as E. unfold lock in E. destruct (task_of c' s) as [[v [k|k b|k|k p|p]]|]; try (injection E as <- <-; apply goes_same; auto). destruct (h_locked s); [injection E as <- <-; apply goes_same; auto|]. destruct (entry v s) as [z|]; [destruct (receivers z s); [|destruct b]|]; injection E as <- <-; apply goes_same; auto.
  - unfold leave in E. destruct (task_of c' s) as [[v [k|k b|k|k p|p]]|]; try (injection E as <- <-; apply goes_same; solve [auto]). 
  - unfold node_does in E. destruct (step (h_node s) (OUnsubscribe u)) as [[n b]|]; [|discriminate]. injection E as <- <-. apply goes_same; auto.
  - unfold node_does in E. destruct (step (h_node s) (OFlood e)) as [[n b]|]; [|discriminate]. injection E as <- <-. apply goes_same; auto.
  - unfold node_does in E. destruct (step (h_node s) OPoll) as [[n b]|]; [|discriminate]. injection E as <- <-. apply goes_same; auto.
Qed.

Lemma hfloods_cons o h : hfloods (o :: h) = hfloods [o] ++ hfloods h.
Proof. change (o :: h) with ([o] ++ h). unfold hfloods. rewrite map_app, concat_app. reflexivity. Qed.
(** Over a history: what is sent is part of what was there and came since. *)
Lemma flow_run c t h : forall s x s' tr, hinv s -> task_of c s = Some (t, x) -> hrun s h = Some (s', tr) ->
  exists x', task_of c s' = Some (t, x') /\ exists d, log c s' = log c s ++ d /\ part_of (d ++ stockc c s' ++ coming t s') (stockc c s ++ coming t s ++ for_topic t (hfloods h)) /\
  forall r y, response_of r s = Some y -> re_chan y = c -> exists y', response_of r s' = Some y' /\ re_chan y' = c /\ lines r tr ++ unsent r s' = unsent r s ++ d.
Proof.
  induction h as [|o h IH]; intros s x s' tr V Hc H; cbn [hrun] in H.
  - injection H as <- <-. exists x. split; [exact Hc|]. exists []. rewrite app_nil_r. split; [reflexivity|]. split; [cbn [app hfloods map concat]; change (for_topic t []) with (@nil msg); rewrite app_nil_r; apply part_refl|]. intros r y Hr Hy. exists y. rewrite app_nil_r. auto.
  - destruct (hstep s o) as [[s1 a]|] eqn:E; [|discriminate]. destruct (hrun s1 h) as [[s2 t2]|] eqn:E2; [|discriminate]. injection H as <- <-. pose proof (hstep_inv _ _ _ _ V E) as V1.
    destruct (flow_step c t x s o s1 a V Hc E) as (x1 & Hc1 & d1 & L1 & P1 & _). destruct (IH s1 x1 s2 t2 V1 Hc1 E2) as (x2 & Hc2 & d2 & L2 & P2 & R2). exists x2. split; [exact Hc2|]. exists (d1 ++ d2). split; [rewrite L2, L1, app_assoc; reflexivity|]. split.
    + rewrite <- app_assoc. eapply part_trans; [apply part_app; [apply part_refl|exact P2]|]. rewrite hfloods_cons, for_topic_app, !app_assoc. rewrite <- (app_assoc d1 (stockc c s1)). apply part_app; [|apply part_refl]. rewrite <- (app_assoc (stockc c s)). exact P1.
    + intros r y Hr Hy. destruct (response_step r y s o s1 a V Hr E) as (y1 & Hr1 & F1 & _ & _ & F2). rewrite Hy in F1, F2. specialize (F2 _ L1). destruct (R2 r y1 Hr1 F1) as (y2 & Hr2 & F3 & F4). exists y2. split; [exact Hr2|]. split; [exact F3|].
      change ((o, a) :: t2) with ([(o, a)] ++ t2). rewrite lines_app, <- app_assoc, F4, app_assoc, F2, app_assoc. reflexivity.
Qed.

(** * A topic that nobody else unsubscribes *)
Record steadyn (t : topic) (n : pubsub) (H : holding) : Prop := {
  sn_cur : forall c k, H c = Some (t, k) -> cur t n = Some k;
  sn_unsubs : In t (ps_unsubs n) -> exists k y, cur t n = Some k /\ get_stream k n = Some y /\ st_alive y = false }.
Lemma steadyn_ext t n H H' : (forall c, H' c = H c) -> steadyn t n H -> steadyn t n H'.
Proof. intros E [A B]. split; [|exact B]. intros c k. rewrite E. apply A. Qed.
Lemma steadyn_drop t n H c u k : sinv n H -> steadyn t n H -> H c = Some (u, k) -> steadyn t (drop_stream k n) (put c None H).
Proof.
  intros Hs [A B] Hc. destruct (si_held _ _ Hs _ _ _ Hc) as (y & Hy & Hyt & Hya). split.
  - intros c' k'. unfold put. destruct (c' =? c); [discriminate|]. rewrite cur_drop. apply A.
  - rewrite (unsubs_drop _ _ _ Hy Hya), in_app_iff. intros [X|X].
    + destruct (B X) as (j & z & J1 & J2 & J3). exists j, z. rewrite cur_drop, (get_drop _ _ _ _ Hy Hya). destruct (N.eqb_spec j k) as [->|]; [congruence|auto].
    + destruct (st_on_drop y); [destruct X as [X|[]]|destruct X]. subst u. rewrite X in Hc. exists k. eexists. rewrite cur_drop, (get_drop _ _ _ _ Hy Hya), N.eqb_refl. split; [eapply A; exact Hc|]. split; [reflexivity|reflexivity].
Qed.
Lemma steadyn_created t n H c u : sinv n H -> steadyn t n H -> cur u n = None -> steadyn t (created u n) (put c (Some (u, ps_next n)) H).
Proof.
  intros Hs [A B] Hc. split.
  - intros c' k'. unfold put. rewrite cur_created. destruct (c' =? c); [intros [= -> <-]; rewrite N.eqb_refl; reflexivity|]. intros H1. apply A in H1. destruct (N.eqb_spec t u) as [->|]; [congruence|exact H1].
  - intros X. destruct (B X) as (j & z & J1 & J2 & J3). exists j, z. rewrite cur_created, get_created. pose proof (i_next n (si_inv _ _ Hs) _ _ J2). destruct (N.eqb_spec t u) as [->|]; [congruence|]. destruct (N.eqb_spec j (ps_next n)); [lia|auto].
Qed.
Lemma steadyn_next t n H k : steadyn t n H -> steadyn t (fst (next_of k n)) H.
Proof.
  intros [A B]. destruct (next_of_same k n) as (S1 & S2 & _). split; [intros c j; rewrite S1; apply A|]. rewrite S2, S1. intros X. destruct (B X) as (j & z & J1 & J2 & J3). destruct (get_next_of k n j) as (q & d & G & _). rewrite J2 in G. exists j. eexists. split; [exact J1|]. split; [exact G|exact J3].
Qed.
Lemma steadyn_removed t n H u : u <> t -> steadyn t n H -> steadyn t (removed u n) H.
Proof.
  intros Hn [A B]. assert (E : cur t (removed u n) = cur t n) by (rewrite cur_removed; destruct (N.eqb_spec t u); [congruence|reflexivity]). split; [intros c k; rewrite E; apply A|rewrite E; exact B].
Qed.
Lemma steadyn_poll t n H n' d a : sinv n H -> steadyn t n H -> polled n n' d a -> steadyn t n' H.
Proof.
  intros Hs [A B] P. split; [|rewrite (p_unsubs _ _ _ _ P); intros []]. intros c k Hc. specialize (A _ _ Hc). destruct (si_held _ _ Hs _ _ _ Hc) as (y & Hy & Hyt & Hya).
  destruct (p_cur _ _ _ _ P t) as [E|(E & [X|(j & z & J1 & J2 & J3)])]; [congruence| |].
  - destruct (B X) as (j & z & J1 & J2 & J3). congruence.
  - congruence.
Qed.
Definition steady (t : topic) (s : http) : Prop := steadyn t (h_node s) (hold s).
Lemma steady_same t s s' : h_node s' = h_node s -> (forall c, hold s' c = hold s c) -> steady t s -> steady t s'.
Proof. unfold steady. intros -> E. apply steadyn_ext. exact E. Qed.
Lemma hold_step_same c v x x' s : task_of c s = Some (v, x) -> holds x' = holds x -> forall c', hold (set_task c v x' s) c' = hold s c'.
Proof. intros H E c'. rewrite hold_set. apply put_same. unfold hold. rewrite H, E. reflexivity. Qed.
Lemma hold_tasks s s' : h_tasks s' = h_tasks s -> forall c, hold s' c = hold s c.
Proof. intros E c. unfold hold, task_of. rewrite E. reflexivity. Qed.
Lemma hold_fresh s : hinv s -> hold s (h_next s) = None.
Proof. intros V. unfold hold. destruct (task_of (h_next s) s) as [[u z]|] eqn:Ez; [|reflexivity]. apply (v_next s V) in Ez. lia. Qed.
Lemma steady_step t s o s' a : hinv s -> steady t s -> hstep s o = Some (s', a) -> o <> HUnsubscribe t -> steady t s'.
Proof.
  intros V S0 E Hu. pose proof (v_streams s V) as N1. pose proof (si_inv _ _ N1) as I1.
  assert (Sm : forall s'', h_node s'' = h_node s /\ h_tasks s'' = h_tasks s /\ h_logs s'' = h_logs s -> steady t s'') by (intros s'' (E1 & E2 & _); apply (steady_same t s); [exact E1|apply hold_tasks; exact E2|exact S0]).
  destruct o as [r u|r| |r|r|c|c|c|c|u|e|]; cbn [hstep] in E.
  - injection E as E. apply Sm. pose proof (request_same r u s) as H. rewrite E in H. exact H.
  - injection E as E. apply Sm. pose proof (cancel_same r s) as H. rewrite E in H. exact H.
  - unfold serve in E. destruct (h_calls s) as [|[u w] q] eqn:Eq; [injection E as <- <-; exact S0|]. rewrite (subscribe_shape u _ I1) in E. destruct (cur u (h_node s)) as [j|] eqn:Eu.
    + destruct w as [r|c|]; [injection E as <- <-; apply Sm; auto| |injection E as <- <-; apply Sm; auto].
      change (task_of c (on_calls q (on_node (h_node s) s))) with (task_of c s) in E. destruct (task_of c s) as [[v [k|k b|k|k p|p]]|] eqn:Et; try discriminate. injection E as <- <-.
      apply (steady_same t s); [reflexivity|intros d; apply (hold_step_same c v (Resubscribing k) (Leaving k true) s Et); reflexivity|exact S0].
    + destruct w as [r|c|].
      * cbv zeta in E. change (h_next (on_calls q (on_node (created u (h_node s)) s))) with (h_next s) in E. injection E as <- <-. unfold steady.
        match goal with |- steadyn t _ (hold (on_locked false (set_task ?d ?v ?z ?s1))) => apply (steadyn_ext _ _ (put d (Some (v, ps_next (h_node s))) (hold s))); [intros c'; apply (hold_set d v z s1)|] end.
        apply (steadyn_created t (h_node s) (hold s) (h_next s) u N1 S0 Eu).
      * destruct (v_by_task s V u c) as (k & Et); [rewrite Eq; left; reflexivity|]. change (task_of c (on_calls q (on_node (created u (h_node s)) s))) with (task_of c s) in E. rewrite Et in E.
        unfold node_does in E. rewrite drop_does in E. cbn [h_node on_calls on_node] in E. injection E as <- <-. pose proof (hold_task _ _ _ k _ Et eq_refl) as Hk.
        assert (Hn : u <> t). { intros ->. apply (sn_cur _ _ _ S0) in Hk. congruence. }
        destruct (get_held _ _ _ _ V Hk) as (y & Hy & Hyt & Hya & Ly). assert (Hy' : get_stream k (created u (h_node s)) = Some y) by (rewrite get_created; destruct (N.eqb_spec k (ps_next (h_node s))); [lia|exact Hy]).
        unfold steady. cbn [h_node on_locked set_task on_tasks on_node on_calls].
        match goal with |- steadyn t _ (hold (on_locked false (set_task ?d ?v ?z ?s1))) => apply (steadyn_ext _ _ (put d (Some (v, ps_next (h_node s))) (hold s))); [intros c'; apply (hold_set d v z s1)|] end.
        destruct S0 as [A B]. split.
        -- intros c' k'. unfold put. rewrite cur_drop, cur_created. destruct (c' =? c); [intros [= -> _]; congruence|]. destruct (N.eqb_spec t u); [congruence|apply A].
        -- rewrite (unsubs_drop _ _ _ Hy' Hya), in_app_iff. intros [X|X].
           ++ destruct (B X) as (i & z & J1 & J2 & J3). exists i, z. rewrite cur_drop, cur_created, (get_drop _ _ _ _ Hy' Hya), get_created. pose proof (i_next _ I1 _ _ J2). destruct (N.eqb_spec t u); [congruence|]. destruct (N.eqb_spec i k) as [->|]; [congruence|]. destruct (N.eqb_spec i (ps_next (h_node s))); [lia|auto].
           ++ destruct (st_on_drop y); [destruct X as [X|[]]|destruct X]. congruence.
      * unfold node_does in E. rewrite drop_does in E. cbn [h_node on_calls on_node] in E. injection E as <- <-. unfold steady. cbn [h_node on_node].
        apply (steadyn_ext _ _ (put (h_next s) None (put (h_next s) (Some (u, ps_next (h_node s))) (hold s)))); [intros d; unfold put; destruct (N.eqb_spec d (h_next s)) as [->|]; [symmetry; symmetry; apply (hold_fresh s V)|reflexivity]|].
        apply (steadyn_drop t _ _ (h_next s) u); [apply sinv_created; [exact N1|exact Eu|rewrite (hold_fresh s V); discriminate]|apply steadyn_created; assumption|unfold put; rewrite N.eqb_refl; reflexivity].
  - injection E as E. apply Sm. pose proof (read_same r s) as H. rewrite E in H. exact H.
  - injection E as E. apply Sm. pose proof (close_same r s) as H. rewrite E in H. exact H.
  - injection E as E. unfold shovel in E. destruct (task_of c s) as [[v [k|k b|k|k p|p]]|] eqn:Et; try (injection E as <- <-; exact S0).
    pose proof (steadyn_next t _ _ k S0) as S1. destruct (next_of k (h_node s)) as [n b]. cbn [fst] in S1.
    assert (T : forall z, holds z = Some k -> steady t (set_task c v z (on_node n s))). { intros z Hz. apply (steadyn_ext _ _ (hold s)); [|exact S1]. intros d. apply (hold_step_same c v (Reading k) z (on_node n s) Et). exact Hz. }
    destruct b as [m| |]; [destruct (receivers c (on_node n s))| |]; injection E as <- <-; first [apply T; reflexivity|exact S1].
  - injection E as E. unfold time_out in E. destruct (task_of c s) as [[v [k|k b|k|k p|p]]|] eqn:Et; try (injection E as <- <-; exact S0). destruct (receivers c s); injection E as <- <-; [|exact S0].
    apply (steady_same t s); [reflexivity|apply (hold_step_same c v (Reading k) _ s Et); reflexivity|exact S0].
  - injection E as E. unfold lock in E. destruct (task_of c s) as [[v [k|k b|k|k p|p]]|] eqn:Et; try (injection E as <- <-; exact S0). destruct (h_locked s); [injection E as <- <-; exact S0|].
    assert (T : forall z s1, holds z = Some k -> h_node s1 = h_node s -> h_tasks s1 = h_tasks s -> steady t (set_task c v z s1)).
    { intros z s1 Hz F1 F2. apply (steady_same t s); [exact F1| |exact S0]. intros d. rewrite <- (hold_tasks s s1 F2 d). apply (hold_step_same c v (Locking k b) z s1); [unfold task_of; rewrite F2; exact Et|exact Hz]. }
    destruct (entry v s) as [z|]; [|injection E as <- <-; apply T; reflexivity]. destruct (receivers z s); [injection E as <- <-; apply T; reflexivity|]. destruct b; injection E as <- <-; [|apply T; reflexivity].
    apply (T (Resubscribing k) (on_locked true (on_calls (h_calls s ++ [(v, ByTask c)]) s))); reflexivity.
  - unfold leave in E. destruct (task_of c s) as [[v [k|k b|k|k p|p]]|] eqn:Et; try (injection E as <- <-; exact S0). unfold node_does in E. rewrite drop_does in E. injection E as <- <-.
    unfold steady. apply (steadyn_ext _ _ (put c None (hold s))); [intros d; apply (hold_set c v (Gone p) (on_node (drop_stream k (h_node s)) s))|]. apply (steadyn_drop t _ _ c v); [exact N1|exact S0|]. eapply hold_task; [exact Et|reflexivity].
  - unfold node_does in E. cbn [step] in E. rewrite (unsubscribe_shape u _ I1) in E. injection E as <- <-. unfold steady. cbn [h_node on_node]. apply (steadyn_ext _ _ (hold s)); [reflexivity|]. destruct (cur u (h_node s)); [apply steadyn_removed; [congruence|exact S0]|exact S0].
  - unfold node_does in E. cbn [step] in E. injection E as <- <-. destruct S0 as [A B]. split; [exact A|exact B].
  - unfold node_does in E. cbn [step] in E. destruct (poll_shape _ I1) as (n & d & b & Ep & P). rewrite Ep in E. injection E as <- <-. unfold steady. cbn [h_node on_node]. apply (steadyn_ext _ _ (hold s)); [reflexivity|]. eapply steadyn_poll; eauto.
Qed.
Lemma steady0 t : steady t http0.
Proof. split; cbn; [discriminate|intros []]. Qed.
Lemma steady_run t h : forall s s' tr, hinv s -> steady t s -> hrun s h = Some (s', tr) -> left_alone t h -> steady t s'.
Proof.
  induction h as [|o h IH]; intros s s' tr V S0 H L; cbn [hrun] in H; [congruence|]. destruct (hstep s o) as [[s1 a]|] eqn:E; [|discriminate]. destruct (hrun s1 h) as [[s2 t2]|] eqn:E2; [|discriminate]. injection H as <- <-.
  apply (IH s1 s2 t2); [eapply hstep_inv; eauto|eapply steady_step; eauto; intros ->; apply L; left; reflexivity|exact E2|intros X; apply L; right; exact X].
Qed.

(** * No panic, no harm *)
Definition sound_tasks (t : topic) (s : http) : Prop := forall c x, task_of c s = Some (t, x) -> panicked x = false.
Lemma sound_same t s s' : h_tasks s' = h_tasks s -> sound_tasks t s -> sound_tasks t s'.
Proof. intros E H c x. unfold task_of. rewrite E. apply H. Qed.
Lemma sound_set t s c v z : sound_tasks t s -> (v = t -> panicked z = false) -> sound_tasks t (set_task c v z s).
Proof. intros H F c' x. rewrite task_set. destruct (c' =? c); [intros [= -> <-]; auto|apply H]. Qed.
Lemma sound_step t s o s' a : hinv s -> sound_tasks t s -> hstep s o = Some (s', a) -> a <> TaskPanicked t -> sound_tasks t s'.
Proof.
  intros V S0 E Ha. pose proof (si_inv _ _ (v_streams s V)) as I1. destruct o as [r u|r| |r|r|c|c|c|c|u|e|]; cbn [hstep] in E.
  - injection E as E. eapply sound_same; [|exact S0]. pose proof (request_same r u s) as H. rewrite E in H. apply H.
  - injection E as E. eapply sound_same; [|exact S0]. pose proof (cancel_same r s) as H. rewrite E in H. apply H.
  - unfold serve in E. destruct (h_calls s) as [|[u w] q] eqn:Eq; [injection E as <- <-; exact S0|]. destruct (subscribe u (h_node s)) as [[n k]|]; [|discriminate]. cbv zeta in E. destruct w as [r|c|].
    + destruct k as [k|]; injection E as <- <-; [|eapply sound_same; [|exact S0]; reflexivity].
      match goal with |- sound_tasks t (on_locked false (set_task ?d ?v ?z ?s1)) => apply (sound_same t (set_task d v z s1)); [reflexivity|] end. apply sound_set; [|reflexivity]. eapply sound_same; [|exact S0]. reflexivity.
    + destruct k as [k|]; (destruct (task_of c _) as [[v [j|j b|j|j p|p]]|]; try discriminate).
      * unfold node_does in E. rewrite drop_does in E. injection E as <- <-. match goal with |- sound_tasks t (on_locked false (set_task ?d ?v ?z ?s1)) => apply (sound_same t (set_task d v z s1)); [reflexivity|] end. apply sound_set; [|reflexivity]. eapply sound_same; [|exact S0]. reflexivity.
      * injection E as <- <-. match goal with |- sound_tasks t (on_locked false (set_task ?d ?v ?z ?s1)) => apply (sound_same t (set_task d v z s1)); [reflexivity|] end. apply sound_set; [|intros ->; congruence]. eapply sound_same; [|exact S0]. reflexivity.
    + destruct k as [k|]; [|injection E as <- <-; eapply sound_same; [|exact S0]; reflexivity]. unfold node_does in E. rewrite drop_does in E. injection E as <- <-. eapply sound_same; [|exact S0]; reflexivity.
  - injection E as E. eapply sound_same; [|exact S0]. pose proof (read_same r s) as H. rewrite E in H. apply H.
  - injection E as E. eapply sound_same; [|exact S0]. pose proof (close_same r s) as H. rewrite E in H. apply H.
  - injection E as E. unfold shovel in E. destruct (task_of c s) as [[v [k|k b|k|k p|p]]|] eqn:Et; try (injection E as <- <-; exact S0). destruct (next_of k (h_node s)) as [n b].
    destruct b as [m| |]; [destruct (receivers c (on_node n s))| |]; injection E as <- <-; first [eapply sound_same; [|exact S0]; reflexivity|apply sound_set; [eapply sound_same; [|exact S0]; reflexivity|reflexivity]].
  - injection E as E. unfold time_out in E. destruct (task_of c s) as [[v [k|k b|k|k p|p]]|] eqn:Et; try (injection E as <- <-; exact S0). destruct (receivers c s); injection E as <- <-; [apply sound_set; [exact S0|reflexivity]|exact S0].
  - injection E as E. pose proof (proj2 (lock_ok c s V)) as Un. rewrite E in Un. cbn [snd] in Un. unfold lock in E. destruct (task_of c s) as [[v [k|k b|k|k p|p]]|] eqn:Et; try (injection E as <- <-; exact S0). destruct (h_locked s); [injection E as <- <-; exact S0|].
    destruct (entry v s) as [z|]; [|injection E as <- <-; edestruct Un; reflexivity]. destruct (receivers z s); [injection E as <- <-; apply sound_set; [|reflexivity]; eapply sound_same; [|exact S0]; reflexivity|]. destruct b; injection E as <- <-; [|apply sound_set; [exact S0|reflexivity]].
    match goal with |- sound_tasks t (on_locked true (set_task ?d ?v ?z ?s1)) => apply (sound_same t (set_task d v z s1)); [reflexivity|] end. apply sound_set; [|reflexivity]. eapply sound_same; [|exact S0]. reflexivity.
  - unfold leave in E. destruct (task_of c s) as [[v [k|k b|k|k p|p]]|] eqn:Et; try (injection E as <- <-; exact S0). unfold node_does in E. rewrite drop_does in E. injection E as <- <-. apply sound_set; [eapply sound_same; [|exact S0]; reflexivity|]. intros ->. exact (S0 _ _ Et).
  - unfold node_does in E. destruct (step _ _) as [[n b]|]; [|discriminate]. injection E as <- <-. eapply sound_same; [|exact S0]. reflexivity.
  - unfold node_does in E. destruct (step _ _) as [[n b]|]; [|discriminate]. injection E as <- <-. eapply sound_same; [|exact S0]. reflexivity.
  - unfold node_does in E. destruct (step _ _) as [[n b]|]; [|discriminate]. injection E as <- <-. eapply sound_same; [|exact S0]. reflexivity.
Qed.
Lemma sound_run t h : forall s s' tr, hinv s -> sound_tasks t s -> hrun s h = Some (s', tr) -> unharmed t tr -> sound_tasks t s'.
Proof.
  induction h as [|o h IH]; intros s s' tr V S0 H L; cbn [hrun] in H; [injection H as <- _; exact S0|]. destruct (hstep s o) as [[s1 a]|] eqn:E; [|discriminate]. destruct (hrun s1 h) as [[s2 t2]|] eqn:E2; [|discriminate]. injection H as <- <-.
  apply (IH s1 s2 t2); [eapply hstep_inv; eauto|eapply sound_step; eauto; intros ->; apply (L o); left; reflexivity|exact E2|intros o' X; apply (L o'); right; exact X].
Qed.

Lemma exact_here c t r y s : hinv s -> steady t s -> sound_tasks t s -> response_of r s = Some y -> re_open y = true -> re_chan y = c -> forall x, task_of c s = Some (t, x) -> exact_at c t s.
Proof.
  intros V S0 S1 Hr Ho Hc x Hx. split; [rewrite <- Hc; eapply receivers_pos; eauto|]. destruct (v_open s V _ _ Hr Ho) as (t' & x' & Hx' & Hs). rewrite Hc, Hx in Hx'. injection Hx' as <- <-. specialize (S1 _ _ Hx).
  assert (Hh : exists k, holds x = Some k /\ forall j p, x <> Leaving j p) by (destruct x as [k|k b|k|k p|p]; cbn in *; [exists k; split; [reflexivity|discriminate]..|congruence|congruence]).
  destruct Hh as (k & Hk & Hl). exists k, x. split; [exact Hx|]. split; [exact Hk|]. split; [exact Hl|]. pose proof (hold_task _ _ _ _ _ Hx Hk) as Hd. pose proof (sn_cur _ _ _ S0 _ _ Hd) as Hcur. split; [exact Hcur|].
  intros X. destruct (sn_unsubs _ _ _ S0 X) as (j & z & J1 & J2 & J3). destruct (get_held _ _ _ _ V Hd) as (w & W1 & _ & W2 & _). congruence.
Qed.
Lemma exact_run c t r h : forall s x y s' tr, hinv s -> steady t s -> sound_tasks t s -> task_of c s = Some (t, x) -> response_of r s = Some y -> re_open y = true -> re_chan y = c ->
  hrun s h = Some (s', tr) -> left_alone t h -> unharmed t tr -> kept r h ->
  (exists x', task_of c s' = Some (t, x') /\ stays x' = true) /\ lines r tr ++ unsent r s' ++ stockc c s' ++ coming t s' = unsent r s ++ stockc c s ++ coming t s ++ for_topic t (hfloods h).
Proof.
  induction h as [|o h IH]; intros s x y s' tr V S0 S1 Hx Hr Ho Hc H L U K; cbn [hrun] in H.
  - injection H as <- <-. split.
    + destruct (v_open s V _ _ Hr Ho) as (t' & x' & Hx' & Hs). rewrite Hc, Hx in Hx'. injection Hx' as <- <-. eauto.
    + cbn [lines hfloods map concat app]. change (for_topic t []) with (@nil msg). rewrite app_nil_r. reflexivity.
  - destruct (hstep s o) as [[s1 a]|] eqn:E; [|discriminate]. destruct (hrun s1 h) as [[s2 t2]|] eqn:E2; [|discriminate]. injection H as <- <-. pose proof (hstep_inv _ _ _ _ V E) as V1.
    destruct (flow_step c t x s o s1 a V Hx E) as (x1 & Hx1 & d1 & L1 & _ & P1). specialize (P1 (exact_here c t r y s V S0 S1 Hr Ho Hc x Hx)).
    destruct (response_step r y s o s1 a V Hr E) as (y1 & Hr1 & F1 & F2 & _ & F3). rewrite Hc in F1, F3. specialize (F3 _ L1).
    assert (Ho1 : re_open y1 = true) by (rewrite F2; [exact Ho|intros ->; apply K; left; reflexivity]).
    assert (S0' : steady t s1) by (apply (steady_step t s o s1 a V S0 E); intros ->; apply L; left; reflexivity). assert (S1' : sound_tasks t s1) by (apply (sound_step t s o s1 a V S1 E); intros ->; apply (U o); left; reflexivity).
    destruct (IH s1 x1 y1 s2 t2 V1 S0' S1' Hx1 Hr1 Ho1 F1 E2) as (G1 & G2); [intros X; apply L; right; exact X|intros o' X; apply (U o'); right; exact X|intros X; apply K; right; exact X|]. split; [exact G1|].
    change ((o, a) :: t2) with ([(o, a)] ++ t2). rewrite lines_app, <- app_assoc, G2, hfloods_cons, for_topic_app. rewrite (app_assoc (lines r [(o, a)])), F3, <- app_assoc. f_equal. rewrite !app_assoc. f_equal. rewrite <- !app_assoc. exact P1.
Qed.

(** * Where responses come from *)
Definition is_new (r : rid) (x : response) (s : http) (o : hop) (s' : http) (a : hanswer) : Prop :=
  response_of r s = None /\ exists t c, a = Joined r t /\ x = mk_response c (length (log c s')) false true /\ entry t s' = Some c /\ ((o = HRequest r t /\ entry t s = Some c) \/ (o = HServe /\ c = h_next s)).
Definition is_old (r : rid) (x : response) (s : http) (o : hop) (a : hanswer) : Prop :=
  exists y, response_of r s = Some y /\ re_chan x = re_chan y /\
    (re_open x = if match o with HClose r' => r =? r' | _ => false end then false else re_open y) /\
    (re_over x = re_over y || match o, a with HRead r', TooSlow => r =? r' | _, _ => false end).
Lemma old_same r x s o a : response_of r s = Some x -> (match o with HClose r' => re_open x = true -> r <> r' | HRead r' => a = TooSlow -> r <> r' | _ => True end) -> is_old r x s o a.
Proof.
  intros H F. exists x. split; [exact H|]. split; [reflexivity|]. destruct o; (split; [reflexivity|rewrite orb_false_r; reflexivity]) || idtac.
  - split; [reflexivity|]. destruct a; rewrite ?orb_false_r; try reflexivity. destruct (N.eqb_spec r r0); [exfalso; apply F; auto|rewrite orb_false_r; reflexivity].
  - split; [|rewrite orb_false_r; reflexivity]. destruct (N.eqb_spec r r0); [|reflexivity]. destruct (re_open x); [exfalso; apply F; auto|reflexivity].
Qed.
Lemma has_tx_open r x s : hinv s -> response_of r s = Some x -> re_open x = true -> has_tx (re_chan x) s = true.
Proof.
  intros V H Ho. destruct (v_open s V _ _ H Ho) as (t & y & Hy & Hs). assert (E : entry t s = Some (re_chan x)) by (apply (v_entry s V); eauto). unfold has_tx. apply orb_true_intro. left. apply existsb_exists. exists (t, re_chan x). split; [apply (mget_in _ N.eqb_spec); exact E|cbn; apply N.eqb_refl].
Qed.
Lemma response_back r x s o s' a : hinv s -> hstep s o = Some (s', a) -> response_of r s' = Some x -> is_old r x s o a \/ is_new r x s o s' a.
Proof.
  intros V E Hr. pose proof (v_streams s V) as N1. pose proof (si_inv _ _ N1) as I1.
  assert (K : forall s'', h_responses s'' = h_responses s -> response_of r s'' = Some x -> response_of r s = Some x) by (intros s'' F; unfold response_of; rewrite F; auto).
  destruct o as [r' u|r'| |r'|r'|c'|c'|c'|c'|u|e|]; cbn [hstep] in E.
  - injection E as E. unfold request in E. destruct (h_locked s); [injection E as <- <-; left; apply old_same; auto|]. destruct (response_of r' s) eqn:Er; [injection E as <- <-; left; apply old_same; auto|].
    destruct (existsb _ _); [injection E as <- <-; left; apply old_same; auto|]. destruct (entry u s) as [c|] eqn:Ee; injection E as <- <-; [|left; apply old_same; auto].
    unfold join in Hr. rewrite response_set in Hr. destruct (N.eqb_spec r r') as [->|]; [|left; apply old_same; auto]. injection Hr as <-. right. split; [exact Er|]. exists u, c. split; [reflexivity|]. split; [reflexivity|]. split; [exact Ee|]. auto.
  - injection E as E. unfold cancel in E. destruct (existsb _ _); injection E as <- <-; left; apply old_same; auto.
  - unfold serve in E. destruct (h_calls s) as [|[u w] q] eqn:Eq; [injection E as <- <-; left; apply old_same; auto|]. destruct (subscribe u (h_node s)) as [[n k]|]; [|discriminate]. cbv zeta in E. destruct w as [r'|c'|].
    + destruct k as [k|]; injection E as <- <-; [|left; apply old_same; auto].
      match type of Hr with response_of r (on_locked false (set_task ?d ?v ?z (join ?r1 ?c1 ?s1))) = _ => change (response_of r (join r1 c1 s1) = Some x) in Hr end. unfold join in Hr. rewrite response_set in Hr. destruct (N.eqb_spec r r') as [<-|]; [|left; apply old_same; auto].
      injection Hr as <-. right. destruct (v_by_request s V u r) as [_ X]; [rewrite Eq; left; reflexivity|]. split; [exact X|]. exists u, (h_next s). split; [reflexivity|]. split; [|split; [|auto]].
      * f_equal.
      * unfold entry. cbn [h_entries on_locked set_task on_tasks join set_response on_responses on_next on_entries on_logs on_calls on_node h_next]. rewrite (mget_mset _ N.eqb_spec), N.eqb_refl. reflexivity.
    + destruct k as [k|]; (destruct (task_of c' _) as [[v [j|j b|j|j p|p]]|]; try discriminate); [|injection E as <- <-; left; apply old_same; auto]. unfold node_does in E. rewrite drop_does in E. injection E as <- <-. left; apply old_same; auto.
    + destruct k as [k|]; [|injection E as <- <-; left; apply old_same; auto]. unfold node_does in E. rewrite drop_does in E. injection E as <- <-. left; apply old_same; auto.
  - injection E as E. unfold read_response in E. destruct (response_of r' s) as [y|] eqn:Er; [|injection E as <- <-; left; apply old_same; [exact Hr|discriminate]]. destruct (re_open y) eqn:Eo; cbn [negb] in E; [|injection E as <- <-; left; apply old_same; [exact Hr|discriminate]].
    destruct (re_over y) eqn:Ev; [injection E as <- <-; left; apply old_same; [exact Hr|discriminate]|]. rewrite (has_tx_open _ _ _ V Er Eo) in E.
    destruct (nth_error _ _) as [m|] eqn:En; [|injection E as <- <-; left; apply old_same; [exact Hr|discriminate]].
    destruct (Nat.ltb _ _); injection E as <- <-; rewrite response_set in Hr; (destruct (N.eqb_spec r r') as [<-|Hn]; [injection Hr as <-; left; exists y; split; [exact Er|]; cbn [re_chan re_open re_over]; rewrite ?N.eqb_refl, Eo, Ev; auto|left; apply old_same; [exact Hr|auto]]).
  - injection E as E. unfold close_response in E. destruct (response_of r' s) as [y|] eqn:Er; [|injection E as <- <-; left; apply old_same; [exact Hr|intros _ ->; congruence]]. destruct (re_open y) eqn:Eo; injection E as <- <-; [|left; apply old_same; [exact Hr|intros F ->; congruence]].
    rewrite response_set in Hr. destruct (N.eqb_spec r r') as [<-|Hn]; [|left; apply old_same; auto]. injection Hr as <-. left. exists y. split; [exact Er|]. cbn [re_chan re_open re_over]. rewrite N.eqb_refl, orb_false_r. auto.
  - injection E as E. unfold shovel in E. destruct (task_of c' s) as [[v [k|k b|k|k p|p]]|]; try (injection E as <- <-; left; apply old_same; auto). destruct (next_of k (h_node s)) as [n b]. destruct b as [m| |]; [destruct (receivers c' (on_node n s))| |]; injection E as <- <-; left; apply old_same; auto.
  - injection E as E. unfold time_out in E. destruct (task_of c' s) as [[v [k|k b|k|k p|p]]|]; try (injection E as <- <-; left; apply old_same; auto). destruct (receivers c' s); injection E as <- <-; left; apply old_same; auto.
  - injection E as E. unfold lock in E. destruct (task_of c' s) as [[v [k|k b|k|k p|p]]|]; try (injection E as <- <-; left; apply old_same; auto). destruct (h_locked s); [injection E as <- <-; left; apply old_same; auto|]. destruct (entry v s) as [z|]; [destruct (receivers z s); [|destruct b]|]; injection E as <- <-; left; apply old_same; auto.
  - unfold leave in E. destruct (task_of c' s) as [[v [k|k b|k|k p|p]]|]; try (injection E as <- <-; left; apply old_same; solve [auto]).
  - unfold node_does in E. destruct (step (h_node s) (OUnsubscribe u)) as [[n b]|]; [|discriminate]. injection E as <- <-. left; apply old_same; auto.
  - unfold node_does in E. destruct (step (h_node s) (OFlood e)) as [[n b]|]; [|discriminate]. injection E as <- <-. left; apply old_same; auto.
  - unfold node_does in E. destruct (step (h_node s) OPoll) as [[n b]|]; [|discriminate]. injection E as <- <-. left; apply old_same; auto.
Qed.
(** Joining makes a response. *)
Lemma joined_new r t s o s' : hinv s -> hstep s o = Some (s', Joined r t) -> exists c, response_of r s' = Some (mk_response c (length (log c s')) false true) /\ entry t s' = Some c.
Proof.
  intros V E. destruct o as [r' u|r'| |r'|r'|c'|c'|c'|c'|u|e|]; cbn [hstep] in E.
  - injection E as E. unfold request in E. destruct (h_locked s); [discriminate|]. destruct (response_of r' s) eqn:Er; [discriminate|]. destruct (existsb _ _); [discriminate|]. destruct (entry u s) as [c|] eqn:Ee; [|discriminate]. injection E as <- -> ->. exists c. unfold join. rewrite response_set, N.eqb_refl. split; [reflexivity|exact Ee].
  - injection E as E. unfold cancel in E. destruct (existsb _ _); discriminate.
  - unfold serve in E. destruct (h_calls s) as [|[u w] q] eqn:Eq; [discriminate|]. destruct (subscribe u (h_node s)) as [[n k]|]; [|discriminate]. cbv zeta in E. destruct w as [r'|c'|].
    + destruct k as [k|]; [|discriminate]. injection E as <- -> ->. exists (h_next s). split.
      * match goal with |- response_of r (on_locked false (set_task ?d ?v ?z (join ?r1 ?c1 ?s1))) = _ => change (response_of r (join r1 c1 s1) = Some (mk_response c1 (length (log c1 s1)) false true)) end. unfold join. rewrite response_set, N.eqb_refl. reflexivity.
      * unfold entry. cbn [h_entries on_locked set_task on_tasks join set_response on_responses on_next on_entries on_logs on_calls on_node h_next]. rewrite (mget_mset _ N.eqb_spec), N.eqb_refl. reflexivity.
    + destruct k as [k|]; (destruct (task_of c' _) as [[v [j|j b|j|j p|p]]|]; try discriminate).
    + destruct k as [k|]; discriminate.
  - injection E as E. unfold read_response in E. destruct (response_of r' s) as [y|]; [|discriminate]. destruct (negb (re_open y)); [discriminate|]. destruct (re_over y); [discriminate|]. destruct (nth_error _ _); [destruct (Nat.ltb _ _); discriminate|]. destruct (has_tx _ _); discriminate.
  - injection E as E. unfold close_response in E. destruct (response_of r' s) as [y|]; [|discriminate]. destruct (re_open y); discriminate.
  - injection E as E. unfold shovel in E. destruct (task_of c' s) as [[v [k|k b|k|k p|p]]|]; try discriminate. destruct (next_of k (h_node s)) as [n b]. destruct b as [m| |]; [destruct (receivers c' (on_node n s))| |]; discriminate.
  - injection E as E. unfold time_out in E. destruct (task_of c' s) as [[v [k|k b|k|k p|p]]|]; try discriminate. destruct (receivers c' s); discriminate.
  - injection E as E. unfold lock in E. destruct (task_of c' s) as [[v [k|k b|k|k p|p]]|]; try discriminate. destruct (h_locked s); [discriminate|]. destruct (entry v s) as [z|]; [destruct (receivers z s); [|destruct b]|]; discriminate.
  - unfold leave in E. destruct (task_of c' s) as [[v [k|k b|k|k p|p]]|]; discriminate.
  - unfold node_does in E. destruct (step (h_node s) (OUnsubscribe u)) as [[n b]|]; discriminate.
  - unfold node_does in E. destruct (step (h_node s) (OFlood e)) as [[n b]|]; discriminate.
  - unfold node_does in E. destruct (step (h_node s) OPoll) as [[n b]|]; discriminate.
Qed.
Lemma hrun_app s h1 h2 : hrun s (h1 ++ h2) =
  match hrun s h1 with
  | Some (s1, t1) => match hrun s1 h2 with Some (s2, t2) => Some (s2, t1 ++ t2) | None => None end
  | None => None
  end.
Proof.
  revert s. induction h1 as [|o h1 IH]; intros s; cbn [app hrun]; [destruct (hrun s h2) as [[? ?]|]; reflexivity|].
  destruct (hstep s o) as [[s1 a]|]; [|reflexivity]. rewrite IH. destruct (hrun s1 h1) as [[s2 t2]|]; [|reflexivity]. destruct (hrun s2 h2) as [[? ?]|]; reflexivity.
Qed.
Lemma hrun_snoc s h o s' t : hrun s (h ++ [o]) = Some (s', t) ->
  exists s1 t1 a, hrun s h = Some (s1, t1) /\ hstep s1 o = Some (s', a) /\ t = t1 ++ [(o, a)].
Proof.
  rewrite hrun_app. destruct (hrun s h) as [[s1 t1]|]; [|discriminate]. cbn [hrun]. destruct (hstep s1 o) as [[s2 a]|] eqn:E; [|discriminate].
  intros [= <- <-]. exists s1, t1, a. auto.
Qed.
Lemma hrun_trace h : forall s s' tr, hrun s h = Some (s', tr) -> map fst tr = h.
Proof.
  induction h as [|o h IH]; intros s s' tr H; cbn [hrun] in H; [injection H as <- <-; reflexivity|]. destruct (hstep s o) as [[s1 a]|]; [|discriminate]. destruct (hrun s1 h) as [[s2 t2]|] eqn:E2; [|discriminate]. injection H as <- <-. cbn [map fst]. f_equal. eapply IH. exact E2.
Qed.

(** Responses and the trace. *)
Record told (s : http) (tr : list (hop * hanswer)) : Prop := {
  to_over : forall r x, response_of r s = Some x -> (re_over x = true <-> In (HRead r, TooSlow) tr);
  to_open : forall r x, response_of r s = Some x -> re_open x = false -> In (HClose r) (map fst tr);
  to_none : forall r, response_of r s = None -> (forall t, ~ joined r t tr) /\ ~ In (HRead r, TooSlow) tr;
  to_joined : forall r t, joined r t tr -> exists x y, response_of r s = Some x /\ task_of (re_chan x) s = Some (t, y) }.
Lemma too_slow_own r s s' : hstep s (HRead r) = Some (s', TooSlow) -> response_of r s <> None.
Proof. cbn [hstep]. unfold read_response. destruct (response_of r s); [discriminate|]. intros [= ]. Qed.
Lemma told_run h : forall s tr, hrun http0 h = Some (s, tr) -> told s tr.
Proof.
  induction h as [|o h IH] using rev_ind; intros s tr H.
  - injection H as <- <-. split; cbn; try discriminate; [intros r _; split; [intros t (o & [])|intros []]|intros r t (o & [])].
  - apply hrun_snoc in H as (s1 & tr1 & a & H & E & ->). specialize (IH _ _ H). pose proof (hrun_inv _ _ _ _ hinv0 H) as V. pose proof (hstep_inv _ _ _ _ V E) as V'. destruct IH as [A1 A2 A3 A4].
    assert (B : forall r x, response_of r s1 = Some x -> exists x', response_of r s = Some x' /\ re_chan x' = re_chan x) by (intros r x Hx; destruct (response_step r x s1 o s a V Hx E) as (x' & X1 & X2 & _); eauto).
    split.
    + intros r x Hx. rewrite in_app_iff. destruct (response_back r x s1 o s a V E Hx) as [(y & Y1 & _ & _ & Y2)|(Y1 & t & c & -> & -> & _)].
      * rewrite Y2, orb_true_iff, (A1 _ _ Y1). split.
        -- intros [X|X]; [left; exact X|]. right. left. destruct o; try discriminate. destruct a; try discriminate. apply N.eqb_eq in X. subst. reflexivity.
        -- intros [X|[X|[]]]; [left; exact X|]. right. injection X as -> ->. apply N.eqb_refl.
      * destruct (A3 _ Y1) as [_ Y2]. cbn [re_over]. split; [discriminate|]. intros [X|[[= ]|[]]]. contradiction.
    + intros r x Hx Ho. rewrite map_app, in_app_iff. destruct (response_back r x s1 o s a V E Hx) as [(y & Y1 & _ & Y2 & _)|(Y1 & t & c & -> & -> & _)]; [|discriminate].
      rewrite Ho in Y2. destruct o; try (left; eapply A2; [exact Y1|congruence]). destruct (N.eqb_spec r r0) as [->|]; [right; left; reflexivity|]. left; eapply A2; [exact Y1|congruence].
    + intros r Hx. assert (Hx1 : response_of r s1 = None). { destruct (response_of r s1) as [y|] eqn:Ey; [|reflexivity]. destruct (B _ _ Ey) as (x' & X & _). congruence. }
      destruct (A3 _ Hx1) as [C1 C2]. split.
      * intros t (o' & X). apply in_app_iff in X as [X|[X|[]]]; [apply (C1 t); exists o'; exact X|]. injection X as -> ->. destruct (joined_new _ _ _ _ _ V E) as (c & X & _). congruence.
      * intros X. apply in_app_iff in X as [X|[X|[]]]; [exact (C2 X)|]. injection X as -> ->. exact (too_slow_own _ _ _ E Hx1).
    + intros r t (o' & X). apply in_app_iff in X as [X|[X|[]]].
      * destruct (A4 r t) as (x & y & Y1 & Y2); [exists o'; exact X|]. destruct (B _ _ Y1) as (x' & X1 & X2). destruct (flow_step _ _ _ _ _ _ _ V Y2 E) as (y' & Y3 & _). exists x', y'. rewrite X2. auto.
      * injection X as -> ->. destruct (joined_new _ _ _ _ _ V E) as (c & X & Y). apply (v_entry s V') in Y as (y & Y1 & _). exists (mk_response c (length (log c s)) false true), y. auto.
Qed.

(** * Requests that do not come at the wrong moment *)
Definition norecv (c : chan) (s : http) : Prop := forall r x, response_of r s = Some x -> re_open x = true -> re_chan x <> c.
Definition fine (x : task) (c : chan) (s : http) : Prop :=
  match x with Locking _ true => norecv c s | Resubscribing _ => False | Leaving _ p | Gone p => p = false | _ => True end.
Definition calm_now (t : topic) (s : http) : Prop := forall c x, task_of c s = Some (t, x) -> fine x c s.
Lemma norecv_step c t x s o s' a : hinv s -> hstep s o = Some (s', a) -> task_of c s = Some (t, x) -> (forall r, o = HRequest r t -> entry t s = Some c -> False) -> norecv c s -> norecv c s'.
Proof.
  intros V E Hc F Nr r y Hy Ho Hn. destruct (response_back r y s o s' a V E Hy) as [(z & Z1 & Z2 & Z3 & _)|(Z1 & u & d & Za & Z2 & Z3 & Z4)].
  - apply (Nr r z Z1); [|congruence]. rewrite Ho in Z3. destruct (match o with HClose r' => r =? r' | _ => false end); [discriminate|auto].
  - rewrite Z2 in Hn. cbn [re_chan] in Hn. subst d. destruct Z4 as [(-> & Z4)|(_ & Z4)].
    + assert (u = t). { apply (v_entry s V) in Z4 as (w & W & _). congruence. } subst u. eapply F; [reflexivity|exact Z4].
    + apply (v_next s V) in Hc. lia.
Qed.
(** The task of a topic that nobody else unsubscribes is not told that its stream is over. *)
Lemma never_ended t c k x s : hinv s -> steady t s -> task_of c s = Some (t, x) -> holds x = Some k -> snd (next_of k (h_node s)) <> Ended.
Proof.
  intros V S0 Hx Hk. pose proof (hold_task _ _ _ _ _ Hx Hk) as Hd. pose proof (sn_cur _ _ _ S0 _ _ Hd) as Hc. assert (Hs : has_sender k (h_node s) = true) by (apply has_sender_cur; [exact (si_inv _ _ (v_streams s V))|eauto]).
  unfold next_of. destruct (get_stream k (h_node s)) as [y|]; [|discriminate]. destruct (negb (st_alive y)); [discriminate|]. destruct (st_queue y); [rewrite Hs; discriminate|discriminate].
Qed.
Lemma calm_step t s o s' a : hinv s -> steady t s -> calm_now t s -> hstep s o = Some (s', a) -> (forall r, o = HRequest r t -> ~ between t s) -> calm_now t s' /\ a <> TaskPanicked t.
Proof.
  intros V S0 C E F. pose proof (si_inv _ _ (v_streams s V)) as I1.
  assert (Kept : forall c x, task_of c s = Some (t, x) -> fine x c s').
  { intros c x Hc. pose proof (C _ _ Hc) as G. destruct x as [k|k [|]|k|k p|p]; cbn [fine] in *; try exact G. eapply norecv_step; eauto. intros r Hr He. apply (F r Hr). exists c, k. auto. }
  assert (Same : h_tasks s' = h_tasks s -> calm_now t s') by (intros Et c x Hc; apply Kept; unfold task_of in *; rewrite <- Et; exact Hc).
  assert (Set1 : forall c v z s1, h_tasks s1 = h_tasks s -> s' = set_task c v z s1 -> (v = t -> fine z c s') -> calm_now t s').
  { intros c v z s1 Et Es Fz d x Hd. rewrite Es in Hd. rewrite task_set in Hd. destruct (N.eqb_spec d c) as [->|]; [injection Hd as -> <-; auto|]. apply Kept. unfold task_of in *. rewrite <- Et. exact Hd. }
  assert (Set2 : forall b c v z s1, h_tasks s1 = h_tasks s -> s' = on_locked b (set_task c v z s1) -> (v = t -> fine z c s') -> calm_now t s').
  { intros b c v z s1 Et Es Fz d x Hd. rewrite Es in Hd. change (task_of d (set_task c v z s1) = Some (t, x)) in Hd. rewrite task_set in Hd. destruct (N.eqb_spec d c) as [->|]; [injection Hd as -> <-; auto|]. apply Kept. unfold task_of in *. rewrite <- Et. exact Hd. }
  destruct o as [r u|r| |r|r|c|c|c|c|u|e|]; cbn [hstep] in E.
  - injection E as E. pose proof (request_same r u s) as (_ & H & _). rewrite E in H. split; [apply Same; exact H|]. unfold request in E. destruct (h_locked s); [congruence|]. destruct (response_of r s); [congruence|]. destruct (existsb _ _); [congruence|]. destruct (entry u s); congruence.
  - injection E as E. pose proof (cancel_same r s) as (_ & H & _). rewrite E in H. split; [apply Same; exact H|]. unfold cancel in E. destruct (existsb _ _); congruence.
  - unfold serve in E. destruct (h_calls s) as [|[u w] q] eqn:Eq; [injection E as <- <-; split; [apply Same; reflexivity|discriminate]|]. rewrite (subscribe_shape u _ I1) in E. destruct (cur u (h_node s)) as [j|] eqn:Eu.
    + destruct w as [r|c|]; [injection E as <- <-; split; [apply Same; reflexivity|discriminate]| |injection E as <- <-; split; [apply Same; reflexivity|discriminate]].
      destruct (v_by_task s V u c) as (k & Et); [rewrite Eq; left; reflexivity|]. change (task_of c (on_calls q (on_node (h_node s) s))) with (task_of c s) in E. rewrite Et in E. injection E as E <-.
      assert (Hn : u <> t) by (intros ->; exact (C _ _ Et)). split; [|congruence]. eapply Set2; [|symmetry; exact E|contradiction]. reflexivity.
    + destruct w as [r|c|].
      * cbv zeta in E. injection E as E <-. split; [|discriminate]. eapply Set2; [|symmetry; exact E|intros _; exact Logic.I]. reflexivity.
      * destruct (v_by_task s V u c) as (k & Et); [rewrite Eq; left; reflexivity|]. change (task_of c (on_calls q (on_node (created u (h_node s)) s))) with (task_of c s) in E. rewrite Et in E.
        unfold node_does in E. rewrite drop_does in E. injection E as E <-. split; [|discriminate]. eapply Set2; [|symmetry; exact E|intros _; exact Logic.I]. reflexivity.
      * unfold node_does in E. rewrite drop_does in E. injection E as <- <-. split; [apply Same; reflexivity|discriminate].
  - injection E as E. pose proof (read_same r s) as (_ & H & _). rewrite E in H. split; [apply Same; exact H|]. unfold read_response in E. destruct (response_of r s) as [y|]; [|congruence]. destruct (negb (re_open y)); [congruence|]. destruct (re_over y); [congruence|]. destruct (nth_error _ _); [destruct (Nat.ltb _ _); congruence|]. destruct (has_tx _ _); congruence.
  - injection E as E. pose proof (close_same r s) as (_ & H & _). rewrite E in H. split; [apply Same; exact H|]. unfold close_response in E. destruct (response_of r s) as [y|]; [|congruence]. destruct (re_open y); congruence.
  - injection E as E. unfold shovel in E. destruct (task_of c s) as [[v [k|k b|k|k p|p]]|] eqn:Et; try (injection E as <- <-; split; [apply Same; reflexivity|discriminate]).
    assert (Ne : v = t -> snd (next_of k (h_node s)) <> Ended) by (intros ->; eapply never_ended; eauto). destruct (next_of k (h_node s)) as [n b]. cbn [snd] in Ne.
    destruct b as [m| |]; [destruct (receivers c (on_node n s))| |]; injection E as E <-; (split; [|discriminate]).
    + eapply Set1; [|symmetry; exact E|intros _; exact Logic.I]. reflexivity.
    + apply Same. rewrite <- E. reflexivity.
    + eapply Set1; [|symmetry; exact E|intros Hv; exfalso; exact (Ne Hv eq_refl)]. reflexivity.
    + apply Same. rewrite <- E. reflexivity.
  - injection E as E. unfold time_out in E. destruct (task_of c s) as [[v [k|k b|k|k p|p]]|] eqn:Et; try (injection E as <- <-; split; [apply Same; reflexivity|discriminate]). destruct (receivers c s) eqn:Er; injection E as E <-; (split; [|discriminate]); [|apply Same; rewrite <- E; reflexivity].
    eapply Set1; [|symmetry; exact E|]; [reflexivity|]. intros _. cbn [fine]. intros r x Hr Ho Hn. rewrite <- E in Hr. change (response_of r s = Some x) in Hr. apply (receivers_pos _ _ _ Hr Ho). rewrite Hn. exact Er.
  - injection E as E. pose proof (proj2 (lock_ok c s V)) as Un. rewrite E in Un. cbn [snd] in Un. unfold lock in E. destruct (task_of c s) as [[v [k|k b|k|k p|p]]|] eqn:Et; try (injection E as <- <-; split; [apply Same; reflexivity|discriminate]). destruct (h_locked s); [injection E as <- <-; split; [apply Same; reflexivity|discriminate]|].
    assert (Ee : entry v s = Some c) by (apply (v_entry s V); eexists; split; [exact Et|reflexivity]). rewrite Ee in E.
    destruct (receivers c s) eqn:Er; [injection E as E <-; split; [|discriminate]; eapply Set1; [|symmetry; exact E|reflexivity]; reflexivity|]. destruct b; injection E as E <-; (split; [|discriminate]).
    + eapply Set2; [|symmetry; exact E|]; [reflexivity|]. intros ->. exfalso. pose proof (C _ _ Et) as G. cbn [fine] in G. rewrite (receivers_none c s V G) in Er. discriminate.
    + eapply Set1; [|symmetry; exact E|intros _; exact Logic.I]. reflexivity.
  - unfold leave in E. destruct (task_of c s) as [[v [k|k b|k|k p|p]]|] eqn:Et; try (injection E as <- <-; split; [apply Same; reflexivity|discriminate]). unfold node_does in E. rewrite drop_does in E. injection E as E <-. split; [|discriminate]. eapply Set1; [|symmetry; exact E|]; [reflexivity|]. intros ->. exact (C _ _ Et).
  - unfold node_does in E. destruct (step _ _) as [[n b]|]; [|discriminate]. injection E as <- <-. split; [apply Same; reflexivity|discriminate].
  - unfold node_does in E. destruct (step _ _) as [[n b]|]; [|discriminate]. injection E as <- <-. split; [apply Same; reflexivity|discriminate].
  - unfold node_does in E. destruct (step _ _) as [[n b]|]; [|discriminate]. injection E as <- <-. split; [apply Same; reflexivity|discriminate].
Qed.
Lemma calm_run t h : forall s tr, hrun http0 h = Some (s, tr) -> calm t h -> left_alone t h -> calm_now t s /\ unharmed t tr.
Proof.
  induction h as [|o h IH] using rev_ind; intros s tr H C L.
  - injection H as <- <-. split; [intros c x; discriminate|intros o []].
  - apply hrun_snoc in H as (s1 & tr1 & a & H & E & ->). assert (L1 : left_alone t h) by (intros X; apply L; apply in_app_iff; left; exact X).
    destruct (IH _ _ H) as [C1 U1]; [|exact L1|].
    { intros h1 r h2 s2 tr2 Eh H2. apply (C h1 r (h2 ++ [o]) s2 tr2); [rewrite Eh, <- app_assoc; reflexivity|exact H2]. }
    pose proof (hrun_inv _ _ _ _ hinv0 H) as V. destruct (calm_step t s1 o s a V) as [C2 U2]; [eapply steady_run; [exact hinv0|apply steady0|exact H|exact L1]|exact C1|exact E| |].
    { intros r ->. apply (C h r [] s1 tr1); [reflexivity|exact H]. }
    split; [exact C2|]. intros o' X. apply in_app_iff in X as [X|[X|[]]]; [exact (U1 _ X)|]. injection X as _ ->. exact (U2 eq_refl).
Qed.

(** * A topic whose task is gone *)
Lemma dead_step c t x s o s' a : hinv s -> task_of c s = Some (t, x) -> panicked x = true -> hstep s o = Some (s', a) ->
  log c s' = log c s /\ exists x', task_of c s' = Some (t, x') /\ panicked x' = true.
Proof.
  intros V Hc Hp E. pose proof (si_inv _ _ (v_streams s V)) as I1.
  assert (Same : h_tasks s' = h_tasks s -> h_logs s' = h_logs s -> log c s' = log c s /\ exists x', task_of c s' = Some (t, x') /\ panicked x' = true).
  { intros E1 E2. split; [unfold log; rewrite E2; reflexivity|]. exists x. split; [unfold task_of; rewrite E1; exact Hc|exact Hp]. }
  assert (Other : forall d v y z s1, task_of d s = Some (v, y) -> (panicked y = true -> panicked z = true) -> h_tasks s1 = mset N.eqb d (v, z) (h_tasks s) -> h_logs s1 = h_logs s -> log c s1 = log c s /\ exists x', task_of c s1 = Some (t, x') /\ panicked x' = true).
  { intros d v y z s1 Hd P E1 E2. split; [unfold log; rewrite E2; reflexivity|]. unfold task_of. rewrite E1. change (exists x', task_of c (set_task d v z s) = Some (t, x') /\ panicked x' = true). rewrite task_set. destruct (N.eqb_spec c d) as [->|]; [|eauto]. rewrite Hc in Hd. injection Hd as <- <-. eauto. }
  destruct o as [r u|r| |r|r|d|d|d|d|u|e|]; cbn [hstep] in E.
  - injection E as E. pose proof (request_same r u s) as (_ & H1 & H2). rewrite E in H1, H2. apply Same; assumption.
  - injection E as E. pose proof (cancel_same r s) as (_ & H1 & H2). rewrite E in H1, H2. apply Same; assumption.
  - unfold serve in E. destruct (h_calls s) as [|[u w] q] eqn:Eq; [injection E as <- <-; apply Same; reflexivity|]. rewrite (subscribe_shape u _ I1) in E. destruct (cur u (h_node s)) as [j|] eqn:Eu.
    + destruct w as [r|d|]; [injection E as <- <-; apply Same; reflexivity| |injection E as <- <-; apply Same; reflexivity].
      destruct (v_by_task s V u d) as (k & Et); [rewrite Eq; left; reflexivity|]. change (task_of d (on_calls q (on_node (h_node s) s))) with (task_of d s) in E. rewrite Et in E. injection E as <- <-. eapply Other; [exact Et| | |]; [discriminate|reflexivity|reflexivity].
    + destruct w as [r|d|].
      * cbv zeta in E. injection E as <- <-. assert (Hn : c <> h_next s) by (intros ->; pose proof (v_next s V _ _ _ Hc); lia). split.
        -- unfold log. cbn [h_logs on_locked set_task on_tasks join set_response on_responses on_next on_entries on_logs on_calls on_node h_next]. rewrite (mget_mset _ N.eqb_spec). destruct (N.eqb_spec c (h_next s)); [contradiction|reflexivity].
        -- exists x. split; [|exact Hp]. unfold task_of. cbn [h_tasks on_locked set_task on_tasks join set_response on_responses on_next on_entries on_logs on_calls on_node h_next]. rewrite (mget_mset _ N.eqb_spec). destruct (N.eqb_spec c (h_next s)); [contradiction|exact Hc].
      * destruct (v_by_task s V u d) as (k & Et); [rewrite Eq; left; reflexivity|]. change (task_of d (on_calls q (on_node (created u (h_node s)) s))) with (task_of d s) in E. rewrite Et in E. unfold node_does in E. rewrite drop_does in E. injection E as <- <-. eapply Other; [exact Et| | |]; [discriminate|reflexivity|reflexivity].
      * unfold node_does in E. rewrite drop_does in E. injection E as <- <-. apply Same; reflexivity.
  - injection E as E. pose proof (read_same r s) as (_ & H1 & H2). rewrite E in H1, H2. apply Same; assumption.
  - injection E as E. pose proof (close_same r s) as (_ & H1 & H2). rewrite E in H1, H2. apply Same; assumption.
  - injection E as E. unfold shovel in E. destruct (task_of d s) as [[v [k|k b|k|k p|p]]|] eqn:Et; try (injection E as <- <-; apply Same; reflexivity). destruct (next_of k (h_node s)) as [n b].
    destruct b as [m| |]; [destruct (receivers d (on_node n s))| |]; injection E as <- <-; try (eapply Other; [exact Et| | |]; [discriminate|reflexivity|reflexivity]); [|apply Same; reflexivity].
    split; [|exists x; split; [exact Hc|exact Hp]]. unfold log. cbn [h_logs on_logs on_node]. rewrite (mget_mset _ N.eqb_spec). destruct (N.eqb_spec c d) as [->|]; [|reflexivity]. rewrite Hc in Et. injection Et as _ ->. discriminate.
  - injection E as E. unfold time_out in E. destruct (task_of d s) as [[v [k|k b|k|k p|p]]|] eqn:Et; try (injection E as <- <-; apply Same; reflexivity). destruct (receivers d s); injection E as <- <-; [|apply Same; reflexivity]. eapply Other; [exact Et| | |]; [discriminate|reflexivity|reflexivity].
  - injection E as E. unfold lock in E. destruct (task_of d s) as [[v [k|k b|k|k p|p]]|] eqn:Et; try (injection E as <- <-; apply Same; reflexivity). destruct (h_locked s); [injection E as <- <-; apply Same; reflexivity|].
    destruct (entry v s) as [e|]; [destruct (receivers e s); [|destruct b]|]; injection E as <- <-; (eapply Other; [exact Et| | |]; [discriminate|reflexivity|reflexivity]).
  - unfold leave in E. destruct (task_of d s) as [[v [k|k b|k|k p|p]]|] eqn:Et; try (injection E as <- <-; apply Same; reflexivity). unfold node_does in E. rewrite drop_does in E. injection E as <- <-. apply (Other d v (Leaving k p) (Gone p)); [exact Et|intros X; exact X|reflexivity|reflexivity].
  - unfold node_does in E. destruct (step _ _) as [[n b]|]; [|discriminate]. injection E as <- <-. apply Same; reflexivity.
  - unfold node_does in E. destruct (step _ _) as [[n b]|]; [|discriminate]. injection E as <- <-. apply Same; reflexivity.
  - unfold node_does in E. destruct (step _ _) as [[n b]|]; [|discriminate]. injection E as <- <-. apply Same; reflexivity.
Qed.
Lemma dead_run c t h : forall s x s' tr, hinv s -> task_of c s = Some (t, x) -> panicked x = true -> hrun s h = Some (s', tr) ->
  log c s' = log c s /\ exists x', task_of c s' = Some (t, x') /\ panicked x' = true.
Proof.
  induction h as [|o h IH]; intros s x s' tr V Hc Hp H; cbn [hrun] in H; [injection H as <- <-; eauto|]. destruct (hstep s o) as [[s1 a]|] eqn:E; [|discriminate]. destruct (hrun s1 h) as [[s2 t2]|] eqn:E2; [|discriminate]. injection H as <- <-.
  destruct (dead_step c t x s o s1 a V Hc Hp E) as (L1 & x1 & X1 & X2). destruct (IH s1 x1 s2 t2 (hstep_inv _ _ _ _ V E) X1 X2 E2) as (L2 & G). split; [congruence|exact G].
Qed.
(** A panic leaves the entry of the topic behind. *)
Lemma panic_leaves t s o s' : hinv s -> hstep s o = Some (s', TaskPanicked t) -> exists c x, task_of c s' = Some (t, x) /\ panicked x = true.
Proof.
  intros V E. pose proof (si_inv _ _ (v_streams s V)) as I1. destruct o as [r u|r| |r|r|d|d|d|d|u|e|]; cbn [hstep] in E.
  - injection E as E. unfold request in E. destruct (h_locked s); [discriminate|]. destruct (response_of r s); [discriminate|]. destruct (existsb _ _); [discriminate|]. destruct (entry u s); discriminate.
  - injection E as E. unfold cancel in E. destruct (existsb _ _); discriminate.
  - unfold serve in E. destruct (h_calls s) as [|[u w] q] eqn:Eq; [discriminate|]. rewrite (subscribe_shape u _ I1) in E. destruct (cur u (h_node s)) as [j|] eqn:Eu.
    + destruct w as [r|d|]; [discriminate| |discriminate]. destruct (v_by_task s V u d) as (k & Et); [rewrite Eq; left; reflexivity|]. change (task_of d (on_calls q (on_node (h_node s) s))) with (task_of d s) in E. rewrite Et in E. injection E as <- ->. exists d, (Leaving k true). split; [|reflexivity].
      match goal with |- task_of d (on_locked false (set_task d t ?z ?s1)) = _ => change (task_of d (set_task d t z s1) = Some (t, z)) end. rewrite task_set, N.eqb_refl. reflexivity.
    + destruct w as [r|d|]; [discriminate| |unfold node_does in E; rewrite drop_does in E; discriminate]. destruct (v_by_task s V u d) as (k & Et); [rewrite Eq; left; reflexivity|]. change (task_of d (on_calls q (on_node (created u (h_node s)) s))) with (task_of d s) in E. rewrite Et in E. unfold node_does in E. rewrite drop_does in E. discriminate.
  - injection E as E. unfold read_response in E. destruct (response_of r s) as [y|]; [|discriminate]. destruct (negb (re_open y)); [discriminate|]. destruct (re_over y); [discriminate|]. destruct (nth_error _ _); [destruct (Nat.ltb _ _); discriminate|]. destruct (has_tx _ _); discriminate.
  - injection E as E. unfold close_response in E. destruct (response_of r s) as [y|]; [|discriminate]. destruct (re_open y); discriminate.
  - injection E as E. unfold shovel in E. destruct (task_of d s) as [[v [k|k b|k|k p|p]]|]; try discriminate. destruct (next_of k (h_node s)) as [n b]. destruct b as [m| |]; [destruct (receivers d (on_node n s))| |]; discriminate.
  - injection E as E. unfold time_out in E. destruct (task_of d s) as [[v [k|k b|k|k p|p]]|]; try discriminate. destruct (receivers d s); discriminate.
  - injection E as E. unfold lock in E. destruct (task_of d s) as [[v [k|k b|k|k p|p]]|]; try discriminate. destruct (h_locked s); [discriminate|]. destruct (entry v s) as [e|]; [destruct (receivers e s); [|destruct b]|]; discriminate.
  - unfold leave in E. destruct (task_of d s) as [[v [k|k b|k|k p|p]]|]; try discriminate.
  - unfold node_does in E. destruct (step _ _) as [[n b]|]; discriminate.
  - unfold node_does in E. destruct (step _ _) as [[n b]|]; discriminate.
  - unfold node_does in E. destruct (step _ _) as [[n b]|]; discriminate.
Qed.
Lemma in_trace {A} (x : A) l : In x l -> exists l1 l2, l = l1 ++ x :: l2.
Proof. apply in_split. Qed.
Lemma hrun_in h : forall s s' tr o a, hrun s h = Some (s', tr) -> In (o, a) tr ->
  exists h1 h2 s1 tr1 s2 tr2, h = h1 ++ o :: h2 /\ hrun s h1 = Some (s1, tr1) /\ hstep s1 o = Some (s2, a) /\ hrun s2 h2 = Some (s', tr2) /\ tr = tr1 ++ (o, a) :: tr2.
Proof.
  induction h as [|p h IH]; intros s s' tr o a H X; cbn [hrun] in H; [injection H as <- <-; destruct X|]. destruct (hstep s p) as [[s1 b]|] eqn:E; [|discriminate]. destruct (hrun s1 h) as [[s2 t2]|] eqn:E2; [|discriminate]. injection H as <- <-. destruct X as [X|X].
  - injection X as -> ->. exists [], h, s, [], s1, t2. auto.
  - destruct (IH _ _ _ _ _ E2 X) as (h1 & h2 & s3 & t3 & s4 & t4 & -> & G1 & G2 & G3 & ->). exists (p :: h1), h2, s3, ((p, b) :: t3), s4, t4. cbn [hrun]. rewrite E, G1. auto.
Qed.
(** A response that is not there has given nothing. *)
Lemma lines_none r h : forall s s' tr, hinv s -> hrun s h = Some (s', tr) -> response_of r s' = None -> lines r tr = [].
Proof.
  induction h as [|o h IH] using rev_ind; intros s s' tr V H Hr; [injection H as <- <-; reflexivity|]. apply hrun_snoc in H as (s1 & t1 & a & H & E & ->). pose proof (hrun_inv _ _ _ _ V H) as V1.
  destruct (response_of r s1) as [x|] eqn:Ex; [destruct (response_step r x s1 o s' a V1 Ex E) as (x' & X1 & _); congruence|]. rewrite lines_app, (IH _ _ _ V H Ex). cbn [app]. unfold lines. cbn [map concat]. rewrite app_nil_r. destruct o; try reflexivity.
  destruct (N.eqb_spec r r0) as [->|]; [|destruct a; reflexivity]. cbn [hstep] in E. unfold read_response in E. rewrite Ex in E. injection E as _ <-. reflexivity.
Qed.
Lemma joined_fresh r t s o s' : hinv s -> hstep s o = Some (s', Joined r t) -> response_of r s = None.
Proof.
  intros V E. pose proof (si_inv _ _ (v_streams s V)) as I1. destruct o as [u v|u| |u|u|d|d|d|d|u|e|]; cbn [hstep] in E.
  - injection E as E. unfold request in E. destruct (h_locked s); [discriminate|]. destruct (response_of u s) eqn:Er; [discriminate|]. destruct (existsb _ _); [discriminate|]. destruct (entry v s); [|discriminate]. injection E as _ <- _. exact Er.
  - injection E as E. unfold cancel in E. destruct (existsb _ _); discriminate.
  - unfold serve in E. destruct (h_calls s) as [|[u w] q] eqn:Eq; [discriminate|]. rewrite (subscribe_shape u _ I1) in E. destruct (cur u (h_node s)) as [j|] eqn:Eu.
    + destruct w as [v|d|]; [discriminate| |discriminate]. destruct (v_by_task s V u d) as (k & Et); [rewrite Eq; left; reflexivity|]. change (task_of d (on_calls q (on_node (h_node s) s))) with (task_of d s) in E. rewrite Et in E. discriminate.
    + destruct w as [v|d|].
      * cbv zeta in E. injection E as _ -> _. apply (v_by_request s V u r). rewrite Eq. left. reflexivity.
      * destruct (v_by_task s V u d) as (k & Et); [rewrite Eq; left; reflexivity|]. change (task_of d (on_calls q (on_node (created u (h_node s)) s))) with (task_of d s) in E. rewrite Et in E. unfold node_does in E. rewrite drop_does in E. discriminate.
      * unfold node_does in E. rewrite drop_does in E. discriminate.
  - injection E as E. unfold read_response in E. destruct (response_of u s) as [y|]; [|discriminate]. destruct (negb (re_open y)); [discriminate|]. destruct (re_over y); [discriminate|]. destruct (nth_error _ _); [destruct (Nat.ltb _ _); discriminate|]. destruct (has_tx _ _); discriminate.
  - injection E as E. unfold close_response in E. destruct (response_of u s) as [y|]; [|discriminate]. destruct (re_open y); discriminate.
  - injection E as E. unfold shovel in E. destruct (task_of d s) as [[v [k|k b|k|k p|p]]|]; try discriminate. destruct (next_of k (h_node s)) as [n b]. destruct b as [m| |]; [destruct (receivers d (on_node n s))| |]; discriminate.
  - injection E as E. unfold time_out in E. destruct (task_of d s) as [[v [k|k b|k|k p|p]]|]; try discriminate. destruct (receivers d s); discriminate.
  - injection E as E. unfold lock in E. destruct (task_of d s) as [[v [k|k b|k|k p|p]]|]; try discriminate. destruct (h_locked s); [discriminate|]. destruct (entry v s) as [e|]; [destruct (receivers e s); [|destruct b]|]; discriminate.
  - unfold leave in E. destruct (task_of d s) as [[v [k|k b|k|k p|p]]|]; try discriminate.
  - unfold node_does in E. destruct (step _ _) as [[n b]|]; discriminate.
  - unfold node_does in E. destruct (step _ _) as [[n b]|]; discriminate.
  - unfold node_does in E. destruct (step _ _) as [[n b]|]; discriminate.
Qed.
Lemma unreachable_never s o s' a t : hinv s -> hstep s o = Some (s', a) -> a <> Unreachable t.
Proof.
  intros V E. pose proof (si_inv _ _ (v_streams s V)) as I1. destruct o as [u v|u| |u|u|d|d|d|d|u|e|]; cbn [hstep] in E.
  - injection E as E. unfold request in E. destruct (h_locked s); [congruence|]. destruct (response_of u s) eqn:Er; [congruence|]. destruct (existsb _ _); [congruence|]. destruct (entry v s); congruence.
  - injection E as E. unfold cancel in E. destruct (existsb _ _); congruence.
  - unfold serve in E. destruct (h_calls s) as [|[u w] q] eqn:Eq; [congruence|]. rewrite (subscribe_shape u _ I1) in E. destruct (cur u (h_node s)) as [j|] eqn:Eu.
    + destruct w as [v|d|]; [congruence| |congruence]. destruct (v_by_task s V u d) as (k & Et); [rewrite Eq; left; reflexivity|]. change (task_of d (on_calls q (on_node (h_node s) s))) with (task_of d s) in E. rewrite Et in E. congruence.
    + destruct w as [v|d|].
      * cbv zeta in E. congruence.
      * destruct (v_by_task s V u d) as (k & Et); [rewrite Eq; left; reflexivity|]. change (task_of d (on_calls q (on_node (created u (h_node s)) s))) with (task_of d s) in E. rewrite Et in E. unfold node_does in E. rewrite drop_does in E. congruence.
      * unfold node_does in E. rewrite drop_does in E. congruence.
  - injection E as E. unfold read_response in E. destruct (response_of u s) as [y|]; [|congruence]. destruct (negb (re_open y)); [congruence|]. destruct (re_over y); [congruence|]. destruct (nth_error _ _); [destruct (Nat.ltb _ _); congruence|]. destruct (has_tx _ _); congruence.
  - injection E as E. unfold close_response in E. destruct (response_of u s) as [y|]; [|congruence]. destruct (re_open y); congruence.
  - injection E as E. unfold shovel in E. destruct (task_of d s) as [[v [k|k b|k|k p|p]]|]; try congruence. destruct (next_of k (h_node s)) as [n b]. destruct b as [m| |]; [destruct (receivers d (on_node n s))| |]; congruence.
  - injection E as E. unfold time_out in E. destruct (task_of d s) as [[v [k|k b|k|k p|p]]|]; try congruence. destruct (receivers d s); congruence.
  - injection E as E. pose proof (proj2 (lock_ok d s V)) as X. rewrite E in X. cbn [snd] in X. intros ->. apply (X t). reflexivity.
  - unfold leave in E. destruct (task_of d s) as [[v [k|k b|k|k p|p]]|]; try congruence. unfold node_does in E. rewrite drop_does in E. congruence.
  - unfold node_does in E. destruct (step _ _) as [[n b]|]; congruence.
  - unfold node_does in E. destruct (step _ _) as [[n b]|]; congruence.
  - unfold node_does in E. destruct (step _ _) as [[n b]|]; congruence.
Qed.

(** * Requests that were not made *)
Definition unasked (r : rid) (s : http) : Prop := response_of r s = None /\ forall t, ~ In (t, ByRequest r) (h_calls s).
Lemma unasked_step r s o s' a : hinv s -> unasked r s -> hstep s o = Some (s', a) -> (forall t, o <> HRequest r t) -> unasked r s'.
Proof.
  intros V [A B] E Ne. pose proof (si_inv _ _ (v_streams s V)) as I1. split.
  - destruct (response_of r s') as [x|] eqn:Ex; [|reflexivity]. exfalso. destruct (response_back r x s o s' a V E Ex) as [(y & Y & _)|(_ & t & c & -> & _ & _ & Hor)]; [congruence|]. destruct Hor as [(-> & _)|(-> & _)]; [exact (Ne t eq_refl)|].
    cbn [hstep] in E. unfold serve in E. destruct (h_calls s) as [|[u w] q] eqn:Eq; [discriminate|]. rewrite (subscribe_shape u _ I1) in E. destruct (cur u (h_node s)) as [j|] eqn:Eu.
    + destruct w as [v|d|]; [discriminate| |discriminate]. destruct (v_by_task s V u d) as (k & Et); [rewrite Eq; left; reflexivity|]. change (task_of d (on_calls q (on_node (h_node s) s))) with (task_of d s) in E. rewrite Et in E. discriminate.
    + destruct w as [v|d|].
      * cbv zeta in E. injection E as _ -> _. apply (B u). left. reflexivity.
      * destruct (v_by_task s V u d) as (k & Et); [rewrite Eq; left; reflexivity|]. change (task_of d (on_calls q (on_node (created u (h_node s)) s))) with (task_of d s) in E. rewrite Et in E. discriminate.
      * discriminate.
  - intros t X. destruct o as [u v|u| |u|u|d|d|d|d|u|e|]; cbn [hstep] in E.
    + injection E as E. unfold request in E. destruct (h_locked s); [injection E as <- <-; eapply B; exact X|]. destruct (response_of u s) eqn:Er; [injection E as <- <-; eapply B; exact X|]. destruct (existsb _ _); [injection E as <- <-; eapply B; exact X|]. destruct (entry v s); injection E as <- <-; [eapply B; exact X|]. cbn [h_calls on_locked on_calls] in X. apply in_app_iff in X as [X|[X|[]]]; [eapply B; exact X|]. injection X as -> ->. exact (Ne t eq_refl).
    + injection E as E. unfold cancel in E. destruct (existsb _ _); injection E as <- <-; [|eapply B; exact X]. apply abandon_in in X as [X|X]; [exact (B t X)|discriminate].
    + unfold serve in E. destruct (h_calls s) as [|[u w] q] eqn:Eq; [injection E as <- <-; rewrite Eq in X; destruct X|]. rewrite (subscribe_shape u _ I1) in E.
      assert (Q : ~ In (t, ByRequest r) q) by (intros Y; apply (B t); right; exact Y).
      destruct (cur u (h_node s)) as [j|] eqn:Eu.
      * destruct w as [v|d|]; [injection E as <- <-; exact (Q X)| |injection E as <- <-; exact (Q X)]. destruct (v_by_task s V u d) as (k & Et); [rewrite Eq; left; reflexivity|]. change (task_of d (on_calls q (on_node (h_node s) s))) with (task_of d s) in E. rewrite Et in E. injection E as <- <-. exact (Q X).
      * destruct w as [v|d|].
        -- cbv zeta in E. injection E as <- <-. exact (Q X).
        -- destruct (v_by_task s V u d) as (k & Et); [rewrite Eq; left; reflexivity|]. change (task_of d (on_calls q (on_node (created u (h_node s)) s))) with (task_of d s) in E. rewrite Et in E. unfold node_does in E. rewrite drop_does in E. injection E as <- <-. exact (Q X).
        -- unfold node_does in E. rewrite drop_does in E. injection E as <- <-. exact (Q X).
    + injection E as E. unfold read_response in E. destruct (response_of u s) as [y|]; [|injection E as <- <-; eapply B; exact X]. destruct (negb (re_open y)); [injection E as <- <-; eapply B; exact X|]. destruct (re_over y); [injection E as <- <-; eapply B; exact X|]. cbv zeta in E. destruct (nth_error _ _); [destruct (Nat.ltb _ _)|destruct (has_tx _ _)]; injection E as <- <-; (eapply B; exact X).
    + injection E as E. unfold close_response in E. destruct (response_of u s) as [y|]; [|injection E as <- <-; eapply B; exact X]. destruct (re_open y); injection E as <- <-; (eapply B; exact X).
    + injection E as E. unfold shovel in E. destruct (task_of d s) as [[v [k|k b|k|k p|p]]|]; try (injection E as <- <-; eapply B; exact X). destruct (next_of k (h_node s)) as [n b]. destruct b as [m| |]; [destruct (receivers d (on_node n s))| |]; injection E as <- <-; (eapply B; exact X).
    + injection E as E. unfold time_out in E. destruct (task_of d s) as [[v [k|k b|k|k p|p]]|]; try (injection E as <- <-; eapply B; exact X). destruct (receivers d s); injection E as <- <-; (eapply B; exact X).
    + injection E as E. unfold lock in E. destruct (task_of d s) as [[v [k|k b|k|k p|p]]|]; try (injection E as <- <-; eapply B; exact X). destruct (h_locked s); [injection E as <- <-; eapply B; exact X|].
      destruct (entry v s) as [e|]; [destruct (receivers e s); [|destruct b]|]; injection E as <- <-; try (eapply B; exact X). cbn [h_calls on_locked set_task on_tasks on_calls] in X. apply in_app_iff in X as [X|[X|[]]]; [eapply B; exact X|discriminate].
    + unfold leave in E. destruct (task_of d s) as [[v [k|k b|k|k p|p]]|]; try (injection E as <- <-; eapply B; exact X).
    + unfold node_does in E. destruct (step _ _) as [[n b]|]; [|discriminate]. injection E as <- <-. eapply B. exact X.
    + unfold node_does in E. destruct (step _ _) as [[n b]|]; [|discriminate]. injection E as <- <-. eapply B. exact X.
    + unfold node_does in E. destruct (step _ _) as [[n b]|]; [|discriminate]. injection E as <- <-. eapply B. exact X.
Qed.
Lemma unasked_run r h s tr : hrun http0 h = Some (s, tr) -> (forall t, ~ In (HRequest r t) h) -> unasked r s.
Proof.
  revert s tr. induction h as [|o h IH] using rev_ind; intros s tr H F; [injection H as <- <-; split; [reflexivity|intros t []]|]. apply hrun_snoc in H as (s1 & t1 & a & H & E & _).
  eapply unasked_step; [exact (hrun_inv _ _ _ _ hinv0 H)|eapply IH; [exact H|]|exact E|].
  - intros t X. apply (F t). apply in_app_iff. left. exact X.
  - intros t ->. apply (F t). apply in_app_iff. right. left. reflexivity.
Qed.
Lemma unasked_calls r s : unasked r s -> existsb (fun tw : topic * caller => match snd tw with ByRequest r' => r =? r' | _ => false end) (h_calls s) = false.
Proof.
  intros [_ B]. destruct (existsb _ _) eqn:E; [|reflexivity]. exfalso. apply existsb_exists in E as ([t [v|d|]] & X & Y); try discriminate. cbn [snd] in Y. apply N.eqb_eq in Y. subst v. exact (B t X).
Qed.
