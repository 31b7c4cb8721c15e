(** C74: the life of a daemon. *)
From Coq Require Import Ascii String.
From Verif Require Import Base Wire Addr RefsHttpSpec Endpoints EndpointsSpec EndpointsProofs Str Daemon DaemonSpec DaemonProofs.
Local Open Scope N_scope.

(** ** The file *)

(** A text names one address only. *)
Theorem c74_one_address s ip port ip' port' : names_address s ip port -> names_address s ip' port' -> ip = ip' /\ port = port'.
Proof. apply names_one. Qed.
Print Assumptions c74_one_address.

(** The socket is at the address of the configuration. *)
Theorem c74_bound f l w i : run (init f) l = Some w -> at_ (daemons w i) <> New -> at_ (daemons w i) <> Started -> at_ (daemons w i) <> Dead ->
  exists ip port given, In (i, Bind [PIp4 ip; PTcp port] (Some given)) l /\ bound (daemons w i) = (ip, given) /\ (port = 0 \/ port = given).
Proof. intros H N1 N2 N3. pose proof (f_bound _ _ _ (run_from f i l w H)) as F. destruct (at_ (daemons w i)); try contradiction; exact F. Qed.
Print Assumptions c74_bound.

(** Of all the daemons over a directory one runs at a time, whatever happens. *)
Theorem c74_one f l w i j : run (init f) l = Some w -> running (daemons w i) -> running (daemons w j) -> i = j.
Proof.
  intros H I J. pose proof (run_locked l _ _ (init_locked f) H) as L. apply running_keeps, L in I. apply running_keeps, L in J. congruence.
Qed.
Print Assumptions c74_one.
(** One which is started while another one runs ends at once and changes nothing. *)
Theorem c74_refused f l w i j : run (init f) l = Some w -> running (daemons w j) -> at_ (daemons w i) = New ->
  exists w', wstep w (i, Start) = Some w' /\ at_ (daemons w' i) = Dead /\ api_file w' = api_file w /\ forall k, k <> i -> daemons w' k = daemons w k.
Proof.
  intros H J A. pose proof (run_locked l _ _ (init_locked f) H) as L. apply running_keeps, L in J. unfold wstep, free. cbn [fst snd]. rewrite J. unfold dstep. rewrite A. eexists. split; [reflexivity|]. cbn [daemons api_file]. rewrite put_same.
  split; [reflexivity|]. split; [reflexivity|]. intros k K. apply put_other, K.
Qed.
Print Assumptions c74_refused.
(** When the others have ended, or were killed, one can be started again: nothing is left of the lock. *)
Theorem c74_restart f l w i : run (init f) l = Some w -> (forall j, over (daemons w j)) -> at_ (daemons w i) = New ->
  exists w', wstep w (i, Start) = Some w' /\ at_ (daemons w' i) = Started.
Proof.
  intros H O A. pose proof (run_locked l _ _ (init_locked f) H) as L. assert (E : lock w = None).
  { destruct (lock w) as [k|] eqn:K; [|reflexivity]. apply L in K. unfold keeps in K. destruct (O k) as [X|[X|X]]; rewrite X in K; discriminate K. }
  unfold wstep, free. cbn [fst snd]. rewrite E. unfold dstep. rewrite A. eexists. split; [reflexivity|]. cbn [daemons]. rewrite put_same. reflexivity.
Qed.
Print Assumptions c74_restart.

(** From the line "daemon is running" on to the end of the server the file names the address, if it could
    be written, whatever else is tried meanwhile and happened before; as long as no daemon is started after
    another one has let go of the repository and before that one empties the file. *)
Theorem c74_file f l w i : run (init f) l = Some w -> apart (init f) l ->
  at_ (daemons w i) = Serving true \/ at_ (daemons w i) = Ended true \/ at_ (daemons w i) = Released true -> fst (bound (daemons w i)) < 4294967296 ->
  exists s, api_file w = Some s /\ names s (daemons w i).
Proof.
  intros H X A L. destruct (run_say l _ _ (init_say f) X H) as (_ & _ & S). specialize (S i). unfold says in S.
  exists (txt (daemons w i)). split; [destruct A as [A|[A|A]]; rewrite A in S; exact S|]. apply api_text_names, L.
Qed.
Print Assumptions c74_file.

(** At any time, thus after any crash: the file is as it was at first, or holds the beginning of the address
    of one of the daemons. *)
Theorem c74_any_time f l w : run (init f) l = Some w -> apart (init f) l -> (forall i, fst (bound (daemons w i)) < 4294967296) ->
  api_file w = f \/ exists i s, api_file w = Some s /\ begins s (daemons w i) /\ at_ (daemons w i) <> New /\ at_ (daemons w i) <> Started.
Proof.
  intros H X L. destruct (run_seen f l _ _ (init_say f) (or_introl eq_refl) X H) as [F|(i & k & B & F)]; [left; exact F|]. right. exists i. eexists. split; [exact F|]. split; [|exact B].
  exists (skipn k (txt (daemons w i))). rewrite firstn_skipn. apply api_text_names, L.
Qed.
Print Assumptions c74_any_time.

(** If nothing is killed and the file can be written, then it names no address after the last daemon ended. *)
Theorem c74_tidy f l w : run (init f) l = Some w -> apart (init f) l -> smooth l -> (forall i, over (daemons w i)) ->
  api_file w = f \/ api_file w = Some [].
Proof.
  intros H X M O. destruct (run_tidy f l _ _ (init_say f) (or_intror (or_introl eq_refl)) M X H) as [[i W]|T]; [|exact T]. destruct (writes_not_idle _ W (over_idle _ (O i))).
Qed.
Print Assumptions c74_tidy.

(** ** Shutdown *)

(** Everyone who asks is told once: that it is being done (200), or (501) that it has been done already; it is
    never done without being asked for. *)
Theorem c74_shutdown f l w i (d := daemons w i) : run (init f) l = Some w ->
  NoDup (map fst (told d)) /\
  (forall r status, In (r, status) (told d) -> In (i, Shutdown r) l /\
     ((status = 200 /\ (queue d = true \/ exit_sent d = true)) \/ (status = 501 /\ exit_sent d = true))) /\
  (exit_sent d = true -> (exists r, In (i, Shutdown r) l) /\ waiting d = []).
Proof.
  intros H. subst d. pose proof (run_sound l (init f) w i fresh_sound H) as S. pose proof (run_from f i l w H) as F. split; [|split].
  - apply (NoDup_count_occ N.eq_dec). intros r. pose proof (s_times _ S r) as T. unfold times in T. lia.
  - intros r st R. split; [|exact (s_told _ S (r, st) (in_or_app _ _ _ (or_intror R)))]. apply (f_told _ _ _ F). rewrite !in_app_iff. right. right. apply in_map_iff. exists (r, st). split; [reflexivity|exact R].
  - intros E. split; [apply (f_asked _ _ _ F); right; exact E|]. apply (s_after _ S). rewrite (s_exit _ S). exact E.
Qed.
Print Assumptions c74_shutdown.

(** Once someone was told, or the message is on its way, the process goes on until it has ended: there is a step
    to take which is no new request, and after the signal only a bounded number of them are left, also of those
    taken by clients. *)
Theorem c74_goes_on f l w i : run (init f) l = Some w -> queue (daemons w i) = true \/ exit_sent (daemons w i) = true \/ told (daemons w i) <> [] ->
  at_ (daemons w i) <> Done -> at_ (daemons w i) <> Dead ->
  exists e w', e <> Kill /\ (forall r, e <> Accept r) /\ wstep w (i, e) = Some w'.
Proof.
  intros H C N1 N2. pose proof (run_sound l (init f) w i fresh_sound H) as S.
  assert (D : closed (daemons w i) = true \/ queue (daemons w i) = true).
  { rewrite (s_exit _ S). destruct C as [C|[C|C]]; [right; exact C|left; exact C|]. destruct (told (daemons w i)) as [|x t] eqn:T; [contradiction|].
    assert (V : verdict (daemons w i) x) by (apply (s_told _ S); rewrite T; apply in_or_app; right; left; reflexivity). destruct V as [[_ [V|V]]|[_ V]]; tauto. }
  destruct (dstep_goes_on (b := free w) (api_file w) _ S D N1 N2) as (e & f' & d' & E1 & E2 & E3). exists e. unfold wstep. cbn [fst snd]. rewrite E3. eexists. split; [exact E1|]. split; [exact E2|reflexivity].
Qed.
Print Assumptions c74_goes_on.
Theorem c74_ends f l w i : run (init f) l = Some w -> exit_sent (daemons w i) = true ->
  exists n, forall l' w', run w l' = Some w' -> (events_of i l' <= n)%nat.
Proof.
  intros H C. pose proof (run_sound l (init f) w i fresh_sound H) as S. rewrite <- (s_exit _ S) in C. exists (left_ (daemons w i)). intros l' w' R. pose proof (run_left i l' w w' S C R). lia.
Qed.
Print Assumptions c74_ends.

(** A daemon which ended by itself was asked to, and dealt with every request it had accepted: it was served to
    its end, or was told what becomes of the shutdown, or its client went away. *)
Record served (i : nat) (l : list (nat * ev)) (d : daemon) : Prop := {
  v_end : match at_ d with Ended _ | Released _ | Done => closed d = true /\ inflight d = [] /\ waiting d = [] /\ ready d = [] | _ => True end;
  v_all : forall r, In (i, Accept r) l -> In r (inflight d ++ waiting d ++ map fst (ready d) ++ map fst (told d)) \/ In (i, Finish r) l \/ In (i, Leave r) l }.
Lemma in_remove r x l : In x l -> x = r \/ In x (remove_id r l).
Proof. intros H. destruct (N.eqb_spec x r) as [E|E]; [left; exact E|]. right. unfold remove_id. apply filter_In. split; [exact H|]. destruct (N.eqb_spec x r); [contradiction|reflexivity]. Qed.
Lemma served_more i j e l d : served i l d -> j <> i \/ (forall r, e <> Accept r) -> served i (l ++ [(j, e)]) d.
Proof.
  intros [A B] N. split; [exact A|]. intros r R. apply in_app_or in R as [R|[R|[]]].
  - destruct (B r R) as [X|[X|X]]; [left; exact X|right; left|right; right]; apply in_or_app; left; exact X.
  - injection R as -> ->. destruct N as [N|N]; [contradiction|destruct (N r eq_refl)].
Qed.
Lemma served_phase i l d p : served i l d -> match p with Ended _ | Released _ | Done => closed d = true /\ inflight d = [] /\ waiting d = [] /\ ready d = [] | _ => True end -> served i l (set_phase d p).
Proof. intros [A B] P. split; [exact P|exact B]. Qed.
Lemma dstep_served {b} i l f d e f' d' : served i l d -> dstep b f d e = Some (f', d') -> served i (l ++ [(i, e)]) d'.
Proof.
  intros F0 H. destruct (at_ d) as [| | |k|wr|wr|wr| |] eqn:A; destruct e; unfold dstep in H; rewrite A in H; try discriminate H; try (destruct ok; discriminate H).
  all: match goal with |- served _ (_ ++ [(_, Accept _)]) _ => idtac | F0 : served ?i ?l ?d |- served _ (_ ++ [(_, ?e)]) _ => let N := fresh in assert (N : forall r, e <> Accept r) by (intros; discriminate); pose proof (served_more i i e l d F0 (or_intror N)) as F; clear N end.
  all: try (apply some_pair in H as [_ ->]; apply served_phase; [exact F|exact Logic.I]).
  all: try (apply some_pair in H as [_ ->]; apply served_phase; [exact F|]; pose proof (v_end _ _ _ F) as V; rewrite A in V; exact V).
  - apply some_pair in H as [_ ->]. apply served_phase; [exact F|]. destruct b; exact Logic.I.
  - destruct (socket_addr api) as [[ip pp]|], port as [g|]; try (apply some_pair in H as [_ ->]; apply served_phase; [exact F|exact Logic.I]). destruct ((pp =? 0) || (pp =? g)); [|discriminate H]. apply some_pair in H as [_ ->].
    destruct F as [F1 F2]. split; [exact Logic.I|exact F2].
  - destruct ok; apply some_pair in H as [_ ->]; (apply served_phase; [exact F|exact Logic.I]).
  - cbv zeta in H. destruct (_ && _); [|discriminate H]. apply some_pair in H as [_ ->]. apply served_phase; [exact F|]. destruct (_ =? _)%nat; exact Logic.I.
  - destruct (_ || _); [discriminate H|]. apply some_pair in H as [_ ->]. destruct F0 as [F1 F2]. split; cbn [at_ inflight waiting ready told]; [rewrite ?A; exact Logic.I|].
    intros x X. apply in_app_or in X as [X|[X|[]]].
    + destruct (F2 x X) as [Y|[Y|Y]]; [left; right; exact Y|right; left|right; right]; apply in_or_app; left; exact Y.
    + injection X as ->. left. left. reflexivity.
  - destruct (mem r (inflight d)); [|discriminate H]. cbv zeta in H. destruct F as [F1 F2].
    destruct (closed d); [|destruct (queue d)]; apply some_pair in H as [_ ->]; (split; cbn [at_ inflight waiting ready told]; [rewrite ?A; exact Logic.I|]); intros x X;
      (destruct (F2 x X) as [Y|Y]; [left|right; exact Y]); rewrite ?map_app; rewrite !in_app_iff in *; cbn [map fst In]; destruct Y as [Y|Y]; try (destruct (in_remove r x _ Y) as [->|Y']); tauto.
  - destruct (queue d && negb (closed d)); [|discriminate H]. apply some_pair in H as [_ ->]. destruct F as [F1 F2]. split; cbn [at_ inflight waiting ready told]; [rewrite ?A; exact Logic.I|].
    intros x X. destruct (F2 x X) as [Y|Y]; [left|right; exact Y]. rewrite map_app.
    assert (Q : map fst (match waiting d with [] => [] | r :: l => (r, if lucky then 200 else 501) :: map (fun x => (x, 501)) l end) = waiting d) by (destruct (waiting d); [reflexivity|]; cbn [map fst]; rewrite map_map; cbn [fst]; rewrite map_id; reflexivity).
    rewrite Q. rewrite !in_app_iff in *. tauto.
  - destruct (List.find _ _) as [[r' st]|] eqn:B; [|discriminate H]. apply some_pair in H as [_ ->]. destruct F as [F1 F2]. split; cbn [at_ inflight waiting ready told]; [rewrite ?A; exact Logic.I|].
    intros x X. destruct (F2 x X) as [Y|Y]; [left|right; exact Y]. rewrite map_app, map_fst_filter. rewrite !in_app_iff in *. cbn [map fst In].
    destruct Y as [Y|[Y|[Y|Y]]]; try tauto. destruct (in_remove r x _ Y) as [->|Y']; tauto.
  - destruct (mem r (inflight d)); [|discriminate H]. apply some_pair in H as [_ ->]. destruct F as [F1 F2]. split; cbn [at_ inflight waiting ready told]; [rewrite ?A; exact Logic.I|].
    intros x X. destruct (F2 x X) as [Y|Y]; [|right; exact Y]. rewrite !in_app_iff in *. destruct Y as [Y|Y]; [|left; tauto]. destruct (in_remove r x _ Y) as [->|Y']; [right; left; right; left; reflexivity|left; tauto].
  - destruct (_ || _); [|discriminate H]. apply some_pair in H as [_ ->]. destruct F as [F1 F2]. split; cbn [at_ inflight waiting ready told]; [rewrite ?A; exact Logic.I|].
    intros x X. destruct (F2 x X) as [Y|Y]; [|right; exact Y]. rewrite map_fst_filter. rewrite !in_app_iff in *.
    destruct Y as [Y|[Y|[Y|Y]]]; try tauto; (destruct (in_remove r x _ Y) as [->|Y']; [right; right; right; left; reflexivity|tauto]).
  - destruct (closed d) eqn:C; [|discriminate H]. destruct (inflight d) eqn:I1, (waiting d) eqn:I2, (ready d) eqn:I3; try discriminate H. apply some_pair in H as [_ ->]. apply served_phase; [exact F|]. repeat split; assumption.
  - pose proof (v_end _ _ _ F) as V. rewrite A in V. destruct wr; apply some_pair in H as [_ ->]; (apply served_phase; [exact F|exact V]).
  - pose proof (v_end _ _ _ F) as V. rewrite A in V. destruct wr; apply some_pair in H as [_ ->]; (apply served_phase; [exact F|exact V]).
Qed.
Lemma run_served f i l : forall w, run (init f) l = Some w -> served i l (daemons w i).
Proof.
  induction l as [|[j e] l IH] using rev_ind; intros w H.
  - injection H as <-. split; cbn; [exact Logic.I|intros r []].
  - rewrite run_app in H. destruct (run (init f) l) as [w1|]; [|discriminate]. cbn [run] in H. destruct (wstep w1 (j, e)) as [w2|] eqn:E; [|discriminate]. injection H as <-. specialize (IH w1 eq_refl).
    apply wstep_cases in E as (f' & d & E & ->). cbn [daemons]. destruct (Nat.eq_dec i j) as [->|N]; [rewrite put_same; exact (dstep_served _ _ _ _ _ _ _ IH E)|rewrite put_other by exact N; apply served_more; [exact IH|]; left; congruence].
Qed.
Theorem c74_drained f l w i (d := daemons w i) : run (init f) l = Some w -> (exists b, at_ d = Ended b \/ at_ d = Released b) \/ at_ d = Done ->
  (exists r, In (i, Shutdown r) l) /\
  forall r, In (i, Accept r) l -> (exists status, In (r, status) (told d)) \/ In (i, Finish r) l \/ In (i, Leave r) l.
Proof.
  intros H P. subst d. pose proof (run_served f i l w H) as S. pose proof (run_from f i l w H) as F. pose proof (run_sound l (init f) w i fresh_sound H) as X.
  assert (V : closed (daemons w i) = true /\ inflight (daemons w i) = [] /\ waiting (daemons w i) = [] /\ ready (daemons w i) = []) by (pose proof (v_end _ _ _ S) as V; destruct P as [[b [P|P]]|P]; rewrite P in V; exact V).
  destruct V as (V1 & V2 & V3 & V4). split.
  - apply (f_asked _ _ _ F). right. rewrite <- (s_exit _ X). exact V1.
  - intros r R. destruct (v_all _ _ _ S r R) as [Y|Y]; [left|right; exact Y]. rewrite V2, V3, V4 in Y. cbn [app map] in Y. apply in_map_iff in Y as ([r' st] & <- & Y). exists st. exact Y.
Qed.
Print Assumptions c74_drained.

(** ** Cases *)
Definition api : multiaddr := [PIp4 2130706433; PTcp 0].
Definition up (i : nat) (p : N) : list (nat * ev) := map (pair i) [Start; Bind api (Some p); Create true; Write 4; Write 20].
Definition asked (i : nat) : list (nat * ev) := map (pair i) [Accept 1; Accept 2; Accept 3; Shutdown 1; Shutdown 2; Answer 1; Signal false; Shutdown 3; Answer 2; Answer 3; Drain].
Example ex_text : api_text 2130706433 50123 = text "/ip4/127.0.0.1/tcp/50123".
Proof. reflexivity. Qed.
Lemma apart_rest l : forall w, Forall (fun x => snd x <> Start) l -> apart w l.
Proof. induction l as [|[i e] l IH]; intros w F; [exact Logic.I|]. inversion_clear F as [|? ? F1 F2]. split; [intros E; contradiction|]. destruct (wstep w (i, e)); [apply IH, F2|exact Logic.I]. Qed.
Lemma apart_app l l' : forall w, apart w l -> (forall w', run w l = Some w' -> apart w' l') -> apart w (l ++ l').
Proof. induction l as [|[i e] l IH]; intros w X H; [apply H; reflexivity|]. destruct X as [X1 X2]. cbn [app apart run] in *. split; [exact X1|]. destruct (wstep w (i, e)); [apply IH; assumption|exact Logic.I]. Qed.
Lemma up_apart i p w : (forall j, at_ (daemons w j) <> Released true) -> apart w (up i p).
Proof. intros O. split; [intros _; exact O|]. destruct (wstep w (i, Start)); [|exact Logic.I]. apply apart_rest. repeat constructor; discriminate. Qed.

Example ex_life : exists w w', run (init None) (up 0 50123) = Some w /\ at_ (daemons w 0%nat) = Serving true /\ apart (init None) (up 0 50123) /\
  api_file w = Some (text "/ip4/127.0.0.1/tcp/50123") /\
  run w (asked 0 ++ [(0%nat, Truncate true)]) = Some w' /\ at_ (daemons w' 0%nat) = Done /\ told (daemons w' 0%nat) = [(1, 200); (2, 501); (3, 501)] /\ api_file w' = Some [].
Proof.
  eexists. eexists. split; [vm_compute; reflexivity|]. split; [reflexivity|]. split; [apply up_apart; intros j; discriminate|].
  split; [reflexivity|]. split; [vm_compute; reflexivity|]. split; [reflexivity|]. split; reflexivity.
Qed.
(** Killed, and another one started. *)
Definition again : list (nat * ev) := up 0 50123 ++ [(0%nat, Kill)] ++ up 1 50124.
Example ex_again : exists w, run (init None) (up 0 50123 ++ [(0%nat, Kill)] ++ firstn 4 (up 1 50124)) = Some w /\ api_file w = Some (text "/ip4").
Proof. eexists. split; [vm_compute; reflexivity|reflexivity]. Qed.
Example ex_again_apart : apart (init None) (up 0 50123 ++ [(0%nat, Kill)] ++ up 1 50124).
Proof.
  apply apart_app; [apply up_apart; intros j; discriminate|]. intros w1 H. apply apart_app; [apply apart_rest; repeat constructor; discriminate|]. intros w2 H'. apply up_apart.
  vm_compute in H. injection H as <-. vm_compute in H'. injection H' as <-. intros [|[|j]]; discriminate.
Qed.

(** A second one is tried while the first one serves, and its file stays. *)
Example ex_second : exists w, run (init None) (up 0 50123 ++ [(1%nat, Start)]) = Some w /\ running (daemons w 0%nat) /\ at_ (daemons w 1%nat) = Dead /\ at_ (daemons w 2%nat) = New /\
  api_file w = Some (text "/ip4/127.0.0.1/tcp/50123") /\ apart (init None) (up 0 50123 ++ [(1%nat, Start)]).
Proof.
  eexists. split; [vm_compute; reflexivity|]. split; [right; right; right; eexists; reflexivity|]. do 3 (split; [reflexivity|]).
  apply apart_app; [apply up_apart; intros j; discriminate|]. intros w H. vm_compute in H. injection H as <-. split; [|exact Logic.I]. intros _ [|j]; discriminate.
Qed.

(** ** What does not hold *)

(** A file which names an address: that a daemon is there.  Not after it was killed. *)
Theorem c74_stale_refuted : ~ forall l w ip port s, run (init None) l = Some w -> apart (init None) l -> api_file w = Some s -> names_address s ip port ->
  exists i, ~ over (daemons w i) /\ bound (daemons w i) = (ip, port).
Proof.
  intros H. destruct (run (init None) (up 0 50123 ++ [(0%nat, Kill)])) as [w|] eqn:E; [|vm_compute in E; discriminate E].
  assert (X : apart (init None) (up 0 50123 ++ [(0%nat, Kill)])).
  { apply apart_app; [apply up_apart; intros j; discriminate|]. intros w1 _. apply apart_rest. repeat constructor; discriminate. }
  specialize (H _ w 2130706433 50123 (api_text 2130706433 50123) E X). vm_compute in E. injection E as <-. destruct (H eq_refl (api_text_names 2130706433 50123 ltac:(reflexivity))) as (i & N & _).
  apply N. destruct i; [right; right|left]; reflexivity.
Qed.
Print Assumptions c74_stale_refuted.

(** The file names the address of a running daemon, also if another one was there.  That one lets go of the
    repository before it empties the file; if the next one has written its address in between, it is gone. *)
Definition handed_over : list (nat * ev) := up 0 50123 ++ asked 0 ++ [(0%nat, Release)] ++ up 1 50124 ++ [(0%nat, Truncate true)].
Theorem c74_two_refuted : ~ forall l w i, run (init None) l = Some w -> smooth l -> at_ (daemons w i) = Serving true ->
  exists s, api_file w = Some s /\ names s (daemons w i).
Proof.
  intros H. destruct (run (init None) handed_over) as [w|] eqn:E; [|vm_compute in E; discriminate E].
  specialize (H _ w 1%nat E). vm_compute in E. injection E as <-. destruct H as (s & S & Z); [repeat constructor; discriminate|reflexivity|].
  injection S as <-. destruct Z as (? & ? & ? & ? & ? & ? & ? & ? & ? & _ & _ & _ & _ & _ & _ & _ & _ & _ & _ & Z). discriminate Z.
Qed.
Print Assumptions c74_two_refuted.

(** Where the file names the address of a daemon, requests are accepted: not while a request is waited for. *)
Theorem c74_draining_refuted : ~ forall l w i r, run (init None) l = Some w -> apart (init None) l -> smooth l -> at_ (daemons w i) = Serving true ->
  (forall s, In (i, Accept s) l -> s < r) -> exists w', wstep w (i, Accept r) = Some w'.
Proof.
  intros H. set (l := up 0 50123 ++ map (pair 0%nat) [Accept 1; Accept 2; Shutdown 1; Answer 1; Signal true]).
  destruct (run (init None) l) as [w|] eqn:E; [|vm_compute in E; discriminate E].
  assert (X : apart (init None) l). { apply apart_app; [apply up_apart; intros j; discriminate|]. intros w1 _. apply apart_rest. repeat constructor; discriminate. }
  specialize (H l w 0%nat 3 E X). vm_compute in E. injection E as <-. destruct H as (w' & W).
  - repeat constructor; discriminate.
  - reflexivity.
  - intros s I. cbn in I. repeat destruct I as [I|I]; try discriminate I; try (injection I as <-; reflexivity). destruct I.
  - vm_compute in W. discriminate W.
Qed.
Print Assumptions c74_draining_refuted.

(** Whoever asks for the shutdown of a running daemon is told that it is done: of two the second is told 501. *)
Theorem c74_both_refuted : ~ forall l w i r status, run (init None) l = Some w -> apart (init None) l -> In (r, status) (told (daemons w i)) -> status = 200.
Proof.
  intros H. destruct (run (init None) (up 0 50123 ++ asked 0)) as [w|] eqn:E; [|vm_compute in E; discriminate E].
  assert (X : apart (init None) (up 0 50123 ++ asked 0)). { apply apart_app; [apply up_apart; intros j; discriminate|]. intros w1 _. apply apart_rest. repeat constructor; discriminate. }
  specialize (H _ w 0%nat 2 501 E X). vm_compute in E. injection E as <-. assert (Z : 501 = 200) by (apply H; right; left; reflexivity). discriminate Z.
Qed.
Print Assumptions c74_both_refuted.
