(** Property C49: requests to listen on an address.  A history is the list of the calls and reports
    of the network with what was done; [run h t]: the history is possible, without a panic, and leaves
    the table [t].  The histories of [lawful] and the functions of the past take the latest first. *)
From Verif Require Import Base Wire Cid FMap Addr AddrProofs Listen ListenSpec ListenProofs.
Local Open Scope N_scope.

(** Every request is answered at most once, and every report answers at most one request (it has room
    for one answer only); every history. *)
Theorem c49_once h t : run h t -> NoDup (requests h) -> forall r, (length (answers_to r h) <= 1)%nat.
Proof. intros H N r. pose proof (conserved _ _ r H). rewrite (NoDup_count_occ N.eq_dec) in N. specialize (N r). lia. Qed.
(** A request not answered holds its place: nothing but a report or a removal ends the wait.  *)
Theorem c49_waits h t r : run h t -> NoDup (requests h) -> In r (requests h) -> answers_to r h = [] -> exists k id, mget addr_eqb k t = Some (id, Some r).
Proof.
  intros H N Hr E. pose proof (conserved _ _ r H) as C. rewrite E in C. cbn [length] in C. apply (NoDup_count_occ' N.eq_dec) with (x := r) in N; [|exact Hr]. rewrite N in C.
  unfold waiting in C. destruct (filter (holds r) t) as [|[k [id s]] l] eqn:Ef; [discriminate|]. assert (Hi : In (k, (id, s)) (filter (holds r) t)) by (rewrite Ef; left; reflexivity).
  apply filter_In in Hi as [Hi Hh]. unfold holds in Hh. cbn [snd] in Hh. destruct s as [q|]; [|discriminate]. apply N.eqb_eq in Hh as ->.
  exists k, id. apply (in_mget _ addr_eqb_spec); [apply (keys_nodup _ _ H)|exact Hi].
Qed.
Print Assumptions c49_once.
Print Assumptions c49_waits.

(** In a lawful history the first report of a listener completes its request, with the address
    reported, and no other request; later reports complete nothing. *)
Theorem c49_right_listener_partial h t id a pick k r : run h t -> lawful (rev h) ->
  lawful_step (rev h) (Report id a pick, nothing) -> listener id (rev h) = Some (k, r) ->
  exists t', step t (Report id a pick) =
    Some (t', mk_reply (match reports id (rev h), r with [], Some r => Some (r, Bound a) | _, _ => None end) None None).
Proof.
  intros H L Ls Ek. assert (T : all_tcp t). { apply (all_tcp_run _ _ H). apply tcp_only_rev. apply lawful_tcp_only. exact L. }
  destruct (report_step t (rev h) id a pick k r (keys_nodup _ _ H) (agrees_run _ _ H L) L T Ls Ek) as (t' & E & _). exists t'. cbn [step]. rewrite E. do 3 f_equal.
  destruct (reports id (rev h)); destruct r; reflexivity.
Qed.
Print Assumptions c49_right_listener_partial.

(** And removing an address stops the listener known by it: the first address it reported. *)
Theorem c49_remove h t a ok : run h t -> lawful (rev h) ->
  exists t' x y, step t (Remove a ok) = Some (t', mk_reply x None (Some y)) /\
    (forall id, (y = if ok then Stopped id else NotStopped id) <-> known_as id (rev h) = Some a) /\
    (y = Unknown <-> forall id, known_as id (rev h) <> Some a).
Proof.
  intros H L. pose proof (agrees_run _ _ H L) as A. cbn [step].
  assert (K : forall id, known_as id (rev h) = Some a <-> exists m, mget addr_eqb a t = Some (id, m)).
  { intros id. rewrite place_known. split.
    - destruct (place id (rev h)) as [[key m]|] eqn:P; [|discriminate]. intros [= ->]. exists m. apply A. exact P.
    - intros (m & E). apply A in E. rewrite E. reflexivity. }
  destruct (mget addr_eqb a t) as [[j s]|] eqn:E; eexists _, _, _; (split; [reflexivity|]); split.
  - intros id. rewrite K. split; [|intros (m & [= -> _]); reflexivity]. intros Hy. exists s. destruct ok; congruence.
  - split; [destruct ok; discriminate|]. intros Hn. exfalso. apply (Hn j). apply K. eauto.
  - intros id. rewrite K. split; [destruct ok; discriminate|]. intros (m & Em). discriminate.
  - split; [|reflexivity]. intros _ id Hk. apply K in Hk as (m & Em). discriminate.
Qed.
Print Assumptions c49_remove.

(** Whatever the network does with tcp addresses: no panic, and an address a request is answered with
    is one it could have been bound to. *)
Theorem c49_no_panic h t o : run h t -> tcp_only h -> match o with Report _ a _ => bound_addr a | _ => True end -> step t o <> None.
Proof. intros H T Ho. apply (no_panic h t o H T). destruct o; cbn [tcp_step]; auto. cbn [nothing opened]. congruence. Qed.
Theorem c49_fits h t id a pick t' r b : run h t -> tcp_only h -> bound_addr a ->
  step t (Report id a pick) = Some (t', mk_reply (Some (r, Bound b)) None None) ->
  b = a /\ exists k i, In (Add (Some r) k (Some i), mk_reply None (Some i) None) h /\ fits k a.
Proof.
  intros H T Ha Hs. cbn [step] in Hs.
  destruct (complete_tcp t a pick (keys_nodup _ _ H) (all_tcp_run _ _ H T) Ha) as (t1 & s & E & C). rewrite E in Hs. injection Hs as <- Hs. destruct s as [q|]; [|discriminate]. injection Hs as <- <-.
  split; [reflexivity|]. destruct C as [(i & Ei & _)|[(_ & k & i & Ei & _ & C)|(_ & _ & C & _)]]; [| |discriminate].
  - exists a, i. split; [apply (waits_as_asked _ _ H); exact Ei|]. destruct Ha as (ip & n & -> & _). cbn [fits]. auto.
  - exists k, i. split; [apply (waits_as_asked _ _ H); exact Ei|]. destruct C as [C|(U & C & _)]; [apply fit0_fits; exact C|apply fit1_fits; assumption].
Qed.
(** Any kind of address: the comparison of a reported with a requested address is exact as far as both
    have components, given that they have the same number of bytes. *)
Theorem c49_matches n bound eph : could_be_bound n bound eph = Some true <->
  addr_size bound = addr_size eph /\ Forall (fun x => becomes (snd x) (fst x)) (combine (skipn n bound) (skipn n eph)).
Proof.
  assert (B : forall b e, bound_from b e = Some true <-> becomes e b).
  { intros b e. split.
    - intros H. assert (O : open_port e \/ ~ open_port e).
      { unfold open_port. destruct e as [a|a|p|p|p|p|h| |l]; try (right; intros [X|[X|[X|X]]]; discriminate);
          (destruct p; [left; tauto|right; intros [X|[X|[X|X]]]; discriminate]). }
      destruct O as [O|O].
      + right. unfold open_port in O. destruct O as [->|[->|[->| ->]]]; cbn [bound_from] in H; destruct b as [a'|a'|p'|p'|p'|p'|h'| |l']; try discriminate;
          exists p'; (destruct (N.eqb_spec p' 0); [discriminate|]); (split; [assumption|]); tauto.
      + left. split; [|exact O]. assert (E : bound_from b e = Some (proto_eqb e b)).
        { unfold open_port in O. destruct e as [a|a|p|p|p|p|h| |l]; try reflexivity; (destruct p; [exfalso; apply O; tauto|reflexivity]). }
        rewrite E in H. injection H as H. destruct (proto_eqb_spec e b); congruence.
    - intros [[-> N]|(x & Hx & [[-> ->]|[[-> ->]|[[-> ->]|[-> ->]]]])]; cbn [bound_from]; try (destruct (N.eqb_spec x 0); [contradiction|reflexivity]).
      assert (R : forall e, proto_eqb e e = true) by (intros y; destruct (proto_eqb_spec y y); congruence).
      destruct e as [a|a|p|p|p|p|h| |l]; cbn [bound_from]; try (rewrite R; reflexivity);
        (destruct p as [|p]; [exfalso; apply N; unfold open_port; tauto|rewrite R; reflexivity]). }
  assert (A : forall x y, all_bound_from x y = Some true <-> Forall (fun x => becomes (snd x) (fst x)) (combine x y)).
  { induction x as [|b x IH]; intros y; cbn [all_bound_from combine]; [split; [constructor|reflexivity]|]. destruct y as [|e y]; [split; [constructor|reflexivity]|].
    rewrite Forall_cons_iff. cbn [fst snd]. rewrite <- B, <- IH. destruct (bound_from b e) as [[|]|]; split; try discriminate; try (intros [X _]; discriminate); [auto|tauto]. }
  unfold could_be_bound. rewrite <- A. destruct (N.eqb_spec (addr_size bound) (addr_size eph)) as [E|E]; cbn [negb].
  - split; [auto|tauto].
  - split; [discriminate|]. intros [H _]. contradiction.
Qed.
Print Assumptions c49_matches.
Example ex_matches : becomes (PTcp 0) (PTcp 4001) /\ could_be_bound 0 [PIp4 1; PTcp 4001] [PIp4 1; PTcp 0] = Some true /\
  could_be_bound 0 [PIp4 1; PUdp 4001] [PIp4 1; PTcp 0] = Some false.
Proof. split; [right; exists 4001; split; [discriminate|left; auto]|]. split; reflexivity. Qed.
Print Assumptions c49_no_panic.
Print Assumptions c49_fits.

(** ** Cases *)
Definition local (n : N) : multiaddr := [PIp4 2130706433; PTcp n].
Definition lan (n : N) : multiaddr := [PIp4 3232235778; PTcp n].
Definition any (n : N) : multiaddr := [PIp4 0; PTcp n].
Lemma exec_run l t r : exec init l = Some (t, r) -> run (combine l r) t.
Proof. intros E. apply (run_exec l init [] t r E). constructor. Qed.

(** Three requests, two at once; every one gets its own. *)
Definition three : list op :=
  [Add (Some 0) (any 0) (Some 10); Report 10 (local 4000) 0; Add (Some 1) (local 0) (Some 11); Add (Some 2) (local 4002) (Some 12);
   Report 12 (local 4002) 0; Report 11 (local 4001) 0].
Example ex_three : exists t r, exec init three = Some (t, r) /\
  map to_add r = [None; Some (0, Bound (local 4000)); None; None; Some (2, Bound (local 4002)); Some (1, Bound (local 4001))].
Proof. eexists _, _. split; vm_compute; reflexivity. Qed.
Example ex_three_lawful : exists t r, exec init three = Some (t, r) /\ lawful (rev (combine three r)).
Proof.
  eexists _, _. split; [vm_compute; reflexivity|]. unfold three. cbn [combine rev app lawful].
  assert (B : forall n, n <> 0 -> bound_addr (local n)) by (intros n Hn; exists (PIp4 2130706433), n; repeat split; [exact Hn|discriminate]).
  assert (T : forall ip n, ip_addr ip -> tcp_addr [ip; PTcp n]) by (intros ip n Hip; exists ip, n; auto).
  assert (U : forall n, ~ unspecified (local n)) by (intros n (r & [H|H]); discriminate).
  repeat split.
  - exists (local 0), (Some 1). split; [reflexivity|]. split; [apply B; lia|]. split; [cbn; auto|]. split; [intros _ b []|]. split; [|intros Hu; destruct (U _ Hu)].
    intros j kj rj Hj Hl. cbn in Hl. cbn. destruct (N.eqb_spec j 12) as [->|]; [injection Hl as <- <-; split; [discriminate|intros [H|[]]; discriminate]|].
    destruct (N.eqb_spec j 11) as [->|]; [congruence|]. destruct (N.eqb_spec j 10) as [->|]; [injection Hl as <- <-; split; [discriminate|intros [H|[]]; discriminate]|discriminate].
  - exists (local 4002), (Some 2). split; [reflexivity|]. split; [apply B; lia|]. split; [cbn; auto|]. split; [intros _ b []|]. split; [|intros Hu; destruct (U _ Hu)].
    intros j kj rj Hj Hl. cbn in Hl. cbn. destruct (N.eqb_spec j 12) as [->|]; [congruence|].
    destruct (N.eqb_spec j 11) as [->|]; [injection Hl as <- <-; split; [discriminate|intros []]|]. destruct (N.eqb_spec j 10) as [->|]; [injection Hl as <- <-; split; [discriminate|intros [H|[]]; discriminate]|discriminate].
  - intros y [<-|[<-|[<-|[]]]]; discriminate.
  - apply T. exact I.
  - intros y [<-|[<-|[]]]; discriminate.
  - apply T. exact I.
  - exists (any 0), (Some 0). split; [reflexivity|]. split; [apply B; lia|]. split; [cbn; split; [right; left; eauto|auto]|]. split; [intros _ b []|]. split.
    + intros j kj rj Hj Hl. cbn in Hl. destruct (N.eqb_spec j 10) as [->|]; [congruence|discriminate].
    + intros _ j kj rj Hj Hl. cbn in Hl. destruct (N.eqb_spec j 10) as [->|]; [congruence|discriminate].
  - intros y [].
  - apply T. exact I.
Qed.

(** False as stated: a listener for all addresses reports a second address (an interface came up) and
    completes the request of another listener; the own report of that one then completes nothing, and
    removing the address stops the wrong listener. *)
Theorem c49_wrong_listener_refuted : exists t r,
  exec init [Add (Some 0) (any 0) (Some 10); Report 10 (local 4000) 0; Add (Some 1) (lan 0) (Some 11);
             Report 10 (lan 4000) 0; Report 11 (lan 4001) 0; Remove (lan 4000) true; Remove (lan 4001) true] = Some (t, r) /\
  r = [mk_reply None (Some 10) None; mk_reply (Some (0, Bound (local 4000))) None None; mk_reply None (Some 11) None;
       mk_reply (Some (1, Bound (lan 4000))) None None; nothing; mk_reply None None (Some (Stopped 11)); mk_reply None None (Some Unknown)].
Proof. eexists _, _. split; [vm_compute|]; reflexivity. Qed.
Print Assumptions c49_wrong_listener_refuted.

(** The same with two requests for all addresses. *)
Theorem c49_two_unspecified_refuted : exists t r,
  exec init [Add (Some 0) (any 0) (Some 10); Report 10 (local 4000) 0; Add (Some 1) (any 0) (Some 11); Report 10 (lan 4000) 0] = Some (t, r) /\
  map to_add r = [None; Some (0, Bound (local 4000)); None; Some (1, Bound (lan 4000))].
Proof. eexists _, _. split; vm_compute; reflexivity. Qed.
Print Assumptions c49_two_unspecified_refuted.

(** False as stated: a listener which fails before it reports leaves its request waiting for ever, and
    the address cannot be asked for again. *)
Lemma stuck k i r h t : (forall id a n, In (Report id a n) h -> a <> k /\ could_be_bound 0 a k = Some false) ->
  (forall ok, ~ In (Remove k ok) h) -> starts_unspecified k = false ->
  forall t' x, exec t h = Some (t', x) -> mget addr_eqb k t = Some (i, Some r) -> mget addr_eqb k t' = Some (i, Some r).
Proof.
  intros Hr Hm U. revert t. induction h as [|o h IH]; intros t t' x E Hk; cbn [exec] in E; [injection E as <- _; exact Hk|].
  destruct (step t o) as [[t1 a]|] eqn:Es; [|discriminate]. destruct (exec t1 h) as [[t2 r2]|] eqn:El; [|discriminate]. injection E as <- <-.
  refine (IH _ _ t1 _ _ El _). { intros id b n Hi. eapply Hr. right. exact Hi. } { intros ok Hi. apply (Hm ok). right. exact Hi. }
  clear IH El. unfold step in Es. destruct o as [r0 b l|id b n|id|b ok].
  - injection Es as Es. unfold start in Es. destruct (_ && _); [injection Es as <- _; exact Hk|]. destruct (mget addr_eqb b t) eqn:Eb; [injection Es as <- _; exact Hk|].
    destruct l; injection Es as <- _; [|exact Hk]. rewrite (mget_mset _ addr_eqb_spec). destruct (addr_eqb_spec k b); [congruence|exact Hk].
  - destruct (Hr id b n (or_introl eq_refl)) as [Hne Hb]. unfold complete in Es.
    assert (Mv : forall k', k' <> k -> forall y, move k' b t = y -> mget addr_eqb k (fst y) = Some (i, Some r)).
    { intros k' Hk' y <-. unfold move. destruct (mget addr_eqb k' t) as [[j s]|]; [|exact Hk]. cbn [fst]. rewrite (mget_mset _ addr_eqb_spec). destruct (addr_eqb_spec k b); [congruence|].
      rewrite (mget_mdel _ addr_eqb_spec). destruct (addr_eqb_spec k k'); [congruence|exact Hk]. }
    destruct (mget addr_eqb b t) as [[j s]|].
    + injection Es as <- _. rewrite (mget_mset _ addr_eqb_spec). destruct (addr_eqb_spec k b); [congruence|exact Hk].
    + assert (Hmk : forall ks l, matching b ks = Some l -> ~ In k l).
      { induction ks as [|k0 ks IHk]; cbn [matching]; intros l Hl Hi; [injection Hl as <-; destruct Hi|]. destruct (could_be_bound 0 b k0) as [c|] eqn:Ec; [|discriminate].
        destruct (matching b ks) as [l'|]; [|discriminate]. injection Hl as <-. destruct c; [destruct Hi as [->|Hi]; [congruence|]|]; exact (IHk _ eq_refl Hi). }
      destruct (matching b (map fst t)) as [[|k0 [|? ?]]|] eqn:Em; try discriminate.
      * destruct (guess b _) as [[k0|]|] eqn:Eg; try discriminate; [|injection Es as <- _; exact Hk].
        assert (k0 <> k). { intros ->. clear -Eg U. revert Eg. generalize (skipn n t ++ firstn n t) as u. induction u as [|[q [j s]] u IHu]; cbn [guess]; [discriminate|].
          destruct (starts_unspecified q) eqn:Eq; [|exact IHu]. destruct (could_be_bound 1 b q) as [c|]; [|discriminate]. destruct (c && is_some s); [intros [= ->]; congruence|exact IHu]. }
        destruct (move k0 b t) as [u s] eqn:Emv. injection Es as <- _. exact (Mv k0 H _ Emv).
      * assert (k0 <> k). { intros ->. apply (Hmk _ _ Em). left. reflexivity. }
        destruct (move k0 b t) as [u s] eqn:Emv. injection Es as <- _. exact (Mv k0 H _ Emv).
  - injection Es as <- _. exact Hk.
  - destruct (mget addr_eqb b t) as [[j s]|]; injection Es as <- _; [|exact Hk]. rewrite (mget_mdel _ addr_eqb_spec). destruct (addr_eqb_spec k b) as [<-|]; [|exact Hk].
    destruct (Hm ok). left. reflexivity.
Qed.
Theorem c49_failed_listener_refuted : exists t r, exec init [Add (Some 0) (local 4000) (Some 10); Gone 10] = Some (t, r) /\
  (forall h t' x, (forall id a n, In (Report id a n) h -> bound_addr a /\ a <> local 4000) -> (forall ok, ~ In (Remove (local 4000) ok) h) ->
     exec t h = Some (t', x) -> mget addr_eqb (local 4000) t' = Some (10, Some 0)) /\
  exists t', step t (Add (Some 1) (local 4000) (Some 11)) = Some (t', mk_reply (Some (1, Exists)) None None).
Proof.
  eexists _, _. split; [vm_compute; reflexivity|]. split; [|eexists; vm_compute; reflexivity].
  intros h t' x Hr Hm E. eapply (stuck (local 4000) 10 0 h); [|exact Hm|reflexivity|exact E|vm_compute; reflexivity].
  intros id a n Hi. destruct (Hr _ _ _ Hi) as [Hb Hn]. split; [exact Hn|]. assert (T : tcp_addr (local 4000)) by (exists (PIp4 2130706433), 4000; split; [reflexivity|exact I]).
  rewrite (cbb0 _ _ Hb T). f_equal. destruct (fit0 a (local 4000)) eqn:F; [|reflexivity]. apply fit0_spec in F as (ip & u & v & E1 & -> & [->| ->]); [unfold local in *; congruence|discriminate].
Qed.
Print Assumptions c49_failed_listener_refuted.

(** An address with the id of the node at its end, which the transport accepts and drops: the report
    does not match and the request waits. *)
Definition node : multihash := Build_multihash 18 (repeat 7 32).
Theorem c49_suffix_refuted : exists t r, exec init [Add (Some 0) (local 4000 ++ [PP2p node]) (Some 10); Report 10 (local 4000) 0] = Some (t, r) /\
  map to_add r = [None; None] /\ mget addr_eqb (local 4000 ++ [PP2p node]) t = Some (10, Some 0).
Proof. eexists _, _. split; [vm_compute; reflexivity|]. split; vm_compute; reflexivity. Qed.
Print Assumptions c49_suffix_refuted.

(** Two ports in one address (no transport of the node has such): the panic. *)
Theorem c49_two_ports_refuted : exists t r, exec init [Add (Some 0) [PIp4 1; PTcp 0; PUdp 5] (Some 10); Add (Some 1) [PIp4 1; PTcp 4; PUdp 0] (Some 11)] = Some (t, r) /\
  step t (Report 10 [PIp4 1; PTcp 4; PUdp 5] 0) = None.
Proof. eexists _, _. split; [vm_compute; reflexivity|]. vm_compute. reflexivity. Qed.
Print Assumptions c49_two_ports_refuted.
