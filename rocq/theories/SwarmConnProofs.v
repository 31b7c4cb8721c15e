(** Lemmas about [Swarm]: the lists of connections. *)
From Coq Require Import Permutation.
From Verif Require Import Base Wire Cid FMap Addr AddrProofs BlockSpec SubsSpec Subs SubsProofs Swarm SwarmSpec SwarmProofs.
Local Open Scope N_scope.

Lemma conn_eqb_spec x y : reflect (x = y) (conn_eqb x y).
Proof.
  destruct x as [p a], y as [q b]. unfold conn_eqb. cbn [fst snd]. destruct (mh_eqb_spec p q) as [->|]; cbn [andb]; [|constructor; congruence].
  destruct (addr_eqb_spec a b) as [->|]; constructor; congruence.
Qed.
Lemma remove_one_perm x l : In x l -> Permutation l (x :: remove_one x l).
Proof.
  induction l as [|y l IH]; [intros []|]. cbn [remove_one]. destruct (conn_eqb_spec x y) as [->|Hn]; [intros _; apply Permutation_refl|].
  intros [->|H]; [congruence|]. rewrite (IH H) at 1. apply perm_swap.
Qed.
Lemma addresses_app p l m : addresses_of p (l ++ m) = addresses_of p l ++ addresses_of p m.
Proof. unfold addresses_of. rewrite filter_app, map_app. reflexivity. Qed.
Lemma filter_perm {T} (f : T -> bool) l m : Permutation l m -> Permutation (filter f l) (filter f m).
Proof.
  induction 1; cbn [filter].
  - constructor.
  - destruct (f x); [apply perm_skip; assumption|assumption].
  - destruct (f y), (f x); first [apply perm_swap|apply Permutation_refl].
  - eapply Permutation_trans; eassumption.
Qed.
Lemma addresses_perm p l m : Permutation l m -> Permutation (addresses_of p l) (addresses_of p m).
Proof. intros H. unfold addresses_of. apply Permutation_map. apply (filter_perm (fun x : peer * multiaddr => mh_eqb p (fst x))). exact H. Qed.
Lemma addresses_in p a l : In a (addresses_of p l) <-> In (p, a) l.
Proof.
  unfold addresses_of. rewrite in_map_iff. split.
  - intros ([q b] & E & H). apply filter_In in H as [H Hq]. cbn [fst snd] in *. destruct (mh_eqb_spec p q) as [->|]; [|discriminate]. subst b. exact H.
  - intros H. exists (p, a). split; [reflexivity|]. apply filter_In. split; [exact H|]. cbn. apply peqb_refl.
Qed.

Lemma open_snoc h o : open_after (h ++ [o]) = open_step (open_after h) o.
Proof. unfold open_after. rewrite fold_left_app. reflexivity. Qed.
Lemma legal_snoc h o : legal (h ++ [o]) -> legal h /\
  match o with
  | Established p e => endpoint_ok p e
  | Closed p e => endpoint_ok p e /\ In (p, remote e) (open_after h)
  | DialFailed _ (Transport l) => forall d e, In (d, e) l -> exists p a, d = a ++ [PP2p p] /\ bare a /\ valid_peer p = true
  | _ => True
  end.
Proof.
  intros H. split; [|apply (H h o []); reflexivity]. intros h1 o1 h2 E. apply (H h1 o1 (h2 ++ [o])). rewrite E, <- app_assoc. reflexivity.
Qed.
Lemma distinct_snoc h o : distinct (h ++ [o]) -> distinct h /\ forall p e, o = Established p e -> forall q, ~ In (q, remote e) (open_after h).
Proof.
  intros H. split.
  - intros h1 p e h2 E. apply (H h1 p e (h2 ++ [o])). rewrite E, <- app_assoc. reflexivity.
  - intros p e ->. apply (H h p e []). reflexivity.
Qed.

Section Proofs.
  Variable debug : bool.
  Notation step := (step debug).
  Notation run := (run debug).

  Lemma join_bare a p : bare a -> valid_peer p = true -> split_peer debug (a ++ [PP2p p]) = AOk (mk_wp a p).
  Proof. intros H V. apply (join_target debug (mk_wp a p)). split; assumption. Qed.
  Lemma point_ok p e : endpoint_ok p e -> point_addr debug e = Some (remote e).
  Proof.
    destruct e as [d|a]; cbn [endpoint_ok point_addr remote].
    - intros (a & -> & Ha & V). rewrite join_bare by assumption. rewrite removelast_last. reflexivity.
    - intros H. unfold without_peer. destruct (existsb is_p2p a) eqn:E; [|reflexivity]. apply existsb_p2p in E as (h & E). exfalso. eapply H; eauto.
  Qed.

  Lemma handout_same ps : forall c c' l, handout_all ps c = (c', l) ->
    c_open c' = c_open c /\ c_conns c' = c_conns c /\ c_peers c' = c_peers c /\ c_rtt c' = c_rtt c /\ c_dials c' = c_dials c /\ c_times c' = c_times c.
  Proof.
    induction ps as [|p ps IH]; intros c c' l H; cbn [handout_all] in H; [injection H as <- _; auto 10|].
    destruct (handout p c) as [c1 l1] eqn:E1. destruct (handout_all ps c1) as [c2 l2] eqn:E2. injection H as <- <-. destruct (IH _ _ _ E2) as (X1 & X2 & X3 & X4 & X5 & X6).
    unfold handout in E1. injection E1 as <- _. cbn in *. auto 10.
  Qed.
  (** What each call does to the lists. *)
  Lemma step_lists s o s' a : step s o = Some (s', a) ->
    let c := core_of s in let c' := core_of s' in
    match o with
    | Established p e => exists x, point_addr debug e = Some x /\ c_open c' = mset peqb p (at_peer p (c_open c) ++ [x]) (c_open c) /\
        c_conns c' = mset addr_eqb x p (c_conns c) /\ c_peers c' = set_add p (c_peers c)
    | Closed p e => exists x, point_addr debug e = Some x /\ (debug = true -> mget addr_eqb x (c_conns c) <> None) /\
        c_open c' = match mget peqb p (c_open c) with
                    | Some l => put_back p (match position addr_eqb x l with Some n => swap_remove n l | None => l end) (c_open c)
                    | None => c_open c end /\
        c_conns c' = mdel addr_eqb x (c_conns c) /\ c_peers c' = c_peers c
    | _ => c_open c' = c_open c /\ c_conns c' = c_conns c /\
           c_peers c' = match o with AddPeer p => set_add p (c_peers c) | RemovePeer p => set_del p (c_peers c) | _ => c_peers c end
    end /\
    c_rtt c' = match o with SetRtt p d => mset peqb p d (c_rtt c) | _ => c_rtt c end /\
    c_times c' = match o, a with
                 | Connect w t, AFuture _ => mset peqb (wp_peer w) t (c_times c)
                 | Closed p _, _ => mdel peqb p (c_times c)
                 | _, _ => c_times c end /\
    match o, a with
    | Connect w _, AFuture _ => c_dials c' = c_dials c ++ [wp_peer w]
    | PollDial, ADial p => c_dials c = p :: c_dials c'
    | PollDial, _ => a = AIdle /\ c_dials c = [] /\ c_dials c' = []
    | _, _ => c_dials c' = c_dials c
    end.
  Proof.
    intros H. unfold Swarm.step in H. cbn zeta. destruct o as [w now|p| |p e|p e|p e|p|p|p d| |i k|i].
    - injection H as H. unfold connect in H. destruct (existsb _ _); [injection H as <- <-; auto 10|].
      destruct (Subs.step wp_eqb debug (reg s) (Begin w false)) as [g e]. destruct (Subs.step wp_eqb debug g _) as [g2 e2]. injection H as <- <-. cbn. auto 10.
    - destruct (handout p (core_of s)) as [c l] eqn:E. injection H as <- <-. unfold handout in E. injection E as <- <-. cbn. auto 10.
    - destruct (handout_all (c_peers (core_of s)) (core_of s)) as [c l] eqn:E. injection H as <- <-. destruct (handout_same _ _ _ _ E) as (X1 & X2 & X3 & X4 & X5 & X6). cbn [core_of]. auto 10.
    - destruct (established debug s p e) as [s1|] eqn:E; [|discriminate]. injection H as <- <-. destruct (established_shape _ _ _ _ _ E) as (x & Ex & _ & Ec).
      rewrite Ec. cbn [c_open c_conns c_peers c_rtt c_times c_dials]. split; [exists x; auto|auto].
    - destruct (closed debug s p e) as [s1|] eqn:E; [|discriminate]. injection H as <- <-. destruct (closed_shape _ _ _ _ _ E) as (x & Ex & Hd & _ & Ec).
      rewrite Ec. cbn [c_open c_conns c_peers c_rtt c_times c_dials]. split; [exists x; auto 10|auto].
    - destruct (dial_failed debug s p e) as [s1|] eqn:E; [|discriminate]. injection H as <- <-. destruct (dial_failed_shape _ _ _ _ _ E) as (_ & Ec).
      rewrite Ec. unfold with_out. cbn. auto 10.
    - injection H as <- <-. cbn. auto 10.
    - injection H as <- <-. cbn. auto 10.
    - injection H as <- <-. cbn. auto 10.
    - destruct (c_dials (core_of s)) eqn:Ed; injection H as <- <-; cbn; auto 10.
    - destruct (Subs.step wp_eqb debug (reg s) (Poll i k)) as [g e]. injection H as <- <-. cbn. auto 10.
    - destruct (Subs.step wp_eqb debug (reg s) (DropFut i)) as [g e]. destruct (Subs.step wp_eqb debug g (DropNotify i)) as [g2 e2]. injection H as <- <-. cbn. auto 10.
  Qed.

  Definition good_open (c : core) : Prop := NoDup (mkeys (c_open c)) /\ forall p l, mget peqb p (c_open c) = Some l -> l <> [].
  Lemma open_inv h s : run h s -> legal (map fst h) ->
    good_open (core_of s) /\ forall p, Permutation (at_peer p (c_open (core_of s))) (addresses_of p (open_after (map fst h))).
  Proof.
    induction 1 as [|h s o s' a H IH Hs]; intros Hl.
    - split; [split; [constructor|discriminate]|intros p; constructor].
    - rewrite map_app in Hl. cbn [map fst] in Hl. apply legal_snoc in Hl as [Hl Ho]. destruct (IH Hl) as [[G1 G2] P]. clear IH.
      rewrite map_app. cbn [map fst]. rewrite open_snoc. destruct (step_lists _ _ _ _ Hs) as [X _]. cbn zeta in X.
      assert (Same : c_open (core_of s') = c_open (core_of s) -> open_step (open_after (map fst h)) o = open_after (map fst h) ->
        good_open (core_of s') /\ forall p, Permutation (at_peer p (c_open (core_of s'))) (addresses_of p (open_step (open_after (map fst h)) o))).
      { intros E1 E2. unfold good_open. rewrite E1, E2. split; [split; assumption|exact P]. }
      destruct o as [w now|p| |p e|p e|p e|p|p|p d| |i k|i]; try (destruct X as [X _]; apply Same; [exact X|reflexivity]).
      + destruct X as (x & Ex & X & _). rewrite (point_ok p e Ho) in Ex. injection Ex as <-. unfold good_open. rewrite X. split; [split|].
        * apply (mset_nodup _ peqb_spec). exact G1.
        * intros q l. rewrite (mget_mset _ peqb_spec). destruct (peqb q p); [|apply G2]. intros [= <-]. destruct (at_peer p (c_open (core_of s))); discriminate.
        * intros q. cbn [open_step]. rewrite addresses_app, at_mset. unfold addresses_of at 2. cbn [filter fst].
          fold (peqb q p). destruct (peqb_spec q p) as [->|Hn]; cbn [map].
          -- apply Permutation_app_tail. apply P.
          -- rewrite app_nil_r. apply P.
      + destruct X as (x & Ex & _ & X & _). destruct Ho as [Ho Hin]. rewrite (point_ok p e Ho) in Ex. injection Ex as <-. unfold good_open. rewrite X. clear X.
        cbn [open_step]. assert (Hp : forall q, Permutation (addresses_of q (open_after (map fst h))) ((if peqb q p then [remote e] else []) ++ addresses_of q (remove_one (p, remote e) (open_after (map fst h))))).
        { intros q. rewrite (addresses_perm q _ _ (remove_one_perm _ _ Hin)). change (?a :: ?b) with ([a] ++ b) at 1. rewrite addresses_app. unfold addresses_of at 1. cbn [filter fst].
          fold (peqb q p). destruct (peqb q p); apply Permutation_refl. }
        assert (Hx : In (remote e) (at_peer p (c_open (core_of s)))).
        { apply (Permutation_in _ (Permutation_sym (P p))). apply addresses_in. exact Hin. }
        destruct (mget peqb p (c_open (core_of s))) as [l|] eqn:El; [|unfold at_peer in Hx; rewrite El in Hx; contradiction].
        rewrite (at_get _ _ _ El) in Hx. destruct (position addr_eqb (remote e) l) as [n|] eqn:En; [|apply (position_none addr_eqb addr_eqb_spec) in En; contradiction].
        pose proof (swap_remove_perm addr_eqb addr_eqb_spec _ _ _ En) as Ps. split; [split|].
        * unfold put_back. destruct (swap_remove n l); [apply (mdel_nodup peqb)|apply (mset_nodup _ peqb_spec)]; exact G1.
        * intros q l'. unfold put_back. destruct (swap_remove n l) eqn:Er.
          -- rewrite (mget_mdel _ peqb_spec). destruct (peqb q p); [discriminate|apply G2].
          -- rewrite (mget_mset _ peqb_spec). destruct (peqb q p); [intros [= <-]; discriminate|apply G2].
        * intros q. rewrite at_put. specialize (Hp q). destruct (peqb_spec q p) as [Eq|Hn]; [rewrite Eq in *|].
          -- apply (Permutation_cons_inv (a := remote e)). rewrite <- Ps. rewrite <- (at_get _ _ _ El). rewrite (P p). exact Hp.
          -- cbn [app] in Hp. rewrite <- Hp. apply P.
  Qed.

  Lemma conns_inv h s : run h s -> legal (map fst h) -> distinct (map fst h) ->
    NoDup (map snd (open_after (map fst h))) /\
    forall a q, mget addr_eqb a (c_conns (core_of s)) = Some q <-> In (q, a) (open_after (map fst h)).
  Proof.
    induction 1 as [|h s o s' a H IH Hs]; intros Hl Hd.
    - split; [constructor|]. intros a q. cbn. split; [discriminate|tauto].
    - rewrite map_app in Hl, Hd. cbn [map fst] in Hl, Hd. apply legal_snoc in Hl as [Hl Ho]. apply distinct_snoc in Hd as [Hd Hf]. destruct (IH Hl Hd) as [Nd P]. clear IH.
      rewrite map_app. cbn [map fst]. rewrite open_snoc. destruct (step_lists _ _ _ _ Hs) as [X _]. cbn zeta in X.
      destruct o as [w now|p| |p e|p e|p e|p|p|p d| |i k|i]; try (destruct X as (_ & X & _); rewrite X; cbn [open_step]; auto).
      + destruct X as (x & Ex & _ & X & _). rewrite (point_ok p e Ho) in Ex. injection Ex as <-. rewrite X. cbn [open_step]. specialize (Hf p e eq_refl). split.
        * rewrite map_app. cbn [map snd]. rewrite <- (app_nil_r (map snd _ ++ _)), <- app_assoc. apply NoDup_Add with (a := remote e) (l := map snd (open_after (map fst h))).
          -- rewrite app_nil_r. replace (map snd (open_after (map fst h))) with (map snd (open_after (map fst h)) ++ []) at 1 by apply app_nil_r. apply Add_app.
          -- split; [exact Nd|]. intros Hin. apply in_map_iff in Hin as ([q b] & E & Hin). cbn [snd] in E. subst b. eapply Hf; eauto.
        * intros b q. rewrite (mget_mset _ addr_eqb_spec), in_app_iff. destruct (addr_eqb_spec b (remote e)) as [->|Hn].
          -- split; [intros [= <-]; right; left; reflexivity|]. intros [Hin|[[= <-]|[]]]; [exfalso; eapply Hf; eauto|reflexivity].
          -- rewrite P. split; [auto|]. intros [Hin|[[= _ <-]|[]]]; [exact Hin|congruence].
      + destruct X as (x & Ex & _ & _ & X & _). destruct Ho as [Ho Hin]. rewrite (point_ok p e Ho) in Ex. injection Ex as <-. rewrite X. cbn [open_step].
        pose proof (remove_one_perm _ _ Hin) as Pr. assert (Nd2 : NoDup (remote e :: map snd (remove_one (p, remote e) (open_after (map fst h))))).
        { eapply Permutation_NoDup; [|exact Nd]. rewrite (Permutation_map snd Pr). apply Permutation_refl. }
        apply NoDup_cons_iff in Nd2 as [Nd2 Nd3]. split; [exact Nd3|]. intros b q. rewrite (mget_mdel _ addr_eqb_spec). destruct (addr_eqb_spec b (remote e)) as [->|Hn].
        * split; [discriminate|]. intros Hi. exfalso. apply Nd2. apply in_map_iff. exists (q, remote e). auto.
        * rewrite P. split; intros Hi.
          -- apply (Permutation_in _ Pr) in Hi. destruct Hi as [[= _ <-]|Hi]; [congruence|exact Hi].
          -- apply (Permutation_in _ (Permutation_sym Pr)). right. exact Hi.
  Qed.

  Lemma set_add_in p q l : In q (set_add p l) <-> q = p \/ In q l.
  Proof.
    unfold set_add. destruct (existsb (peqb p) l) eqn:E; cbn [In]; [|intuition].
    apply existsb_exists in E as (x & Hx & E). destruct (peqb_spec p x) as [<-|]; [|discriminate]. intuition. subst. exact Hx.
  Qed.
  Lemma set_del_in p q l : In q (set_del p l) <-> q <> p /\ In q l.
  Proof.
    unfold set_del. rewrite filter_In. destruct (peqb_spec p q) as [<-|Hn]; cbn [negb]; intuition congruence.
  Qed.
  Lemma peers_inv h s : run h s -> NoDup (peers s) /\ forall p, In p (peers s) <-> known p (rev (map fst h)) = true.
  Proof.
    unfold peers. induction 1 as [|h s o s' a H [IHn IH] Hs]; [split; [constructor|cbn; intuition discriminate]|].
    rewrite map_app, rev_app_distr. cbn [map fst rev app]. destruct (step_lists _ _ _ _ Hs) as [X _]. cbn zeta in X.
    assert (Add : forall q, NoDup (set_add q (c_peers (core_of s))) /\ forall p, In p (set_add q (c_peers (core_of s))) <-> mh_eqb p q || known p (rev (map fst h)) = true).
    { intros q. split.
      - unfold set_add. destruct (existsb (peqb q) _) eqn:E; [exact IHn|]. constructor; [|exact IHn]. intros Hin. apply not_true_iff_false in E. apply E.
        apply existsb_exists. exists q. split; [exact Hin|apply peqb_refl].
      - intros p. rewrite set_add_in, IH. destruct (mh_eqb_spec p q) as [->|]; cbn [orb]; intuition. }
    destruct o as [w now|q| |q e|q e|q e|q|q|q d| |i k|i]; cbn [known].
    4:{ destruct X as (x & _ & _ & _ & ->). apply Add. }
    4:{ destruct X as (x & _ & _ & _ & _ & ->). split; assumption. }
    all: destruct X as (_ & _ & ->); try (split; assumption); try apply Add.
    split; [apply NoDup_filter; exact IHn|]. intros p. rewrite set_del_in, IH. destruct (mh_eqb_spec p q) as [->|]; cbn [negb andb]; intuition congruence.
  Qed.
  Lemma rtt_inv h s : run h s -> forall p, mget peqb p (c_rtt (core_of s)) = last_rtt p (rev (map fst h)).
  Proof.
    induction 1 as [|h s o s' a H IH Hs]; [reflexivity|]. intros p. rewrite map_app, rev_app_distr. cbn [map fst rev app].
    destruct (step_lists _ _ _ _ Hs) as (_ & X & _). cbn zeta in X. rewrite X. destruct o; cbn [last_rtt]; try apply IH.
    rewrite (mget_mset _ peqb_spec), IH. reflexivity.
  Qed.
  (** Dials are asked for once per accepted request, in order. *)
  Definition requested (x : op * reply) : list peer := match x with (Connect w _, AFuture _) => [wp_peer w] | _ => [] end.
  Definition dialed (x : op * reply) : list peer := match x with (PollDial, ADial p) => [p] | _ => [] end.
  Lemma dials_inv h s : run h s -> flat_map requested h = flat_map dialed h ++ c_dials (core_of s).
  Proof.
    induction 1 as [|h s o s' a H IH Hs]; [reflexivity|]. rewrite !flat_map_app, IH. cbn [flat_map]. rewrite !app_nil_r.
    destruct (step_lists _ _ _ _ Hs) as (_ & _ & _ & X). cbn zeta in X.
    destruct o; cbn [requested dialed] in *; try (rewrite X, !app_nil_r; reflexivity).
    - destruct a; cbn [requested]; rewrite X; rewrite ?app_nil_r; rewrite <- ?app_assoc; reflexivity.
    - destruct a; try (destruct X as (X1 & X2 & X3); try discriminate; rewrite X2, X3, !app_nil_r; reflexivity). rewrite X, <- !app_assoc. cbn [app]. rewrite ?app_nil_r. reflexivity.
  Qed.

  (** ** No panic *)
  Lemma finish_total w r g : debug = false -> exists g', finish debug w r g = Some g'.
  Proof.
    intros ->. unfold finish. cbn [Subs.step]. destruct (mget wp_eqb w (tab g)); cbn [ans quiet andb]; eauto.
  Qed.
  Lemma finish_all_total l : debug = false -> forall g, exists g', finish_all debug l g = Some g'.
  Proof.
    intros D. induction l as [|[w r] l IH]; intros g; cbn [finish_all]; [eauto|]. destruct (finish_total w r g D) as (g1 & ->). apply IH.
  Qed.
  Lemma failed_total l : debug = false -> (forall d e, In (d, e) l -> exists p a, d = a ++ [PP2p p] /\ bare a /\ valid_peer p = true) ->
    forall out g, exists x, failed_addrs debug l out g = Some x.
  Proof.
    intros D. induction l as [|[d e] l IH]; intros Hl out g; cbn [failed_addrs]; [eauto|].
    destruct (Hl d e (or_introl eq_refl)) as (p & a & -> & Ha & V). rewrite join_bare by assumption.
    destruct (finish_total (mk_wp a p) (CFailed e) g D) as (g1 & ->). apply IH. intros d' e' H. apply (Hl d' e'). right. exact H.
  Qed.
  Lemma release_no_panic s o : debug = false ->
    match o with
    | Established p e | Closed p e => endpoint_ok p e
    | DialFailed _ (Transport l) => forall d e, In (d, e) l -> exists p a, d = a ++ [PP2p p] /\ bare a /\ valid_peer p = true
    | _ => True
    end -> step s o <> None.
  Proof.
    intros D Ho. unfold Swarm.step. destruct o as [w now|p| |p e|p e|p e|p|p|p d| |i k|i]; try discriminate.
    - destruct (handout_all _ (core_of s)). discriminate.
    - unfold established. rewrite (point_ok _ _ Ho). cbn zeta. destruct e as [d|d].
      + destruct Ho as (a & -> & Ha & V). rewrite join_bare by assumption. destruct (mget peqb p (c_out (core_of s))) as [l|].
        * destruct (position wp_eqb (mk_wp a p) l); edestruct (finish_all_total) as (g & Eg); try exact D; rewrite Eg; discriminate.
        * edestruct (finish_all_total) as (g & Eg); try exact D; rewrite Eg; discriminate.
      + edestruct (finish_all_total) as (g & Eg); try exact D; rewrite Eg; discriminate.
    - unfold closed. rewrite (point_ok _ _ Ho). cbn zeta. rewrite D at 1. cbn [andb].
      match goal with |- context [let '(o, fin) := ?t in _] => destruct t as [o fin] end.
      edestruct (finish_all_total) as (g & Eg); try exact D; rewrite Eg; discriminate.
    - unfold dial_failed. destruct p as [p|]; [|discriminate]. destruct (mget peqb p (c_out (core_of s))) as [l|]; [|discriminate].
      destruct e as [addrs|n|]; [| |discriminate].
      + destruct (failed_total addrs D Ho l (reg s)) as ([l' g] & ->). discriminate.
      + edestruct (finish_all_total) as (g & Eg); try exact D; rewrite Eg; discriminate.
    - destruct (c_dials (core_of s)); discriminate.
    - destruct (Subs.step wp_eqb debug (reg s) (Poll i k)). discriminate.
    - destruct (Subs.step wp_eqb debug (reg s) (DropFut i)). destruct (Subs.step wp_eqb debug s0 (DropNotify i)). discriminate.
  Qed.

  (** Without requests the registry stays empty and nothing panics. *)
  Lemma finish_init w r : finish debug w r Subs.init = Some Subs.init.
  Proof. reflexivity. Qed.
  Lemma finish_all_init l : finish_all debug l Subs.init = Some Subs.init.
  Proof. induction l as [|[w r] l IH]; cbn [finish_all]; [reflexivity|]. rewrite finish_init. exact IH. Qed.
  Lemma reg_init h s : run h s -> (forall w t a, ~ In (Connect w t, a) h) -> reg s = Subs.init.
  Proof.
    induction 1 as [|h s o s' a H IH Hs]; intros N; [reflexivity|].
    assert (IH' : reg s = Subs.init). { apply IH. intros w t a' Hin. apply (N w t a'). apply in_app_iff. auto. } clear IH.
    unfold Swarm.step in Hs. destruct o as [w now|p| |p e|p e|p e|p|p|p d| |i k|i].
    - exfalso. apply (N w now a). apply in_app_iff. right. left. reflexivity.
    - destruct (handout p (core_of s)). injection Hs as <- <-. exact IH'.
    - destruct (handout_all _ (core_of s)). injection Hs as <- <-. exact IH'.
    - destruct (established debug s p e) as [s1|] eqn:E; [|discriminate]. injection Hs as <- <-. destruct (established_shape _ _ _ _ _ E) as (x & _ & X & _).
      rewrite IH', finish_all_init in X. congruence.
    - destruct (closed debug s p e) as [s1|] eqn:E; [|discriminate]. injection Hs as <- <-. destruct (closed_shape _ _ _ _ _ E) as (x & _ & _ & X & _).
      rewrite IH', finish_all_init in X. congruence.
    - destruct (dial_failed debug s p e) as [s1|] eqn:E; [|discriminate]. injection Hs as <- <-. destruct (dial_failed_shape _ _ _ _ _ E) as (X & _).
      rewrite IH', finish_all_init in X. congruence.
    - injection Hs as <- <-. exact IH'.
    - injection Hs as <- <-. exact IH'.
    - injection Hs as <- <-. exact IH'.
    - destruct (c_dials (core_of s)); injection Hs as <- <-; exact IH'.
    - rewrite IH' in Hs. cbn in Hs. injection Hs as <- <-. reflexivity.
    - rewrite IH' in Hs. cbn in Hs. injection Hs as <- <-. reflexivity.
  Qed.
  Lemma failed_init l : (forall d e, In (d, e) l -> exists p a, d = a ++ [PP2p p] /\ bare a /\ valid_peer p = true) ->
    forall out, exists x, failed_addrs debug l out Subs.init = Some x.
  Proof.
    induction l as [|[d e] l IH]; intros Hl out; cbn [failed_addrs]; [eauto|].
    destruct (Hl d e (or_introl eq_refl)) as (p & a & -> & Ha & V). rewrite join_bare by assumption. rewrite finish_init. apply IH. intros d' e' H. apply (Hl d' e'). right. exact H.
  Qed.
  Lemma quiet_no_panic h s o : run h s -> (forall w t a, ~ In (Connect w t, a) h) -> legal (map fst h ++ [o]) -> distinct (map fst h ++ [o]) -> step s o <> None.
  Proof.
    intros H N Hl Hd. pose proof (reg_init _ _ H N) as R. apply legal_snoc in Hl as [Hl Ho]. apply distinct_snoc in Hd as [Hd _].
    unfold Swarm.step. destruct o as [w now|p| |p e|p e|p e|p|p|p d| |i k|i]; try discriminate.
    - destruct (handout_all _ (core_of s)). discriminate.
    - unfold established. rewrite (point_ok _ _ Ho). cbn zeta. rewrite R. destruct e as [d|d].
      + destruct Ho as (a & -> & Ha & V). rewrite join_bare by assumption. destruct (mget peqb p (c_out (core_of s))) as [l|].
        * destruct (position wp_eqb (mk_wp a p) l); rewrite finish_all_init; discriminate.
        * rewrite finish_all_init; discriminate.
      + rewrite finish_all_init; discriminate.
    - destruct Ho as [Ho Hin]. unfold closed. rewrite (point_ok _ _ Ho). cbn zeta. rewrite R.
      destruct (conns_inv _ _ H Hl Hd) as [_ Hc]. rewrite (proj2 (Hc (remote e) p) Hin). rewrite andb_false_r.
      match goal with |- context [let '(o, fin) := ?t in _] => destruct t as [o fin] end. rewrite finish_all_init. discriminate.
    - unfold dial_failed. destruct p as [p|]; [|discriminate]. destruct (mget peqb p (c_out (core_of s))) as [l|]; [|discriminate]. rewrite R.
      destruct e as [addrs|n|]; [| |discriminate].
      + destruct (failed_init addrs Ho l) as ([l' g] & ->). discriminate.
      + rewrite finish_all_init. discriminate.
    - destruct (c_dials (core_of s)); discriminate.
    - destruct (Subs.step wp_eqb debug (reg s) (Poll i k)). discriminate.
    - destruct (Subs.step wp_eqb debug (reg s) (DropFut i)). destruct (Subs.step wp_eqb debug s0 (DropNotify i)). discriminate.
  Qed.
End Proofs.
