(** Lemmas about [Refs]: each destination once. *)
From Verif Require Import Base Wire Cid BTree Ipld Codecs FMap Refs RefsSpec RefsProofs.
From Coq Require Import Sorted.
Local Open Scope N_scope.

Section Refs.
  Variable checks : bool.
  Variable fetch : cid -> fetched.
  Variable decode : cid -> bytes -> outcome ipld unit.
  Variable roots : list (cid * ipld).
  Notation turn := (turn checks fetch decode).
  Notation run := (run checks fetch decode).
  Notation answer := (answer fetch decode).
  Notation link_at := (link_at fetch decode roots).

  Lemma run_S o f i work seen :
    run (S f) o (i :: work) seen =
      match turn o i work seen with
      | (es, inl e) => (es, Some e)
      | (es, inr (w, s)) => let (r, e) := run f o w s in (es ++ r, e)
      end.
  Proof. reflexivity. Qed.

  (** What enqueueing adds. *)
  Lemma enqueue_adds depth src ls : forall work seen,
    exists add, fst (enqueue true depth src ls work seen) = work ++ add /\
      snd (enqueue true depth src ls work seen) = rev (map i_dst add) ++ seen /\
      (NoDup seen -> NoDup (rev (map i_dst add) ++ seen)) /\
      Forall (fun i => i_depth i = depth /\ i_src i = src /\ In (i_name i, i_dst i) ls) add /\
      (forall nm c, In (nm, c) ls -> In c (map i_dst add) \/ In c seen).
  Proof.
    induction ls as [|[nm c] ls IH]; intros work seen; cbn [enqueue].
    - exists []. rewrite app_nil_r. repeat split; auto.
    - destruct (seen_in c seen) eqn:E.
      + destruct (IH work seen) as (add & H1 & H2 & H3 & H4 & H5). exists add. repeat split; auto.
        * eapply Forall_impl; [|exact H4]. cbn beta. intros i (A & B & C). repeat split; auto. now right.
        * intros nm' c' [X|X]; [injection X as <- <-; right; now apply seen_in_spec|eauto].
      + destruct (IH (work ++ [mk_item depth c src nm]) (c :: seen)) as (add & H1 & H2 & H3 & H4 & H5). exists (mk_item depth c src nm :: add). repeat split.
        * rewrite H1, <- app_assoc. reflexivity.
        * rewrite H2. cbn [map rev i_dst]. rewrite <- app_assoc. reflexivity.
        * intros Hn. cbn [map rev i_dst]. rewrite <- app_assoc. apply H3. constructor; [|exact Hn]. intros X. apply seen_in_spec in X. congruence.
        * constructor; [cbn; auto|]. eapply Forall_impl; [|exact H4]. cbn beta. intros i (A & B & C). repeat split; auto. now right.
        * intros nm' c' [X|X]; [injection X as <- <-; left; now left|]. destruct (H5 _ _ X) as [Y|[->|Y]]; [left; now right|left; now left|now right].
  Qed.

  (** The invariant: [done] are the items dealt with, [work] those in the queue. *)
  Definition expands (md : option N) (done : list item) (all : list item) : Prop :=
    forall i v nm d, In i done -> inside md (i_depth i) -> document fetch decode (i_dst i) v -> has_link (i_dst i) v nm d ->
      exists j, In j all /\ i_dst j = d /\ i_depth j <= i_depth i + 1.
  Record inv (md : option N) (done work : list item) (seen : list cid) : Prop := mk_inv {
    inv_nodup : NoDup seen;
    inv_seen : seen = rev (map i_dst (done ++ work));
    inv_link : forall i, In i (done ++ work) -> link_at (N.to_nat (i_depth i)) (i_src i) (i_name i) (i_dst i);
    inv_order : forall a i b, done ++ work = a ++ i :: b -> Forall (fun j => i_depth i <= i_depth j) b;
    inv_span : forall i j, In i work -> In j work -> i_depth j <= i_depth i + 1;
    inv_roots : forall s nm d, link_at 0 s nm d -> exists j, In j (done ++ work) /\ i_dst j = d /\ i_depth j = 0;
    inv_depth : forall i d, In i (done ++ work) -> md = Some d -> i_depth i <= d;
    inv_expands : expands md done (done ++ work) }.

  Lemma inv_dst_eq md done work seen i j :
    inv md done work seen -> In i (done ++ work) -> In j (done ++ work) -> i_dst i = i_dst j -> i = j.
  Proof.
    intros H Hi Hj E. pose proof (inv_nodup _ _ _ _ H) as Hn. rewrite (inv_seen _ _ _ _ H) in Hn. apply NoDup_rev in Hn. rewrite rev_involutive in Hn.
    revert Hn Hi Hj. generalize (done ++ work) as l. clear -E. induction l as [|x l IH]; [intros _ []|]. cbn [map]. intros Hn Hi Hj. apply NoDup_cons_iff in Hn as [Hx Hn].
    destruct Hi as [->|Hi], Hj as [->|Hj]; [reflexivity| | |auto].
    - exfalso. apply Hx. rewrite E. now apply in_map.
    - exfalso. apply Hx. rewrite <- E. now apply in_map.
  Qed.

  Lemma inv_step md done i work seen ls :
    inv md done (i :: work) seen -> inside md (i_depth i) ->
    (forall nm d, In (nm, d) ls <-> exists v, document fetch decode (i_dst i) v /\ has_link (i_dst i) v nm d) ->
    let (w, s) := enqueue true (i_depth i + 1) (i_dst i) ls work seen in inv md (done ++ [i]) w s.
  Proof.
    intros H Hin Hls. destruct (enqueue_adds (i_depth i + 1) (i_dst i) ls work seen) as (add & H1 & H2 & H3 & H4 & H5).
    destruct (enqueue true (i_depth i + 1) (i_dst i) ls work seen) as [w s]. cbn [fst snd] in *. subst w s.
    assert (Eall : (done ++ [i]) ++ work ++ add = (done ++ i :: work) ++ add) by (rewrite <- !app_assoc; reflexivity).
    rewrite Forall_forall in H4.
    constructor.
    - apply H3. apply H.
    - rewrite Eall, map_app, rev_app_distr, (inv_seen _ _ _ _ H). reflexivity.
    - intros j Hj. rewrite Eall in Hj. apply in_app_iff in Hj as [Hj|Hj]; [apply H; exact Hj|]. destruct (H4 _ Hj) as (-> & -> & Hn).
      apply Hls in Hn as (v & Hdoc & Hh). replace (N.to_nat (i_depth i + 1)) with (S (N.to_nat (i_depth i))) by lia.
      eapply at_next; [|exact Hdoc|exact Hh]. apply (inv_link _ _ _ _ H). apply in_app_iff. right. now left.
    - intros a j b E. rewrite Eall in E. assert (X : (exists b', done ++ i :: work = a ++ j :: b' /\ b = b' ++ add) \/ (exists a', add = a' ++ j :: b)).
      { apply app_eq_app in E as (l & [[E1 E2]|[E1 E2]]).
        - destruct l as [|x l]; [right; exists []; symmetry; rewrite E2; reflexivity|]. injection E2 as -> ->. left. exists l. auto.
        - right. exists l. exact E2. }
      destruct X as [(b' & E1 & ->)|(a' & E1)].
      + apply Forall_app. split; [apply (inv_order _ _ _ _ H _ _ _ E1)|]. apply Forall_forall. intros x Hx. destruct (H4 _ Hx) as (-> & _).
        (* j is before or at i, or in work *)
        assert (Hj : In j (done ++ i :: work)) by (rewrite E1; apply in_app_iff; right; now left). apply in_app_iff in Hj as [Hj|Hj].
        * apply in_split in Hj as (d1 & d2 & ->). assert (O := inv_order _ _ _ _ H d1 j (d2 ++ i :: work)). rewrite <- app_assoc in O. cbn [app] in O. specialize (O eq_refl).
          rewrite Forall_forall in O. assert (j_le : i_depth j <= i_depth i) by (apply O; apply in_app_iff; right; now left). lia.
        * apply (inv_span _ _ _ _ H i j); [now left|exact Hj].
      + apply Forall_forall. intros x Hx. assert (In x add) by (rewrite E1; apply in_app_iff; right; now right). assert (In j add) by (rewrite E1; apply in_app_iff; right; now left).
        destruct (H4 x) as (-> & _); [assumption|]. destruct (H4 j) as (-> & _); [assumption|]. lia.
    - intros j k Hj Hk.
      assert (Oi : Forall (fun x => i_depth i <= i_depth x) work) by (apply (inv_order _ _ _ _ H done i work); reflexivity). rewrite Forall_forall in Oi.
      apply in_app_iff in Hj, Hk. destruct Hj as [Hj|Hj], Hk as [Hk|Hk].
      + apply (inv_span _ _ _ _ H); now right.
      + destruct (H4 _ Hk) as (-> & _). specialize (Oi _ Hj). lia.
      + destruct (H4 _ Hj) as (-> & _). pose proof (inv_span _ _ _ _ H i k ltac:(now left) ltac:(now right)). lia.
      + destruct (H4 _ Hj) as (-> & _), (H4 _ Hk) as (-> & _). lia.
    - intros s nm d Hl. destruct (inv_roots _ _ _ _ H _ _ _ Hl) as (j & Hj & X). exists j. split; [|exact X]. rewrite Eall. apply in_app_iff. now left.
    - intros j d Hj E. rewrite Eall in Hj. apply in_app_iff in Hj as [Hj|Hj]; [apply (inv_depth _ _ _ _ H j d Hj E)|]. destruct (H4 _ Hj) as (-> & _).
      subst md. unfold inside in Hin. lia.
    - intros j v nm d Hj Hjin Hdoc Hh. rewrite Eall. apply in_app_iff in Hj as [Hj|[<-|[]]].
      + destruct (inv_expands _ _ _ _ H j v nm d Hj Hjin Hdoc Hh) as (k & Hk & X). exists k. split; [apply in_app_iff; now left|exact X].
      + assert (Hn : In (nm, d) ls) by (apply Hls; eauto). destruct (H5 _ _ Hn) as [X|X].
        * apply in_map_iff in X as (k & E & Hk). exists k. split; [apply in_app_iff; now right|]. split; [exact E|]. destruct (H4 _ Hk) as (-> & _). lia.
        * (* already queued: it is in done or before, of depth at most ours plus one *)
          rewrite (inv_seen _ _ _ _ H) in X. apply in_rev in X. apply in_map_iff in X as (k & E & Hk). exists k. split; [apply in_app_iff; now left|]. split; [exact E|].
          apply in_app_iff in Hk as [Hk|Hk]; [|apply (inv_span _ _ _ _ H i k); [now left|exact Hk]].
          apply in_split in Hk as (d1 & d2 & ->). assert (O := inv_order _ _ _ _ H d1 k (d2 ++ i :: work)). rewrite <- app_assoc in O. cbn [app] in O. specialize (O eq_refl).
          rewrite Forall_forall in O. specialize (O i ltac:(apply in_app_iff; right; now left)). lia.
  Qed.

  Lemma inv_drop md done i work seen :
    inv md done (i :: work) seen ->
    (inside md (i_depth i) -> forall v, ~ document fetch decode (i_dst i) v) -> inv md (done ++ [i]) work seen.
  Proof.
    intros H Hno. assert (E : (done ++ [i]) ++ work = done ++ i :: work) by (rewrite <- app_assoc; reflexivity).
    destruct H as [A B C D F G Z X]. constructor; rewrite ?E; auto.
    - intros j k Hj Hk. apply F; now right.
    - intros j v nm d Hj Hjin Hdoc Hh. apply in_app_iff in Hj as [Hj|[<-|[]]]; [eauto|]. exfalso. apply (Hno Hjin v Hdoc).
  Qed.

  (** A destination is reported where it is nearest. *)
  Lemma inv_nearest md done work seen i :
    inv md done work seen -> In i (done ++ work) ->
    forall m s nm, link_at m s nm (i_dst i) -> i_depth i <= N.of_nat m.
  Proof.
    intros H Hi m s nm Hl.
    destruct (N.le_gt_cases (i_depth i) (N.of_nat m)) as [Hle|Hlt]; [exact Hle|exfalso].
    assert (G : forall m s nm d, link_at m s nm d -> N.of_nat m < i_depth i ->
       exists j, In j (done ++ work) /\ i_dst j = d /\ i_depth j <= N.of_nat m).
    { clear m s nm Hl Hlt. intros m. induction m as [|m IH]; intros s nm d Hl Hlt.
      - destruct (inv_roots _ _ _ _ H _ _ _ Hl) as (j & Hj & E & Ej). exists j. repeat split; auto. lia.
      - inversion Hl as [|n s0 nm0 c v nm1 d1 Hl' Hdoc Hh]; subst. destruct (IH _ _ _ Hl' ltac:(lia)) as (j & Hj & E & Ej). subst s.
        assert (Hjd : In j done).
        { apply in_app_iff in Hj as [Hj|Hj]; [exact Hj|]. exfalso.
          pose proof Hi as Hi'. apply in_app_iff in Hi' as [Hi'|Hi']; [|pose proof (inv_span _ _ _ _ H j i Hj Hi'); lia].
          apply in_split in Hi' as (d1 & d2 & E1). assert (O := inv_order _ _ _ _ H d1 i (d2 ++ work)). rewrite E1, <- app_assoc in O. cbn [app] in O. specialize (O eq_refl).
          rewrite Forall_forall in O. specialize (O j ltac:(apply in_app_iff; now right)). lia. }
        assert (Hin : inside md (i_depth j)).
        { unfold inside. destruct md as [d0|]; [|exact I]. pose proof (inv_depth _ _ _ _ H i d0 Hi eq_refl). lia. }
        destruct (inv_expands _ _ _ _ H j v nm d Hjd Hin Hdoc Hh) as (k & Hk & Ek & Dk). exists k. repeat split; auto. lia. }
    destruct (G _ _ _ _ Hl Hlt) as (j & Hj & E & Dj). assert (j = i) by (apply (inv_dst_eq _ _ _ _ _ _ H Hj Hi E)). subst j. lia.
  Qed.

  (** At the end every destination within the depth has been dealt with. *)
  Lemma inv_complete md done seen :
    inv md done [] seen -> forall m s nm d, within md m -> link_at m s nm d ->
    exists j, In j done /\ i_dst j = d /\ i_depth j <= N.of_nat m.
  Proof.
    intros H m. induction m as [|m IH]; intros s nm d Hw Hl.
    - destruct (inv_roots _ _ _ _ H _ _ _ Hl) as (j & Hj & E & Ej). rewrite app_nil_r in Hj. exists j. repeat split; auto. lia.
    - inversion Hl as [|n s0 nm0 c v nm1 d1 Hl' Hdoc Hh]; subst.
      destruct (IH s0 nm0 s) as (j & Hj & E & Ej); [unfold within in *; destruct md; [lia|exact I]|exact Hl'|]. subst s.
      assert (Hin : inside md (i_depth j)) by (unfold inside, within in *; destruct md; [lia|exact I]).
      destruct (inv_expands _ _ _ _ H j v nm d Hj Hin Hdoc Hh) as (k & Hk & Ek & Dk). rewrite app_nil_r in Hk. exists k. repeat split; auto. lia.
  Qed.

  (** ** The start *)
  Definition root_links : Prop := forall c v, In (c, v) roots -> exists ls, ipld_links c v = Ok ls.
  Lemma start_unique o : unique o = true -> forall r work seen,
    (forall x, In x r -> In x roots) ->
    NoDup seen -> seen = rev (map i_dst work) ->
    (forall i, In i work -> i_depth i = 0 /\ link_at 0 (i_src i) (i_name i) (i_dst i)) ->
    match start o r work seen with
    | Some (w, s) =>
        NoDup s /\ s = rev (map i_dst w) /\ (forall i, In i w -> i_depth i = 0 /\ link_at 0 (i_src i) (i_name i) (i_dst i)) /\
        (forall i, In i work -> In i w) /\
        (forall c v nm d, In (c, v) r -> has_link c v nm d -> In d (map i_dst w))
    | None => exists c v, In (c, v) r /\ ipld_links c v = Panic
    end.
  Proof.
    intros Hu r. induction r as [|[c v] r IH]; intros work seen Hr Hn Hs Hw; cbn [start].
    - repeat split; auto; try apply Hw; auto. intros c v nm d [].
    - destruct (ipld_links c v) as [ls|e|] eqn:E.
      + rewrite Hu. destruct (enqueue_adds 0 c ls work seen) as (add & H1 & H2 & H3 & H4 & H5).
        destruct (enqueue true 0 c ls work seen) as [w s]. cbn [fst snd] in *. subst w s. rewrite Forall_forall in H4.
        specialize (IH (work ++ add) (rev (map i_dst add) ++ seen)). destruct (start o r (work ++ add) _) as [[w s]|].
        * destruct IH as (A & B & C & D & F); auto.
          { intros x Hx. apply Hr. now right. }
          { rewrite Hs, map_app, rev_app_distr. reflexivity. }
          { intros i Hi. apply in_app_iff in Hi as [Hi|Hi]; [auto|]. destruct (H4 _ Hi) as (-> & -> & X). split; [reflexivity|].
            eapply at_root; [apply Hr; now left|]. now apply (ipld_links_in _ _ _ _ _ E). }
          repeat split; auto; try apply C; auto.
          { intros i Hi. apply D. apply in_app_iff. now left. }
          { intros c' v' nm d [X|X] Hl; [|eauto]. injection X as <- <-. apply (ipld_links_in _ _ _ _ _ E) in Hl. destruct (H5 _ _ Hl) as [Y|Y].
            - apply in_map_iff in Y as (k & <- & Hk). apply in_map. apply D. apply in_app_iff. now right.
            - rewrite Hs in Y. apply in_rev in Y. apply in_map_iff in Y as (k & <- & Hk). apply in_map. apply D. apply in_app_iff. now left. }
        * destruct IH as (c' & v' & X & Y); auto.
          { intros x Hx. apply Hr. now right. }
          { rewrite Hs, map_app, rev_app_distr. reflexivity. }
          { intros i Hi. apply in_app_iff in Hi as [Hi|Hi]; [auto|]. destruct (H4 _ Hi) as (-> & -> & X). split; [reflexivity|].
            eapply at_root; [apply Hr; now left|]. now apply (ipld_links_in _ _ _ _ _ E). }
          exists c', v'. split; [now right|exact Y].
      + exfalso. unfold ipld_links in E. destruct (cid_codec c =? codec_dagpb); [|discriminate]. unfold dagpb_links in E. destruct v; try discriminate.
        destruct (bt_get kLinks m) as [[]|]; try discriminate. destruct l as [|x l]; cbn [dagpb_link_list] in E; [discriminate|].
        destruct (dagpb_link x); try discriminate. destruct (dagpb_link_list l); discriminate.
      + exists c, v. split; [now left|exact E].
  Qed.

  Lemma start_inv o w s : unique o = true -> start o roots [] [] = Some (w, s) -> inv (max_depth o) [] w s.
  Proof.
    intros Hu E. pose proof (start_unique o Hu roots [] []) as H. rewrite E in H.
    destruct H as (A & B & C & _ & F); [auto|constructor|reflexivity|intros i []|].
    constructor; cbn [app]; auto.
    - intros i Hi. destruct (C _ Hi) as [-> X]. exact X.
    - intros a i b Eab. apply Forall_forall. intros j Hj. assert (Hi : In i w) by (rewrite Eab; apply in_app_iff; right; now left).
      assert (Hj' : In j w) by (rewrite Eab; apply in_app_iff; right; now right). destruct (C _ Hi), (C _ Hj'). lia.
    - intros i j Hi Hj. destruct (C _ Hi), (C _ Hj). lia.
    - intros s0 nm d Hl. inversion Hl; subst. assert (X := F _ _ _ _ H H0). apply in_map_iff in X as (j & <- & Hj). exists j. destruct (C _ Hj). auto.
    - intros i d Hi _. destruct (C _ Hi). lia.
    - intros i v nm d [].
  Qed.

  (** ** The loop *)
  Definition events_of (o : opts) (l : list item) : list event :=
    flat_map (fun i => if match max_depth o with Some d => d <=? i_depth i | None => false end then [] else fst (answer (download o) (pt i))) l.
  Definition goes_on (o : opts) (i : item) : Prop := inside (max_depth o) (i_depth i) -> snd (answer (download o) (pt i)) = None.
  (** The run has dealt with [done'], and either ended because nothing was left or at the item after. *)
  Lemma run_unique o f : unique o = true -> fair_depth (max_depth o) -> forall done work seen,
    inv (max_depth o) done work seen ->
    exists done' work' seen' es e, run f o work seen = (es, e) /\ inv (max_depth o) (done ++ done') work' seen' /\
      Forall (goes_on o) done' /\ (f = length done' + (f - length done'))%nat /\
      match e with
      | None => es = events_of o done' /\ length done' = f
      | Some en => (en = Closed /\ work' = [] /\ es = events_of o done') \/
                   (exists i w, work' = i :: w /\ inside (max_depth o) (i_depth i) /\ snd (answer (download o) (pt i)) = Some en /\
                      es = events_of o done' ++ fst (answer (download o) (pt i)))
      end.
  Proof.
    intros Hu Hf. induction f as [|f IH]; intros done work seen H.
    - exists [], work, seen, [], None. rewrite app_nil_r. split; [reflexivity|]. split; [exact H|]. split; [constructor|]. split; [reflexivity|]. split; reflexivity.
    - destruct work as [|i work].
      { exists [], [], seen, [], (Some Closed). rewrite app_nil_r. split; [reflexivity|]. split; [exact H|]. split; [constructor|]. split; [reflexivity|]. left. repeat split. }
      rewrite run_S. destruct (match max_depth o with Some d => d <=? i_depth i | None => false end) eqn:Ed.
      + destruct (max_depth o) as [d|] eqn:Em; [|discriminate]. apply N.leb_le in Ed. assert (Hni : ~ inside (Some d) (i_depth i)) by (unfold inside; lia).
        rewrite (turn_skip checks fetch decode o i work seen d Em) by (rewrite ?Em; assumption).
        assert (H' : inv (Some d) (done ++ [i]) work seen) by (apply inv_drop; [exact H|intros X; exfalso; auto]).
        destruct (IH _ _ _ H') as (d' & w' & s' & es & e & E & A & B & C & D). exists (i :: d'), w', s', es, e. rewrite E.
        rewrite <- app_assoc in A. cbn [app] in A. split; [reflexivity|]. split; [exact A|]. split; [constructor; [unfold goes_on; rewrite Em; intros X; exfalso; auto|exact B]|].
        split; [cbn [length]; lia|].
        assert (Ev : events_of o (i :: d') = events_of o d') by (unfold events_of; cbn [flat_map]; rewrite Em; assert (d <=? i_depth i = true) as -> by (apply N.leb_le; exact Ed); reflexivity).
        rewrite Ev. destruct e; [exact D|]. cbn [length]. destruct D. split; [assumption|lia].
      + assert (Hin : inside (max_depth o) (i_depth i)) by (unfold inside; destruct (max_depth o); [apply N.leb_gt; exact Ed|exact I]).
        rewrite (turn_inside checks fetch decode o i work seen Hf Hin). destruct (answer (download o) (pt i)) as [es0 [e0|]] eqn:Ea.
        * exists [], (i :: work), seen, es0, (Some e0). rewrite app_nil_r. split; [reflexivity|]. split; [exact H|]. split; [constructor|]. split; [reflexivity|]. right. exists i, work. rewrite Ea. auto.
        * assert (H' : let (w, s) := enqueue (unique o) (i_depth i + 1) (i_dst i) (map (fun p => (snd (fst p), snd p)) (below fetch decode (pt i))) work seen in
                       inv (max_depth o) (done ++ [i]) w s).
          { rewrite Hu. apply inv_step; [exact H|exact Hin|]. intros nm d.
            unfold RefsSpec.below, out_links, pt. unfold RefsSpec.answer, pt in Ea. unfold document.
            destruct (fetch (i_dst i)) as [b| |] eqn:Efe; [|split; [intros []|intros (v & (b & X & _) & _); discriminate]..].
            destruct (decode (i_dst i) b) as [v|x|] eqn:Ede; [|split; [intros []|intros (v & (b' & X & Y) & _); congruence]..].
            destruct (ipld_links (i_dst i) v) as [ls|x|] eqn:El; [|discriminate..].
            rewrite map_map. cbn [fst snd]. rewrite (map_ext _ (fun x => x)) by (intros []; reflexivity). rewrite map_id.
            rewrite (ipld_links_in _ _ _ _ _ El). split; [intros X; exists v; eauto|]. intros (v' & (b' & X & Y) & Z). injection X as <-. rewrite Ede in Y. injection Y as <-. exact Z. }
          destruct (enqueue (unique o) (i_depth i + 1) (i_dst i) _ work seen) as [w s].
          destruct (IH _ _ _ H') as (d' & w' & s' & es & e & E & A & B & C & D). exists (i :: d'), w', s', (es0 ++ es), e. rewrite E.
          rewrite <- app_assoc in A. cbn [app] in A. split; [reflexivity|]. split; [exact A|]. split; [constructor; [intros _; rewrite Ea; reflexivity|exact B]|].
          split; [cbn [length]; lia|].
          assert (Ev : events_of o (i :: d') = es0 ++ events_of o d') by (unfold events_of; cbn [flat_map]; rewrite Ed, Ea; reflexivity).
          rewrite Ev. destruct e as [en|].
          { destruct D as [(-> & -> & ->)|(j & w0 & -> & X & Y & ->)]; [left; auto|right]. exists j, w0. rewrite app_assoc. auto. }
          { destruct D as [-> D]. cbn [length]. split; [reflexivity|lia]. }
  Qed.
End Refs.
