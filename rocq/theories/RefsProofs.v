(** Lemmas about [Refs]. *)
From Verif Require Import Base Wire Cid BTree Ipld Codecs FMap Refs RefsSpec.
Local Open Scope N_scope.

(** * The links of a document *)
Lemma occurs_iter d v : occurs d v <-> In (Link d) (ipld_iter v).
Proof.
  split.
  - induction 1 as [|l v Hin _ IH|m k v Hin _ IH]; [now left| |]; right; apply in_flat_map.
    + exists v. auto.
    + exists (k, v). auto.
  - induction v as [| | | | | |l IH|m IH|c] using ipld_ind'; cbn [ipld_iter]; intros [E|H]; try discriminate; try contradiction.
    + apply in_flat_map in H as (x & Hx & H). rewrite Forall_forall in IH. eapply occ_list; eauto.
    + apply in_flat_map in H as ([k x] & Hx & H). rewrite Forall_forall in IH. eapply occ_map; [eassumption|]. apply (IH _ Hx H).
    + injection E as ->. constructor.
Qed.

Lemma dagpb_link_list_in l ls name d :
  dagpb_link_list l = Ok ls ->
  In (name, d) ls <-> exists x s, In (IMap x) l /\ bt_get kHash x = Some (Link d) /\ bt_get kName x = Some (Str s) /\ name = Some s.
Proof.
  revert ls. induction l as [|v l IH]; cbn [dagpb_link_list]; intros ls H.
  - injection H as <-. split; [intros []|]. intros (x & s & [] & _).
  - destruct (dagpb_link v) as [o|e|] eqn:E1; try discriminate. destruct (dagpb_link_list l) as [r|e|]; try discriminate.
    specialize (IH _ eq_refl). injection H as <-. unfold dagpb_link in E1. destruct v as [| | | | | |?|m|?]; try discriminate.
    destruct (bt_get kHash m) as [[| | | | | |?|?|c]|] eqn:Eh; try discriminate.
    + destruct (bt_get kName m) as [[| | | |s|?|?|?|?]|] eqn:En; try discriminate. destruct (beq s [47]); [discriminate|]. injection E1 as <-. split.
      * intros [E|H]; [injection E as <- <-; exists m, s; repeat split; auto; now left|]. apply IH in H as (x & t & H1 & H2). exists x, t. split; [now right|exact H2].
      * intros (x & t & [E|H1] & H2 & H3 & ->); [injection E as ->; left; congruence|]. right. apply IH. exists x, t. auto.
    + injection E1 as <-. rewrite IH. split; intros (x & t & H1 & H2); exists x, t; [split; [now right|exact H2]|]. destruct H1 as [E|H1]; [|auto]. injection E as ->. destruct H2; congruence.
Qed.

Lemma ipld_links_in c v ls name d : ipld_links c v = Ok ls -> In (name, d) ls <-> has_link c v name d.
Proof.
  unfold ipld_links. destruct (cid_codec c =? codec_dagpb) eqn:E.
  - apply N.eqb_eq in E. unfold dagpb_links. destruct v as [| | | | | |?|m|?]; intros H.
    8: { destruct (bt_get kLinks m) as [[| | | | | |l|?|?]|] eqn:El; try discriminate. rewrite (dagpb_link_list_in _ _ _ _ H). split.
      - intros (x & s & H1 & H2 & H3 & ->). eapply link_pb; eassumption.
      - intros X. inversion X; subst; [contradiction|]. assert (l0 = l) by congruence. subst l0. exists x, name0. auto. }
    all: injection H as <-; split; [intros []|]; intros X; inversion X; subst; contradiction.
  - apply N.eqb_neq in E. intros H. injection H as <-. rewrite in_flat_map. split.
    + intros (x & Hx & Hin). destruct x; try contradiction. destruct Hin as [Hin|[]]. injection Hin as <- <-. constructor; [exact E|]. now apply occurs_iter.
    + intros X. inversion X; subst; [|contradiction]. exists (Link d). split; [now apply occurs_iter|now left].
Qed.

(** Nodes as [decode_ipld] makes them: the links in their order; the name "/" panics. *)
Definition link_of (l : PbLink) : named_link := (Some (l_name l), l_cid l).
Lemma ipld_of_link_get l m :
  ipld_of_link l = IMap m -> bt_get kHash m = Some (Link (l_cid l)) /\ bt_get kName m = Some (Str (l_name l)).
Proof. unfold ipld_of_link. intros H. injection H as <-. split; reflexivity. Qed.
Lemma dagpb_link_node l : dagpb_link (ipld_of_link l) = if beq (l_name l) [47] then Panic else Ok (Some (link_of l)).
Proof.
  destruct (ipld_of_link l) as [| | | | | |?|m|?] eqn:E; try (unfold ipld_of_link in E; discriminate). destruct (ipld_of_link_get l m E) as [H1 H2].
  cbn [dagpb_link]. rewrite H1, H2. reflexivity.
Qed.
Lemma ipld_links_node c n :
  cid_codec c = codec_dagpb ->
  ipld_links c (ipld_of_node n) = if existsb (fun l => beq (l_name l) [47]) (n_links n) then Panic else Ok (map link_of (n_links n)).
Proof.
  intros Hc. unfold ipld_links. rewrite Hc, N.eqb_refl. unfold ipld_of_node, dagpb_links.
  change (bt_get kLinks (bt_insert kData (IBytes (n_data n)) (bt_insert kLinks (IList (map ipld_of_link (n_links n))) []))) with (Some (IList (map ipld_of_link (n_links n)))).
  cbv iota beta. induction (n_links n) as [|l r IH]; [reflexivity|]. cbn [map dagpb_link_list existsb]. rewrite dagpb_link_node, IH.
  destruct (beq (l_name l) [47]); cbn [orb]; [reflexivity|]. destruct (existsb _ r); reflexivity.
Qed.

(** * Enqueueing *)
Lemma enqueue_all depth src ls work seen :
  enqueue false depth src ls work seen = (work ++ map (fun x => mk_item depth (snd x) src (fst x)) ls, seen).
Proof.
  revert work. induction ls as [|[nm c] r IH]; intros work; cbn [enqueue map]; [rewrite app_nil_r; reflexivity|].
  rewrite IH, <- app_assoc. reflexivity.
Qed.

Lemma seen_in_spec c seen : seen_in c seen = true <-> In c seen.
Proof.
  unfold seen_in. rewrite existsb_exists. split.
  - intros (x & Hx & E). destruct (cid_eqb_spec c x); congruence.
  - intros H. exists c. split; [exact H|]. destruct (cid_eqb_spec c c); congruence.
Qed.

Section Refs.
  Variable checks : bool.
  Variable fetch : cid -> fetched.
  Variable decode : cid -> bytes -> outcome ipld unit.
  Notation turn := (turn checks fetch decode).
  Notation run := (run checks fetch decode).
  Notation refs := (refs checks fetch decode).
  Notation answer := (answer fetch decode).
  Notation report := (report fetch decode).
  Notation below := (below fetch decode).
  Notation level := (level fetch decode).
  Notation levels := (levels fetch decode).

  Definition pt (i : item) : pointer := (i_src i, i_name i, i_dst i).
  Definition it (depth : N) (p : pointer) : item := let '(s, nm, c) := p in mk_item depth c s nm.
  Lemma pt_it depth p : pt (it depth p) = p.
  Proof. destruct p as [[s nm] c]. reflexivity. Qed.

  Lemma traverse_fair md depth : fair_depth md ->
    traverse checks md depth = if match md with Some d => d <=? depth | None => false end then Some None else Some (Some true).
  Proof.
    intros Hf. unfold traverse. destruct md as [d|]; [|reflexivity]. unfold fair_depth in Hf. destruct (d <=? depth) eqn:E; [reflexivity|].
    assert (d + 1 <? u64_max1 = true) as -> by (apply N.ltb_lt; exact Hf). assert (d + 1 =? depth = false) as -> by (apply N.eqb_neq; lia). reflexivity.
  Qed.

  (** ** One turn *)
  Lemma turn_skip o i work seen d :
    max_depth o = Some d -> fair_depth (max_depth o) -> d <= i_depth i -> turn o i work seen = ([], inr (work, seen)).
  Proof.
    intros Hm Hf Hd. unfold Refs.turn. rewrite (traverse_fair _ _ Hf), Hm. assert (d <=? i_depth i = true) as -> by (apply N.leb_le; exact Hd). reflexivity.
  Qed.
  Definition inside (md : option N) (depth : N) : Prop := match md with Some d => depth < d | None => True end.
  Lemma turn_inside o i work seen :
    fair_depth (max_depth o) -> inside (max_depth o) (i_depth i) ->
    turn o i work seen =
      match answer (download o) (pt i) with
      | (es, Some e) => (es, inl e)
      | (es, None) =>
          (es, inr (enqueue (unique o) (i_depth i + 1) (i_dst i) (map (fun p => (snd (fst p), snd p)) (below (pt i))) work seen))
      end.
  Proof.
    intros Hf Hin. unfold Refs.turn. rewrite (traverse_fair _ _ Hf).
    assert (match max_depth o with Some d => d <=? i_depth i | None => false end = false) as ->
      by (destruct (max_depth o); [apply N.leb_gt; exact Hin|reflexivity]).
    unfold RefsSpec.answer, RefsSpec.below, out_links, pt. destruct (fetch (i_dst i)) as [b| |]; [|destruct (download o); reflexivity..].
    destruct (decode (i_dst i) b) as [v|e|]; [|reflexivity..]. destruct (ipld_links (i_dst i) v) as [ls|e|]; [|reflexivity..].
    rewrite map_map. cbn [fst snd]. rewrite (map_ext _ (fun x => x)) by (intros []; reflexivity). rewrite map_id. reflexivity.
  Qed.
  Lemma below_src p q : In q (below p) -> fst (fst q) = snd p.
  Proof.
    destruct p as [[s nm] c]. unfold RefsSpec.below, out_links. destruct (fetch c); [|intros []..]. destruct (decode c b); [|intros []..].
    destruct (ipld_links c a); [|intros []..]. intros H. apply in_map_iff in H as (x & <- & _). reflexivity.
  Qed.
  Lemma below_items p depth :
    map (fun x => mk_item depth (snd x) (snd p) (fst x)) (map (fun q => (snd (fst q), snd q)) (below p)) = map (it depth) (below p).
  Proof.
    rewrite map_map. apply map_ext_in. intros [[s nm] c] H. apply below_src in H. cbn [fst snd] in *. rewrite <- H. reflexivity.
  Qed.

  (** ** All links, level by level *)
  Lemma run_level o depth ps rest f :
    unique o = false -> fair_depth (max_depth o) -> inside (max_depth o) depth ->
    run (length ps + f) o (map (it depth) ps ++ rest) [] =
      match report (download o) ps with
      | (es, Some e) => (es, Some e)
      | (es, None) => let (r, e) := run f o (rest ++ map (it (depth + 1)) (flat_map below ps)) [] in (es ++ r, e)
      end.
  Proof.
    intros Hu Hf Hin. revert rest. induction ps as [|p ps IH]; intros rest; cbn [length map app Nat.add flat_map report].
    - rewrite app_nil_r. destruct (run f o rest []). reflexivity.
    - cbn [Refs.run]. assert (Hd : i_depth (it depth p) = depth) by (destruct p as [[? ?] ?]; reflexivity).
      assert (Hdst : i_dst (it depth p) = snd p) by (destruct p as [[? ?] ?]; reflexivity).
      rewrite turn_inside by (try rewrite Hd; assumption). rewrite pt_it, Hd, Hdst. destruct (answer (download o) p) as [es [e|]]; [reflexivity|].
      rewrite Hu, enqueue_all, below_items, <- app_assoc, IH. destruct (report (download o) ps) as [es' [e|]]; [reflexivity|].
      rewrite <- app_assoc, <- map_app. destruct (run f o _ []). rewrite app_assoc. reflexivity.
  Qed.

  Lemma report_app dl a b :
    report dl (a ++ b) = match report dl a with
                         | (es, Some e) => (es, Some e)
                         | (es, None) => let (r, e) := report dl b in (es ++ r, e)
                         end.
  Proof.
    induction a as [|p a IH]; cbn [app report]; [destruct (report dl b); reflexivity|].
    destruct (answer dl p) as [es [e|]]; [reflexivity|]. rewrite IH. destruct (report dl a) as [es' [e|]]; [reflexivity|].
    destruct (report dl b). rewrite app_assoc. reflexivity.
  Qed.

  (** [n] levels starting from [ps]. *)
  Fixpoint lev (ps : list pointer) (n : nat) : list pointer :=
    match n with O => [] | S n => ps ++ lev (flat_map below ps) n end.
  Fixpoint nth_level (ps : list pointer) (n : nat) : list pointer :=
    match n with O => ps | S n => nth_level (flat_map below ps) n end.
  Lemma level_shift roots k n : nth_level (level roots k) n = level roots (k + n).
  Proof.
    revert k. induction n as [|n IH]; intros k; cbn [nth_level]; [rewrite Nat.add_0_r; reflexivity|].
    change (flat_map below (level roots k)) with (level roots (S k)). rewrite IH. f_equal. lia.
  Qed.
  Lemma lev_levels roots k n : lev (level roots k) n = flat_map (level roots) (seq k n).
  Proof.
    revert k. induction n as [|n IH]; intros k; cbn [lev seq flat_map]; [reflexivity|].
    change (flat_map below (level roots k)) with (level roots (S k)). rewrite IH. reflexivity.
  Qed.

  Lemma run_levels o n : forall depth ps f,
    unique o = false -> fair_depth (max_depth o) -> (forall k, (k < n)%nat -> inside (max_depth o) (depth + N.of_nat k)) ->
    run (length (lev ps n) + f) o (map (it depth) ps) [] =
      match report (download o) (lev ps n) with
      | (es, Some e) => (es, Some e)
      | (es, None) => let (r, e) := run f o (map (it (depth + N.of_nat n)) (nth_level ps n)) [] in (es ++ r, e)
      end.
  Proof.
    induction n as [|n IH]; intros depth ps f Hu Hf Hin; cbn [lev nth_level].
    - cbn [length Nat.add RefsSpec.report]. replace (depth + N.of_nat 0) with depth by lia. destruct (run f o _ []). reflexivity.
    - rewrite app_length, <- Nat.add_assoc. rewrite <- (app_nil_r (map (it depth) ps)), run_level; [|assumption..|].
      2: { specialize (Hin 0%nat ltac:(lia)). replace (depth + N.of_nat 0) with depth in Hin by lia. exact Hin. }
      rewrite report_app. destruct (report (download o) ps) as [es [e|]]; [reflexivity|]. cbn [app]. rewrite IH; [|assumption..|].
      2: { intros k Hk. replace (depth + 1 + N.of_nat k) with (depth + N.of_nat (S k)) by lia. apply Hin. lia. }
      replace (depth + 1 + N.of_nat n) with (depth + N.of_nat (S n)) by lia.
      destruct (report (download o) (lev (flat_map below ps) n)) as [es' [e|]]; [reflexivity|]. destruct (run f o _ []). rewrite app_assoc. reflexivity.
  Qed.

  Lemma run_skip o work f d :
    max_depth o = Some d -> fair_depth (max_depth o) -> Forall (fun i => d <= i_depth i) work -> forall seen,
    run (length work + S f) o work seen = ([], Some Closed).
  Proof.
    intros Hm Hf Hw seen. induction Hw as [|i work Hi _ IH]; [reflexivity|]. cbn [length Nat.add Refs.run].
    rewrite (turn_skip o i work seen d Hm Hf Hi). rewrite IH. reflexivity.
  Qed.

  Lemma run_more o f g : forall work seen es e,
    run f o work seen = (es, Some e) -> (f <= g)%nat -> run g o work seen = (es, Some e).
  Proof.
    revert g. induction f as [|f IH]; intros g work seen es e H Hg; [discriminate|]. destruct g as [|g]; [lia|]. cbn [Refs.run] in *.
    destruct work as [|i work]; [exact H|]. destruct (turn o i work seen) as [a [x|[w s]]]; [exact H|].
    destruct (run f o w s) as [r e'] eqn:E. injection H as <- ->. rewrite (IH g _ _ _ _ E); [reflexivity|lia].
  Qed.
  Lemma run_prefix o f g : forall work seen es e,
    run f o work seen = (es, e) -> (f <= g)%nat -> exists es', fst (run g o work seen) = es ++ es'.
  Proof.
    revert g. induction f as [|f IH]; intros g work seen es e H Hg.
    - injection H as <- <-. eexists. reflexivity.
    - destruct g as [|g]; [lia|]. cbn [Refs.run] in *.
      destruct work as [|i work]; [injection H as <- <-; exists []; reflexivity|]. destruct (turn o i work seen) as [a [x|[w s]]]; [injection H as <- <-; exists []; now rewrite app_nil_r|].
      destruct (run f o w s) as [r e'] eqn:E. injection H as <- <-. destruct (IH g _ _ _ _ E ltac:(lia)) as (es' & E'). destruct (run g o w s). cbn [fst] in *. subst. exists es'. rewrite app_assoc. reflexivity.
  Qed.

  (** ** The start *)
  Lemma start_all o roots : unique o = false -> forall work,
    match start o roots work [] with
    | Some (w, s) => w = work ++ map (it 0) (level roots 0) /\ s = [] /\ Forall (fun r => exists ls, ipld_links (fst r) (snd r) = Ok ls) roots
    | None => exists c v, In (c, v) roots /\ ipld_links c v = Panic
    end.
  Proof.
    intros Hu. induction roots as [|[c v] roots IH]; intros work; cbn [start RefsSpec.level flat_map fst snd].
    - rewrite app_nil_r. auto.
    - unfold out_links at 1. destruct (ipld_links c v) as [ls|e|] eqn:E.
      + rewrite Hu, enqueue_all. specialize (IH (work ++ map (fun x => mk_item 0 (snd x) c (fst x)) ls)). destruct (start o roots _ []) as [[w s]|].
        * destruct IH as (-> & -> & H3). rewrite map_app, map_map, <- app_assoc. repeat split. constructor; [eauto|exact H3].
        * destruct IH as (c' & v' & H1 & H2). exists c', v'. split; [now right|exact H2].
      + exfalso. unfold ipld_links in E. destruct (cid_codec c =? codec_dagpb); [|discriminate]. unfold dagpb_links in E. destruct v; try discriminate.
        destruct (bt_get kLinks m) as [[]|]; try discriminate. destruct l as [|x l]; cbn [dagpb_link_list] in E; [discriminate|].
        destruct (dagpb_link x); try discriminate. destruct (dagpb_link_list l); discriminate.
      + exists c, v. split; [now left|exact E].
  Qed.

  Lemma level_link_at roots n s nm d :
    In (s, nm, d) (level roots n) -> link_at fetch decode roots n s nm d.
  Proof.
    revert s nm d. induction n as [|n IH]; intros s nm d H; cbn [RefsSpec.level] in H; apply in_flat_map in H as (x & Hx & H).
    - destruct x as [c v]. cbn [fst snd] in H. unfold out_links in H. destruct (ipld_links c v) as [ls| |] eqn:E; [|contradiction..].
      apply in_map_iff in H as ([a b] & X & H). injection X as <- <- <-. cbn [fst snd]. eapply at_root; [exact Hx|]. now apply (ipld_links_in _ _ _ _ _ E).
    - destruct x as [[s0 nm0] c]. pose proof (below_src _ _ H) as Hs. cbn [fst snd] in Hs. subst s. unfold RefsSpec.below, out_links in H.
      destruct (fetch c) as [b| |] eqn:Ef; [|contradiction..]. destruct (decode c b) as [v| |] eqn:Ed; [|contradiction..].
      destruct (ipld_links c v) as [ls| |] eqn:E; [|contradiction..]. apply in_map_iff in H as ([a b'] & X & H). injection X as <- <-. cbn [fst snd].
      eapply at_next; [apply IH; exact Hx|exists b; eauto|]. now apply (ipld_links_in _ _ _ _ _ E).
  Qed.
  (** The other way round as long as no document makes the listing panic. *)
  Definition listable (roots : list (cid * ipld)) : Prop :=
    (forall c v, In (c, v) roots -> exists ls, ipld_links c v = Ok ls) /\
    (forall c v, document fetch decode c v -> exists ls, ipld_links c v = Ok ls).
  Lemma link_at_level roots n s nm d :
    listable roots -> link_at fetch decode roots n s nm d -> In (s, nm, d) (level roots n).
  Proof.
    intros [H1 H2] H. induction H as [c v name d Hr Hl|n s nm c v name d _ IH Hd Hl]; cbn [RefsSpec.level]; apply in_flat_map.
    - exists (c, v). split; [exact Hr|]. cbn [fst snd]. destruct (H1 _ _ Hr) as (ls & E). unfold out_links. rewrite E. apply in_map_iff.
      exists (name, d). split; [reflexivity|]. now apply (ipld_links_in _ _ _ _ _ E).
    - exists (s, nm, c). split; [exact IH|]. destruct (H2 _ _ Hd) as (ls & E). destruct Hd as (b & Ef & Ed). unfold RefsSpec.below, out_links. rewrite Ef, Ed, E. apply in_map_iff.
      exists (name, d). split; [reflexivity|]. now apply (ipld_links_in _ _ _ _ _ E).
  Qed.
End Refs.
