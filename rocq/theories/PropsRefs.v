(** C32: listing the links reachable from documents. *)
From Verif Require Import Base Wire Cid BTree Ipld Cbor Codecs FMap Refs RefsSpec RefsProofs RefsUnique.
From Verif Require Resolve PropsResolve.
Local Open Scope N_scope.

(** ** The links of one document *)

(** The links listed are those of the document, whatever value it holds. *)
Theorem c32_document_links c v ls name d :
  ipld_links c v = Ok ls -> In (name, d) ls <-> has_link c v name d.
Proof. apply ipld_links_in. Qed.
Print Assumptions c32_document_links.

(** Of a dag-pb block: its links with their names, in their order.  A link named "/" panics. *)
Theorem c32_dagpb_block_links cbor json c b v :
  cid_codec c = codec_dagpb -> Resolve.decode_ipld cbor json c b = Ok v ->
  exists n, pbnode_from_bytes b = Ok n /\
    (forall ls, ipld_links c v = Ok ls <-> ls = map (fun l => (Some (l_name l), l_cid l)) (n_links n) /\ forall l, In l (n_links n) -> l_name l <> [47]) /\
    (ipld_links c v = Panic <-> exists l, In l (n_links n) /\ l_name l = [47]).
Proof.
  intros Hc. unfold Resolve.decode_ipld. rewrite Hc. change (codec_dagpb =? codec_dagcbor) with false. rewrite N.eqb_refl. cbn iota.
  unfold dagpb_decode. destruct (pbnode_from_bytes b) as [n|e|]; cbn [kbind]; try discriminate. intros H. injection H as <-. exists n. split; [reflexivity|].
  rewrite ipld_links_node by exact Hc. destruct (existsb (fun l => beq (l_name l) [47]) (n_links n)) eqn:E.
  - apply existsb_exists in E as (l & Hl & El). apply beq_eq in El. split; [split; [discriminate|]|split; eauto]. intros [_ X]. exfalso. apply (X l Hl El).
  - split; [split|split; [discriminate|]].
    + intros H. injection H as <-. split; [reflexivity|]. intros l Hl El. assert (existsb (fun l => beq (l_name l) [47]) (n_links n) = true); [|congruence].
      apply existsb_exists. exists l. split; [exact Hl|]. rewrite El. reflexivity.
    + intros [-> _]. reflexivity.
    + intros (l & Hl & El). assert (existsb (fun l => beq (l_name l) [47]) (n_links n) = true); [|congruence].
      apply existsb_exists. exists l. split; [exact Hl|]. rewrite El. reflexivity.
Qed.
Print Assumptions c32_dagpb_block_links.

(** Documents in other formats never panic, and their links have no names. *)
Theorem c32_other_links c v :
  cid_codec c <> codec_dagpb ->
  exists ls, ipld_links c v = Ok ls /\ (forall name d, In (name, d) ls <-> name = None /\ occurs d v).
Proof.
  intros Hc. assert (X : exists ls, ipld_links c v = Ok ls).
  { unfold ipld_links. apply N.eqb_neq in Hc. rewrite Hc. eauto. }
  destruct X as (ls & E). exists ls. split; [exact E|]. intros name d. rewrite (ipld_links_in _ _ _ _ _ E). split.
  - intros X. inversion X; subst; [auto|contradiction].
  - intros [-> X]. now constructor.
Qed.
Print Assumptions c32_other_links.

Section Props.
  Variable checks : bool.
  Variable fetch : cid -> fetched.
  Variable decode : cid -> bytes -> outcome ipld unit.
  Variable roots : list (cid * ipld).
  Notation refs := (refs checks fetch decode).
  Notation link_at := (link_at fetch decode roots).
  Notation document := (document fetch decode).
  Notation level := (level fetch decode roots).
  Notation levels := (levels fetch decode roots).
  Notation report := (report fetch decode).

  Lemma refs_start f o w s : max_depth o <> Some 0 -> start o roots [] [] = Some (w, s) -> refs f o roots = run checks fetch decode f o w s.
  Proof. intros H E. unfold Refs.refs. destruct (max_depth o) as [[|d]|]; [congruence| |]; rewrite E; reflexivity. Qed.
  Definition good_roots : Prop := forall c v, In (c, v) roots -> exists ls, ipld_links c v = Ok ls.
  Lemma start_good o : unique o = false -> good_roots -> start o roots [] [] = Some (map (it 0) (level 0), []).
  Proof.
    intros Hu Hg. pose proof (start_all fetch decode o roots Hu []) as H. destruct (start o roots [] []) as [[w s]|].
    - destruct H as (-> & -> & _). reflexivity.
    - destruct H as (c & v & Hin & E). destruct (Hg _ _ Hin) as (ls & E'). congruence.
  Qed.

  (** A depth of zero lists nothing. *)
  Theorem c32_depth_zero f o : max_depth o = Some 0 -> refs f o roots = ([], Some Closed).
  Proof. intros H. unfold Refs.refs. rewrite H. reflexivity. Qed.

  (** ** All links (without [unique]) *)

  (** With a depth [d] the stream reports the links of levels 0 to [d - 1] in breadth first order,
      one item for each way to get there, up to the first which ends it. *)
  Theorem c32_bounded_partial o d :
    unique o = false -> max_depth o = Some d -> d + 1 < u64_max1 -> good_roots ->
    exists f0, forall f, (f0 <= f)%nat -> refs f o roots = closed (report (download o) (levels (N.to_nat d))).
  Proof.
    intros Hu Hm Hd Hg. destruct (N.eq_dec d 0) as [->|Hd0].
    { exists 0%nat. intros f _. rewrite c32_depth_zero by exact Hm. reflexivity. }
    assert (Hf : fair_depth (max_depth o)) by (rewrite Hm; exact Hd). set (n := N.to_nat d).
    set (rest := map (it (0 + N.of_nat n)) (nth_level fetch decode (level 0) n)).
    exists (length (lev fetch decode (level 0) n) + (length rest + 1))%nat. intros f Hle.
    rewrite (refs_start f o (map (it 0) (level 0)) []); [|congruence|apply start_good; assumption].
    replace f with (length (lev fetch decode (level 0) n) + (length rest + S (f - length (lev fetch decode (level 0) n) - length rest - 1)))%nat by lia.
    rewrite run_levels; [|assumption..|].
    2: { intros k Hk. rewrite Hm. unfold inside. subst n. lia. }
    unfold RefsSpec.levels. rewrite <- lev_levels. destruct (report (download o) (lev fetch decode (level 0) n)) as [es [e|]]; [reflexivity|].
    rewrite (run_skip checks fetch decode o _ _ d Hm Hf); [rewrite app_nil_r; reflexivity|].
    apply Forall_forall. intros i Hi. subst rest. apply in_map_iff in Hi as ([[s nm] c] & <- & _). cbn [it i_depth]. subst n. lia.
  Qed.

  (** Without a depth it reports all levels, if there is a last one. *)
  Theorem c32_unbounded_partial o n :
    unique o = false -> max_depth o = None -> good_roots -> level n = [] ->
    exists f0, forall f, (f0 <= f)%nat -> refs f o roots = closed (report (download o) (levels n)).
  Proof.
    intros Hu Hm Hg Hn. assert (Hf : fair_depth (max_depth o)) by (rewrite Hm; exact I).
    exists (length (lev fetch decode (level 0) n) + 1)%nat. intros f Hle.
    rewrite (refs_start f o (map (it 0) (level 0)) []); [|congruence|apply start_good; assumption].
    replace f with (length (lev fetch decode (level 0) n) + S (f - length (lev fetch decode (level 0) n) - 1))%nat by lia.
    rewrite run_levels; [|assumption..|intros k _; rewrite Hm; exact I].
    unfold RefsSpec.levels. rewrite <- lev_levels. destruct (report (download o) (lev fetch decode (level 0) n)) as [es [e|]]; [reflexivity|].
    rewrite level_shift. cbn [Nat.add]. rewrite Hn. cbn [map]. cbn [Refs.run]. rewrite app_nil_r. reflexivity.
  Qed.

  (** And if there is none it never ends, but every level is reported after some time. *)
  Theorem c32_endless o n :
    unique o = false -> max_depth o = None -> good_roots -> (forall k, level k <> []) -> (forall k, snd (report (download o) (levels k)) = None) ->
    (forall f, snd (refs f o roots) = None) /\
    (exists f0, forall f, (f0 <= f)%nat -> exists more, fst (refs f o roots) = fst (report (download o) (levels n)) ++ more).
  Proof.
    intros Hu Hm Hg Hne Hst. assert (Hf : fair_depth (max_depth o)) by (rewrite Hm; exact I).
    assert (Er : forall k, refs (length (lev fetch decode (level 0) k)) o roots = (fst (report (download o) (levels k)), None)).
    { intros k. rewrite (refs_start _ o (map (it 0) (level 0)) []); [|congruence|apply start_good; assumption].
      rewrite <- (Nat.add_0_r (length _)). rewrite run_levels; [|assumption..|intros j _; rewrite Hm; exact I].
      specialize (Hst k). unfold RefsSpec.levels in *. rewrite <- lev_levels in *. destruct (report (download o) (lev fetch decode (level 0) k)) as [es [e|]]; [discriminate|].
      cbn [Refs.run fst]. rewrite app_nil_r. reflexivity. }
    assert (Hlen : forall k, (k <= length (lev fetch decode (level 0) k))%nat).
    { intros k. rewrite lev_levels. clear - Hne. generalize 0%nat. induction k as [|k IH]; intros j; [apply Nat.le_0_l|]. cbn [seq flat_map]. rewrite app_length.
      specialize (IH (S j)). specialize (Hne j). destruct (level j); [contradiction|]. cbn [length]. lia. }
    split.
    - intros f. destruct (snd (refs f o roots)) as [e|] eqn:E; [|reflexivity]. exfalso. specialize (Er f).
      rewrite (refs_start _ o (map (it 0) (level 0)) []) in Er; [|congruence|apply start_good; assumption].
      rewrite (refs_start f o (map (it 0) (level 0)) []) in E; [|congruence|apply start_good; assumption].
      destruct (run checks fetch decode f o (map (it 0) (level 0)) []) as [es en] eqn:E1. cbn [snd] in E. subst en.
      rewrite (run_more checks fetch decode o f _ _ _ _ _ E1 (Hlen f)) in Er. discriminate.
    - exists (length (lev fetch decode (level 0) n)). intros f Hle. specialize (Er n).
      rewrite (refs_start _ o (map (it 0) (level 0)) []) in Er; [|congruence|apply start_good; assumption].
      rewrite (refs_start _ o (map (it 0) (level 0)) []); [|congruence|apply start_good; assumption].
      destruct (run_prefix checks fetch decode o _ f _ _ _ _ Er Hle) as (more & ->). eauto.
  Qed.

  (** The levels are the links at each distance. *)
  Theorem c32_level n s name d :
    listable fetch decode roots -> In (s, name, d) (level n) <-> link_at n s name d.
  Proof. intros H. split; [apply level_link_at|apply link_at_level; exact H]. Qed.

  Lemma report_edges dl l : forall es s d nm, report dl l = (es, None) ->
    In (Edge s d nm) es <-> In (s, nm, d) l /\ exists v ls, document d v /\ ipld_links d v = Ok ls.
  Proof.
    induction l as [|[[s0 n0] c] l IH]; cbn [RefsSpec.report]; intros es s d nm H.
    - injection H as <-. split; [intros []|]. intros [[] _].
    - destruct (answer fetch decode dl (s0, n0, c)) as [a [e|]] eqn:Ea; [discriminate|]. destruct (report dl l) as [r e]. injection H as <- ->.
      rewrite in_app_iff, (IH _ s d nm eq_refl). cbn [In]. unfold answer in Ea. unfold RefsSpec.document in *.
      destruct (fetch c) as [b| |] eqn:Ef; [|destruct dl; discriminate|].
      + destruct (decode c b) as [v|x|] eqn:Ed; [|injection Ea as <-|discriminate].
        * destruct (ipld_links c v) as [ls|x|] eqn:El; [injection Ea as <-|discriminate..]. split.
          { intros [[X|[]]|[X Y]]; [|split; [now right|exact Y]]. injection X as <- <- <-. split; [now left|]. exists v, ls. eauto. }
          { intros [[X|X] Y]; [|right; auto]. injection X as <- <- <-. left. now left. }
        * split; [intros [[X|[]]|[X Y]]; [discriminate|split; [now right|exact Y]]|]. intros [[X|X] (v & ls & (b' & Y & Z) & W)]; [|right; split; [exact X|exists v, ls; eauto]]. injection X as <- <- <-. congruence.
      + destruct dl; [injection Ea as <-|discriminate]. split; [intros [[]|[X Y]]; split; [now right|exact Y]|]. intros [[X|X] (v & ls & (b' & Y & Z) & W)]; [|right; split; [exact X|exists v, ls; eauto]]. injection X as <- <- <-. congruence.
  Qed.

  (** Read as a set: when the listing completes, the edges in it are the links which start within the
      depth and lead to a document. *)
  Lemma edges_levels es s d nm n dl :
    listable fetch decode roots -> report dl (levels n) = (es, None) ->
    In (Edge s d nm) es <-> exists k, (k < n)%nat /\ link_at k s nm d /\ exists v, document d v.
  Proof.
    intros Hl E. rewrite (report_edges _ _ _ _ _ _ E). unfold RefsSpec.levels. rewrite in_flat_map. split.
    - intros [(k & Hk & X) (v & ls & Hd & _)]. exists k. apply in_seq in Hk. split; [lia|]. split; [apply c32_level; assumption|eauto].
    - intros (k & Hk & X & v & Hd). split; [|destruct (proj2 Hl d v Hd) as (ls & E'); eauto]. exists k. split; [apply in_seq; lia|apply c32_level; assumption].
  Qed.
  Theorem c32_edges_partial o :
    unique o = false -> fair_depth (max_depth o) -> listable fetch decode roots ->
    (max_depth o = None -> exists n, level n = []) ->
    (forall n, snd (report (download o) (levels n)) = None) ->
    exists es f0, (forall f, (f0 <= f)%nat -> refs f o roots = (es, Some Closed)) /\
      forall s d nm, In (Edge s d nm) es <-> exists k, within (max_depth o) k /\ link_at k s nm d /\ exists v, document d v.
  Proof.
    intros Hu Hf Hl Hn Hst. destruct (max_depth o) as [d0|] eqn:Hm.
    - destruct (c32_bounded_partial o d0 Hu Hm Hf (proj1 Hl)) as (f0 & H). specialize (Hst (N.to_nat d0)).
      destruct (report (download o) (levels (N.to_nat d0))) as [es [e|]] eqn:E; [discriminate|]. exists es, f0. split; [exact H|].
      intros s d nm. rewrite (edges_levels _ _ _ _ _ _ Hl E). unfold within. split; intros (k & Hk & X); exists k; (split; [lia|exact X]).
    - destruct (Hn eq_refl) as (n & En). destruct (c32_unbounded_partial o n Hu Hm (proj1 Hl) En) as (f0 & H). specialize (Hst n).
      destruct (report (download o) (levels n)) as [es [e|]] eqn:E; [discriminate|]. exists es, f0. split; [exact H|].
      intros s d nm. rewrite (edges_levels _ _ _ _ _ _ Hl E). split; intros (k & Hk & X); exists k; (split; [|exact X]); [exact I|].
      destruct (Nat.lt_ge_cases k n) as [L|L]; [exact L|exfalso]. destruct X as [X _]. apply (link_at_level fetch decode) in X; [|exact Hl].
      assert (Z : forall j, level (n + j) = []) by (induction j as [|j IHj]; [rewrite Nat.add_0_r; exact En|rewrite Nat.add_succ_r; cbn [RefsSpec.level]; rewrite IHj; reflexivity]).
      replace k with (n + (k - n))%nat in X by lia. rewrite Z in X. destruct X.
  Qed.

  (** ** Each destination once ([unique]) *)
  Lemma answer_about dl i e : In e (fst (answer fetch decode dl (pt i))) -> about e = i_dst i.
  Proof.
    unfold answer, pt. destruct (fetch (i_dst i)) as [b| |]; [|destruct dl; cbn; intros []; subst; try contradiction; reflexivity..].
    destruct (decode (i_dst i) b) as [v|x|]; [|cbn; intros []; subst; [reflexivity|contradiction]|intros []].
    destruct (ipld_links (i_dst i) v); cbn; intros []; subst; try contradiction; reflexivity.
  Qed.
  Lemma answer_one dl i : fst (answer fetch decode dl (pt i)) = [] \/ exists e, fst (answer fetch decode dl (pt i)) = [e].
  Proof.
    unfold answer, pt. destruct (fetch (i_dst i)) as [b| |]; [|destruct dl; cbn; eauto..].
    destruct (decode (i_dst i) b) as [v|x|]; cbn; [|eauto..]. destruct (ipld_links (i_dst i) v); cbn; eauto.
  Qed.
  Lemma events_about o l e : In e (events_of fetch decode o l) -> exists i, In i l /\ inside (max_depth o) (i_depth i) /\ In e (fst (answer fetch decode (download o) (pt i))).
  Proof.
    unfold events_of. rewrite in_flat_map. intros (i & Hi & He). exists i. split; [exact Hi|]. unfold inside. destruct (max_depth o) as [d|]; [|auto].
    destruct (d <=? i_depth i) eqn:E; [destruct He|]. apply N.leb_gt in E. auto.
  Qed.
  Lemma events_nodup o l : NoDup (map i_dst l) -> NoDup (map about (events_of fetch decode o l)).
  Proof.
    induction l as [|i l IH]; cbn [map]; intros H; [constructor|]. apply NoDup_cons_iff in H as [Hi H]. specialize (IH H). unfold events_of. cbn [flat_map]. fold (events_of fetch decode o l).
    assert (G : forall es, (forall e, In e es -> about e = i_dst i) -> (es = [] \/ exists e, es = [e]) -> NoDup (map about (es ++ events_of fetch decode o l))).
    { intros es H1 [->|(e & ->)]; [exact IH|]. cbn [app map]. constructor; [|exact IH]. intros X. apply in_map_iff in X as (e' & E & He).
      apply events_about in He as (j & Hj & _ & He). apply answer_about in He. rewrite (H1 e ltac:(now left)) in E. apply Hi. rewrite <- E, He. now apply in_map. }
    destruct (match max_depth o with Some d => d <=? i_depth i | None => false end); [apply (G []); [intros e []|now left]|]. apply G; [apply answer_about|apply answer_one].
  Qed.

  (** The run, once more: everything [run_unique] says from the start. *)
  Lemma refs_unique o f :
    unique o = true -> fair_depth (max_depth o) -> max_depth o <> Some 0 ->
    (exists c v, In (c, v) roots /\ ipld_links c v = Panic) /\ refs f o roots = ([], Some Panicked) \/
    exists done work seen es e, refs f o roots = (es, e) /\ inv fetch decode roots (max_depth o) done work seen /\
      Forall (goes_on fetch decode o) done /\
      match e with
      | None => es = events_of fetch decode o done /\ length done = f
      | Some en => (en = Closed /\ work = [] /\ es = events_of fetch decode o done) \/
                   (exists i w, work = i :: w /\ inside (max_depth o) (i_depth i) /\ snd (answer fetch decode (download o) (pt i)) = Some en /\
                      es = events_of fetch decode o done ++ fst (answer fetch decode (download o) (pt i)))
      end.
  Proof.
    intros Hu Hf H0. destruct (start o roots [] []) as [[w s]|] eqn:E.
    - right. rewrite (refs_start f o w s H0 E). destruct (run_unique checks fetch decode roots o f Hu Hf [] w s) as (d & w' & s' & es & e & A & B & C & _ & D).
      { apply start_inv; assumption. }
      exists d, w', s', es, e. auto.
    - left. split.
      + pose proof (start_unique fetch decode roots o Hu roots [] []) as H. rewrite E in H. apply H; [auto|constructor|reflexivity|intros i []].
      + unfold Refs.refs. destruct (max_depth o) as [[|d]|]; [congruence| |]; rewrite E; reflexivity.
  Qed.

  (** No destination is reported twice. *)
  Theorem c32_unique_once o f : unique o = true -> fair_depth (max_depth o) -> NoDup (map about (fst (refs f o roots))).
  Proof.
    intros Hu Hf. destruct (N.eq_dec (match max_depth o with Some d => d | None => 1 end) 0) as [Hz|Hz].
    { rewrite c32_depth_zero; [constructor|]. destruct (max_depth o); [congruence|discriminate]. }
    destruct (refs_unique o f Hu Hf) as [(_ & ->)|(d & w & s & es & e & E & I & _ & H)]; [intros X; rewrite X in Hz; congruence|constructor|].
    rewrite E. cbn [fst]. assert (Hn : NoDup (map i_dst (d ++ w))).
    { pose proof (inv_nodup _ _ _ _ _ _ _ I) as Hn. rewrite (inv_seen _ _ _ _ _ _ _ I) in Hn. apply NoDup_rev in Hn. rewrite rev_involutive in Hn. exact Hn. }
    assert (Hd : NoDup (map i_dst d)).
    { clear -Hn. induction d as [|x d IH]; [constructor|]. cbn [app map] in *. apply NoDup_cons_iff in Hn as [A B]. constructor; [|auto]. intros X. apply A. rewrite map_app. apply in_app_iff. now left. }
    destruct e as [en|]; [|destruct H as [-> _]; apply events_nodup; exact Hd]. destruct H as [(_ & _ & ->)|(i & w' & -> & Hin & _ & ->)]; [apply events_nodup; exact Hd|].
    assert (X : events_of fetch decode o d ++ fst (answer fetch decode (download o) (pt i)) = events_of fetch decode o (d ++ [i])).
    { unfold events_of. rewrite flat_map_app. cbn [flat_map]. rewrite app_nil_r. f_equal. unfold inside in Hin. destruct (max_depth o) as [m|]; [|reflexivity].
      assert (m <=? i_depth i = false) as -> by (apply N.leb_gt; exact Hin). reflexivity. }
    rewrite X. apply events_nodup. replace (d ++ i :: w') with ((d ++ [i]) ++ w') in Hn by (rewrite <- app_assoc; reflexivity). rewrite map_app in Hn.
    clear -Hn. revert Hn. generalize (map i_dst (d ++ [i])) as l. induction l as [|x l IH]; [constructor|]. cbn [app]. intros H. apply NoDup_cons_iff in H as [A B]. constructor; [|auto].
    intros X. apply A. apply in_app_iff. now left.
  Qed.

  (** An edge reported is a link within the depth, to a document, and there is no shorter way to its
      destination. *)
  Theorem c32_unique_nearest o f s d nm :
    unique o = true -> fair_depth (max_depth o) -> In (Edge s d nm) (fst (refs f o roots)) ->
    exists n, within (max_depth o) n /\ link_at n s nm d /\ (exists v, document d v) /\
      forall m s' nm', link_at m s' nm' d -> (n <= m)%nat.
  Proof.
    intros Hu Hf Hin. destruct (N.eq_dec (match max_depth o with Some d => d | None => 1 end) 0) as [Hz|Hz].
    { rewrite c32_depth_zero in Hin; [destruct Hin|]. destruct (max_depth o); [congruence|discriminate]. }
    destruct (refs_unique o f Hu Hf) as [(_ & E)|(dn & w & sn & es & e & E & I & _ & H)]; [intros X; rewrite X in Hz; congruence|rewrite E in Hin; destruct Hin|].
    rewrite E in Hin. cbn [fst] in Hin.
    assert (X : exists i, In i (dn ++ w) /\ inside (max_depth o) (i_depth i) /\ In (Edge s d nm) (fst (answer fetch decode (download o) (pt i)))).
    { assert (G : In (Edge s d nm) (events_of fetch decode o dn) -> exists i, In i (dn ++ w) /\ inside (max_depth o) (i_depth i) /\ In (Edge s d nm) (fst (answer fetch decode (download o) (pt i)))).
      { intros X. apply events_about in X as (i & Hi & Y). exists i. split; [apply in_app_iff; now left|exact Y]. }
      destruct e as [en|]; [|destruct H as [-> _]; auto]. destruct H as [(_ & _ & ->)|(i & w' & -> & Hi & _ & ->)]; [auto|].
      apply in_app_iff in Hin as [Hin|Hin]; [auto|]. exists i. split; [apply in_app_iff; right; now left|auto]. }
    destruct X as (i & Hi & Hins & Ha). assert (Y : s = i_src i /\ d = i_dst i /\ nm = i_name i /\ exists v, document (i_dst i) v).
    { unfold answer, pt in Ha. unfold RefsSpec.document. destruct (fetch (i_dst i)) as [b| |]; [|destruct (download o); [destruct Ha|destruct Ha as [Ha|[]]; discriminate]..].
      destruct (decode (i_dst i) b) as [v|x|] eqn:Ed; [|destruct Ha as [Ha|[]]; discriminate|destruct Ha].
      destruct (ipld_links (i_dst i) v); [|destruct Ha..]. destruct Ha as [Ha|[]]. injection Ha as <- <- <-. repeat split; auto. exists v, b. auto. }
    destruct Y as (-> & -> & -> & Hdoc). exists (N.to_nat (i_depth i)).
    split; [unfold within, inside in *; destruct (max_depth o); [lia|exact Logic.I]|]. split; [apply (inv_link _ _ _ _ _ _ _ I _ Hi)|]. split; [exact Hdoc|].
    intros m s' nm' Hl. pose proof (inv_nearest _ _ _ _ _ _ _ _ I Hi _ _ _ Hl). lia.
  Qed.

  (** Every destination within the depth is reported, when the listing runs to its end. *)
  Theorem c32_unique_complete o f es n s nm d :
    unique o = true -> fair_depth (max_depth o) -> refs f o roots = (es, Some Closed) ->
    (download o = true \/ (forall c, ~ In (BlockNotFound c) es /\ ~ In (LoadError c) es)) ->
    link_at n s nm d -> within (max_depth o) n ->
    match fetch d with
    | Data b => match decode d b with
                | Ok _ => exists s' nm', In (Edge s' d nm') es
                | _ => In (ParseError d) es
                end
    | _ => fetch d = Broken /\ download o = true
    end.
  Proof.
    intros Hu Hf E Hc Hl Hw. assert (H0 : max_depth o <> Some 0) by (intros X; rewrite X in Hw; unfold within in Hw; lia).
    destruct (refs_unique o f Hu Hf H0) as [(_ & E')|(dn & w & sn & es' & e & E' & I & Hg & H)]; [congruence|].
    rewrite E in E'. injection E' as <- <-. destruct H as [(_ & -> & Ees)|(i & w' & -> & Hins & Ha & ->)].
    - destruct (inv_complete _ _ _ _ _ _ I _ _ _ _ Hw Hl) as (i & Hi & Ed & Hdep). rewrite Forall_forall in Hg.
      assert (Hins : inside (max_depth o) (i_depth i)) by (unfold inside, within in *; destruct (max_depth o); [lia|exact Logic.I]). pose proof (Hg i Hi Hins) as Ha.
      assert (He : forall e, In e (fst (answer fetch decode (download o) (pt i))) -> In e es).
      { intros e He. rewrite Ees. unfold events_of. apply in_flat_map. exists i. split; [exact Hi|]. unfold inside in Hins. destruct (max_depth o) as [m|]; [|exact He].
        assert (m <=? i_depth i = false) as -> by (apply N.leb_gt; exact Hins). exact He. }
      unfold answer, pt in Ha, He. rewrite Ed in *. destruct (fetch d) as [b| |].
      + destruct (decode d b) as [v|x|]; [|apply He; now left|discriminate]. destruct (ipld_links d v); [|discriminate..]. exists (i_src i), (i_name i). apply He. now left.
      + destruct (download o); discriminate.
      + destruct (download o); [auto|discriminate].
    - exfalso. unfold answer, pt in *. destruct (fetch (i_dst i)) as [b| |].
      + destruct (decode (i_dst i) b); [|discriminate..]. destruct (ipld_links (i_dst i) a); discriminate.
      + destruct (download o); [discriminate|]. destruct Hc as [X|X]; [discriminate|]. apply (proj1 (X (i_dst i))). apply in_app_iff. right. now left.
      + destruct (download o); [discriminate|]. destruct Hc as [X|X]; [discriminate|]. apply (proj2 (X (i_dst i))). apply in_app_iff. right. now left.
  Qed.

  (** It ends, also when links go in circles: after as many turns as there are destinations. *)
  Theorem c32_unique_ends o universe :
    unique o = true -> fair_depth (max_depth o) -> (forall n s nm d, link_at n s nm d -> In d universe) ->
    snd (refs (S (length universe)) o roots) <> None.
  Proof.
    intros Hu Hf Hun. destruct (N.eq_dec (match max_depth o with Some d => d | None => 1 end) 0) as [Hz|Hz].
    { rewrite c32_depth_zero; [discriminate|]. destruct (max_depth o); [congruence|discriminate]. }
    destruct (refs_unique o (S (length universe)) Hu Hf) as [(_ & E)|(dn & w & sn & es & e & E & I & _ & H)]; [intros X; rewrite X in Hz; congruence|rewrite E; discriminate|].
    rewrite E. cbn [snd]. intros ->. destruct H as [_ Hlen]. assert (Hn : NoDup (map i_dst (dn ++ w))).
    { pose proof (inv_nodup _ _ _ _ _ _ _ I) as Hn. rewrite (inv_seen _ _ _ _ _ _ _ I) in Hn. apply NoDup_rev in Hn. rewrite rev_involutive in Hn. exact Hn. }
    assert (Hle : (length (map i_dst (dn ++ w)) <= length universe)%nat).
    { apply NoDup_incl_length; [exact Hn|]. intros c Hc. apply in_map_iff in Hc as (i & <- & Hi). eapply Hun. apply (inv_link _ _ _ _ _ _ _ I _ Hi). }
    rewrite map_length, app_length in Hle. lia.
  Qed.

  (** ** Local blocks only, and errors *)

  (** Downloading, the only errors are documents which cannot be parsed. *)
  Theorem c32_download_errors o f c :
    download o = true -> ~ In (BlockNotFound c) (fst (refs f o roots)) /\ ~ In (LoadError c) (fst (refs f o roots)).
  Proof.
    intros Hd.
    assert (Ht : forall i w s e, In e (fst (turn checks fetch decode o i w s)) -> (exists c, e = ParseError c) \/ exists a b n, e = Edge a b n).
    { intros i w s e. unfold turn. rewrite Hd. destruct (traverse checks (max_depth o) (i_depth i)) as [[t|]|]; [|intros []..].
      destruct (fetch (i_dst i)) as [b| |]; [|intros []..]. destruct (decode (i_dst i) b) as [v|x|]; [|cbn; intros [<-|[]]; eauto|intros []].
      destruct t; [destruct (ipld_links (i_dst i) v); [|intros []..]|]; cbn [fst In]; intros [<-|[]]; eauto. }
    assert (Hr : forall e w s, In e (fst (run checks fetch decode f o w s)) -> (exists c, e = ParseError c) \/ exists a b n, e = Edge a b n).
    { intros e. induction f as [|f' IH]; intros w s; [intros []|]. destruct w as [|i w]; [intros []|]. rewrite run_S. specialize (Ht i w s e).
      destruct (turn checks fetch decode o i w s) as [es [en|[w' s']]]; [exact Ht|]. specialize (IH w' s'). destruct (run checks fetch decode f' o w' s') as [r en]. cbn [fst] in *.
      rewrite in_app_iff. intros [X|X]; auto. }
    assert (G : forall e, In e (fst (refs f o roots)) -> (exists c, e = ParseError c) \/ exists a b n, e = Edge a b n).
    { intros e. unfold Refs.refs. destruct (max_depth o) as [[|d]|]; [intros []| |]; (destruct (start o roots [] []) as [[w s]|]; [apply Hr|intros []]). }
    split; intros X; apply G in X as [(x & X)|(a & b & n & X)]; discriminate.
  Qed.

  (** With local blocks only the stream is the same, up to the first block which is not there or
      cannot be read: that is its last item. *)
  Theorem c32_existing_prefix md u f :
    let ex := refs f (mk_opts md u false) roots in
    let dl := refs f (mk_opts md u true) roots in
    ex = dl \/
    exists es c err, (err = BlockNotFound c /\ fetch c = Absent \/ err = LoadError c /\ fetch c = Broken) /\
      ex = (es ++ [err], Some Closed) /\ exists more, fst dl = es ++ more.
  Proof.
    cbn zeta. set (oe := mk_opts md u false). set (od := mk_opts md u true).
    assert (Hr : forall w s, run checks fetch decode f oe w s = run checks fetch decode f od w s \/
       exists es c err, (err = BlockNotFound c /\ fetch c = Absent \/ err = LoadError c /\ fetch c = Broken) /\
         run checks fetch decode f oe w s = (es ++ [err], Some Closed) /\ exists more, fst (run checks fetch decode f od w s) = es ++ more).
    { induction f as [|f' IH]; intros w s; [now left|]. destruct w as [|i w]; [now left|]. rewrite !run_S.
      assert (Ht : turn checks fetch decode oe i w s = turn checks fetch decode od i w s \/
         exists err, (err = BlockNotFound (i_dst i) /\ fetch (i_dst i) = Absent \/ err = LoadError (i_dst i) /\ fetch (i_dst i) = Broken) /\ turn checks fetch decode oe i w s = ([err], inl Closed)).
      { unfold turn. cbn [oe od max_depth download unique]. destruct (traverse checks md (i_depth i)) as [[t|]|]; [|now left..].
        destruct (fetch (i_dst i)) as [b| |]; [left; reflexivity|right; eexists; split; [left; split; reflexivity|reflexivity]|right; eexists; split; [right; split; reflexivity|reflexivity]]. }
      destruct Ht as [->|(err & He & ->)].
      - destruct (turn checks fetch decode od i w s) as [es [en|[w' s']]]; [now left|]. destruct (IH w' s') as [->|(es' & c & err & He & -> & more & Em)]; [now left|right].
        destruct (run checks fetch decode f' od w' s') as [r e]. cbn [fst] in *. subst r. exists (es ++ es'), c, err. split; [exact He|]. split; [rewrite app_assoc; reflexivity|]. exists more. apply app_assoc.
      - right. exists [], (i_dst i), err. split; [exact He|]. split; [reflexivity|]. eexists. reflexivity. }
    unfold Refs.refs. cbn [oe od max_depth]. assert (Es : start oe roots [] [] = start od roots [] []).
    { generalize (@nil item) as w, (@nil cid) as s. induction roots as [|[c v] r IH]; intros w s; cbn [start]; [reflexivity|]. destruct (ipld_links c v); [|reflexivity..]. cbn [oe od unique]. destruct (enqueue u 0 c a w s). apply IH. }
    fold oe od. rewrite Es. destruct md as [[|d]|]; [now left| |]; (destruct (start od roots [] []) as [[w s]|]; [apply Hr|now left]).
  Qed.

  (** No panics, when decoding does not panic, no dag-pb link is named "/" ([c32_dagpb_block_links])
      and the depth is not the largest number. *)
  Theorem c32_no_panic_partial o f :
    fair_depth (max_depth o) -> listable fetch decode roots -> (forall c b, decode c b <> Panic) ->
    snd (refs f o roots) <> Some Panicked.
  Proof.
    intros Hf [Hl1 Hl2] Hdec.
    assert (Ht : forall i w s, snd (turn checks fetch decode o i w s) <> inl Panicked).
    { intros i w s. unfold turn. rewrite (traverse_fair checks _ _ Hf). destruct (match max_depth o with Some d => d <=? i_depth i | None => false end); [discriminate|].
      destruct (fetch (i_dst i)) as [b| |] eqn:Ef; [|destruct (download o); discriminate..]. destruct (decode (i_dst i) b) as [v|x|] eqn:Ed; [|discriminate|exfalso; apply (Hdec _ _ Ed)].
      destruct (Hl2 (i_dst i) v) as (ls & ->); [exists b; auto|discriminate]. }
    assert (Hr : forall w s, snd (run checks fetch decode f o w s) <> Some Panicked).
    { induction f as [|f' IH]; intros w s; [discriminate|]. destruct w as [|i w]; [discriminate|]. rewrite run_S. specialize (Ht i w s).
      destruct (turn checks fetch decode o i w s) as [es [en|[w' s']]]; [cbn [snd] in *; congruence|]. specialize (IH w' s'). destruct (run checks fetch decode f' o w' s') as [r e]. exact IH. }
    assert (Hs : forall w s, start o roots w s <> None).
    { clear -Hl1. revert Hl1. induction roots as [|[c v] r IH]; intros Hl1 w s; cbn [start]; [discriminate|]. destruct (Hl1 c v ltac:(now left)) as (ls & ->).
      destruct (enqueue (unique o) 0 c ls w s). apply IH. intros c' v' X. apply Hl1. now right. }
    unfold Refs.refs. destruct (max_depth o) as [[|d]|]; [discriminate| |]; (destruct (start o roots [] []) as [[w s]|] eqn:E; [apply Hr|exfalso; apply (Hs _ _ E)]).
  Qed.
End Props.
Print Assumptions c32_depth_zero.
Print Assumptions c32_bounded_partial.
Print Assumptions c32_unbounded_partial.
Print Assumptions c32_endless.
Print Assumptions c32_level.
Print Assumptions c32_edges_partial.
Print Assumptions c32_unique_once.
Print Assumptions c32_unique_nearest.
Print Assumptions c32_unique_complete.
Print Assumptions c32_unique_ends.
Print Assumptions c32_download_errors.
Print Assumptions c32_existing_prefix.
Print Assumptions c32_no_panic_partial.

(** ** A diamond with a circle: A links to B and C, both link to D, D links to A and to a block which
    is not a document. *)
Definition dA := PropsResolve.cbor_of 1.
Definition dB := PropsResolve.cbor_of 2.
Definition dC := PropsResolve.cbor_of 3.
Definition dD := PropsResolve.cbor_of 4.
Definition dX := PropsResolve.cbor_of 9.
Definition doc_A : ipld := IMap [([97], Link dB); ([98], IList [Integer 1; Link dC])].
Definition demo_fetch (loop : bool) (c : cid) : fetched :=
  match c with
  | CidV1 113 {| mh_digest := 1 :: _ |} => Data (PropsResolve.cbor_block doc_A)
  | CidV1 113 {| mh_digest := 2 :: _ |} => Data (PropsResolve.cbor_block (IList [Link dD]))
  | CidV1 113 {| mh_digest := 3 :: _ |} => Data (PropsResolve.cbor_block (IList [Link dD]))
  | CidV1 113 {| mh_digest := 4 :: _ |} => Data (PropsResolve.cbor_block (if loop then IList [Link dA; Link dX] else Null))
  | CidV1 113 {| mh_digest := 9 :: _ |} => Data [255]
  | _ => Absent
  end.
Definition demo_refs (loop : bool) (f : nat) (o : opts) := refs true (demo_fetch loop) PropsResolve.real_decode f o [(dA, doc_A)].

(** Without [unique] what is shared is reported once for each way to it. *)
Example c32_sharing_demo :
  demo_refs false 10 (mk_opts None false true) =
    ([Edge dA dB None; Edge dA dC None; Edge dB dD None; Edge dC dD None], Some Closed) /\
  demo_refs true 20 (mk_opts (Some 3) false true) =
    ([Edge dA dB None; Edge dA dC None; Edge dB dD None; Edge dC dD None;
      Edge dD dA None; ParseError dX; Edge dD dA None; ParseError dX], Some Closed).
Proof. split; vm_compute; reflexivity. Qed.
Example c32_unique_demo :
  demo_refs true 10 (mk_opts None true true) =
    ([Edge dA dB None; Edge dA dC None; Edge dB dD None; Edge dD dA None; ParseError dX], Some Closed) /\
  demo_refs true 10 (mk_opts (Some 2) true true) = ([Edge dA dB None; Edge dA dC None; Edge dB dD None], Some Closed).
Proof. split; vm_compute; reflexivity. Qed.
Example c32_good_roots_demo : good_roots [(dA, doc_A)].
Proof. intros c v [X|[]]. injection X as <- <-. eexists. vm_compute. reflexivity. Qed.
Example c32_level_demo : level (demo_fetch false) PropsResolve.real_decode [(dA, doc_A)] 3 = [].
Proof. vm_compute. reflexivity. Qed.
Example c32_listable_demo loop : listable (demo_fetch loop) PropsResolve.real_decode [(dA, doc_A)].
Proof.
  split; [apply c32_good_roots_demo|]. intros c v (b & Hb & _). unfold ipld_links. destruct (cid_codec c =? codec_dagpb) eqn:E; [|eauto]. exfalso.
  apply N.eqb_eq in E. destruct c as [d|codec mh]; [discriminate Hb|]. cbn [cid_codec] in E. subst codec. discriminate Hb.
Qed.
Example c32_no_stop_demo n : snd (report (demo_fetch true) PropsResolve.real_decode true (levels (demo_fetch true) PropsResolve.real_decode [(dA, doc_A)] n)) = None.
Proof.
  assert (G : forall l, Forall (fun p : pointer => In (snd p) [dA; dB; dC; dD; dX]) l -> snd (report (demo_fetch true) PropsResolve.real_decode true l) = None).
  { induction 1 as [|p l Hp _ IH]; [reflexivity|]. cbn [report]. destruct p as [[s nm] c]. cbn [snd] in Hp.
    assert (Ha : snd (answer (demo_fetch true) PropsResolve.real_decode true (s, nm, c)) = None).
    { destruct Hp as [<-|[<-|[<-|[<-|[<-|[]]]]]]; vm_compute; reflexivity. }
    destruct (answer (demo_fetch true) PropsResolve.real_decode true (s, nm, c)) as [es e]. cbn [snd] in Ha. subst e. destruct (report _ _ _ l). exact IH. }
  apply G. unfold levels. generalize 0%nat. induction n as [|n IH]; intros k; [constructor|]. cbn [seq flat_map]. apply Forall_app. split; [|apply IH].
  clear IH. induction k as [|k IH].
  - vm_compute. repeat constructor; tauto.
  - cbn [level]. revert IH. generalize (level (demo_fetch true) PropsResolve.real_decode [(dA, doc_A)] k) as l. clear G. induction 1 as [|p l Hp _ IH']; [constructor|].
    cbn [flat_map]. apply Forall_app. split; [|exact IH']. destruct p as [[s nm] c]. cbn [snd] in Hp.
    assert (Hb : map snd (below (demo_fetch true) PropsResolve.real_decode (s, nm, c)) = match c with
        | CidV1 113 {| mh_digest := 1 :: _ |} => [dB; dC] | CidV1 113 {| mh_digest := 2 :: _ |} => [dD] | CidV1 113 {| mh_digest := 3 :: _ |} => [dD]
        | CidV1 113 {| mh_digest := 4 :: _ |} => [dA; dX] | _ => [] end).
    { destruct Hp as [<-|[<-|[<-|[<-|[<-|[]]]]]]; vm_compute; reflexivity. }
    apply Forall_forall. intros q Hq. apply (in_map snd) in Hq. rewrite Hb in Hq.
    destruct Hp as [<-|[<-|[<-|[<-|[<-|[]]]]]]; cbn [dA dB dC dD dX PropsResolve.cbor_of mh_digest] in Hq; unfold dA, dB, dC, dD, dX, PropsResolve.cbor_of in Hq; cbn in Hq; unfold dA, dB, dC, dD, dX, PropsResolve.cbor_of; cbn; tauto.
Qed.

(** Only local blocks: the stream stops at the block which is missing. *)
Example c32_existing_demo :
  refs true (fun c => if cid_eqb c dC then Absent else demo_fetch true c) PropsResolve.real_decode 10 (mk_opts None true false) [(dA, doc_A)] =
    ([Edge dA dB None; BlockNotFound dC], Some Closed).
Proof. vm_compute. reflexivity. Qed.

(** The largest depth is not like the others: [d + 1] overflows.  With overflow checks the stream
    panics at its first item; without, it lists the links of the roots only. *)
Theorem c32_largest_depth_refuted :
  let o := mk_opts (Some (u64_max1 - 1)) true true in
  refs true (demo_fetch true) PropsResolve.real_decode 10 o [(dA, doc_A)] = ([], Some Panicked) /\
  refs false (demo_fetch true) PropsResolve.real_decode 10 o [(dA, doc_A)] = ([Edge dA dB None; Edge dA dC None], Some Closed).
Proof. split; vm_compute; reflexivity. Qed.
Print Assumptions c32_largest_depth_refuted.

(** A block with a link named "/" makes the listing panic. *)
Definition slash_block : bytes := pbnode_into_bytes (mk_PbNode [mk_PbLink dB [97] 1; mk_PbLink dC [47] 1] []).
Definition slash_cid : cid := CidV0 (repeat 7 32).
Theorem c32_no_panic_refuted :
  exists v, PropsResolve.real_decode slash_cid slash_block = Ok v /\
    refs true (fun c => if cid_eqb c slash_cid then Data slash_block else demo_fetch true c) PropsResolve.real_decode 10 (mk_opts None true true)
      [(dA, IList [Link dB; Link slash_cid])] = ([Edge dA dB None], Some Panicked).
Proof. eexists. split; vm_compute; reflexivity. Qed.
Print Assumptions c32_no_panic_refuted.
