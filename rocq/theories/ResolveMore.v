From Verif Require Import Base Wire Cid BTree Ipld Codecs Pb DirLookup DirSpec DirLookupProofs PropsDir Resolve ResolveSpec ResolveProofs.
Local Open Scope N_scope.

(** * Trees of shards *)
Lemma below_in t x : In x (below t) <-> exists c s, In (c, s) (h_subs t) /\ (x = (c, s) \/ In x (below s)).
Proof.
  destruct t as [links subs]. rewrite below_eq. unfold pre. rewrite in_flat_map. cbn [h_subs]. split.
  - intros ([c s] & H1 & [H2|H2]); exists c, s; cbn [snd] in *; auto.
  - intros (c & s & H1 & [H2|H2]); exists (c, s); split; auto; [left; auto|right; exact H2].
Qed.
Lemma below_shorter c s t : In (c, s) (h_subs t) -> (length (below s) < length (below t))%nat.
Proof.
  destruct t as [links subs]. rewrite below_eq. cbn [h_subs]. induction subs as [|y r IH]; intros H; [destruct H|]; destruct H as [->|H]; unfold pre in *; cbn [flat_map].
  - cbn [snd app length]. rewrite app_length. lia.
  - cbn [app length]. rewrite app_length. specialize (IH H). lia.
Qed.
Lemma below_trans : forall n t, (length (below t) <= n)%nat -> forall c t' x, In (c, t') (below t) -> In x (below t') -> In x (below t).
Proof.
  induction n as [|n IH]; intros t Hn c t' x H1 H2; apply below_in in H1 as (c0 & s & Hs & H1); pose proof (below_shorter _ _ _ Hs) as Hl; [lia|].
  apply below_in. exists c0, s. split; [exact Hs|]. right. destruct H1 as [[= <- <-]|H1]; [exact H2|]. eapply (IH s); [lia|exact H1|exact H2].
Qed.
Lemma stored_sub get t c s : stored get t -> In (c, s) (h_subs t) -> stored get s /\ exists b, get c = Some b /\ shard b (h_links s).
Proof.
  destruct t as [links subs]. intros H. apply stored_eq in H as [_ H]. intros Hin. rewrite Forall_forall in H. destruct (H _ Hin) as [H1 H2]. cbn [fst snd] in *. auto.
Qed.
Lemma sub_shard_tree get t links : stored get t -> sub_shard get (h_links t) links ->
  exists t', links = h_links t' /\ stored get t' /\ (t' = t \/ exists c, In (c, t') (below t)).
Proof.
  intros Hst. induction 1 as [|links l c b links' H IH Hl Hb Hc Hg Hs]; [exists t; auto|].
  destruct IH as (t' & -> & Hst' & Hin). destruct t' as [lk subs]. pose proof Hst' as Hst2. apply stored_eq in Hst' as [Hm _]. cbn [h_links] in Hl.
  assert (X : In (link_cid l) (map Some (map fst subs))).
  { rewrite <- Hm. apply in_map. apply filter_In. split; [exact Hl|]. apply Nat.eqb_eq. exact Hb. }
  apply in_map_iff in X as (c' & E & Hs'). assert (c' = c) by congruence. subst c'. apply in_map_iff in Hs' as ([c' s] & E' & Hs'). cbn [fst] in E'. subst c'.
  destruct (stored_sub get (Hamt lk subs) c s Hst2 Hs') as (H1 & b' & H2 & H3). assert (b' = b) by congruence. subst b'.
  exists s. split; [eapply shard_unique; eassumption|]. split; [exact H1|]. right. exists c.
  assert (Hsb : In (c, s) (below (Hamt lk subs))) by (apply below_in; exists c, s; auto).
  destruct Hin as [<-|[c0 Hin]]; [exact Hsb|]. eapply below_trans; [apply Nat.le_refl|exact Hin|exact Hsb].
Qed.
Lemma sub_shard_shards get t links : stored get t -> sub_shard get (h_links t) links -> In links (shards t).
Proof.
  intros H1 H2. destruct (sub_shard_tree get t links H1 H2) as (t' & -> & _ & [->|[c Hc]]); [left; reflexivity|].
  right. apply in_map_iff. exists (c, t'). auto.
Qed.

Lemma stored_buckets get t l : stored get t -> In l (h_links t) -> is_bucket l -> link_cid l <> None.
Proof.
  destruct t as [lk subs]. intros H Hl Hb E. apply stored_eq in H as [Hm _]. cbn [h_links] in Hl.
  assert (X : In (link_cid l) (map Some (map fst subs))).
  { rewrite <- Hm. apply in_map. apply filter_In. split; [exact Hl|]. apply Nat.eqb_eq. exact Hb. }
  apply in_map_iff in X as (y & E' & _). congruence.
Qed.

Section Main.
  Variable get : cid -> option bytes.
  Variable decode : cid -> bytes -> outcome ipld unit.
  Notation directory := (directory get).
  Notation document := (document get decode).
  Notation link_step := (link_step get decode).
  Notation leads := (leads get decode).
  Notation ends := (ends get decode).
  Notation fails := (fails get decode).

  (** * Inside a document *)
  Lemma local_ipld_link doc v q d : at_path v q (Link d) -> forall r m,
    local_ipld doc v (q ++ r) m = match r with
      | s :: r' => if beq s dot then Ok (Complete (NLink doc d), S (m + length q), r') else Ok (Complete (NLink doc d), (m + length q)%nat, r)
      | [] => Ok (Complete (NLink doc d), (m + length q)%nat, [])
      end.
  Proof.
    intros H. remember (Link d) as w eqn:Ew. induction H as [v|mm k v p v' Hk H IH|l s i v p v' Hi Hn H IH]; intros r m; subst.
    - cbn [app length]. rewrite Nat.add_0_r. destruct r; reflexivity.
    - cbn [app length]. cbn [local_ipld]. rewrite Hk, IH by reflexivity. rewrite Nat.add_succ_r. reflexivity.
    - cbn [app length]. cbn [local_ipld]. apply parse_usize_spec in Hi. rewrite Hi. assert (i <? blen l = true) as ->.
      { assert (N.to_nat i < length l)%nat by (apply nth_error_Some; congruence). unfold blen. lia. }
      rewrite Hn, IH by reflexivity. rewrite Nat.add_succ_r. reflexivity.
  Qed.
  Lemma local_ipld_value doc v q v' : at_path v q v' -> (forall d, v' <> Link d) -> forall m,
    local_ipld doc v q m = Ok (Complete (NProjection doc v'), (m + length q)%nat, []).
  Proof.
    intros H Hv. induction H as [v|mm k v p v' Hk H IH|l s i v p v' Hi Hn H IH]; intros m.
    - cbn [length]. rewrite Nat.add_0_r. destruct v; try reflexivity. exfalso. eapply Hv. reflexivity.
    - cbn [length]. cbn [local_ipld]. rewrite Hk, IH by assumption. rewrite Nat.add_succ_r. reflexivity.
    - cbn [length]. cbn [local_ipld]. apply parse_usize_spec in Hi. rewrite Hi. assert (i <? blen l = true) as ->.
      { assert (N.to_nat i < length l)%nat by (apply nth_error_Some; congruence). unfold blen. lia. }
      rewrite Hn, IH by assumption. rewrite Nat.add_succ_r. reflexivity.
  Qed.
  Lemma local_ipld_err doc v q w s r e : at_path v q w ->
    (forall m, local_ipld doc w (s :: r) m = Err (add_start m e)) -> forall m,
    local_ipld doc v (q ++ s :: r) m = Err (add_start (m + length q) e).
  Proof.
    intros H He. induction H as [v|mm k v p v' Hk H IH|l x i v p v' Hi Hn H IH]; intros m.
    - cbn [app length]. rewrite Nat.add_0_r. apply He.
    - cbn [app length]. cbn [local_ipld]. rewrite Hk, IH by assumption. rewrite Nat.add_succ_r. reflexivity.
    - cbn [app length]. cbn [local_ipld]. apply parse_usize_spec in Hi. rewrite Hi. assert (i <? blen l = true) as ->.
      { assert (N.to_nat i < length l)%nat by (apply nth_error_Some; congruence). unfold blen. lia. }
      rewrite Hn, IH by assumption. rewrite Nat.add_succ_r. reflexivity.
  Qed.

  (** * One block *)
  Lemma shard_lookup hfuel c b links s ca : sound_dirs get hfuel -> directory c b -> shard b links -> clean ca ->
    (exists d ca', resolve b s ca = Ok (Found d, ca') /\ clean ca' /\ exists l, In l links /\ entry_named s l /\ link_cid l = Some d) \/
    (exists ca', resolve b s ca = Ok (NotFound, ca') /\ clean ca' /\ forall l, In l links -> ~ entry_named s l /\ ~ is_bucket l) \/
    (exists q ca', resolve b s ca = Ok (NeedToLoadMore q, ca') /\ (forall l, In l links -> ~ entry_named s l) /\ (exists l, In l links /\ is_bucket l) /\
       exists shs o, walk_shards get hfuel q s ca' = Some (shs, o) /\
         ((exists d ca2, o = Ok (d, ca2) /\ clean ca2 /\ exists links' l, sub_shard get links links' /\ In l links' /\ entry_named s l /\ link_cid l = Some d) \/
          (o = Err KeyNotFound /\ forall links' l, sub_shard get links links' -> In l links' -> ~ entry_named s l))).
  Proof.
    intros Hsd Hd Hs Hca. destruct (Hsd c b links Hd Hs) as (t & Ht & Hst & Hlen & Htidy & _). subst links.
    assert (Htr : tidy s (h_links t)) by (apply Htidy; left; reflexivity).
    pose proof (resolve_shard get b (h_links t) s ca Hs Hca) as HR. destruct (resolve b s ca) as [[[d|q|] ca']|e|] eqn:Er.
    - left. destruct HR as [-> HR]. exists d, (Some []). split; [reflexivity|]. split; [right; reflexivity|exact HR].
    - right. right. destruct HR as (-> & Hq & Hfr & Hno & Hbk). exists q, None. split; [reflexivity|]. split; [intros l Hl; apply (Hno l Hl)|].
      split; [destruct q as [|c0 q]; [congruence|]; exact (resolve_bucket b s ca None c0 q (h_links t) Hs Er Hca)|].
      destruct (lookup_spec get t b s ca Hs Hst Hca hfuel Hlen) as (loads & rest & o & E & _ & Ho).
      unfold lookup_name in E. rewrite Er in E. destruct (walk_shards get hfuel q s None) as [[wl wo]|] eqn:Ew; [|discriminate]. cbn [option_map] in E.
      injection E as <- <-. exists wl, wo. split; [reflexivity|].
      pose proof (walk_after get b s ca None q (h_links t) hfuel wl wo Hs Hca Er (fun l Hl => proj1 (Hno l Hl)) Hq Hfr Ew) as HW.
      destruct (walk_sound get s (h_links t) hfuel q None wl wo Hq Hfr Ew) as [_ HWs].
      destruct wo as [[d ca2]|[c0|e|]|].
      + left. exists d, ca2. split; [reflexivity|]. split; [apply HW|apply HWs].
      + exfalso. destruct Ho as (x & Hx & Hn). apply Hn. apply Htidy. exact Hx.
      + exfalso. destruct Ho as (x & Hx & Hn). apply Hn. apply Htidy. exact Hx.
      + right. split; [reflexivity|]. intros links' l Hsub Hl. apply (Ho links'); [apply sub_shard_shards with get; assumption|exact Hl].
      + exfalso. destruct Ho as (x & l & Hx & Hl & Hu). destruct (Htidy s x Hx) as [Hc _]. exact (Hc l Hl Hu).
    - right. left. destruct HR as [-> HR]. exists (Some []). split; [reflexivity|]. split; [right; reflexivity|]. intros l Hl. destruct (HR l Hl) as (X & Y & _). auto.
    - exfalso. destruct e; try contradiction. destruct HR as [HR|(l & H1 & H2 & H3)]; [contradiction|]. exact (stored_buckets get t l Hst H1 H2 H3).
    - exfalso. destruct HR as (l & H1 & H2). destruct Htr as [Hc _]. exact (Hc l H1 H2).
  Qed.

  Lemma link_complete hfuel c p deep d q ca : sound_dirs get hfuel -> link_step c p deep d q -> clean ca ->
    exists shs ca' k, clean ca' /\ (k + (if deep then 1 else 0) + length q = length p)%nat /\
      forall fuel follow total, resolve0 get decode (S fuel) hfuel c p follow total ca =
        if follow then option_map (fun '(docs, s, o) => (c :: docs, shs ++ s, o)) (resolve0 get decode fuel hfuel d q follow (total + k) ca')
        else Some ([c], shs, Ok (NLink c d, (total + k)%nat)).
  Proof.
    intros Hsd Hstep Hca. inversion Hstep as [c0 b s r deep0 d0 Hdir Hent|c0 v q0 r d0 Hdoc Hat Hne Hnd|c0 v q0 r d0 Hdoc Hat]; subst.
    - assert (Hg : get c = Some b) by apply Hdir. assert (Hcd : cid_codec c =? codec_dagpb = true) by (apply N.eqb_eq; apply Hdir).
      inversion Hent as [links i l d0 Hp Hon Hl|links l d0 Hs Hl Hnm Hc|links links' l d0 Hs Hno Hsub Hl Hnm Hc]; subst.
      + exists [], ca, 1%nat. split; [exact Hca|]. split; [cbn [length]; lia|]. intros fuel follow total. cbn [resolve0]. rewrite Hg. cbn [resolve_local]. rewrite Hcd.
        unfold local_dagpb. rewrite (proj2 (c33_found b links s ca d Hp)) by eauto. reflexivity.
      + destruct (shard_lookup hfuel c b links s ca Hsd Hdir Hs Hca) as [(d1 & ca' & Er & Hca' & l' & Hl' & Hnm' & Hc')|[(ca' & _ & _ & Hno)|(q' & ca' & _ & Hno & _)]];
          [|exfalso; exact (proj1 (Hno l Hl) Hnm)|exfalso; exact (Hno l Hl Hnm)].
        destruct (Hsd c b links Hdir Hs) as (t & Ht & _ & _ & _ & Hu). subst links.
        assert (d1 = d). { pose proof (Hu s (h_links t) (h_links t) l' l (or_introl eq_refl) (or_introl eq_refl) Hl' Hl Hnm' Hnm). congruence. } subst d1.
        exists [], ca', 1%nat. split; [exact Hca'|]. split; [cbn [length]; lia|]. intros fuel follow total. cbn [resolve0]. rewrite Hg. cbn [resolve_local]. rewrite Hcd.
        unfold local_dagpb. rewrite Er. reflexivity.
      + destruct (shard_lookup hfuel c b links s ca Hsd Hdir Hs Hca) as [(d1 & ca' & Er & Hca' & l' & Hl' & Hnm' & _)|[(ca' & _ & _ & Hno')|(q' & ca' & Er & _ & _ & shs & o & Ew & Ho)]].
        * exfalso. exact (Hno l' Hl' Hnm').
        * exfalso. apply sub_shard_front in Hsub as [->|(l0 & c0 & b0 & nx & H1 & H2 & _)]; [exact (Hno l Hl Hnm)|]. destruct (Hno' l0 H1) as [_ X]. exact (X H2).
        * destruct Ho as [(d1 & ca2 & -> & Hca2 & links1 & l1 & Hs1 & Hl1 & Hnm1 & Hc1)|(-> & Hx)]; [|exfalso; exact (Hx links' l Hsub Hl Hnm)].
          destruct (Hsd c b links Hdir Hs) as (t & Ht & Hst & _ & _ & Hu). subst links.
          assert (d1 = d).
          { pose proof (Hu s links1 links' l1 l (sub_shard_shards get t links1 Hst Hs1) (sub_shard_shards get t links' Hst Hsub) Hl1 Hl Hnm1 Hnm). congruence. } subst d1.
          exists shs, ca2, 0%nat. split; [exact Hca2|]. split; [cbn [length]; lia|]. intros fuel follow total. cbn [resolve0]. rewrite Hg. cbn [resolve_local]. rewrite Hcd.
          unfold local_dagpb. rewrite Er, Ew. reflexivity.
    - destruct Hdoc as (Hcd & b & Hg & Hdec). exists [], ca, (length q0). split; [exact Hca|]. split; [rewrite app_length; lia|]. intros fuel follow total.
      cbn [resolve0]. rewrite Hg. unfold resolve_local. destruct (q0 ++ q) as [|s0 r0] eqn:Eq; [congruence|]. rewrite (proj2 (N.eqb_neq _ _) Hcd), Hdec, <- Eq.
      rewrite (local_ipld_link c v q0 d Hat). cbn [Nat.add]. destruct q as [|s r]; [reflexivity|].
      destruct (beq_spec s dot) as [->|_]; [exfalso; eapply Hnd; reflexivity|]. reflexivity.
    - destruct Hdoc as (Hcd & b & Hg & Hdec). exists [], ca, (S (length q0)). split; [exact Hca|]. split; [rewrite app_length; cbn [length]; lia|]. intros fuel follow total.
      cbn [resolve0]. rewrite Hg. unfold resolve_local. destruct (q0 ++ dot :: q) as [|s0 r0] eqn:Eq; [destruct q0; discriminate|]. rewrite (proj2 (N.eqb_neq _ _) Hcd), Hdec, <- Eq.
      rewrite (local_ipld_link c v q0 d Hat). cbn [Nat.add]. destruct (beq_spec dot dot) as [_|]; [|congruence]. reflexivity.
  Qed.

  Lemma no_entry_resolve hfuel c b s ca : sound_dirs get hfuel -> directory c b -> no_entry get c s -> clean ca ->
    exists ca', resolve b s ca = Ok (NotFound, ca') /\ clean ca'.
  Proof.
    intros Hsd Hd (b' & Hd' & H) Hca. assert (b' = b) by (destruct Hd, Hd'; congruence). subst b'. destruct H as [(links & Hp & Hno)|(links & Hs & Hno)].
    - exists ca. split; [|exact Hca]. apply (c33_not_found b links s ca Hp). exact Hno.
    - destruct (shard_lookup hfuel c b links s ca Hsd Hd Hs Hca) as [(d1 & ca' & _ & _ & l & Hl & Hn & _)|[(ca' & Er & Hca' & _)|(q & ca' & _ & _ & (l & Hl & Hb) & _)]].
      + exfalso. destruct (Hno l Hl) as [_ X]. exact (X Hn).
      + eauto.
      + exfalso. destruct (Hno l Hl) as [X _]. exact (X Hb).
  Qed.

  Lemma ends_complete hfuel c q n ca : sound_dirs get hfuel -> ends c q n -> ~ empty_data get n -> clean ca ->
    forall fuel follow total, resolve0 get decode (S fuel) hfuel c q follow total ca = Some ([c], [], Ok (n, total)).
  Proof.
    intros Hsd He Hnp Hca fuel follow total. inversion He as [c0 b Hg|c0 v q0 v' Hdoc Hq Hat Hv|c0 b nd Hd Hno Hr]; subst.
    - cbn [resolve0]. rewrite Hg. reflexivity.
    - destruct Hdoc as (Hcd & b & Hg & Hdec). cbn [resolve0]. rewrite Hg. unfold resolve_local. destruct q as [|s r]; [congruence|].
      rewrite (proj2 (N.eqb_neq _ _) Hcd), Hdec, (local_ipld_value c v _ v' Hat Hv). reflexivity.
    - destruct (no_entry_resolve hfuel c b data_seg ca Hsd Hd Hno Hca) as (ca' & Er & _). destruct Hd as [Hcd Hg].
      cbn [resolve0]. rewrite Hg. unfold resolve_local. rewrite (proj2 (N.eqb_eq _ _) Hcd). unfold local_dagpb. rewrite Er.
      assert (beq data_seg data_seg && true = true) as -> by reflexivity.
      pose proof (wrap_node_data_spec b) as HW. destruct (wrap_node_data b) as [d|e|].
      + destruct HW as (n' & Hn' & ->). assert (n' = nd) by congruence. subst n'. reflexivity.
      + congruence.
      + exfalso. destruct HW as (n' & Hn' & Hd'). assert (n' = nd) by congruence. subst n'. apply Hnp. exists c, b, nd. rewrite Hd'. auto.
  Qed.

  Definition raw_of (t : trouble) (bad_index : bool) (c : cid) (i : nat) : raw_err :=
    match t with
    | Missing => if bad_index then RInvalidIndex c i else RNotFound c i
    | OutOfRange x n => RListIndex c i x n
    | Leaf => RNoLinks c i
    end.
  Lemma fails_complete hfuel c a s t r ca : sound_dirs get hfuel -> fails c a s t -> clean ca ->
    (cid_codec c = codec_dagpb -> s = data_seg -> r <> [] \/ file get c) ->
    exists bi, forall fuel follow total, resolve0 get decode (S fuel) hfuel c (a ++ s :: r) follow total ca = Some ([c], [], Err (raw_of t bi c (total + length a))).
  Proof.
    intros Hsd Hf Hca Hnd.
    assert (Hdocs : forall v w e, document c v -> at_path v a w -> (forall m, local_ipld c w (s :: r) m = Err (add_start m e)) ->
      forall fuel follow total, resolve0 get decode (S fuel) hfuel c (a ++ s :: r) follow total ca = Some ([c], [], Err (add_start total (add_start (length a) e)))).
    { intros v w e (Hcd & b & Hg & Hdec) Hat He fuel follow total. cbn [resolve0]. rewrite Hg. unfold resolve_local.
      destruct (a ++ s :: r) as [|s0 r0] eqn:Eq; [destruct a; discriminate|]. rewrite (proj2 (N.eqb_neq _ _) Hcd), Hdec, <- Eq.
      rewrite (local_ipld_err c v a w s r e Hat He). reflexivity. }
    inversion Hf as [c0 v q m s0 Hdoc Hat Hk|c0 v q l s0 Hdoc Hat Hk|c0 v q l s0 i Hdoc Hat Hk Hl|c0 v q w s0 Hdoc Hat Hw|c0 s0 Hno|c0 s0 Hfile]; subst.
    - exists false. intros fuel follow total. rewrite (Hdocs v (IMap m) (RNotFound c 0) Hdoc Hat). 2:{ intros k. cbn [local_ipld]. rewrite Hk. reflexivity. }
      cbn [add_start raw_of Nat.add]. rewrite Nat.add_comm. reflexivity.
    - exists true. intros fuel follow total. rewrite (Hdocs v (IList l) (RInvalidIndex c 0) Hdoc Hat). 2:{ intros k. cbn [local_ipld]. rewrite (proj2 (parse_usize_none s) Hk). reflexivity. }
      cbn [add_start raw_of Nat.add]. rewrite Nat.add_comm. reflexivity.
    - exists false. intros fuel follow total. rewrite (Hdocs v (IList l) (RListIndex c 0 i (blen l)) Hdoc Hat).
      2:{ intros k. cbn [local_ipld]. rewrite (proj2 (parse_usize_spec s i) Hk). assert (i <? blen l = false) as -> by lia. reflexivity. }
      cbn [add_start raw_of Nat.add]. rewrite Nat.add_comm. reflexivity.
    - exists false. intros fuel follow total. rewrite (Hdocs v w (RNoLinks c 0) Hdoc Hat). 2:{ intros k. destruct w; try contradiction; reflexivity. }
      cbn [add_start raw_of Nat.add]. rewrite Nat.add_comm. reflexivity.
    - exists false. intros fuel follow total. pose proof Hno as (b & Hd & Hor). destruct (no_entry_resolve hfuel c b s ca Hsd Hd Hno Hca) as (ca' & Er & _).
      pose proof Hd as [Hcd Hg]. cbn [app resolve0]. rewrite Hg. unfold resolve_local. rewrite (proj2 (N.eqb_eq _ _) Hcd). unfold local_dagpb. rewrite Er.
      assert (Hb : beq s data_seg && match r with [] => true | _ => false end = false).
      { destruct (beq_spec s data_seg) as [E|]; [|reflexivity]. destruct (Hnd Hcd E) as [Hr|(b' & n & d & u & Hd' & H1 & H2 & H3 & H4 & H5)].
        - destruct r; [congruence|reflexivity].
        - exfalso. assert (b' = b) by (destruct Hd'; congruence). subst b'.
          assert (Hfl : flat_parse b = inl (mk_flat (n_links n) u)) by (unfold flat_parse; rewrite H1, H2; destruct d; [congruence|rewrite H4; reflexivity]).
          unfold resolve in Er. rewrite Hfl in Er. cbn [f_data] in Er. rewrite H5 in Er. discriminate. }
      rewrite Hb. cbn [add_start raw_of length]. rewrite Nat.add_0_r. reflexivity.
    - exists false. intros fuel follow total. destruct Hfile as (b & n & d & u & Hd & H1 & H2 & H3 & H4 & H5).
      assert (Hfl : flat_parse b = inl (mk_flat (n_links n) u)) by (unfold flat_parse; rewrite H1, H2; destruct d; [congruence|rewrite H4; reflexivity]).
      pose proof Hd as [Hcd Hg]. cbn [app resolve0]. rewrite Hg. unfold resolve_local. rewrite (proj2 (N.eqb_eq _ _) Hcd). unfold local_dagpb, resolve. rewrite Hfl. cbn [f_data]. rewrite H5. cbn [add_start raw_of length]. rewrite Nat.add_0_r. reflexivity.
  Qed.

  (** * Paths *)
  Lemma step_suffix c p deep d q : link_step c p deep d q -> exists a, p = a ++ q /\ ((if deep then 1 else 0) <= length a)%nat.
  Proof.
    intros H. inversion H as [c0 b s r deep0 d0|c0 v q0 r d0|c0 v q0 r d0]; subst.
    - exists [s]. split; [reflexivity|]. destruct deep; cbn [length]; lia.
    - exists q0. split; [reflexivity|lia].
    - exists (q0 ++ [dot]). rewrite <- app_assoc. split; [reflexivity|lia].
  Qed.
  Lemma leads_suffix c p h d q : leads c p h d q -> exists a, p = a ++ q /\ (h <= length a)%nat.
  Proof.
    induction 1 as [c p|c p deep d q h e r Hs Hl (a & -> & Ha)]; [exists []; split; [reflexivity|cbn [length]; lia]|].
    apply step_suffix in Hs as (a' & -> & Ha'). exists (a' ++ a). rewrite app_assoc. split; [reflexivity|]. rewrite app_length. destruct deep; lia.
  Qed.

  Lemma leads_complete hfuel c p h d q : sound_dirs get hfuel -> leads c p h d q -> forall ca, clean ca ->
    exists n docs shs ca' k, clean ca' /\ (k + h + length q = length p)%nat /\ forall fuel total,
      resolve0 get decode (n + fuel) hfuel c p true total ca =
      option_map (fun '(ds, s, o) => (docs ++ ds, shs ++ s, o)) (resolve0 get decode fuel hfuel d q true (total + k) ca').
  Proof.
    intros Hsd. induction 1 as [c p|c p deep d q h e r Hs Hl IH]; intros ca Hca.
    - exists 0%nat, [], [], ca, 0%nat. split; [exact Hca|]. split; [lia|]. intros fuel total. rewrite Nat.add_0_r. cbn [Nat.add app].
      destruct (resolve0 get decode fuel hfuel c p true total ca) as [[[ds s] o]|]; reflexivity.
    - destruct (link_complete hfuel c p deep d q ca Hsd Hs Hca) as (shs & ca1 & k & Hca1 & Hk & E1).
      destruct (IH ca1 Hca1) as (n & docs & shs2 & ca2 & k2 & Hca2 & Hk2 & E2).
      exists (S n), (c :: docs), (shs ++ shs2), ca2, (k + k2)%nat. split; [exact Hca2|]. split; [destruct deep; lia|]. intros fuel total.
      cbn [Nat.add]. rewrite E1, E2, Nat.add_assoc. destruct (resolve0 get decode fuel hfuel e r true (total + k + k2) ca2) as [[[ds s] o]|]; [|reflexivity].
      cbn [option_map app]. rewrite app_assoc. reflexivity.
  Qed.

  (** More fuel does not change an answer. *)
  Lemma walk_more : forall f1 f2 q s ca r, (f1 <= f2)%nat -> walk_shards get f1 q s ca = Some r -> walk_shards get f2 q s ca = Some r.
  Proof.
    induction f1 as [|f1 IH]; intros f2 q s ca r Hle H; (destruct q as [|x q]; [destruct f2; exact H|]); [discriminate|].
    destruct f2 as [|f2]; [lia|]. cbn [walk_shards] in *. destruct (get x) as [b|]; [|exact H].
    destruct (continue_walk (x :: q) s b ca) as [[[d|q'|] ca']|e|]; try exact H.
    destruct (walk_shards get f1 q' s ca') as [[t o]|] eqn:E; [|discriminate]. rewrite (IH f2 q' s ca' (t, o)) by (auto; lia). exact H.
  Qed.
  Lemma resolve0_more : forall f1 f2 h1 h2 c p follow total ca r, (f1 <= f2)%nat -> (h1 <= h2)%nat ->
    resolve0 get decode f1 h1 c p follow total ca = Some r -> resolve0 get decode f2 h2 c p follow total ca = Some r.
  Proof.
    induction f1 as [|f1 IH]; intros f2 h1 h2 c p follow total ca r Hf Hh H; [discriminate|]. destruct f2 as [|f2]; [lia|]. cbn [resolve0] in *.
    destruct (get c) as [data|]; [|exact H]. destruct (resolve_local decode c data p ca) as [[[[[n|src q needle] m] rest] ca']|e|]; try exact H.
    - destruct n; try exact H. destruct follow; [|exact H].
      destruct (resolve0 get decode f1 h1 dest rest true (total + m) ca') as [x|] eqn:E; [|discriminate]. rewrite (IH f2 h1 h2 _ _ _ _ _ x) by (auto; lia). exact H.
    - destruct (walk_shards get h1 q needle ca') as [[t o]|] eqn:Ew; [|discriminate]. rewrite (walk_more h1 h2 q needle ca' _ Hh Ew).
      destruct o as [[d ca2]|e|]; try exact H. destruct follow; [|exact H].
      destruct (resolve0 get decode f1 h1 d rest true (total + m) ca2) as [x|] eqn:E; [|discriminate]. rewrite (IH f2 h1 h2 _ _ _ _ _ x) by (auto; lia). exact H.
  Qed.

  (** * Termination *)
  Lemma step_shorter c p deep d q : link_step c p deep d q -> (length q < length p)%nat \/ (q = p /\ document c (Link d)).
  Proof.
    intros H. inversion H as [c0 b s r deep0 d0|c0 v q0 r d0 Hdoc Hat|c0 v q0 r d0]; subst; [left; cbn [length]; lia| |left; rewrite app_length; cbn [length]; lia].
    destruct q0 as [|s q0]; [right|left; rewrite app_length; cbn [length]; lia]. inversion Hat; subst. auto.
  Qed.
  Lemma resolve0_ends (rank : cid -> nat) (R : nat) : (forall c, (rank c <= R)%nat) -> (forall c d, document c (Link d) -> (rank d < rank c)%nat) ->
    forall fuel hfuel c p follow total ca, clean ca -> (length p * (R + 1) + rank c < fuel)%nat ->
    (forall c b s q ca ca', clean ca -> directory c b -> (exists links, shard b links) -> resolve b s ca = Ok (NeedToLoadMore q, ca') -> walk_shards get hfuel q s ca' <> None) ->
    exists docs shs o, resolve0 get decode fuel hfuel c p follow total ca = Some (docs, shs, o) /\ (length docs <= length p * (R + 1) + rank c + 1)%nat.
  Proof.
    intros HR Hrank. induction fuel as [|fuel IH]; intros hfuel c p follow total ca Hca Hfuel Hwalk; [lia|]. cbn [resolve0].
    destruct (get c) as [data|] eqn:Eg; [|eexists _, _, _; split; [reflexivity|cbn [length]; lia]].
    pose proof (resolve_local_spec get decode c data p ca Eg Hca) as HL.
    assert (Hmu : forall deep d q, link_step c p deep d q -> (length q * (R + 1) + rank d < length p * (R + 1) + rank c)%nat).
    { intros deep d q Hs. apply step_shorter in Hs as [Hs|[-> Hs]].
      - specialize (HR d). assert ((length q + 1) * (R + 1) <= length p * (R + 1))%nat by (apply Nat.mul_le_mono_r; lia). nia.
      - specialize (Hrank _ _ Hs). lia. }
    destruct (resolve_local decode c data p ca) as [[[[[n|src q needle] m] rest] ca']|e|]; try (eexists _, _, _; split; [reflexivity|cbn [length]; lia]).
    - destruct n as [x y|x y|x y|src d]; try (eexists _, _, _; split; [reflexivity|cbn [length]; lia]).
      destruct HL as (Hca' & -> & _ & Hstep & _). destruct follow; [|eexists _, _, _; split; [reflexivity|cbn [length]; lia]].
      specialize (Hmu _ _ _ Hstep). destruct (IH hfuel d rest true (total + m)%nat ca' Hca' ltac:(lia) Hwalk) as (docs & shs & o & -> & Hlen).
      cbn [option_map]. eexists _, _, _. split; [reflexivity|]. cbn [length]. lia.
    - destruct HL as (-> & -> & -> & -> & Hq & Hdir & Hres & links & Hsh & Hfr & Hno & Hbk).
      destruct (walk_shards get hfuel q needle None) as [[wl wo]|] eqn:Ew; [|exfalso; exact (Hwalk c data needle q ca None Hca Hdir (ex_intro _ links Hsh) Hres Ew)].
      pose proof (walk_after get data needle ca None q links hfuel wl wo Hsh Hca Hres (fun l Hl => proj1 (Hno l Hl)) Hq Hfr Ew) as HW.
      destruct wo as [[d ca2]|we|]; try (eexists _, _, _; split; [reflexivity|cbn [length]; lia]).
      destruct HW as [Hca2 Hent]. destruct follow; [|eexists _, _, _; split; [reflexivity|cbn [length]; lia]].
      specialize (Hmu _ _ _ (step_dir get decode c data needle rest true d Hdir Hent)).
      destruct (IH hfuel d rest true (total + 0)%nat ca2 Hca2 ltac:(lia) Hwalk) as (docs & shs & o & -> & Hlen).
      cbn [option_map]. eexists _, _, _. split; [reflexivity|]. cbn [length] in *. lia.
  Qed.
End Main.
