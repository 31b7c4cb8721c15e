(** Remaining lemmas about files: stored shape, divergence with a branching factor of one, and what
    can panic on arbitrary blocks. *)
From Coq Require Import Permutation.
From Verif Require Import Base Wire WireProofs Cid CidProofs Pb PbProofs FileSpec FileAdder
  FileAdderProofs FileTreeProofs FileVisit FileVisitProofs.
Local Open Scope N_scope.

(** ** The stored shape *)

Section Stored.
Variable sha : bytes -> bytes.
Hypothesis sha_wf : forall b, wf_cid (CidV0 (sha b)).
Variables chunk bf : nat.
Hypothesis chunk_small : N.of_nat chunk <= 2147483648.
Hypothesis bf_small : N.of_nat bf <= 268435456.
Variable get : cid -> option bytes.

Lemma tblock_cid t :
  cid_from_bytes (cid_to_bytes (fst (tblock sha t))) = Some (fst (tblock sha t)).
Proof. rewrite tblock_render. cbn [fst]. apply cid_roundtrip. apply sha_wf. Qed.

Lemma shaped_stored last t :
  shaped chunk bf last t -> blocks_size (tblocks sha t) < u64_max1 -> has_all get (tblocks sha t) ->
  stored_file get chunk bf last (fst (tblock sha t)) (height t) (tcontent t) (blocks_size (tblocks sha t)).
Proof.
  intros H.
  apply (shaped_mut chunk bf
    (fun last t => blocks_size (tblocks sha t) < u64_max1 -> has_all get (tblocks sha t) ->
       stored_file get chunk bf last (fst (tblock sha t)) (height t) (tcontent t)
         (blocks_size (tblocks sha t)))
    (fun last ts => forall h, level_of h ts ->
       blocks_size (fblocks sha ts) < u64_max1 -> has_all get (fblocks sha ts) ->
       stored_children get chunk bf last (map link_pb (map (tlink sha) ts)) h (map tcontent ts)
         (map (fun t => blocks_size (tblocks sha t)) ts))) with (b := last) (f := t); try exact H.
  - intros last' c Hl Hf Hs Hget. cbn [tblocks tblock height tcontent].
    replace (blocks_size [leaf_block sha c]) with (blen (render (leaf_flat c)))
      by (unfold blocks_size; cbn [map sumN snd leaf_block]; lia).
    eapply stored_leaf with (f := leaf_flat c); try reflexivity; auto.
    + apply Hget. left. reflexivity.
    + apply flat_roundtrip. eapply (leaf_wf sha sha_wf chunk bf); auto. unfold blen. lia.
    + destruct c; reflexivity.
  - intros last' h ts Hn Hl Hfull Hlev Hsh IH Hs Hget.
    rewrite (height_node h) by assumption. cbn [tblock tcontent].
    cbn [tblocks] in *. rewrite blocks_size_app in *. fold (fblocks sha ts) in *.
    replace (blocks_size (fblocks sha ts) + blocks_size [node_block sha (map (tlink sha) ts)])
      with (blen (render (node_flat (map (tlink sha) ts)))
            + sumN (map (fun t => blocks_size (tblocks sha t)) ts)).
    2: { unfold blocks_size at 3. cbn [map sumN snd node_block]. rewrite N.add_0_r, N.add_comm. f_equal.
         clear. induction ts as [|t ts IH]; [reflexivity|]. cbn [map sumN].
         rewrite fblocks_cons, blocks_size_app, IH. reflexivity. }
    eapply stored_node with (f := node_flat (map (tlink sha) ts)); try reflexivity.
    + apply Hget. apply in_or_app. right. left. reflexivity.
    + apply flat_roundtrip. eapply (node_wf sha sha_wf chunk bf); auto; lia.
    + cbn [node_flat f_data u_filesize]. f_equal. rewrite blen_concat, !map_map. f_equal.
      apply map_ext. intros. apply k_file_spec.
    + cbn [node_flat f_data u_blocksizes]. rewrite !map_map. apply map_ext. intros. apply k_file_spec.
    + cbn [node_flat f_links]. rewrite !map_length. destruct ts; [congruence|]. cbn [length] in *. lia.
    + cbn [node_flat f_links]. rewrite !map_length. exact Hfull.
    + cbn [node_flat f_links]. rewrite !map_map. apply map_ext. intros. cbn [link_pb l_tsize].
      f_equal. apply k_total_spec.
    + apply IH; auto; [lia|]. intros c b Hin. apply Hget. apply in_or_app. left. exact Hin.
  - intros last' t' Hsh IH h Hlev Hs Hget. inversion Hlev; subst. cbn [map].
    unfold fblocks in Hs, Hget. cbn [map concat] in Hs, Hget. rewrite app_nil_r in *.
    eapply stored_one; [|apply IH; assumption].
    cbn [link_pb l_hash]. rewrite k_target_spec. apply tblock_cid.
  - intros last' t1 t2 ts Hsh1 IH1 Hsh2 IH2 h Hlev Hs Hget. inversion Hlev; subst.
    rewrite fblocks_cons, blocks_size_app in Hs.
    cbn [map]. eapply stored_more.
    + cbn [link_pb l_hash]. rewrite k_target_spec. apply tblock_cid.
    + apply IH1; [lia|]. intros c b Hin. apply Hget. rewrite fblocks_cons. apply in_or_app. auto.
    + apply IH2; auto; [lia|]. intros c b Hin. apply Hget. rewrite fblocks_cons. apply in_or_app. auto.
Qed.

End Stored.

(** ** Branching factor one *)

Section One.
Variable sha : bytes -> bytes.

Lemma cut_one {A} (l : list A) : cut 1 l = map (fun x => [x]) l.
Proof.
  induction l as [|x l IH]; [reflexivity|]. rewrite cut_step by congruence. cbn [firstn skipn map].
  rewrite IH. reflexivity.
Qed.

Lemma flush_one_diverges fuel : forall level ts ret,
  (2 <= length ts)%nat -> level_of level ts ->
  flush_levels sha fuel 1 true level (map (tlink sha) ts) ret = FlushFuel.
Proof.
  induction fuel as [|fuel IH]; intros level ts ret Hl Hlev; cbn [flush_levels];
    rewrite map_length, andb_false_r, orb_false_r, andb_true_r;
    destruct (Nat.eqb_spec (length ts) 1); try lia; [reflexivity|].
  change (map (tlink sha) ts) with ([] ++ map (tlink sha) ts).
  rewrite flush_level_finish; [|lia|cbn [app]; lia|destruct ts; cbn in *; [lia|congruence]|constructor|exact Hlev].
  cbn [app]. apply IH.
  - unfold group. rewrite map_length, cut_one, map_length. exact Hl.
  - apply group_level; [lia|exact Hlev].
Qed.

(** [finish] given a number of levels it may work through. *)
Definition finish_within (fuel bf : nat) (s : adder) : add_res (list (cid * bytes)) :=
  let '(links, leaf) := flush_leaf sha (a_buf s) (a_links s) true in
  match flush_levels sha fuel bf true 0 links [] with
  | FlushDone _ r => Added (opt_list leaf ++ r)
  | FlushPanic => AddPanic
  | FlushFuel => AddFuel
  end.

Lemma finish_one_diverges chunk slices :
  (0 < chunk)%nat -> (chunk < length (concat slices))%nat ->
  exists s bs, push_slices sha chunk 1 adder0 slices = Added (s, bs)
    /\ forall fuel, finish_within fuel 1 s = AddFuel.
Proof.
  intros Hc Hlong. rewrite push_slices_spec by (cbn; lia).
  unfold pushed. cbn [a_buf a_links adder0 app].
  pose proof (splits_spec sha chunk (concat slices) ltac:(lia)) as (Hfull & Hrest & Hcat).
  destruct (splits chunk (concat slices)) as [cs rest]. cbn [fst snd] in *.
  destruct (feed_between sha chunk 1 cs [] [] [] ltac:(lia) ltac:(lia) Hfull (between_nil sha chunk 1))
    as (links & bs & E & HB).
  rewrite E. cbn [app] in HB. destruct HB as (n1 & l0 & -> & H1 & H0 & Hle & Hemp & Hs1 & Hs0 & HC & HP).
  eexists _, _. split; [reflexivity|]. intros fuel. unfold finish_within. cbn [a_buf a_links].
  assert (HF : exists l0' leaf,
    flush_leaf sha rest (map (tlink sha) (n1 ++ l0)) true = (map (tlink sha) (n1 ++ l0'), leaf)
    /\ level_of 0 l0' /\ l0' <> [] /\ (2 <= length (n1 ++ l0'))%nat).
  { assert (Hlc : forall l, Forall (shaped chunk 1 false) l -> Forall (fun t => length (tcontent t) = chunk) l).
    { clear. intros l H. induction H as [|t l Ht _ IH]; constructor; [|exact IH].
      apply (shaped_mut chunk 1 (fun last t => last = false -> length (tcontent t) = chunk)
        (fun last ts => last = false -> (length ts = 1)%nat -> length (concat (map tcontent ts)) = chunk))
        with (b := false); try exact Ht; try reflexivity.
      - auto.
      - intros last h ts _ _ Hl _ _ IHl El. subst. apply IHl; auto.
      - intros last t0 _ IHt El _. cbn. rewrite app_nil_r. auto.
      - intros. cbn in *. lia. }
    assert (Hlen : length (concat (map tcontent (n1 ++ l0))) = (chunk * length (n1 ++ l0))%nat).
    { assert (HA : Forall (fun t => length (tcontent t) = chunk) (n1 ++ l0)).
      { apply Forall_app. split; apply Hlc; assumption. }
      clear - HA. induction HA as [|t l Ht _ IH]; [cbn; lia|]. cbn [map concat length].
      rewrite app_length, IH, Ht. lia. }
    rewrite HC in Hlen.
    assert (Htot : (chunk * length (n1 ++ l0) + length rest = length (concat slices))%nat).
    { rewrite <- Hlen, <- Hcat. symmetry. apply app_length. }
    assert (Hl0 : l0 <> []).
    { intros ->. rewrite (Hemp eq_refl) in *. cbn in Htot. lia. }
    destruct rest as [|x r].
    - exists l0, None. repeat split; auto.
      + unfold flush_leaf. destruct (map (tlink sha) (n1 ++ l0)) eqn:Em; [|reflexivity].
        apply map_eq_nil, app_eq_nil in Em as [_ Em]. congruence.
      + cbn [length] in Htot. nia.
    - set (rest := x :: r) in *.
      exists (l0 ++ [Leaf rest]), (Some (leaf_block sha rest)). repeat split.
      + unfold flush_leaf, rest. fold rest. rewrite !map_app, <- app_assoc. reflexivity.
      + apply Forall_app. split; [exact H0|]. constructor; [reflexivity|constructor].
      + destruct l0; discriminate.
      + rewrite !app_length. destruct l0; [congruence|]. cbn [length]. lia. }
  destruct HF as (l0' & leaf & EL & Hlev & Hne & H2). rewrite EL.
  enough (HD : flush_levels sha fuel 1 true 0 (map (tlink sha) (n1 ++ l0')) [] = FlushFuel).
  { rewrite HD. reflexivity. }
  destruct fuel as [|fuel]; cbn [flush_levels];
    rewrite map_length, andb_false_r, orb_false_r, andb_true_r;
    destruct (Nat.eqb_spec (length (n1 ++ l0')) 1); try lia; [reflexivity|].
  rewrite map_app, flush_level_finish.
  - rewrite <- map_app. apply flush_one_diverges.
    + rewrite app_length in *. unfold group. rewrite map_length, cut_one, map_length. exact H2.
    + apply Forall_app. split; [exact H1|]. apply group_level; [lia|exact Hlev].
  - lia.
  - rewrite app_length. lia.
  - exact Hne.
  - clear - H1. induction H1 as [|t l Hx _ IH]; cbn [map]; [constructor|constructor; [|exact IH]].
    rewrite k_depth_tlink, Hx. congruence.
  - exact Hlev.
Qed.

End One.

(** ** Arbitrary blocks *)

(** The declared sizes of a parsed block, added to [base], reach 2^64. *)
Definition sizes_overflow (base : N) (f : flat) : Prop :=
  u64_max1 <= base + sumN (u_blocksizes (f_data f))
  \/ u64_max1 <= base + match u_filesize (f_data f) with
                        | Some n => n
                        | None => match u_data (f_data f) with Some d => blen d | None => 0 end
                        end.

(** A block without links that has no file size. *)
Definition lacks_filesize (f : flat) : Prop := f_links f = [] /\ u_filesize (f_data f) = None.

Lemma from_parts_panic f base md :
  from_parts f base md = Panic -> lacks_filesize f \/ sizes_overflow base f.
Proof.
  unfold from_parts, lacks_filesize, sizes_overflow.
  destruct (negb _ && negb _); [discriminate|].
  destruct (negb _); [discriminate|].
  destruct (_ && _ && _); [discriminate|].
  destruct (u_hashtype (f_data f)); [discriminate|].
  destruct (u_fanout (f_data f)); [discriminate|].
  destruct (f_links f) as [|l ls].
  - destruct (u_filesize (f_data f)) as [fs|].
    + unfold add64. destruct (N.ltb_spec (base + fs) u64_max1); [discriminate|]. auto.
    + auto.
  - destruct (u_filesize (f_data f)) as [fs|]; [|discriminate].
    unfold add64. destruct (N.ltb_spec (base + fs) u64_max1); [discriminate|]. auto.
Qed.

Lemma from_parts_ok f base md fr :
  from_parts f base md = Ok fr ->
  fr_links fr = f_links f /\ fr_blocksizes fr = u_blocksizes (f_data f) /\ fr_offset fr = base
  /\ fr_data fr = match u_data (f_data f) with Some d => d | None => [] end
  /\ length (f_links f) = length (u_blocksizes (f_data f)).
Proof.
  unfold from_parts.
  destruct (negb _ && negb _); [discriminate|].
  destruct (Nat.eqb_spec (length (f_links f)) (length (u_blocksizes (f_data f)))); [|discriminate].
  cbn [negb].
  destruct (_ && _ && _); [discriminate|].
  destruct (u_hashtype (f_data f)); [discriminate|].
  destruct (u_fanout (f_data f)); [discriminate|].
  intros H.
  repeat match goal with
  | H : context [match ?x with _ => _ end] |- _ => destruct x; try discriminate
  end; injection H as <-; cbn; auto.
Qed.

Lemma to_pending_panic nth base ls sizes t :
  to_pending nth base ls sizes t = Panic -> u64_max1 <= base + sumN sizes.
Proof.
  revert nth base sizes. induction ls as [|l ls IH]; intros nth base sizes; cbn; [discriminate|].
  destruct sizes as [|sz sizes]; [discriminate|]. cbn [sumN]. unfold add64.
  destruct (N.ltb_spec (base + sz) u64_max1); [|intros _; lia].
  destruct (in_target _ t).
  - destruct (cid_from_bytes _); [|discriminate].
    destruct (to_pending (S nth) (base + sz) ls sizes t) eqn:E; try discriminate.
    intros _. apply IH in E. lia.
  - intros E. apply IH in E. lia.
Qed.

Lemma visit_start_panic t block :
  visit_start t block = Panic ->
  exists f, flat_parse block = inl f /\ (lacks_filesize f \/ sizes_overflow 0 f).
Proof.
  unfold visit_start, from_block. destruct (flat_parse block) as [f|e] eqn:EP; [|discriminate].
  intros H. exists f. split; [reflexivity|].
  destruct (from_parts f 0 (meta_of (f_data f))) as [fr| |] eqn:EF; [|discriminate|].
  2: { eapply from_parts_panic; eauto. }
  pose proof (from_parts_ok _ _ _ _ EF) as (E1 & E2 & E3 & E4 & E5).
  destruct (fr_links fr) as [|l ls] eqn:EL.
  - exfalso. destruct (in_target (mk_range 0 (0 + blen (fr_data fr))) t) eqn:Ein.
    + pose proof (maybe_slice_spec (fr_data fr) 0 t Ein) as HM. rewrite N.add_0_l in HM.
      rewrite HM in H. discriminate.
    + rewrite N.add_0_l in Ein. destruct t as [t|]; [|discriminate]. cbn [maybe_slice] in H.
      unfold target_slice in H. rewrite Ein in H. discriminate.
  - rewrite <- EL in H.
    destruct (to_pending 0 (fr_offset fr) (fr_links fr) (fr_blocksizes fr) t) as [[|]| |] eqn:ET;
      try discriminate.
    right. left. apply to_pending_panic in ET. rewrite E3, E2 in ET. exact ET.
Qed.

(** The leaf content does not have the length its parent declared. *)
Definition wrong_length (rg : range) (f : flat) : Prop :=
  f_links f = []
  /\ r_end rg <> r_start rg + match u_data (f_data f) with Some d => blen d | None => 0 end.

Lemma visit_continue_panic v c rg rest block :
  v_pending v = (c, rg) :: rest ->
  visit_continue v block = Panic ->
  exists f, flat_parse block = inl f
    /\ (lacks_filesize f \/ sizes_overflow (r_start rg) f
        \/ (v_range v <> None /\ wrong_length rg f)).
Proof.
  intros EV. unfold visit_continue. rewrite EV. unfold trav_continue.
  destruct (check_next _ _ rg); [discriminate|].
  destruct (flat_parse block) as [f|e] eqn:EP; [|discriminate].
  intros H. exists f. split; [reflexivity|].
  destruct (u_mode (f_data f)); [discriminate|]. destruct (u_mtime (f_data f)); [discriminate|].
  destruct (from_parts f (r_start rg) _) as [fr| |] eqn:EF; [|discriminate|].
  2: { apply from_parts_panic in EF. tauto. }
  pose proof (from_parts_ok _ _ _ _ EF) as (E1 & E2 & E3 & E4 & E5).
  destruct (fr_links fr) as [|l ls] eqn:EL.
  - right. right. destruct (v_range v) as [t|] eqn:ER.
    2: { cbn [maybe_slice] in H. destruct rest; discriminate. }
    split; [congruence|]. split; [auto|]. intros Heq.
    assert (Hrg : rg = mk_range (r_start rg) (r_start rg + blen (fr_data fr))).
    { destruct rg as [s e]. cbn [r_start r_end] in *. f_equal. rewrite E4, Heq.
      destruct (u_data (f_data f)); reflexivity. }
    destruct (in_target rg (Some t)) eqn:Ein.
    + rewrite Hrg in H, Ein. rewrite (maybe_slice_spec _ _ _ Ein) in H. destruct rest; discriminate.
    + cbn [maybe_slice] in H. unfold target_slice in H. rewrite Ein in H. cbn in H. destruct rest; discriminate.
  - right. left. left. rewrite <- EL in H.
    destruct (to_pending 0 (fr_offset fr) (fr_links fr) (fr_blocksizes fr) (v_range v)) eqn:ET;
      try discriminate.
    apply to_pending_panic in ET. rewrite E3, E2 in ET. exact ET.
Qed.

(** ** Reported sizes *)

Lemma start_reports sha t target :
  (forall b, wf_cid (CidV0 (sha b))) -> good sha t -> blen (tcontent t) < u64_max1 ->
  exists c v, visit_start target (snd (tblock sha t))
              = Ok (c, blen (tcontent t), mk_meta None None, v).
Proof.
  intros Hw Hg Hsz. unfold visit_start, from_block. rewrite tblock_render. cbn [snd].
  destruct t as [c|cs]; cbn [tflat tcontent] in *.
  - inversion Hg as [? HP|]; subst. rewrite HP. rewrite (parts_leaf sha Hw) by lia. cbn [fr_links fr_data].
    destruct (in_target (mk_range 0 (0 + blen c)) target) eqn:E.
    + change (mk_range 0 (blen c)) with (mk_range 0 (0 + blen c)). rewrite maybe_slice_spec by exact E.
      eexists _, _. reflexivity.
    + destruct target as [[a b]|]; [|discriminate].
      cbn [maybe_slice]. unfold target_slice. rewrite N.add_0_l in E. rewrite E.
      eexists _, _. reflexivity.
  - inversion Hg as [|? Hcs HP HF]; subst. rewrite HP. fold (fcontent cs) in *.
    rewrite parts_node by (assumption || lia). cbn [fr_links fr_blocksizes fr_offset].
    destruct (map link_pb (map (tlink sha) cs)) as [|l0 ls0] eqn:EL.
    { destruct cs; [congruence|discriminate]. }
    rewrite <- EL. rewrite to_pending_spec by (assumption || lia).
    destruct (keep target (pend sha 0 cs)); eexists _, _; reflexivity.
Qed.

(** ** HTTP add *)

Lemma http_add_spec sha chunk bf slices :
  (0 < chunk)%nat -> (2 <= bf)%nat -> length (concat slices) <> chunk ->
  exists out front root block,
    add_file sha chunk bf slices = Added out /\ out = front ++ [(root, block)]
    /\ http_add sha chunk bf slices = Added (root, blocks_size out).
Proof.
  intros Hc Hb Hn.
  destruct (add_parts sha chunk bf slices ltac:(lia) Hb) as (t & s & bs & fs & E1 & E2 & Hz & H).
  cbv zeta in H. unfold add_file, http_add. rewrite E1, E2.
  destruct (exists_last (l := fs) ltac:(tauto)) as (f0 & [root block] & Ef).
  exists (bs ++ fs), (bs ++ f0), root, block. split; [reflexivity|].
  split; [rewrite Ef, app_assoc; reflexivity|].
  unfold import_all. rewrite Ef, rev_app_distr. cbn [rev app].
  unfold blocks_size. rewrite !map_app, !sumN_app. reflexivity.
Qed.

Lemma http_add_one_chunk sha chunk bf slices :
  (0 < chunk)%nat -> (2 <= bf)%nat -> length (concat slices) = chunk ->
  http_add sha chunk bf slices = AddPanic.
Proof.
  intros Hc Hb Hn.
  destruct (finish_one_chunk sha chunk bf slices ltac:(lia) Hb Hn) as (s & bs & E1 & E2).
  unfold http_add. rewrite E1, E2. reflexivity.
Qed.
