(** Lemmas about [FileVisit]: walking the blocks of a file tree. *)
From Coq Require Import Permutation.
From Verif Require Import Base Wire WireProofs Cid CidProofs Pb PbProofs FileSpec FileAdder
  FileAdderProofs FileTreeProofs FileVisit.
Local Open Scope N_scope.

(** ** The part of a content inside a target range *)

Definition cut_target (t : option range) (base : N) (l : bytes) : bytes :=
  match t with None => l | Some t => part (r_start t - base) (r_end t - base) l end.

Lemma part_app a b (l1 l2 : bytes) :
  part a b (l1 ++ l2) = part a b l1 ++ part (a - blen l1) (b - blen l1) l2.
Proof.
  unfold part, blen. rewrite firstn_app, skipn_app. f_equal.
  rewrite firstn_length.
  replace (N.to_nat (b - N.of_nat (length l1))) with (N.to_nat b - length l1)%nat by lia.
  destruct (le_lt_dec (N.to_nat b) (length l1)) as [H|H].
  - replace (N.to_nat b - length l1)%nat with 0%nat by lia. cbn [firstn]. rewrite !skipn_nil. reflexivity.
  - f_equal. lia.
Qed.

Lemma cut_target_app t base l1 l2 :
  cut_target t base (l1 ++ l2) = cut_target t base l1 ++ cut_target t (base + blen l1) l2.
Proof.
  destruct t as [[a b]|]; cbn [cut_target r_start r_end]; [|reflexivity].
  rewrite part_app. rewrite !N.sub_add_distr. reflexivity.
Qed.

Lemma part_empty a b l : (b <= a \/ blen l <= a \/ b = 0) -> part a b l = [].
Proof.
  unfold part, blen. intros H. apply skipn_all2. rewrite firstn_length. lia.
Qed.

Lemma part_full a b l : a = 0 -> blen l <= b -> part a b l = l.
Proof. unfold part, blen. intros -> H. rewrite firstn_all2 by lia. reflexivity. Qed.

Lemma not_in_target base e t l :
  in_target (mk_range base e) t = false -> e = base + blen l -> cut_target t base l = [].
Proof.
  destruct t as [[a b]|]; cbn [in_target cut_target r_start r_end]; [|discriminate].
  intros H E. apply part_empty. lia.
Qed.

Lemma firstn_skipn_part s e (l : bytes) :
  s <= e -> firstn (N.to_nat (e - s)) (skipn (N.to_nat s) l) = part s e l.
Proof.
  intros H. unfold part. rewrite firstn_skipn_comm.
  replace (N.to_nat s + N.to_nat (e - s))%nat with (N.to_nat e) by lia. reflexivity.
Qed.

Lemma part_min s e (l : bytes) : part s (N.min e (blen l)) l = part s e l.
Proof.
  unfold part, blen. destruct (N.le_ge_cases e (N.of_nat (length l))) as [H|H].
  - rewrite N.min_l by exact H. reflexivity.
  - rewrite N.min_r by exact H. rewrite !firstn_all2 by lia. reflexivity.
Qed.

Lemma maybe_slice_spec l base t :
  in_target (mk_range base (base + blen l)) t = true ->
  maybe_slice l (mk_range base (base + blen l)) t = Ok (cut_target t base l).
Proof.
  destruct t as [[a b]|]; cbn [maybe_slice cut_target r_start r_end]; [|reflexivity].
  intros H. unfold target_slice. rewrite H. cbn [negb r_start r_end].
  cbn [in_target r_start r_end] in H.
  destruct (N.ltb_spec a base) as [Ha|Ha].
  - unfold sub64. destruct (N.leb_spec base (N.min b (base + blen l))); [|lia].
    unfold slice. destruct (N.leb_spec 0 (N.min b (base + blen l) - base)); [|lia].
    destruct (N.leb_spec (N.min b (base + blen l) - base) (blen l)); [|lia]. cbn [andb].
    rewrite firstn_skipn_part by lia. f_equal. rewrite <- (part_min (a - base)).
    f_equal; lia.
  - destruct (N.ltb_spec (base + blen l) b) as [Hb|Hb].
    + unfold sub64. destruct (N.leb_spec base a); [|lia].
      destruct (N.leb_spec base (N.min b (base + blen l))); [|lia]. unfold slice.
      destruct (N.leb_spec (a - base) (N.min b (base + blen l) - base)); [|lia].
      destruct (N.leb_spec (N.min b (base + blen l) - base) (blen l)); [|lia]. cbn [andb].
      rewrite firstn_skipn_part by lia. f_equal. rewrite <- (part_min (a - base) (b - base)). f_equal. lia.
    + unfold sub64. destruct (N.leb_spec base a); [|lia]. destruct (N.leb_spec a b); [|lia].
      unfold slice. destruct (N.leb_spec (a - base) (a - base + (b - a))); [|lia].
      destruct (N.leb_spec (a - base + (b - a)) (blen l)); [|lia]. cbn [andb].
      rewrite firstn_skipn_part by lia. f_equal. f_equal. lia.
Qed.

(** ** Sizes of trees *)

Lemma sizeof_varint_le10 v : sizeof_varint v <= 10.
Proof. pose proof (sizeof_varint_le v). lia. Qed.

Section Walk.
Variable sha : bytes -> bytes.

Notation tlink := (tlink sha).
Notation tblock := (tblock sha).
Notation tblocks := (tblocks sha).
Notation fblocks := (fblocks sha).

Lemma blocks_size_app a b : blocks_size (a ++ b) = blocks_size a + blocks_size b.
Proof. unfold blocks_size. rewrite map_app, sumN_app. reflexivity. Qed.

Lemma blocks_size_perm a b : Permutation a b -> blocks_size a = blocks_size b.
Proof. unfold blocks_size. intros H. induction H; cbn [map sumN]; lia. Qed.

Lemma k_total_spec t : k_total (tlink t) = blocks_size (tblocks t).
Proof.
  induction t as [c|ts IH] using ftree_ind'.
  - cbn. unfold blocks_size. cbn. lia.
  - cbn [FileAdderProofs.tlink FileAdderProofs.tblocks]. unfold node_link, node_block. cbn [k_total].
    rewrite blocks_size_app. unfold blocks_size at 2. cbn [map snd sumN]. rewrite N.add_0_r. f_equal.
    induction IH as [|t ts Ht _ IHts]; [reflexivity|]. cbn [map sumN concat].
    rewrite blocks_size_app, IHts, Ht. reflexivity.
Qed.

Lemma blen_concat (l : list bytes) : blen (concat l) = sumN (map blen l).
Proof. induction l as [|x l IH]; [reflexivity|]. cbn [concat map sumN]. rewrite blen_app, IH. reflexivity. Qed.

Lemma k_file_spec t : k_file (tlink t) = blen (tcontent t).
Proof.
  induction t as [c|ts IH] using ftree_ind'; [reflexivity|].
  cbn [FileAdderProofs.tlink tcontent]. unfold node_link. cbn [k_file]. rewrite blen_concat.
  f_equal. rewrite !map_map. induction IH as [|t ts Ht _ IHts]; [reflexivity|].
  cbn [map]. rewrite Ht, IHts. reflexivity.
Qed.

Lemma k_target_spec t : k_target (tlink t) = fst (tblock t).
Proof. destruct t; reflexivity. Qed.

Lemma tblock_in t : In (tblock t) (tblocks t).
Proof. destruct t; cbn; [auto|]. apply in_or_app. right. left. reflexivity. Qed.

Lemma leaf_block_ge c : blen c <= blen (render (leaf_flat c)).
Proof.
  unfold render, flat_write, leaf_flat. cbn [f_links f_data map concat app].
  unfold w_msg, unixfs_write. cbn [u_data u_type u_filesize].
  destruct c as [|x c]; [cbn; lia|]. cbn [opt_write]. unfold w_bytes.
  rewrite !blen_app. lia.
Qed.

Lemma content_le_blocks t : blen (tcontent t) <= blocks_size (tblocks t).
Proof.
  induction t as [c|ts IH] using ftree_ind'.
  - cbn [tcontent FileAdderProofs.tblocks]. unfold blocks_size. cbn [map sumN snd leaf_block].
    pose proof (leaf_block_ge c). lia.
  - cbn [tcontent FileAdderProofs.tblocks]. rewrite blocks_size_app.
    assert (blen (concat (map tcontent ts)) <= blocks_size (concat (map tblocks ts))).
    { induction IH as [|t ts Ht _ IHts]; [cbn; lia|]. cbn [map concat].
      rewrite blen_app, blocks_size_app. lia. }
    lia.
Qed.

Hypothesis sha_wf : forall b, wf_cid (CidV0 (sha b)).

(** ** Blocks of trees parse to what was rendered *)

Definition tflat (t : ftree) : flat :=
  match t with Leaf c => leaf_flat c | Node ts => node_flat (map tlink ts) end.

Lemma tblock_render t : tblock t = (block_cid sha (render (tflat t)), render (tflat t)).
Proof. destruct t; reflexivity. Qed.

(** Every block of the tree parses back. *)
Inductive good : ftree -> Prop :=
| good_leaf : forall c, flat_parse (render (leaf_flat c)) = inl (leaf_flat c) -> good (Leaf c)
| good_node : forall ts, ts <> [] ->
    flat_parse (render (node_flat (map tlink ts))) = inl (node_flat (map tlink ts)) ->
    Forall good ts -> good (Node ts).

Lemma cid_v0_len b : blen (cid_to_bytes (block_cid sha b)) = 34.
Proof.
  unfold block_cid. cbn [cid_to_bytes]. rewrite !blen_cons.
  destruct (sha_wf b) as [H _]. unfold blen. rewrite H. reflexivity.
Qed.

Lemma link_wf t : blocks_size (tblocks t) < u64_max1 -> wf_pblink (link_pb (tlink t)).
Proof.
  intros H. unfold link_pb. rewrite k_total_spec. repeat split; cbn [l_hash l_name l_tsize opt_all].
  - unfold pblink_size. cbn [l_hash l_name l_tsize opt_size].
    rewrite k_target_spec, tblock_render. cbn [fst]. rewrite cid_v0_len.
    pose proof (sizeof_varint_le10 (blocks_size (tblocks t))).
    change (sizeof_len 34) with 35. change (sizeof_len (blen [])) with 1. unfold u32_max1. lia.
  - exact H.
Qed.

Section Small.
Variables chunk bf : nat.
Hypothesis chunk_small : N.of_nat chunk <= 2147483648.
Hypothesis bf_small : N.of_nat bf <= 268435456.

Lemma leaf_wf c : blen c <= N.of_nat chunk -> wf_flat (leaf_flat c).
Proof.
  intros H. split; [constructor|]. cbn [f_data leaf_flat]. split.
  - repeat split; cbn [u_data u_filesize u_blocksizes opt_all]; try constructor.
    + destruct c; cbn [opt_all]; [exact I|]. unfold u32_max1. lia.
    + unfold u64_max1. lia.
  - unfold unixfs_size. cbn [u_type u_data u_filesize u_blocksizes u_hashtype u_fanout u_mode u_mtime opt_size map sumN].
    pose proof (sizeof_varint_le10 (blen c)). pose proof (sizeof_varint_le10 (dtype_n TFile)).
    unfold u32_max1. destruct c as [|x c]; cbn [opt_size]; unfold sizeof_len.
    + lia.
    + lia.
Qed.

Lemma node_wf ts :
  N.of_nat (length ts) <= N.of_nat bf -> blocks_size (fblocks ts) < u64_max1 ->
  wf_flat (node_flat (map tlink ts)).
Proof.
  intros Hlen Hs.
  assert (Hsub : Forall (fun t => blocks_size (tblocks t) < u64_max1) ts).
  { clear Hlen. induction ts as [|t ts IH]; constructor; rewrite fblocks_cons, blocks_size_app in Hs; [lia|].
    apply IH. lia. }
  assert (Hfs : sumN (map k_file (map tlink ts)) < u64_max1).
  { apply N.le_lt_trans with (2 := Hs). clear. induction ts as [|t ts IH]; [cbn; lia|].
    cbn [map sumN]. rewrite fblocks_cons, blocks_size_app, k_file_spec.
    pose proof (content_le_blocks t). lia. }
  split; [|split]; cbn [f_links f_data node_flat].
  - clear - Hsub sha_wf. induction Hsub as [|t ts Ht _ IH]; cbn [map];
      [constructor|constructor; [apply link_wf; assumption|exact IH]].
  - repeat split; cbn [u_data u_filesize u_blocksizes opt_all]; try exact I; try exact Hfs.
    clear - Hsub. induction Hsub as [|t ts Ht _ IH]; cbn [map]; [constructor|constructor; [|exact IH]].
    rewrite k_file_spec. pose proof (content_le_blocks t). lia.
  - unfold unixfs_size. cbn [u_type u_data u_filesize u_blocksizes u_hashtype u_fanout u_mode u_mtime opt_size].
    pose proof (sizeof_varint_le10 (sumN (map k_file (map tlink ts)))).
    pose proof (sizeof_varint_le10 (dtype_n TFile)).
    assert (sumN (map (fun s => 1 + sizeof_varint s) (map k_file (map tlink ts))) <= 11 * blen ts).
    { clear. induction ts as [|t ts IH]; [cbn; lia|]. cbn [map sumN]. rewrite blen_cons.
      pose proof (sizeof_varint_le10 (k_file (tlink t))). lia. }
    unfold blen, u32_max1 in *. lia.
Qed.

Scheme shaped_mut := Minimality for shaped Sort Prop
  with shaped_list_mut := Minimality for shaped_list Sort Prop.

Lemma shaped_good last t :
  shaped chunk bf last t -> blocks_size (tblocks t) < u64_max1 -> good t.
Proof.
  intros H.
  apply (shaped_mut chunk bf
    (fun _ t => blocks_size (tblocks t) < u64_max1 -> good t)
    (fun _ ts => blocks_size (fblocks ts) < u64_max1 -> Forall good ts)) with (b := last); try exact H.
  - intros _ c Hl _ _. constructor. apply flat_roundtrip. apply leaf_wf. unfold blen. lia.
  - intros _ h ts Hn Hl _ _ _ IH Hs. cbn [FileAdderProofs.tblocks] in Hs.
    rewrite blocks_size_app in Hs. fold (fblocks ts) in Hs.
    constructor; [exact Hn| |apply IH; lia].
    apply flat_roundtrip. apply node_wf; lia.
  - intros _ t' _ IH Hs. unfold FileAdderProofs.fblocks in Hs. cbn in Hs. rewrite app_nil_r in Hs.
    constructor; [auto|constructor].
  - intros _ t1 t2 ts _ IH1 _ IH2 Hs. rewrite fblocks_cons, blocks_size_app in Hs.
    constructor; [apply IH1; lia|apply IH2; lia].
Qed.

End Small.

(** ** Walking a forest *)

Fixpoint pend (base : N) (ts : list ftree) : list (cid * range) :=
  match ts with
  | [] => []
  | t :: ts' => (fst (tblock t), mk_range base (base + blen (tcontent t)))
                :: pend (base + blen (tcontent t)) ts'
  end.

Definition keep (t : option range) (p : list (cid * range)) : list (cid * range) :=
  filter (fun x => in_target (snd x) t) p.

Definition fcontent (ts : list ftree) : bytes := concat (map tcontent ts).

Lemma fcontent_cons t ts : fcontent (t :: ts) = tcontent t ++ fcontent ts.
Proof. reflexivity. Qed.

Lemma pend_app base a b : pend base (a ++ b) = pend base a ++ pend (base + blen (fcontent a)) b.
Proof.
  revert base. induction a as [|t a IH]; intros base.
  - cbn. rewrite N.add_0_r. reflexivity.
  - cbn [app pend]. rewrite IH, fcontent_cons, blen_app, N.add_assoc. reflexivity.
Qed.

Lemma to_pending_spec nth base ts target :
  base + blen (fcontent ts) < u64_max1 ->
  to_pending nth base (map link_pb (map tlink ts)) (map k_file (map tlink ts)) target
  = Ok (keep target (pend base ts)).
Proof.
  revert nth base. induction ts as [|t ts IH]; intros nth base H; [reflexivity|].
  cbn [map to_pending pend]. rewrite fcontent_cons, blen_app in H.
  unfold add64. rewrite k_file_spec.
  destruct (N.ltb_spec (base + blen (tcontent t)) u64_max1); [|lia].
  unfold keep. cbn [filter snd].
  rewrite IH by lia. unfold link_pb. cbn [l_hash]. rewrite k_target_spec.
  rewrite tblock_render at 1. cbn [fst]. unfold block_cid at 1. rewrite cid_roundtrip by apply sha_wf.
  fold (keep target (pend (base + blen (tcontent t)) ts)).
  rewrite tblock_render. cbn [fst]. unfold block_cid.
  destruct (in_target (mk_range base (base + blen (tcontent t))) target); reflexivity.
Qed.

(** If a tree is in the target, so is one of its children. *)
Lemma keep_children base ts target :
  ts <> [] -> in_target (mk_range base (base + blen (fcontent ts))) target = true ->
  exists c rg r, keep target (pend base ts) = (c, rg) :: r
    /\ base <= r_start rg /\ r_end rg <= base + blen (fcontent ts).
Proof.
  revert base. induction ts as [|t ts IH]; intros base Hn Hin; [congruence|].
  rewrite fcontent_cons, blen_app in *. unfold keep. cbn [pend filter snd].
  destruct (in_target (mk_range base (base + blen (tcontent t))) target) eqn:E.
  - eexists _, _, _. split; [reflexivity|]. cbn. lia.
  - destruct target as [[a b]|]; [|discriminate]. cbn [in_target r_start r_end] in *.
    assert (Hts : ts <> []).
    { intros ->. unfold fcontent in Hin. cbn in Hin. rewrite N.add_0_r in Hin. congruence. }
    destruct (IH (base + blen (tcontent t)) Hts) as (c & rg & r & E1 & H1 & H2).
    + cbn [in_target r_start r_end]. lia.
    + exists c, rg, r. split; [exact E1|]. lia.
Qed.

Definition ready (st : traversal) (p : list (cid * range)) : Prop :=
  match p with [] => True | (_, rg) :: _ => check_next (tr_ending st) (tr_offset st) rg = None end.

(** After a leaf inside the target either the next tree is inside or none of the rest is. *)
Lemma keep_after base ts target :
  (forall a b, target = Some (mk_range a b) -> a <= base) ->
  match keep target (pend base ts) with
  | [] => cut_target target base (fcontent ts) = []
  | (_, rg) :: _ => r_start rg = base
  end.
Proof.
  revert base. induction ts as [|t ts IH]; intros base H.
  - cbn. destruct target as [[a b]|]; cbn; [|reflexivity]. apply part_empty. cbn. lia.
  - cbn [pend keep filter snd].
    destruct (in_target (mk_range base (base + blen (tcontent t))) target) eqn:E; [reflexivity|].
    fold (keep target (pend (base + blen (tcontent t)) ts)).
    destruct target as [[a b]|]; [|discriminate]. specialize (H a b eq_refl).
    cbn [in_target r_start r_end] in E.
    assert (Hb : b < base) by lia.
    assert (Hnone : forall l base', b < base' -> keep (Some (mk_range a b)) (pend base' l) = []).
    { clear. induction l as [|t l IH]; intros base' Hb; [reflexivity|].
      cbn [pend keep filter snd in_target r_start r_end].
      destruct (N.leb_spec (N.max base' a) (N.min (base' + blen (tcontent t)) b)); [lia|].
      apply IH. lia. }
    rewrite Hnone by lia. cbn [cut_target r_start r_end]. apply part_empty. lia.
Qed.

Fixpoint nodes (t : ftree) : nat :=
  match t with Leaf _ => 1 | Node ts => S (list_sum (map nodes ts)) end.
Definition fnodes (ts : list ftree) : nat := list_sum (map nodes ts).

Lemma fnodes_app a b : fnodes (a ++ b) = (fnodes a + fnodes b)%nat.
Proof. unfold fnodes. rewrite map_app, list_sum_app. reflexivity. Qed.

Lemma nodes_blocks t : length (tblocks t) = nodes t.
Proof.
  induction t as [c|ts IH] using ftree_ind'; [reflexivity|].
  cbn [FileAdderProofs.tblocks nodes]. rewrite app_length. cbn [length].
  enough (length (concat (map tblocks ts)) = list_sum (map nodes ts)) by lia.
  induction IH as [|t ts Ht _ IHts]; [reflexivity|]. cbn [map concat list_sum fold_right].
  rewrite app_length, Ht, IHts. reflexivity.
Qed.

Variable get : cid -> option bytes.
Definition has_all (bs : list (cid * bytes)) : Prop := forall c b, In (c, b) bs -> get c = Some b.

Lemma meta_leaf t : u_mode (f_data (tflat t)) = None /\ u_mtime (f_data (tflat t)) = None.
Proof. destruct t; split; reflexivity. Qed.

Lemma parts_leaf c base md :
  base + blen c < u64_max1 ->
  from_parts (leaf_flat c) base md
  = Ok (mk_reader base (Chunk (base + blen c)) [] c [] md (blen c)).
Proof.
  intros H. unfold from_parts, leaf_flat. cbn [f_data f_links u_type u_data u_filesize u_blocksizes
    u_hashtype u_fanout length dtype_eqb dtype_n].
  cbn [N.eqb Pos.eqb negb andb Nat.eqb].
  unfold add64. destruct (N.ltb_spec (base + blen c) u64_max1); [|lia].
  destruct c; reflexivity.
Qed.

Lemma parts_node ts base md :
  ts <> [] -> base + blen (fcontent ts) < u64_max1 ->
  from_parts (node_flat (map tlink ts)) base md
  = Ok (mk_reader base (TreeCoverage (base + blen (fcontent ts)))
          (map link_pb (map tlink ts)) [] (map k_file (map tlink ts)) md (blen (fcontent ts))).
Proof.
  intros Hn H. unfold from_parts, node_flat. cbn [f_data f_links u_type u_data u_filesize u_blocksizes
    u_hashtype u_fanout dtype_eqb dtype_n].
  rewrite !map_length, Nat.eqb_refl. cbn [N.eqb Pos.eqb negb andb].
  assert (E : sumN (map k_file (map tlink ts)) = blen (fcontent ts)).
  { unfold fcontent. rewrite blen_concat, !map_map. f_equal. apply map_ext. intros. apply k_file_spec. }
  rewrite E. destruct ts as [|t ts]; [congruence|]. cbn [map]. rewrite andb_false_r.
  unfold add64. destruct (N.ltb_spec (base + blen (fcontent (t :: ts))) u64_max1); [|lia]. reflexivity.
Qed.

Lemma walk fuel : forall ts base target st,
  (fnodes ts <= fuel)%nat -> Forall good ts -> has_all (fblocks ts) ->
  base + blen (fcontent ts) < u64_max1 ->
  keep target (pend base ts) <> [] -> ready st (keep target (pend base ts)) ->
  visit_loop fuel get (mk_visit (keep target (pend base ts)) target st)
  = ReadOk (cut_target target base (fcontent ts)).
Proof.
  induction fuel as [|fuel IH]; intros ts base target st Hf Hg Hget Hsz Hne Hr.
  - exfalso. destruct ts as [|t ts]; [apply Hne; reflexivity|]. destruct t; cbn in Hf; lia.
  - (* skip the trees outside of the target *)
    revert base Hf Hsz Hne Hr. induction ts as [|t ts IHts]; intros base Hf Hsz Hne Hr;
      [exfalso; apply Hne; reflexivity|].
    inversion Hg as [|? ? Hgt Hgts]; subst.
    assert (Hget' : has_all (fblocks ts)).
    { intros c b Hin. apply Hget. rewrite fblocks_cons. apply in_or_app. right. exact Hin. }
    rewrite fcontent_cons, blen_app in Hsz.
    assert (Hfn : fnodes (t :: ts) = (nodes t + fnodes ts)%nat) by reflexivity.
    rewrite fcontent_cons, cut_target_app.
    cbn [pend keep filter snd] in *.
    fold (keep target (pend (base + blen (tcontent t)) ts)) in *.
    destruct (in_target (mk_range base (base + blen (tcontent t))) target) eqn:Ein.
    2: { rewrite (not_in_target _ _ _ (tcontent t) Ein eq_refl). cbn [app].
         apply IHts; auto; try lia. }
    clear IHts Hne. cbn [ready] in Hr.
    cbn [visit_loop next_link v_pending].
    assert (Eg : get (fst (tblock t)) = Some (snd (tblock t))).
    { apply Hget. rewrite fblocks_cons. apply in_or_app. left.
      rewrite <- surjective_pairing. apply tblock_in. }
    rewrite Eg. unfold visit_continue. cbn [v_pending v_state v_range].
    unfold trav_continue. rewrite Hr. rewrite tblock_render. cbn [snd].
    destruct t as [c|cs]; cbn [tflat tcontent] in *.
    + inversion Hgt as [? HP|]; subst. rewrite HP. cbn [leaf_flat f_data u_mode u_mtime].
      fold (leaf_flat c). rewrite parts_leaf by (cbn [r_start]; lia).
      cbn [fr_links fr_data r_start]. rewrite maybe_slice_spec by exact Ein.
      pose proof (keep_after (base + blen c) ts target) as HK.
      specialize (HK ltac:(intros a b ->; cbn [in_target r_start r_end] in Ein; lia)).
      destruct (keep target (pend (base + blen c) ts)) as [|[c' rg] rest] eqn:EK.
      * rewrite HK, app_nil_r. reflexivity.
      * rewrite <- EK. rewrite (IH ts (base + blen c)); auto.
        -- cbn [nodes] in Hfn. lia.
        -- lia.
        -- rewrite EK. congruence.
        -- rewrite EK. cbn [ready tr_ending tr_offset traversal_of fr_end check_next].
           rewrite HK, N.eqb_refl. reflexivity.
    + inversion Hgt as [|? Hcs HP HF]; subst. rewrite HP. cbn [node_flat f_data u_mode u_mtime].
      fold (node_flat (map tlink cs)). fold (fcontent cs) in *.
      rewrite parts_node by (assumption || (cbn [r_start]; lia)).
      cbn [fr_links fr_blocksizes fr_offset r_start].
      destruct (map link_pb (map tlink cs)) as [|l0 ls0] eqn:EL.
      { destruct cs; [congruence|discriminate]. }
      rewrite <- EL. rewrite to_pending_spec by lia.
      destruct (keep_children base cs target Hcs Ein) as (c1 & rg1 & r1 & EK & H1 & H2).
      assert (EA : keep target (pend base cs) ++ keep target (pend (base + blen (fcontent cs)) ts)
                   = keep target (pend base (cs ++ ts))).
      { rewrite pend_app. unfold keep. rewrite filter_app. reflexivity. }
      rewrite EA. rewrite (IH (cs ++ ts) base).
      * f_equal. cbn [app]. rewrite <- cut_target_app. unfold fcontent. rewrite map_app, concat_app. reflexivity.
      * rewrite fnodes_app. cbn [nodes] in Hfn. fold (fnodes cs) in Hfn. lia.
      * apply Forall_app; split; assumption.
      * intros c b Hin. apply Hget. rewrite fblocks_app in Hin. rewrite fblocks_cons.
        cbn [FileAdderProofs.tblocks]. apply in_app_or in Hin as [Hin|Hin]; apply in_or_app; [left|right; exact Hin].
        apply in_or_app. left. exact Hin.
      * unfold fcontent in *. rewrite map_app, concat_app, blen_app. lia.
      * rewrite <- EA, EK. discriminate.
      * rewrite <- EA, EK. cbn [app ready traversal_of tr_ending tr_offset fr_end fr_offset check_next].
        destruct (N.ltb_spec (base + blen (fcontent cs)) (r_end rg1)); [lia|].
        rewrite !andb_false_r. destruct (N.ltb_spec (r_start rg1) base); [lia|reflexivity].
Qed.

Lemma read_tree fuel target t :
  (nodes t <= fuel)%nat -> good t -> has_all (tblocks t) -> blen (tcontent t) < u64_max1 ->
  read_file fuel get target (fst (tblock t)) = ReadOk (cut_target target 0 (tcontent t)).
Proof.
  intros Hf Hg Hget Hsz. unfold read_file.
  rewrite (Hget (fst (tblock t)) (snd (tblock t))) by (rewrite <- surjective_pairing; apply tblock_in).
  unfold visit_start, from_block. rewrite tblock_render. cbn [snd].
  destruct t as [c|cs]; cbn [tflat tcontent] in *.
  - inversion Hg as [? HP|]; subst. rewrite HP. rewrite parts_leaf by lia.
    cbn [fr_links fr_data].
    destruct (in_target (mk_range 0 (0 + blen c)) target) eqn:E.
    + change (mk_range 0 (blen c)) with (mk_range 0 (0 + blen c)). rewrite maybe_slice_spec by exact E.
      reflexivity.
    + rewrite (not_in_target _ _ _ _ E eq_refl). destruct target as [[a b]|]; [|discriminate].
      cbn [maybe_slice]. unfold target_slice. rewrite N.add_0_l in E. rewrite E. reflexivity.
  - inversion Hg as [|? Hcs HP HF]; subst. rewrite HP. fold (fcontent cs) in *.
    rewrite parts_node by (assumption || lia). cbn [fr_links fr_blocksizes fr_offset].
    destruct (map link_pb (map tlink cs)) as [|l0 ls0] eqn:EL.
    { destruct cs; [congruence|discriminate]. }
    rewrite <- EL. rewrite to_pending_spec by lia.
    destruct (in_target (mk_range 0 (0 + blen (fcontent cs))) target) eqn:E.
    + destruct (keep_children 0 cs target Hcs E) as (c1 & rg1 & r1 & EK & H1 & H2).
      rewrite EK. rewrite <- EK. rewrite walk.
      * reflexivity.
      * cbn [nodes] in Hf. fold (fnodes cs) in Hf. lia.
      * exact HF.
      * intros c b Hin. apply Hget. cbn [FileAdderProofs.tblocks]. apply in_or_app. left. exact Hin.
      * lia.
      * rewrite EK. discriminate.
      * rewrite EK. cbn [ready traversal_of tr_ending tr_offset fr_end fr_offset check_next].
        destruct (N.ltb_spec (0 + blen (fcontent cs)) (r_end rg1)); [lia|].
        rewrite !andb_false_r. destruct (N.ltb_spec (r_start rg1) 0); [lia|reflexivity].
    + rewrite (not_in_target _ _ _ _ E eq_refl).
      assert (HK : keep target (pend 0 cs) = []).
      { destruct target as [[a b]|]; [|discriminate]. cbn [in_target r_start r_end] in E.
        assert (G : forall l base, base + blen (fcontent l) = blen (fcontent cs) -> keep (Some (mk_range a b)) (pend base l) = []).
        { induction l as [|t l IHl]; intros base Hb; [reflexivity|].
          rewrite fcontent_cons, blen_app in Hb. cbn [pend keep filter snd in_target r_start r_end].
          destruct (N.leb_spec (N.max base a) (N.min (base + blen (tcontent t)) b)); [lia|].
          apply IHl. lia. }
        apply G. reflexivity. }
      rewrite HK. reflexivity.
Qed.

End Walk.
