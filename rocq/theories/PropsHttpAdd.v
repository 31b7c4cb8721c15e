(** C62: adding files and directories over HTTP, and C63: reading them back with /cat. *)
From Coq Require Import Permutation.
From Verif Require Import Base Wire WireProofs Cid CidProofs Pb PbProofs Ipld Text TextProofs FileSpec FileAdder FileAdderProofs FileTreeProofs FileVisit FileVisitProofs FileProps PropsFile
  BTree FMap IpfsPath PathSpec IpfsPathProofs DirLookup TreeBuilder TreeSpec TreeBuilderProofs TreeIter TreeIterSpec TreeIterProofs TreeIterMain TreeOutSpec
  TreeSizes TreeOut TreeRead TreeSteps PropsTree Resolve HttpAdd HttpAddSpec HttpAddProofs Cat HttpAddMain.
Local Open Scope N_scope.

(** * C62 *)

(** File names are percent decoded and lose one leading slash; anything not UTF-8 is refused. *)
Theorem c62_names raw name : decoded_name raw = Some name <-> names raw name.
Proof. apply decoded_name_spec. Qed.
Print Assumptions c62_names.
Example c62_names_case : names [47; 97; 37; 50; 102; 98; 37] [97; 47; 98; 37].
Proof. apply c62_names. reflexivity. Qed.

(** A request which ends well: every part asked for a file or a directory, every one of them could be
    put into the tree; stored were the blocks of the files in order, then the block of each directory
    of the tree; announced were the files, then the directories, the top one last.  No total
    overflows and no directory block is larger than 512 KiB. *)
Theorem c62_run sha chunk bf put_ok progress wrap cid_text fuel parts t :
  digest_fn sha -> (0 < chunk)%nat -> (2 <= bf)%nat ->
  add_stream sha chunk bf put_ok progress wrap cid_text fuel parts = (t, Done) ->
  exists asked dirs, all_ask parts asked /\ Forall (ask_fits sha chunk bf) asked /\
    results_of wrap default_limit (map (ask_call sha chunk bf) asked) = map (fun _ => Ok tt) asked /\
    built sha wrap (rev (map (ask_call sha chunk bf) asked)) dirs /\
    (forall q es, In (q, es) dirs ->
       dir_total es = blocks_below q dirs + links_below q (rev (map (ask_call sha chunk bf) asked)) /\
       dir_total es < 2 ^ 64 /\ blen (dir_block es) <= 524288) /\
    put_blocks t = concat (map (ask_blocks sha chunk bf) asked) ++ map (fun d => (dir_cid sha (snd d), dir_block (snd d))) dirs /\
    announced (messages t) = concat (map (ask_announced sha chunk bf cid_text) asked) ++ map (fun d => (join (fst d), dir_cid sha (snd d), dir_total (snd d))) dirs.
Proof.
  intros Hsha Hc Hb H. destruct (stream_facts sha Hsha chunk bf Hc Hb put_ok progress wrap cid_text fuel parts t Done H) as [_ G].
  destruct (G eq_refl) as (ds & dirs & D1 & D2 & D3 & D4 & D5 & D6 & D7). destruct (all_did_ask sha chunk bf progress cid_text parts ds D1) as (A1 & A2 & A3 & A4 & A5).
  rewrite A2 in *. exists (map ask_of ds), dirs. split; [exact A1|]. split; [exact A5|]. split; [rewrite D3; symmetry; apply map_const|]. split; [exact D4|]. split; [exact D5|].
  rewrite D6, D7, A3. split; [reflexivity|]. unfold announced in *. rewrite flat_map_app, A4. f_equal. clear. induction dirs as [|d dirs IH]; [reflexivity|]. cbn. f_equal. exact IH.
Qed.
Print Assumptions c62_run.

(** At any moment of any request, however it ends: a message is only sent when what it announces is
    stored, and it says what it is: a file of the request with all its blocks, or a directory all of
    whose entries were announced before. *)
Theorem c62_announced sha chunk bf put_ok progress wrap cid_text fuel parts t e t1 l t2 name c size :
  digest_fn sha -> (0 < chunk)%nat -> (2 <= bf)%nat ->
  add_stream sha chunk bf put_ok progress wrap cid_text fuel parts = (t, e) ->
  t = t1 ++ EItem l :: t2 -> In (AddedMsg name c size) l -> meant sha chunk bf cid_text parts t1 name c size.
Proof.
  intros Hsha Hc Hb H -> Hin. destruct (stream_facts sha Hsha chunk bf Hc Hb put_ok progress wrap cid_text fuel parts _ e H) as [G _].
  exact (sound_split sha chunk bf put_ok cid_text parts t1 l t2 G name c size Hin).
Qed.
Print Assumptions c62_announced.

(** The announced files are readable from what has been stored by then, whatever happens later. *)
Theorem c62_announced_file sha chunk bf put_ok progress wrap cid_text fuel parts t e t1 l t2 name c size get :
  digest_fn sha -> config_ok chunk bf ->
  add_stream sha chunk bf put_ok progress wrap cid_text fuel parts = (t, e) ->
  t = t1 ++ EItem l :: t2 -> In (AddedMsg name c size) l -> PropsFile.holds get (put_blocks t1) ->
  (exists p n content, In (Some p) parts /\ asks p (AskFile n content) /\ name = match n with [] => cid_text c | _ => n end /\
     forall k, (length (put_blocks t1) <= k)%nat -> read_file k get None c = ReadOk content) \/
  (exists es, c = dir_cid sha es /\ size = dir_total es /\ get c = Some (dir_block es) /\
     forall n c' s', In (n, (c', s')) es -> exists name', In (name', c', s') (announced (messages t1))).
Proof.
  intros Hsha (Hc & Hb & Hcs & Hbs) H Et Hin Hget.
  destruct (c62_announced sha chunk bf put_ok progress wrap cid_text fuel parts t e t1 l t2 name c size Hsha Hc Hb H Et Hin)
    as [(p & n & content & blocks & front & block & H1 & H2 & H3 & H4 & H5 & H6 & H7 & H8)|(es & H1 & H2 & H3 & H4 & H5)]; [left|right].
  - exists p, n, content. split; [exact H1|]. split; [exact H2|]. split; [exact H3|]. intros k Hk.
    assert (Hcont : content = concat (p_body p)) by (destruct H2 as (_ & field & raw & _ & _ & _ & -> & _); reflexivity).
    destruct H8 as [before H8]. destruct (last_root _ _ _ _ _ Hc Hb H4) as (tr & f3 & E3 & HP & HC & HS). rewrite H5 in E3. apply app_inj_tail in E3 as [_ E3].
    assert (Hsz : blocks_size (tblocks sha tr) < u64_max1) by (rewrite <- (blocks_size_perm _ _ HP), <- H6; exact H7).
    replace c with (fst (tblock sha tr)) by (rewrite <- E3; reflexivity).
    rewrite (read_tree sha Hsha get k None tr).
    + cbn [cut_target]. rewrite HC, Hcont. reflexivity.
    + rewrite <- (nodes_blocks sha), <- (Permutation_length HP). rewrite H8, app_length in Hk. lia.
    + apply (shaped_good sha Hsha chunk bf Hcs Hbs true); assumption.
    + intros c0 b0 H0. apply Hget. rewrite H8. apply in_or_app. right. eapply Permutation_in; [symmetry; exact HP|exact H0].
    + pose proof (content_le_blocks sha tr). lia.
  - exists es. split; [exact H1|]. split; [exact H2|]. split; [apply Hget; exact H4|exact H5].
Qed.
Print Assumptions c62_announced_file.

(** Progress: for each file in turn the reports, then its announcement, and nothing else; the reports
    of a file never decrease, tell the bytes read after some of the pieces, and end with the length of
    the file. *)
Theorem c62_progress sha chunk bf put_ok progress wrap cid_text fuel parts t :
  digest_fn sha -> (0 < chunk)%nat -> (2 <= bf)%nat ->
  add_stream sha chunk bf put_ok progress wrap cid_text fuel parts = (t, Done) ->
  exists ds dirs, Forall2 (fun o d => exists p, o = Some p /\ did_for sha chunk bf progress p d) parts ds /\
    messages t = concat (map (did_messages cid_text) ds) ++ map (fun d => AddedMsg (join (fst d)) (dir_cid sha (snd d)) (dir_total (snd d))) dirs.
Proof.
  intros Hsha Hc Hb H. destruct (stream_facts sha Hsha chunk bf Hc Hb put_ok progress wrap cid_text fuel parts t Done H) as [_ G].
  destruct (G eq_refl) as (ds & dirs & D1 & _ & _ & _ & _ & _ & D7). exists ds, dirs. split; [exact D1|exact D7].
Qed.
Print Assumptions c62_progress.

(** When the blocks can be stored, every request whose parts can all be put into the tree, none of
    whose files is exactly one chunk long, and whose sizes fit, ends well. *)
Theorem c62_completes_partial sha chunk bf progress wrap cid_text put_ok parts asked :
  digest_fn sha -> (0 < chunk)%nat -> (2 <= bf)%nat -> (forall k, put_ok k = true) ->
  all_ask parts asked -> Forall (ask_fits sha chunk bf) asked ->
  (forall name content, In (AskFile name content) asked -> length content <> chunk) ->
  results_of wrap default_limit (map (ask_call sha chunk bf) asked) = map (fun _ => Ok tt) asked ->
  (forall dirs q es, built sha wrap (rev (map (ask_call sha chunk bf) asked)) dirs -> In (q, es) dirs ->
     dir_total es < 2 ^ 64 /\ blen (dir_block es) <= 524288) ->
  exists n, forall fuel, (n <= fuel)%nat -> exists t,
    add_stream sha chunk bf put_ok progress wrap cid_text fuel parts = (t, Done).
Proof.
  intros Hsha Hc Hb Hput Hall Hfits Hone Hres Hdirs. set (calls := map (ask_call sha chunk bf) asked) in *.
  assert (Hone' : Forall (not_one_chunk chunk) asked).
  { apply Forall_forall. intros [name content|name] Hin; [exact (Hone _ _ Hin)|exact Logic.I]. }
  assert (Hcalls : do_calls (new_builder wrap default_limit) calls = (tree_of wrap default_limit calls, map (fun _ => Ok tt) asked)).
  { unfold tree_of, results_of in *. rewrite <- Hres. apply surjective_pairing. }
  assert (Hacc : accepted wrap calls = rev calls).
  { apply (accepted_all wrap default_limit calls (tree_of wrap default_limit calls)). rewrite Hcalls. f_equal. symmetry. apply map_const. }
  assert (Hwf : Forall call_wf calls).
  { apply Forall_forall. intros c Hin. apply in_map_iff in Hin as (a & <- & Ha). destruct a as [name content|name]; [|exact Logic.I].
    cbn [ask_call call_wf]. unfold content_blocks. destruct (c05_adder_completes_partial sha chunk bf [content] Hc Hb) as [out Eo]. rewrite Eo.
    destruct (last_root _ _ _ _ _ Hc Hb Eo) as (tr & f & E & _). rewrite E. unfold root_of. rewrite last_last, tblock_render. apply (digest_wf sha Hsha). }
  destruct (c36_build sha wrap default_limit calls (digest_wf sha Hsha) Hwf) as (dirs & B1 & _ & B3). rewrite Hacc in B1.
  destruct B3 as [B3 _].
  { intros q es Hin. apply (Hdirs dirs q es B1 Hin). }
  destruct B3 as [n Hn].
  { intros q es m Hin [= <-]. apply (Hdirs dirs q es B1 Hin). }
  exists n. intros fuel Hf. replace fuel with (n + (fuel - n))%nat by lia. unfold add_stream.
  destruct (parts_eval sha (digest_wf sha Hsha) chunk bf Hc Hb put_ok Hput progress cid_text parts asked Hall Hfits Hone' _ _ O Hcalls) as (t1 & n1 & E1).
  rewrite (bind_eval _ _ _ _ _ _ E1). rewrite Hn. destruct (nodes_eval sha put_ok Hput dirs n1) as (t2 & n2 & ->). eauto.
Qed.
Print Assumptions c62_completes_partial.

(** * Adding and then reading *)

(** What a reader asking for a part of a file gets. *)
Definition wanted (offset len : option N) (content : bytes) : option bytes :=
  match offset, len with
  | None, None => Some content
  | None, Some l => Some (FileSpec.part 0 l content)
  | Some s, Some l => if s + l <? 2 ^ 64 then Some (FileSpec.part s (s + l) content) else None
  | Some _, None => None
  end.

Lemma utf8_name raw name : names raw name -> utf8 name = true.
Proof.
  intros (d & _ & Hu & [->|[-> _]]); [|exact Hu]. unfold utf8 in *. cbn [length utf8_n] in Hu. exact Hu.
Qed.

Lemma read_asked sha chunk bf content get range k : digest_fn sha -> config_ok chunk bf -> blocks_size (content_blocks sha chunk bf content) < 2 ^ 64 ->
  PropsFile.holds get (content_blocks sha chunk bf content) -> (length (content_blocks sha chunk bf content) <= k)%nat ->
  read_file k get range (root_of (content_blocks sha chunk bf content)) = ReadOk (match range with None => content | Some r => FileSpec.part (r_start r) (r_end r) content end).
Proof.
  intros Hsha Hcfg Hsz Hget Hk. pose proof Hcfg as (Hc & Hb & _).
  destruct (c05_adder_completes_partial sha chunk bf [content] Hc Hb) as [out Eo]. unfold content_blocks in *. rewrite Eo in *.
  assert (Econ : concat [content] = content) by (cbn; apply app_nil_r).
  destruct range as [[a b]|].
  - destruct (c03_range_read sha chunk bf [content] out get k a b Hsha Hcfg Eo Hsz Hget Hk) as (f & r & bl & E & R). rewrite Econ in R.
    rewrite E at 1. unfold root_of. rewrite last_last. exact R.
  - destruct (c01_added_file_reads_back sha chunk bf [content] out get k Hsha Hcfg Eo Hsz Hget Hk) as (f & r & bl & E & R). rewrite Econ in R.
    rewrite E at 1. unfold root_of. rewrite last_last. exact R.
Qed.

(** Every file of a request which ended well can be read with its name below the hash announced last:
    with [wrap], the name as it is; otherwise without its first segment, which is the name announced
    last.  What comes is the content, or the part asked for. *)
Theorem c62_add_then_cat sha chunk bf put_ok progress wrap cid_text fuel parts t p name content :
  digest_fn sha -> config_ok chunk bf ->
  add_stream sha chunk bf put_ok progress wrap cid_text fuel parts = (t, Done) ->
  In (Some p) parts -> asks p (AskFile name content) -> name <> [] ->
  exists before top root size rel,
    announced (messages t) = before ++ [(top, root, size)] /\
    (if wrap then top = [] /\ rel = 47 :: name else name = top /\ rel = [] \/ exists r, name = top ++ 47 :: r /\ rel = 47 :: r) /\
    forall get decode other_base prefix offset len k hk,
      PropsFile.holds get (put_blocks t) -> (prefix = [] \/ prefix = at_ipfs) ->
      (length (put_blocks t) + length name < k)%nat ->
      forall wd, wanted offset len content = Some wd ->
      exists pieces, http_cat get decode other_base k hk (prefix ++ cid_to_text root ++ rel) offset len = Some (Ok (map Piece pieces, Some Ended)) /\
        concat pieces = wd.
Proof.
  intros Hsha Hcfg H Hp Hasks Hname. pose proof Hcfg as (Hc & Hb & _).
  destruct (c62_run sha chunk bf put_ok progress wrap cid_text fuel parts t Hsha Hc Hb H) as (asked & dirs & A1 & A2 & A3 & A4 & A5 & A6 & A7).
  set (calls := map (ask_call sha chunk bf) asked) in *.
  (* the part *)
  assert (Ha : In (AskFile name content) asked).
  { clear - A1 Hp Hasks. induction A1 as [|o a parts asked (p' & -> & Hp') _ IH]; [destruct Hp|]. destruct Hp as [[= ->]|Hp]; [|right; auto].
    left. eapply asks_fun; eassumption. }
  set (bl := content_blocks sha chunk bf content) in *. set (c := root_of bl). set (s := blocks_size bl).
  assert (Hcall : In (PutLink name c s) calls) by (apply in_map_iff; exists (AskFile name content); auto).
  assert (Hfit : blocks_size bl < 2 ^ 64) by (rewrite Forall_forall in A2; exact (A2 _ Ha)).
  (* the calls *)
  assert (Hok : snd (TreeSpec.accept wrap [] calls) = map (fun _ => Ok tt) calls).
  { rewrite <- (c35_results wrap default_limit calls), A3. unfold calls. symmetry. apply map_const. }
  assert (Hacc : accepted wrap calls = rev calls) by (unfold accepted; rewrite accept_all by exact Hok; apply app_nil_r).
  assert (Hu : Forall (fun c => utf8 (call_path c) = true) (rev calls)).
  { apply Forall_rev. apply Forall_forall. intros x Hx. apply in_map_iff in Hx as (a & <- & Hx). clear - A1 Hx.
    induction A1 as [|o a' parts asked (p' & -> & Hp') _ IH]; [destruct Hx|]. destruct Hx as [->|Hx]; [|auto].
    destruct Hp' as (_ & f & raw & _ & _ & Hp'). destruct a; destruct Hp' as [Hn _]; exact (utf8_name _ _ Hn). }
  assert (Hwf : Forall call_wf (rev calls)).
  { apply Forall_rev. apply Forall_forall. intros x Hin. apply in_map_iff in Hin as (a & <- & _). destruct a as [nm ct|nm]; [|exact Logic.I].
    cbn [ask_call call_wf]. unfold content_blocks. destruct (c05_adder_completes_partial sha chunk bf [ct] Hc Hb) as [out Eo]. rewrite Eo.
    destruct (last_root _ _ _ _ _ Hc Hb Eo) as (tr & f & E & _). rewrite E. unfold root_of. rewrite last_last, tblock_render. apply (digest_wf sha Hsha). }
  assert (Hsegs : Forall good_seg (split_slash name)).
  { apply in_split in Hcall as (l1 & l2 & Ec). exact (verdict_segs wrap _ _ (accept_verdicts wrap calls [] Hok l1 _ l2 Ec) Hname). }
  assert (Hlink : link_at (rev calls) (split_slash name) = Some (c, s)).
  { apply nodup_in_link; [rewrite <- Hacc; apply accept_puts; constructor|]. apply in_flat_map. exists (PutLink name c s). split; [rewrite <- in_rev; exact Hcall|left; reflexivity]. }
  (* its root block *)
  destruct (c05_adder_completes_partial sha chunk bf [content] Hc Hb) as [out Eo]. assert (Ebl : bl = out) by (unfold bl, content_blocks; rewrite Eo; reflexivity).
  destruct (last_root _ _ _ _ _ Hc Hb Eo) as (tr & f & E & _). rewrite tblock_render in E.
  set (data := render (tflat sha tr)) in *. assert (Ecid : c = CidV0 (sha data)) by (unfold c; rewrite Ebl, E; unfold root_of; rewrite last_last; reflexivity).
  assert (Hincl : forall x, In x bl -> In x (put_blocks t)).
  { intros x Hx. rewrite A6. apply in_or_app. left. apply in_concat. exists bl. split; [apply in_map_iff; exists (AskFile name content); auto|exact Hx]. }
  assert (Hlen : (length bl <= length (put_blocks t))%nat).
  { rewrite A6, app_length. enough (G : (length bl <= length (concat (map (ask_blocks sha chunk bf) asked)))%nat) by lia.
    apply in_split in Ha as (a1 & a2 & ->). rewrite map_app, concat_app, app_length. cbn [map concat ask_blocks]. rewrite app_length. fold bl. lia. }
  (* the common end: resolving gives the root block *)
  assert (Hend : forall get decode other_base prefix offset len k hk root segs,
    PropsFile.holds get (put_blocks t) -> (prefix = [] \/ prefix = at_ipfs) -> (length (put_blocks t) + length name < k)%nat -> wf_cid root -> Forall good_seg segs ->
    (exists docs shs, resolve0 get decode k hk root segs true 0 None = Some (docs, shs, Ok (NBlock c data, length segs))) ->
    forall wd, wanted offset len content = Some wd ->
    exists pieces, http_cat get decode other_base k hk (prefix ++ cid_to_text root ++ slashed segs) offset len = Some (Ok (map Piece pieces, Some Ended)) /\ concat pieces = wd).
  { intros get decode ob prefix offset len k hk root segs Hget Hpre Hk Hroot Hgood (docs & shs & Er) wd Hw.
    assert (Hparse : path_from_str ob (prefix ++ cid_to_text root ++ slashed segs) = Some (mk_path (IpfsPath.Ipld root) segs)).
    { apply parse_spec. exists prefix, (cid_to_text root), []. cbn [p_segs p_root]. rewrite app_nil_r. split; [reflexivity|].
      split; [apply (alnum_plain ob), cid_text_alnum|]. split; [exact Hgood|]. split; [left; reflexivity|]. split; [tauto|]. apply cid_text_roundtrip. exact Hroot. }
    unfold http_cat. rewrite Hparse. cbn [p_root p_segs].
    assert (Hcat : forall range pt, pt = match range with None => content | Some r => FileSpec.part (r_start r) (r_end r) content end ->
      exists pieces, cat get decode k hk root segs range = Some (Ok (map Piece pieces, Some Ended)) /\ concat pieces = pt).
    { intros range pt ->. unfold cat, dag_resolve. rewrite Er. rewrite Nat.leb_refl. unfold into_unixfs_block. cbn [source_of]. replace (cid_codec c) with codec_dagpb by (rewrite Ecid; reflexivity).
      replace (codec_dagpb =? codec_dagpb) with true by (symmetry; apply N.eqb_refl).
      assert (Hgd : get c = Some data).
      { apply Hget, Hincl. rewrite Ebl, E. apply in_or_app. right. left. rewrite Ecid. reflexivity. }
      assert (Hrd : read_file k get range c = ReadOk (match range with None => content | Some r => FileSpec.part (r_start r) (r_end r) content end)).
      { apply (read_asked sha chunk bf content get range k Hsha Hcfg Hfit); [|fold bl; lia]. intros c0 b0 H0. apply Hget, Hincl, H0. }
      destruct (cat_block_read get k range c data _ Hgd Hrd) as (ps & -> & Eps). eauto. }
    unfold range_of, wanted in *. destruct offset as [o|], len as [ln|]; try discriminate.
    - unfold add64. change (2 ^ 64) with u64_max1 in Hw. destruct (o + ln <? u64_max1); [|discriminate]. injection Hw as <-.
      destruct (Hcat (Some (mk_range o (o + ln))) _ eq_refl) as (ps & -> & Eps). eauto.
    - injection Hw as <-. destruct (Hcat (Some (mk_range 0 ln)) _ eq_refl) as (ps & -> & Eps). eauto.
    - injection Hw as <-. destruct (Hcat None _ eq_refl) as (ps & -> & Eps). eauto. }
  (* the directories *)
  assert (Hdirget : forall get, PropsFile.holds get (put_blocks t) -> forall q es, In (q, es) dirs -> get (dir_cid sha es) = Some (dir_block es) /\ blen (dir_block es) < 2 ^ 32 /\ dir_total es < 2 ^ 64).
  { intros get Hget q es Hin. destruct (A5 q es Hin) as (_ & H2 & H3). split; [|split; [|exact H2]].
    - apply Hget. rewrite A6. apply in_or_app. right. apply in_map_iff. exists (q, es). auto.
    - assert (524288 < 2 ^ 32) by reflexivity. lia. }
  assert (Hlast : forall l q es, dirs = l ++ [(q, es)] -> announced (messages t) = (concat (map (ask_announced sha chunk bf cid_text) asked) ++
      map (fun d => (join (fst d), dir_cid sha (snd d), dir_total (snd d))) l) ++ [(join q, dir_cid sha es, dir_total es)]).
  { intros l q es ->. rewrite A7, map_app, app_assoc. reflexivity. }
  assert (Hseglen : forall n, (length (split_slash n) <= S (length n))%nat).
  { intros n. destruct (split_inv n) as (x & l & -> & -> & _). rewrite app_length. cbn [length]. clear. induction l as [|y l IH]; [cbn; lia|]. rewrite slashed_cons. cbn [length]. rewrite app_length. lia. }
  assert (Hslash : forall n, slashed (split_slash n) = 47 :: n).
  { intros n. destruct (split_inv n) as (x & l & -> & Hn & _). rewrite slashed_cons. f_equal. symmetry. exact Hn. }
  pose proof A4 as (B1 & B2 & B3 & B4 & B5). destruct wrap.
  - destruct B5 as (l & es & Ed).
    { intros ->. destruct (proj2 (B1 []) eq_refl). }
    exists (concat (map (ask_announced sha chunk bf cid_text) asked) ++ map (fun d => (join (fst d), dir_cid sha (snd d), dir_total (snd d))) l), [], (dir_cid sha es), (dir_total es), (47 :: name).
    split; [apply (Hlast l [] es Ed)|]. split; [split; reflexivity|].
    intros get decode ob prefix offset len k hk Hget Hpre Hk wd Hw. rewrite <- (Hslash name).
    apply (Hend get decode ob prefix offset len k hk (dir_cid sha es) (split_slash name) Hget Hpre Hk); [apply (digest_wf sha Hsha)|exact Hsegs| |exact Hw].
    apply (resolve_chain sha Hsha get decode true (rev calls) dirs c s data hk A4 Hwf Hu (Hdirget get Hget)) with (q := []) (total := O).
    + apply Hget, Hincl. rewrite Ebl, E. apply in_or_app. right. left. rewrite Ecid. reflexivity.
    + rewrite Ed. apply in_or_app. right. left. reflexivity.
    + apply split_nonempty.
    + exact Hlink.
    + specialize (Hseglen name). assert (0 < length bl)%nat by (rewrite Ebl, E, app_length; cbn; lia). lia.
  - destruct (split_slash name) as [|x r] eqn:Es; [exfalso; exact (split_nonempty _ Es)|].
    assert (Hplain : Forall plain (x :: r)) by (apply good_plain in Hsegs; tauto). pose proof (Forall_inv Hplain) as Hx.
    destruct (split_inv name) as (x' & l' & Es' & Hn & _). rewrite Es in Es'. injection Es' as <- <-.
    destruct r as [|y r].
    + (* a single file *)
      assert (Enm : name = x) by (rewrite Hn; cbn; apply app_nil_r). subst x.
      assert (Ecalls : calls = [PutLink name c s]) by (apply (alone calls Hok name c s Hx Hcall)).
      assert (Easked : asked = [AskFile name content]).
      { unfold calls in Ecalls. destruct asked as [|a [|]]; try discriminate. destruct Ha as [->|[]]. reflexivity. }
      assert (Edirs : dirs = []).
      { destruct dirs as [|[q es] dirs]; [reflexivity|]. exfalso. assert (Hq : is_dir false (rev calls) q) by (apply B1; left; reflexivity).
        rewrite Ecalls in Hq. destruct q as [|z q]; [discriminate|]. unfold is_dir, dir_at in Hq. cbn [rev app existsb makes_dir] in Hq. rewrite orb_false_r in Hq.
        unfold proper_prefix in Hq. rewrite Es in Hq. cbn [seg_prefix seg_eqb] in Hq. destruct (beq z name); [|discriminate]. destruct q; discriminate. }
      subst asked dirs. exists [], name, c, s, []. split.
      { rewrite A7. cbn [map concat ask_announced app]. fold bl. fold c. fold s. destruct name; [congruence|reflexivity]. }
      split; [left; auto|]. intros get decode ob prefix offset len k hk Hget Hpre Hk wd Hw. rewrite app_nil_r.
      replace (cid_to_text c) with (cid_to_text c ++ slashed []) by apply app_nil_r.
      apply (Hend get decode ob prefix offset len k hk c [] Hget Hpre Hk); [rewrite Ecid; apply (digest_wf sha Hsha)|constructor| |exact Hw].
      apply resolve_end; [|lia]. apply Hget, Hincl. rewrite Ebl, E. apply in_or_app. right. left. rewrite Ecid. reflexivity.
    + (* below a directory *)
      assert (Hdir : is_dir false (rev calls) [x]).
      { cbn. unfold dir_at. apply existsb_exists. exists (PutLink name c s). split; [rewrite <- in_rev; exact Hcall|]. cbn [makes_dir]. unfold proper_prefix. rewrite Es.
        cbn [seg_prefix seg_eqb]. destruct (beq_spec x x); [reflexivity|congruence]. }
      assert (Hne : dirs <> []) by (intros ->; destruct (proj2 (B1 [x]) Hdir)).
      destruct (B5 Hne) as (l & es & x' & Ed).
      assert (x' = x) as ->.
      { assert (Hdx : is_dir false (rev calls) [x']) by (apply B1; rewrite Ed, map_app; apply in_or_app; right; left; reflexivity).
        cbn in Hdx. apply dir_at_call in Hdx as (c' & r' & Hc' & Ec'). destruct (accept_one_root calls [] ltac:(exists []; intros ? [])) as [z Hz].
        assert (Hz' : forall c0, In c0 (rev calls) -> exists r0, split_slash (call_path c0) = z :: r0) by (intros c0 H0; apply Hz; fold (accepted false calls); rewrite Hacc; exact H0).
        destruct (Hz' _ Hc') as [r1 E1]. rewrite E1 in Ec'. injection Ec' as -> _. rewrite in_rev in Hcall. destruct (Hz' _ Hcall) as [r2 E2]. cbn [call_path] in E2. congruence. }
      exists (concat (map (ask_announced sha chunk bf cid_text) asked) ++ map (fun d => (join (fst d), dir_cid sha (snd d), dir_total (snd d))) l), x, (dir_cid sha es), (dir_total es), (slashed (y :: r)).
      split; [apply (Hlast l [x] es Ed)|]. split; [right; exists (y ++ slashed r); rewrite slashed_cons in *; auto|].
      intros get decode ob prefix offset len k hk Hget Hpre Hk wd Hw.
      apply (Hend get decode ob prefix offset len k hk (dir_cid sha es) (y :: r) Hget Hpre Hk); [apply (digest_wf sha Hsha)|exact (Forall_inv_tail Hsegs)| |exact Hw].
      apply (resolve_chain sha Hsha get decode false (rev calls) dirs c s data hk A4 Hwf Hu (Hdirget get Hget)) with (q := [x]) (total := O).
      * apply Hget, Hincl. rewrite Ebl, E. apply in_or_app. right. left. rewrite Ecid. reflexivity.
      * rewrite Ed. apply in_or_app. right. left. reflexivity.
      * discriminate.
      * exact Hlink.
      * specialize (Hseglen name). rewrite Es in Hseglen. cbn [length] in *. lia.
Qed.
Print Assumptions c62_add_then_cat.

(** * Examples and findings for C62 *)
Definition a_part (field name type : bytes) (body : list bytes) : option part := Some (mk_part (Some field) (Some name) (Some type) body false).
Definition ex_cid_text (c : cid) : bytes := cid_to_text c.
(* "a/b", 3 bytes in two pieces; directory "a/c"; "%61/d", empty *)
Definition ex_parts : list (option part) :=
  [a_part s_file [97; 47; 98] s_octets [[1; 2]; [3]]; a_part s_dir [47; 97; 47; 99] s_directory []; a_part (s_file ++ [45; 50]) [37; 54; 49; 47; 100] s_octets []].
Definition ex_run (wrap progress : bool) (parts : list (option part)) :=
  add_stream toy_sha 2 2 (fun _ => true) progress wrap ex_cid_text 40 parts.

Example c62_case : forall wrap, exists t, ex_run wrap true ex_parts = (t, Done) /\ length (put_blocks t) = (if wrap then 7 else 6)%nat.
Proof. intros [|]; eexists; (split; [vm_compute; reflexivity|vm_compute; reflexivity]). Qed.
Example c62_case_asks : exists p, In (Some p) ex_parts /\ asks p (AskFile [97; 47; 98] [1; 2; 3]).
Proof.
  eexists. split; [left; reflexivity|]. split; [reflexivity|]. exists s_file, [97; 47; 98]. repeat split.
  - apply c62_names. reflexivity.
  - left. reflexivity.
Qed.
Example c62_case_cat : forall wrap, exists t root s before,
  ex_run wrap false ex_parts = (t, Done) /\ announced (messages t) = before ++ [(if wrap then [] else [97], root, s)] /\
  http_cat (assoc (put_blocks t)) (fun _ _ => Err tt) (fun _ _ => None) 20 0 (cid_to_text root ++ if wrap then [47; 97; 47; 98] else [47; 98]) (Some 1) (Some 5)
    = Some (Ok ([Piece [2]; Piece [3]], Some Ended)).
Proof.
  intros [|].
  - set (t := fst (ex_run true false ex_parts)). set (d := last (announced (messages t)) ([], CidV0 [], 0)).
    exists t, (snd (fst d)), (snd d), (removelast (announced (messages t))). split; [|split].
    + unfold t. vm_compute. reflexivity.
    + vm_compute. reflexivity.
    + vm_compute. reflexivity.
  - set (t := fst (ex_run false false ex_parts)). set (d := last (announced (messages t)) ([], CidV0 [], 0)).
    exists t, (snd (fst d)), (snd d), (removelast (announced (messages t))). split; [|split].
    + unfold t. vm_compute. reflexivity.
    + vm_compute. reflexivity.
    + vm_compute. reflexivity.
Qed.

(** Finding: a file exactly one chunk long makes the handler panic, whatever its content. *)
Theorem c62_one_chunk_refuted sha chunk bf progress wrap cid_text fuel (content : bytes) :
  digest_fn sha -> (0 < chunk)%nat -> (2 <= bf)%nat -> length content = chunk -> ask_fits sha chunk bf (AskFile [97] content) ->
  snd (add_stream sha chunk bf (fun _ => true) progress wrap cid_text fuel [a_part s_file [97] s_octets [content]]) = Early Crash.
Proof.
  intros Hsha Hc Hb Hl Hs. unfold add_stream, a_part. cbn [HttpAdd.add_parts]. unfold add_part. cbn [p_field p_filename p_type]. cbn [decoded_name percent_decode].
  replace (decoded_name [97]) with (Some [97 : N]) by reflexivity. destruct (beq_spec s_octets s_octets); [|congruence].
  unfold add_file_part. replace (field_ok s_file s_file) with true by reflexivity. cbn [negb p_body p_broken].
  destruct (finish_one_chunk sha chunk bf [content] ltac:(lia) Hb) as (s & bs & E1 & E2); [cbn; rewrite app_nil_r; exact Hl|].
  cbn [ask_fits] in Hs. unfold content_blocks, add_file in Hs. rewrite E1, E2, app_nil_r in Hs. change (2 ^ 64) with u64_max1 in Hs.
  destruct (loop_eval sha (digest_wf sha Hsha) chunk bf (fun _ => true) progress cid_text [97] [content] (fun _ => eq_refl) adder0 0 0 O s bs E1 ltac:(lia)) as (t1 & n1 & El).
  { destruct (add_file_tree sha chunk bf [content] ltac:(lia) Hb) as (t' & out & F1 & F2 & _ & F3 & _). unfold add_file in F1. rewrite E1, E2, app_nil_r in F1. injection F1 as <-.
    pose proof (content_le_blocks sha t') as G. rewrite F3 in G. rewrite <- (blocks_size_perm _ _ F2) in G. lia. }
  unfold bind at 1. unfold bind at 1. unfold bind at 1. rewrite El. rewrite E2. cbn. reflexivity.
Qed.
Print Assumptions c62_one_chunk_refuted.
Example c62_one_chunk_case : ask_fits toy_sha 2 2 (AskFile [97] [5; 6]).
Proof. vm_compute. reflexivity. Qed.

(** Finding: a file without a name added with [wrap] is not in the directory under the name announced
    for it; its entry has the empty name, which no path reaches. *)
Theorem c62_unnamed_refuted : exists t root s n c k,
  ex_run true false [a_part s_file [] s_octets [[7]]] = (t, Done) /\ announced (messages t) = [(n, c, k); ([], root, s)] /\ n = cid_to_text c /\
  (exists e, http_cat (assoc (put_blocks t)) (fun _ _ => Err tt) (fun _ _ => None) 20 0 (cid_to_text root ++ 47 :: n) None None = Some (Err (NotFoundPath e))) /\
  http_cat (assoc (put_blocks t)) (fun _ _ => Err tt) (fun _ _ => None) 20 0 (cid_to_text root ++ [47]) None None = Some (Err IsDirectory).
Proof.
  set (t := fst (ex_run true false [a_part s_file [] s_octets [[7]]])). set (l := announced (messages t)). set (x := hd ([], CidV0 [], 0) l). set (y := last l ([], CidV0 [], 0)).
  exists t, (snd (fst y)), (snd y), (fst (fst x)), (snd (fst x)), (snd x). split; [unfold t; vm_compute; reflexivity|]. split; [vm_compute; reflexivity|]. split; [vm_compute; reflexivity|].
  split; [|vm_compute; reflexivity]. eexists. vm_compute. reflexivity.
Qed.
Print Assumptions c62_unnamed_refuted.

(** Finding: a directory after a file in it is refused, although the same request in the other order
    is fine. *)
Theorem c62_order_refuted : exists p q t1 t2,
  ex_run false false [p; q] = (t1, Done) /\ ex_run false false [q; p] = (t2, Early (Broken (TreeGathering TooManyRootLevelEntries))).
Proof. exists (a_part s_dir [97] s_directory []), (a_part s_file [97; 47; 98] s_octets [[1]]). eexists _, _. split; vm_compute; reflexivity. Qed.
Print Assumptions c62_order_refuted.

(** Finding: the documentation of [Response::Progress] says that the reports of a file add up to its
    size; they are totals. *)
Theorem c62_progress_refuted : exists t,
  ex_run false true [a_part s_file [97] s_octets [[1; 2]; [3; 4]; [5]]] = (t, Done) /\
  firstn 3 (messages t) = [Progress [97] 2; Progress [97] 4; Progress [97] 5].
Proof. eexists. split; vm_compute; reflexivity. Qed.
Print Assumptions c62_progress_refuted.

(** Finding: an error does not undo anything: the blocks of the files before it stay stored, although
    no hash of the tree was announced. *)
Theorem c62_leftover_refuted : exists t e, ex_run true false [a_part s_file [97] s_octets [[1]]; a_part s_file [97] s_octets [[2]]] = (t, Early (Broken e)) /\
  length (put_blocks t) = 2%nat /\ length (announced (messages t)) = 1%nat.
Proof. eexists _, _. split; [vm_compute; reflexivity|]. split; reflexivity. Qed.
Print Assumptions c62_leftover_refuted.

