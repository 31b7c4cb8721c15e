(** C63: reading files with /cat from any block store. *)
From Verif Require Import Base Wire WireProofs Cid CidProofs Pb PbProofs Ipld Text TextProofs FileSpec FileAdder FileAdderProofs FileTreeProofs FileVisit FileVisitProofs FileProps PropsFile
  BTree FMap IpfsPath PathSpec IpfsPathProofs DirLookup TreeBuilder TreeSpec TreeBuilderProofs TreeIter TreeIterSpec TreeIterProofs TreeIterMain TreeOutSpec
  TreeSizes TreeOut TreeRead PropsTree Resolve Cat HttpAdd HttpAddSpec HttpAddProofs HttpAddMain PropsHttpAdd.
Local Open Scope N_scope.

(** The bytes of a stream, and the trouble at its end. *)
Definition delivered (items : list cat_item) : bytes := concat (map (fun i => match i with Piece b => b | Trouble _ => [] end) items).
Definition troubles (items : list cat_item) : list traversal_failed := flat_map (fun i => match i with Piece _ => [] | Trouble e => [e] end) items.

Lemma delivered_app a b : delivered (a ++ b) = delivered a ++ delivered b.
Proof. unfold delivered. rewrite map_app, concat_app. reflexivity. Qed.
Lemma delivered_piece b : delivered (piece b) = b.
Proof. destruct b as [|x b]; [reflexivity|]. cbn. rewrite app_nil_r. reflexivity. Qed.
Lemma troubles_app a b : troubles (a ++ b) = troubles a ++ troubles b.
Proof. apply flat_map_app. Qed.
Lemma troubles_piece b : troubles (piece b) = [].
Proof. destruct b; reflexivity. Qed.

(** What a stream looks like. *)
Definition well_formed (get : cid -> option bytes) (items : list cat_item) (e : option cat_end) : Prop :=
  exists ps tail, items = map Piece ps ++ tail /\ Forall (fun b => b <> []) ps /\
    (tail = [] \/ e = Some Ended /\ ((exists c, tail = [Trouble (Loading c)] /\ get c = None) \/
      exists c x, tail = [Trouble (Walking c x)] /\ get c <> None)).
Lemma well_formed_piece get b items e : well_formed get items e -> well_formed get (piece b ++ items) e.
Proof.
  intros (ps & tail & -> & H1 & H2). destruct b as [|x b]; [exists ps, tail; auto|]. exists ((x :: b) :: ps), tail. split; [reflexivity|].
  split; [constructor; [discriminate|exact H1]|exact H2].
Qed.
Lemma well_formed_nil get e : well_formed get [] e.
Proof. exists [], []. split; [reflexivity|]. split; [constructor|left; reflexivity]. Qed.

Section Cat.
Variable get : cid -> option bytes.
Lemma cat_loop_wf fuel : forall v, let (items, e) := cat_loop get fuel v in well_formed get items e.
Proof.
  induction fuel as [|fuel IH]; intros v; cbn [cat_loop]; [apply well_formed_nil|].
  destruct (next_link v) as [c|]; [|apply well_formed_nil]. destruct (get c) as [data|] eqn:Eg.
  - destruct (visit_continue v data) as [[b [v'|]]|x|].
    + specialize (IH v'). destruct (cat_loop get fuel v') as [l e]. apply well_formed_piece. exact IH.
    + rewrite <- (app_nil_r (piece b)). apply well_formed_piece, well_formed_nil.
    + exists [], [Trouble (Walking c x)]. split; [reflexivity|]. split; [constructor|]. right. split; [reflexivity|]. right. exists c, x. split; [reflexivity|congruence].
    + apply well_formed_nil.
  - exists [], [Trouble (Loading c)]. split; [reflexivity|]. split; [constructor|]. right. split; [reflexivity|]. left. exists c. auto.
Qed.
Lemma cat_block_wf fuel range c data items e : cat_block get fuel range c data = Ok (items, e) -> well_formed get items e.
Proof.
  unfold cat_block. destruct (visit_start range data) as [[[[b size] md] [v|]]|x|]; try discriminate.
  - pose proof (cat_loop_wf fuel v) as H. destruct (cat_loop get fuel v) as [l e']. intros [= <- <-]. apply well_formed_piece. exact H.
  - intros [= <- <-]. rewrite <- (app_nil_r (piece b)). apply well_formed_piece, well_formed_nil.
Qed.
End Cat.

(** Every stream is a run of non-empty pieces, followed by at most one error, which is the last thing
    sent: a block which could not be had, or one which is no continuation of the file. *)
Theorem c63_stream get decode other_base fuel hfuel arg offset len items e :
  http_cat get decode other_base fuel hfuel arg offset len = Some (Ok (items, e)) -> well_formed get items e.
Proof.
  unfold http_cat. destruct (path_from_str other_base arg) as [[[c|c|c] segs]|]; cbn [p_root p_segs]; [|destruct (range_of offset len); discriminate|destruct (range_of offset len); discriminate|discriminate].
  destruct (range_of offset len) as [range|x|]; try discriminate.
  unfold cat. destruct (dag_resolve get decode fuel hfuel c segs true) as [[[n rest]|x|]|]; try discriminate.
  destruct (into_unixfs_block n) as [[c' data]|u|]; try discriminate.
  destruct (cat_block get fuel range c' data) as [[l e']|x|] eqn:E; try discriminate. intros [= <- <-]. eapply cat_block_wf; exact E.
Qed.
Print Assumptions c63_stream.

(** * More blocks, more bytes *)
Section Mono.
Variables get get' : cid -> option bytes.
Hypothesis Hget : forall c b, get c = Some b -> get' c = Some b.
Variable decode : cid -> bytes -> outcome ipld unit.

(** [l'] continues [l]: the same when [l] ended well. *)
Definition continues (l l' : cat_stream) : Prop :=
  (exists rest, delivered (fst l') = delivered (fst l) ++ rest) /\ (troubles (fst l) = [] -> snd l <> None -> l' = l).
Lemma continues_piece b l e l' e' : continues (l, e) (l', e') -> continues (piece b ++ l, e) (piece b ++ l', e').
Proof.
  intros [[rest Hr] Hs]. cbn [fst snd] in *. split; cbn [fst snd].
  - exists rest. rewrite !delivered_app, Hr, app_assoc. reflexivity.
  - rewrite troubles_app, troubles_piece. intros Ht He. injection (Hs Ht He) as -> ->. reflexivity.
Qed.
Lemma continues_refl l : continues l l.
Proof. split; [exists []; symmetry; apply app_nil_r|reflexivity]. Qed.

Lemma cat_loop_mono fuel : forall fuel' v, (fuel <= fuel')%nat -> continues (cat_loop get fuel v) (cat_loop get' fuel' v).
Proof.
  induction fuel as [|fuel IH]; intros fuel' v Hf; [split; [eexists; reflexivity|cbn; congruence]|].
  destruct fuel' as [|fuel']; [lia|]. cbn [cat_loop]. destruct (next_link v) as [c|]; [|apply continues_refl].
  destruct (get c) as [data|] eqn:Eg; [rewrite (Hget _ _ Eg)|split; [eexists; reflexivity|cbn; discriminate]].
  destruct (visit_continue v data) as [[b [v'|]]|x|]; try apply continues_refl.
  specialize (IH fuel' v' ltac:(lia)). destruct (cat_loop get fuel v'), (cat_loop get' fuel' v'). apply continues_piece. exact IH.
Qed.
Lemma cat_block_mono fuel fuel' range c data l : (fuel <= fuel')%nat -> cat_block get fuel range c data = Ok l ->
  exists l', cat_block get' fuel' range c data = Ok l' /\ continues l l'.
Proof.
  intros Hf. unfold cat_block. destruct (visit_start range data) as [[[[b size] md] [v|]]|x|]; try discriminate.
  - pose proof (cat_loop_mono fuel fuel' v Hf) as H. destruct (cat_loop get fuel v), (cat_loop get' fuel' v). intros [= <-]. eexists. split; [reflexivity|]. apply continues_piece. exact H.
  - intros [= <-]. eexists. split; [reflexivity|apply continues_refl].
Qed.
Lemma walk_mono fuel : forall fuel' q needle ca t r, (fuel <= fuel')%nat -> walk_shards get fuel q needle ca = Some (t, Ok r) -> walk_shards get' fuel' q needle ca = Some (t, Ok r).
Proof.
  induction fuel as [|fuel IH]; intros fuel' q needle ca t r Hf; cbn [walk_shards]; [destruct q; discriminate|].
  destruct fuel' as [|fuel']; [lia|]. cbn [walk_shards]. destruct q as [|next q]; [discriminate|].
  destruct (get next) as [b|] eqn:Eg; [rewrite (Hget _ _ Eg)|discriminate].
  destruct (continue_walk (next :: q) needle b ca) as [[[c|q'|] ca']|x|]; try discriminate; [auto|].
  destruct (walk_shards get fuel q' needle ca') as [[t' o]|] eqn:Ew; cbn [option_map]; [|discriminate]. intros [= <- ->].
  rewrite (IH fuel' _ _ _ _ _ ltac:(lia) Ew). reflexivity.
Qed.
Lemma resolve0_mono fuel : forall fuel' hfuel hfuel' c segs follow total ca docs shs r, (fuel <= fuel')%nat -> (hfuel <= hfuel')%nat ->
  resolve0 get decode fuel hfuel c segs follow total ca = Some (docs, shs, Ok r) -> resolve0 get' decode fuel' hfuel' c segs follow total ca = Some (docs, shs, Ok r).
Proof.
  induction fuel as [|fuel IH]; intros fuel' hfuel hfuel' c segs follow total ca docs shs r Hf Hh; [discriminate|]. destruct fuel' as [|fuel']; [lia|]. cbn [resolve0].
  destruct (get c) as [data|] eqn:Eg; [rewrite (Hget _ _ Eg)|discriminate].
  assert (Hnext : forall src dest rest k ca' shards, (if follow then option_map (fun '(docs, shs, o) => (c :: docs, shards ++ shs, o)) (resolve0 get decode fuel hfuel dest rest follow k ca')
      else Some ([c], shards, Ok (NLink src dest, k))) = Some (docs, shs, Ok r) ->
    (if follow then option_map (fun '(docs, shs, o) => (c :: docs, shards ++ shs, o)) (resolve0 get' decode fuel' hfuel' dest rest follow k ca')
      else Some ([c], shards, Ok (NLink src dest, k))) = Some (docs, shs, Ok r)).
  { intros src dest rest k ca' shards. destruct follow; [|auto].
    destruct (resolve0 get decode fuel hfuel dest rest true k ca') as [[[d1 s1] o]|] eqn:E; cbn [option_map]; [|discriminate]. intros [= <- <- ->].
    rewrite (IH fuel' hfuel hfuel' _ _ _ _ _ _ _ _ ltac:(lia) Hh E). reflexivity. }
  destruct (resolve_local decode c data segs ca) as [[[[[n|src q needle] m] rest] ca']|x|]; try discriminate.
  - destruct n; auto.
  - destruct (walk_shards get hfuel q needle ca') as [[t [[dest ca'']|x|]]|] eqn:Ew; try discriminate. rewrite (walk_mono hfuel hfuel' _ _ _ _ _ Hh Ew). apply Hnext.
Qed.
End Mono.

(** What is delivered from a store holding only some of the blocks, or within fewer steps, is the
    beginning of what is delivered when there are more; and when it ended without trouble, it is
    everything. *)
Theorem c63_prefix get get' decode other_base fuel fuel' hfuel hfuel' arg offset len items e :
  (forall c b, get c = Some b -> get' c = Some b) -> (fuel <= fuel')%nat -> (hfuel <= hfuel')%nat ->
  http_cat get decode other_base fuel hfuel arg offset len = Some (Ok (items, e)) ->
  exists items' e', http_cat get' decode other_base fuel' hfuel' arg offset len = Some (Ok (items', e')) /\
    (exists rest, delivered items' = delivered items ++ rest) /\
    (troubles items = [] -> e <> None -> items' = items /\ e' = e).
Proof.
  intros Hget Hf Hh. unfold http_cat.
  destruct (path_from_str other_base arg) as [[[c|c|c] segs]|]; cbn [p_root p_segs]; [|destruct (range_of offset len); discriminate|destruct (range_of offset len); discriminate|discriminate].
  destruct (range_of offset len) as [range|x|]; try discriminate.
  unfold cat, dag_resolve. destruct (resolve0 get decode fuel hfuel c segs true 0 None) as [[[docs shs] [[n k]|x|]]|] eqn:Er; try discriminate;
    [|unfold with_path; destruct x; try discriminate; destruct (truncated _ _); discriminate].
  rewrite (resolve0_mono get get' Hget decode fuel fuel' hfuel hfuel' _ _ _ _ _ _ _ _ Hf Hh Er).
  destruct (k <=? @length seg segs)%nat; [|discriminate]. destruct (into_unixfs_block n) as [[c' data]|u|]; try discriminate.
  destruct (cat_block get fuel range c' data) as [l|x|] eqn:E; try discriminate. intros [= ->].
  destruct (cat_block_mono get get' Hget decode fuel fuel' range c' data _ Hf E) as ([items' e'] & -> & Hp & Hs). cbn [fst snd] in *.
  exists items', e'. split; [reflexivity|]. split; [exact Hp|]. intros H1 H2. injection (Hs H1 H2) as -> ->. auto.
Qed.
Print Assumptions c63_prefix.

(** Reading what is not there or not a file gives an error, not an empty file: the directories of an
    added tree. *)
Theorem c63_directory sha chunk bf put_ok progress wrap cid_text fuel parts t before name root size get decode other_base prefix k hk :
  digest_fn sha -> config_ok chunk bf ->
  add_stream sha chunk bf put_ok progress wrap cid_text fuel parts = (t, Done) ->
  announced (messages t) = before ++ [(name, root, size)] ->
  (wrap = true \/ exists p d, In (Some p) parts /\ asks p (AskDir d)) ->
  PropsFile.holds get (put_blocks t) -> (prefix = [] \/ prefix = at_ipfs) ->
  http_cat get decode other_base (S k) hk (prefix ++ cid_to_text root) None None = Some (Err IsDirectory).
Proof.
  intros Hsha Hcfg H Hlast Hdir Hget Hpre. pose proof Hcfg as (Hc & Hb & _).
  destruct (c62_run sha chunk bf put_ok progress wrap cid_text fuel parts t Hsha Hc Hb H) as (asked & dirs & A1 & A2 & A3 & A4 & A5 & A6 & A7).
  set (calls := map (ask_call sha chunk bf) asked) in *.
  assert (Hne : exists l q es, dirs = l ++ [(q, es)]).
  { destruct dirs as [|d0 dirs0] eqn:Ed using rev_ind; [exfalso|destruct d0 as [q es]; eauto]. pose proof A4 as (B1 & _).
    destruct Hdir as [->|(p & d & Hp & Hd)]; [destruct (proj2 (B1 []) eq_refl)|].
    assert (Hin : In (AskDir d) asked).
    { clear - A1 Hp Hd. induction A1 as [|o a parts asked (p' & -> & Hp') _ IH]; [destruct Hp|]. destruct Hp as [[= ->]|Hp]; [|right; auto]. left. eapply asks_fun; eassumption. }
    destruct (proj2 (B1 (split_slash d))). unfold is_dir. destruct (split_slash d) eqn:Es; [exfalso; exact (split_nonempty _ Es)|]. rewrite <- Es.
    unfold dir_at. apply existsb_exists. exists (SetMetadata d meta0). split; [rewrite <- in_rev; apply in_map_iff; exists (AskDir d); auto|]. cbn [makes_dir]. apply seg_prefix_spec. exists []. symmetry. apply app_nil_r. }
  destruct Hne as (l & q & es & ->). rewrite A7, map_app, app_assoc in Hlast. cbn [map fst snd] in Hlast. apply app_inj_tail in Hlast as [_ Hlast]. injection Hlast as <- <- <-.
  assert (Hin : In (q, es) (l ++ [(q, es)])) by (apply in_or_app; right; left; reflexivity).
  destruct (A5 q es Hin) as (_ & Htot & Hlen).
  assert (Hgd : get (dir_cid sha es) = Some (dir_block es)).
  { apply Hget. rewrite A6. apply in_or_app. right. apply in_map_iff. exists (q, es). auto. }
  assert (Hparse : path_from_str other_base (prefix ++ cid_to_text (dir_cid sha es)) = Some (mk_path (IpfsPath.Ipld (dir_cid sha es)) [])).
  { apply parse_spec. exists prefix, (cid_to_text (dir_cid sha es)), []. cbn [p_segs p_root slashed map concat]. rewrite !app_nil_r. split; [reflexivity|].
    split; [apply (alnum_plain other_base), cid_text_alnum|]. split; [constructor|]. split; [left; reflexivity|]. split; [tauto|]. apply cid_text_roundtrip, (digest_wf sha Hsha). }
  unfold http_cat. rewrite Hparse. cbn [p_root p_segs range_of]. unfold cat, dag_resolve. cbn [resolve0]. rewrite Hgd. cbn [resolve_local length Nat.leb skipn].
  unfold into_unixfs_block. cbn [source_of]. replace (cid_codec (dir_cid sha es) =? codec_dagpb) with true by reflexivity.
  unfold cat_block, visit_start, from_block.
  assert (Hfacts : Forall (fun e => wf_cid (fst (snd e)) /\ utf8 (fst e) = true) es).
  { apply Forall_forall. intros [n [c0 s0]] He. cbn [fst snd]. apply (entry_facts sha (digest_wf sha Hsha) wrap (rev calls) (l ++ [(q, es)]) q es n c0 s0); try assumption.
    - apply Forall_rev. apply Forall_forall. intros x Hx. apply in_map_iff in Hx as (a & <- & _). destruct a as [nm ct|nm]; [|exact Logic.I].
      cbn [ask_call call_wf]. unfold content_blocks. destruct (c05_adder_completes_partial sha chunk bf [ct] Hc Hb) as [out Eo]. rewrite Eo.
      destruct (last_root _ _ _ _ _ Hc Hb Eo) as (tr & f & E & _). rewrite E. unfold root_of. rewrite last_last, tblock_render. apply (digest_wf sha Hsha).
    - apply Forall_rev. apply Forall_forall. intros x Hx. apply in_map_iff in Hx as (a & <- & Hx). clear - A1 Hx.
      induction A1 as [|o a' parts asked (p' & -> & Hp') _ IH]; [destruct Hx|]. destruct Hx as [->|Hx]; [|auto].
      destruct Hp' as (_ & f & raw & _ & _ & Hp'). destruct a; destruct Hp' as [Hn _]; exact (utf8_name _ _ Hn). }
  assert (Hbl : blen (dir_block es) < u32_max1) by (unfold u32_max1; lia).
  unfold dir_block at 1. rewrite (flat_roundtrip _ (block_wf es Hfacts Hbl Htot)). reflexivity.
Qed.
Print Assumptions c63_directory.

(** Finding: an offset without a length is answered with an error. *)
Theorem c63_offset_refuted get decode other_base fuel hfuel c offset : wf_cid c ->
  http_cat get decode other_base fuel hfuel (cid_to_text c) (Some offset) None = Some (Err NotImplemented).
Proof.
  intros Hw. unfold http_cat. assert (Hparse : path_from_str other_base (cid_to_text c) = Some (mk_path (IpfsPath.Ipld c) [])).
  { apply parse_spec. exists [], (cid_to_text c), []. cbn [p_segs p_root slashed map concat]. rewrite !app_nil_r. split; [reflexivity|].
    split; [apply (alnum_plain other_base), cid_text_alnum|]. split; [constructor|]. split; [left; reflexivity|]. split; [tauto|]. apply cid_text_roundtrip, Hw. }
  rewrite Hparse. reflexivity.
Qed.
Print Assumptions c63_offset_refuted.

(** Finding: an offset and a length whose sum is 2^64 or more make the handler panic, with any path. *)
Theorem c63_overflow_refuted get decode other_base fuel hfuel arg p offset len : path_from_str other_base arg = Some p -> 2 ^ 64 <= offset + len ->
  http_cat get decode other_base fuel hfuel arg (Some offset) (Some len) = Some Panic.
Proof.
  intros Hp Hs. unfold http_cat. rewrite Hp. unfold range_of, add64. destruct (N.ltb_spec (offset + len) u64_max1) as [H|_]; [unfold u64_max1 in H; lia|]. reflexivity.
Qed.
Print Assumptions c63_overflow_refuted.

(** A case: an added file, of whose blocks one is missing. *)
Definition ex_file := PropsFile.added (add_file toy_sha 2 2 [[1; 2; 3; 4; 5]]).
Definition ex_root := fst (last ex_file (CidV0 [], [])).
Example c63_case :
  http_cat (assoc ex_file) (fun _ _ => Err tt) (fun _ _ => None) 10 0 (cid_to_text ex_root) None None = Some (Ok ([Piece [1; 2]; Piece [3; 4]; Piece [5]], Some Ended)) /\
  exists c, http_cat (assoc (firstn 1 ex_file ++ skipn 2 ex_file)) (fun _ _ => Err tt) (fun _ _ => None) 10 0 (cid_to_text ex_root) None None =
    Some (Ok ([Piece [1; 2]; Trouble (Loading c)], Some Ended)).
Proof. split; [vm_compute; reflexivity|]. eexists. vm_compute. reflexivity. Qed.
Example c63_case_directory : forall wrap, exists t before name root size, ex_run wrap false ex_parts = (t, Done) /\ announced (messages t) = before ++ [(name, root, size)].
Proof.
  intros wrap. destruct (c62_case_cat wrap) as (t & root & s & before & H1 & H2 & _). exists t, before, (if wrap then [] else [97]), root, s. auto.
Qed.

(** * Ending well *)

(** The rest of a file, block by block to its last one. *)
Inductive reads (get : cid -> option bytes) : FileVisit.visit -> bytes -> Prop :=
| reads_last v c data b : next_link v = Some c -> get c = Some data -> visit_continue v data = Ok (b, None) -> reads get v b
| reads_next v c data b v' bs : next_link v = Some c -> get c = Some data -> visit_continue v data = Ok (b, Some v') -> reads get v' bs -> reads get v (b ++ bs).

Lemma cat_loop_reads get fuel : forall v, let (items, e) := cat_loop get fuel v in
  (e = Some Ended -> troubles items = [] -> reads get v (delivered items)).
Proof.
  induction fuel as [|fuel IH]; intros v; cbn [cat_loop]; [discriminate|].
  destruct (next_link v) as [c|] eqn:En; [|discriminate]. destruct (get c) as [data|] eqn:Eg; [|discriminate].
  destruct (visit_continue v data) as [[b [v'|]]|x|] eqn:Ev; try discriminate.
  - specialize (IH v'). destruct (cat_loop get fuel v') as [l e]. rewrite troubles_app, troubles_piece, delivered_app, delivered_piece. intros He Ht. eapply reads_next; eauto.
  - intros _ _. rewrite delivered_piece. eapply reads_last; eassumption.
Qed.

(** Only a dag-pb block found by the path gives a stream; and a stream which ended without trouble was
    read to the end of the file. *)
Theorem c63_whole get decode other_base fuel hfuel arg offset len items e :
  http_cat get decode other_base fuel hfuel arg offset len = Some (Ok (items, e)) ->
  exists root segs range c data k b size md more,
    path_from_str other_base arg = Some (mk_path (IpfsPath.Ipld root) segs) /\ range_of offset len = Ok range /\
    dag_resolve get decode fuel hfuel root segs true = Some (Ok (NBlock c data, k)) /\ cid_codec c = codec_dagpb /\
    visit_start range data = Ok (b, size, md, more) /\
    (e = Some Ended -> troubles items = [] ->
     match more with None => delivered items = b | Some v => exists bs, reads get v bs /\ delivered items = b ++ bs end).
Proof.
  unfold http_cat. destruct (path_from_str other_base arg) as [[[c|c|c] segs]|]; cbn [p_root p_segs]; [|destruct (range_of offset len); discriminate|destruct (range_of offset len); discriminate|discriminate].
  destruct (range_of offset len) as [range|x|]; try discriminate.
  unfold cat. destruct (dag_resolve get decode fuel hfuel c segs true) as [[[n rest]|x|]|] eqn:Er; try discriminate.
  unfold into_unixfs_block. destruct (N.eqb_spec (cid_codec (source_of n)) codec_dagpb) as [Hc|]; [|discriminate]. destruct n as [c' data|c' v|c' v|c' d]; try discriminate. cbn [source_of] in Hc.
  unfold cat_block. destruct (visit_start range data) as [[[[b size] md] more]|x|] eqn:Ev; try discriminate. intros H.
  exists c, segs, range, c', data, rest, b, size, md, more. split; [reflexivity|]. split; [reflexivity|]. split; [exact Er|]. split; [exact Hc|]. split; [exact Ev|]. destruct more as [v|].
  - pose proof (cat_loop_reads get fuel v) as Hr. destruct (cat_loop get fuel v) as [l e']. injection H as <- <-. rewrite troubles_app, troubles_piece, delivered_app, delivered_piece.
    intros He Ht. exists (delivered l). auto.
  - injection H as <- <-. intros _ _. apply delivered_piece.
Qed.
Print Assumptions c63_whole.
