(** C77: symlinks. *)
From Verif Require Import Base Wire WireProofs FMap Cid CidProofs Pb PbProofs FileVisit Text TextProofs IpfsPath PathSpec IpfsPathProofs StdPath DirLookup Ipld Codecs Resolve Cat Walk WalkSpec
  WalkProofs WalkNames WalkTree Tar TarSpec Symlink SymlinkSpec.
From Verif Require TreeBuilder TreeSpec TreeIterSpec TreeOutSpec PropsTree PropsDir PropsWalk PropsTar.
Local Open Scope N_scope.

Lemma varint_written n : n < 2 ^ 64 -> varint n (write_varint n).
Proof.
  intros H. unfold write_varint. assert (G : forall f n, n < 128 ^ N.of_nat (S f) -> varint n (write_varint_n (S f) n)).
  { clear. induction f as [|f IH]; intros n H.
    - cbn in H. cbn [write_varint_n]. destruct (N.leb_spec n 127); [|lia]. constructor. lia.
    - change (write_varint_n (S (S f)) n) with (if n <=? 127 then [n] else (n mod 128 + 128) :: write_varint_n (S f) (n / 128)).
      destruct (N.leb_spec n 127); [constructor; lia|]. apply varint_more; [lia|]. apply IH.
      rewrite Nat2N.inj_succ, N.pow_succ_r' in H. apply N.div_lt_upper_bound; lia. }
  apply G. eapply N.lt_le_trans; [exact H|]. vm_compute. discriminate.
Qed.
Lemma small_varint n : n < 2 ^ 32 -> sizeof_varint n <= 5.
Proof. intros H. unfold sizeof_varint. change (2 ^ 32) with 4294967296 in H. repeat match goal with |- context [n <=? ?k] => destruct (N.leb_spec n k); [lia|] end. lia. Qed.
Lemma node_wf t : blen t + 8 < 2 ^ 32 -> wf_flat (symlink_node t).
Proof.
  intros H. change (2 ^ 32) with u32_max1 in H. split; [constructor|]. split.
  - repeat split; cbn [symlink_node f_data u_data u_filesize u_blocksizes u_hashtype u_fanout u_mode u_mtime opt_all]; try exact Logic.I; try constructor. lia.
  - pose proof (small_varint (blen t)) as S5. change (2 ^ 32) with u32_max1 in S5. unfold unixfs_size, symlink_node, sizeof_len. cbn [f_data u_type u_data u_filesize u_blocksizes u_hashtype u_fanout u_mode u_mtime dtype_n].
    replace (sizeof_varint 4) with 1 by reflexivity. unfold opt_size. cbn [map sumN fold_right]. change (sumN []) with 0. unfold u32_max1 in *. lia.
Qed.
Lemma unixfs_form t : unixfs_write (f_data (symlink_node t)) = [8; 4; 18] ++ write_varint (blen t) ++ t.
Proof.
  unfold unixfs_write, symlink_node. cbn [f_data u_type u_data u_filesize u_blocksizes u_hashtype u_fanout u_mode u_mtime opt_write map concat dtype_n]. rewrite !app_nil_r. reflexivity.
Qed.

(** Writing a symlink leaves what is in the buffer and appends a block of the form of a symlink to the target. *)
Theorem c77_written t buffer : blen t + 8 < 2 ^ 32 ->
  exists b, serialize_symlink_block t buffer = buffer ++ b /\ symlink_form t b.
Proof.
  intros H. exists (flat_write (symlink_node t)). split; [reflexivity|]. pose proof (node_wf t H) as W. change (2 ^ 32) with 4294967296 in H.
  exists (write_varint (unixfs_size (f_data (symlink_node t)))), (write_varint (blen t)).
  split; [apply varint_written; change (2 ^ 64) with 18446744073709551616; lia|]. rewrite <- unixfs_form.
  destruct W as (_ & Wu & Ws). rewrite (unixfs_write_size _ Wu). split.
  - apply varint_written. change u32_max1 with 4294967296 in Ws. change (2 ^ 64) with 18446744073709551616. lia.
  - reflexivity.
Qed.
Print Assumptions c77_written.
Example c77_written_case : serialize_symlink_block [98] [] = [10; 5; 8; 4; 18; 1; 98].
Proof. reflexivity. Qed.

(** Such a block is read as a symlink to the target and nothing else: no links, no size, no metadata. *)
Theorem c77_read t : blen t + 8 < 2 ^ 32 ->
  flat_parse (serialize_symlink_block t []) = inl (mk_flat [] (mk_unixfs TSymlink (Some t) None [] None None None None)).
Proof. intros H. apply (flat_roundtrip _ (node_wf t H)). Qed.
Print Assumptions c77_read.

(** Different targets, different blocks. *)
Theorem c77_distinct t t' : blen t + 8 < 2 ^ 32 -> blen t' + 8 < 2 ^ 32 ->
  serialize_symlink_block t [] = serialize_symlink_block t' [] -> t = t'.
Proof. intros H H' E. apply c77_read in H, H'. rewrite E in H. congruence. Qed.
Print Assumptions c77_distinct.

(** A walk which starts at a symlink reports it with its target and ends.  It is not followed: no other block is loaded. *)
Theorem c77_walk dbg get c t name k : blen t + 8 < 2 ^ 32 -> get c = Some (serialize_symlink_block t []) -> name = [] \/ step_name name ->
  walk dbg (1 + k) get (walker_new c name) = ([OSymlink t c name (mk_meta None None)], Done).
Proof.
  intros H Hg Hn. assert (He : entry_at get true (root_path name) c [OSymlink t c (join (root_path name)) (mk_meta None None)])
    by exact (at_symlink get true (root_path name) c _ (symlink_node t) Hg (c77_read t H) eq_refl).
  assert (Ej : join (root_path name) = name) by (destruct name; reflexivity). rewrite Ej in He.
  exact (PropsWalk.c38_walk dbg get c name _ k Hn He).
Qed.
Print Assumptions c77_walk.

(** In a tree made by the tree builder, among files, symlinks and directories: it is reported with its target at the path under
    which it was linked. *)
Theorem c77_in_tree sha wrap l dirs get name dbg :
  (forall x, wf_cid (CidV0 (sha x))) ->
  TreeOutSpec.built sha wrap (PropsTree.accepted wrap l) dirs -> dirs <> [] ->
  Forall TreeOutSpec.call_wf l -> Forall (fun c => utf8 (TreeSpec.call_path c) = true) l ->
  Forall (fun c => Forall step_name (split_slash (TreeSpec.call_path c))) l ->
  (forall q es, In (q, es) dirs -> blen (TreeIterSpec.dir_block es) < 2 ^ 32 /\ TreeIterSpec.dir_total es < 2 ^ 64) ->
  (forall q es, In (q, es) dirs -> get (TreeIterSpec.dir_cid sha es) = Some (TreeIterSpec.dir_block es)) ->
  (forall p c s, In (TreeBuilder.PutLink p c s) l -> (exists fuel content, read_file fuel get None c = ReadOk content) \/
     exists t, blen t + 8 < 2 ^ 32 /\ get c = Some (serialize_symlink_block t [])) ->
  name = [] \/ step_name name ->
  exists front q es os n,
    dirs = front ++ [(q, es)] /\
    (forall k, walk dbg (n + k) get (walker_new (TreeIterSpec.dir_cid sha es) name) = (os, Done)) /\
    (forall p c s t, In (TreeBuilder.PutLink p c s) (PropsTree.accepted wrap l) -> blen t + 8 < 2 ^ 32 -> get c = Some (serialize_symlink_block t []) ->
       exists r, split_slash p = q ++ r /\ (r <> [] ->
         exists a b, os = a ++ [OSymlink t c (join (root_path name ++ r)) (mk_meta None None)] ++ b)).
Proof.
  intros H1 H2 H3 H4 H5 H6 H7 H8 H9 Hn.
  destruct (PropsWalk.c38_built_tree sha wrap l dirs get name dbg H1 H2 H3 H4 H5 H6 H7 H8) as (front & q & es & os & n & A1 & A2 & A3 & _); [|exact Hn|].
  { intros p c s Hp. destruct (H9 p c s Hp) as [Hf|(t & Hs & Hg)]; [left; exact Hf|right]. exists (serialize_symlink_block t []), (symlink_node t).
    split; [exact Hg|]. split; [apply c77_read, Hs|reflexivity]. }
  exists front, q, es, os, n. split; [exact A1|]. split; [exact A2|]. intros p c s t Hp Hs Hg.
  destruct (A3 p c s Hp) as (r & Er & Hr). exists r. split; [exact Er|]. intros Hne. destruct (Hr Hne) as (a & o & b & -> & _ & _ & Ho).
  exists a, b. rewrite (Ho _ (symlink_node t) Hg (c77_read t Hs) eq_refl). reflexivity.
Qed.
Print Assumptions c77_in_tree.

(** The archive of /get holds a symlink whose target means the same, and is the same when it has no empty or "." steps. *)
Theorem c77_archive dbg get c t name : get c = Some (serialize_symlink_block t []) -> good_target t -> blen t + 8 < 2 ^ 32 ->
  tidy_name name -> fits (blen name + 1) ->
  exists l t', (forall k, get_stream dbg (1 + k) get c name = (l, Walked Done)) /\
    unpack (concat l) = Some [mk_entry name (Symlink t') 420 0] /\ same_target t t'.
Proof.
  intros Hg Ht Hs Hn Hfn.
  assert (Good : good_path name).
  { split; [exists [name]; split; [discriminate|split; [constructor; [exact Hn|constructor]|reflexivity]]|]. split; [exact Hfn|].
    intros (_ & q & Q). destruct Hn as ((_ & P & _) & _). apply P. rewrite <- (firstn_skipn 100 name), Q. apply in_or_app. left. apply in_or_app. right. left. reflexivity. }
  assert (Sh : shows [OSymlink t c name (mk_meta None None)] [mk_entry name (Symlink t) 420 0]).
  { apply (shows_symlink t c name (mk_meta None None) [] []); [exact Good|vm_compute; reflexivity|exact Ht| |constructor].
    unfold fits. change (8 ^ 11) with 8589934592. change (2 ^ 32) with 4294967296 in Hs. lia. }
  destruct (PropsTar.c53_archive _ _ Sh) as (l & es' & E & U & F). inversion F as [|? [p2 c2 m2 t2] ? ? (S1 & S2 & S3 & S4) F2]; subst. inversion F2; subst.
  cbn in S1, S2, S3, S4. destruct c2 as [?| |t']; try discriminate. subst p2 m2 t2. exists l, t'. split; [|split; [exact U|exact S4]].
  intros k. unfold get_stream. rewrite (c77_walk dbg get c t name k Hs Hg (or_intror (proj1 Hn))). cbn [fst snd]. rewrite E. reflexivity.
Qed.
Print Assumptions c77_archive.

(** Reading a symlink as a file is refused: it is neither followed nor answered with the target as content. *)
Theorem c77_cat get decode other_base c t k hk : wf_cid c -> cid_codec c = codec_dagpb -> blen t + 8 < 2 ^ 32 -> get c = Some (serialize_symlink_block t []) ->
  http_cat get decode other_base (S k) hk (cid_to_text c) None None = Some (Err (OtherTrouble (Walking c (FileVisit.UnexpectedType TSymlink)))).
Proof.
  intros Hw Hc Hs Hg. unfold http_cat.
  assert (Hparse : path_from_str other_base (cid_to_text c) = Some (mk_path (IpfsPath.Ipld c) [])).
  { apply parse_spec. exists [], (cid_to_text c), []. cbn [p_segs p_root slashed map concat]. rewrite !app_nil_r. split; [reflexivity|].
    split; [apply (alnum_plain other_base), cid_text_alnum|]. split; [constructor|]. split; [left; reflexivity|]. split; [tauto|]. apply cid_text_roundtrip, Hw. }
  rewrite Hparse. cbn [p_root p_segs range_of]. unfold cat, dag_resolve. cbn [resolve0]. rewrite Hg. cbn [resolve_local length Nat.leb skipn].
  unfold into_unixfs_block. cbn [source_of]. rewrite Hc, N.eqb_refl. unfold cat_block, visit_start, from_block. rewrite (c77_read t Hs). reflexivity.
Qed.
Print Assumptions c77_cat.

(** A path which goes on below a symlink is refused, "Data" included; whatever the target is, no other block is loaded. *)
Theorem c77_not_followed get decode c t s segs follow k hk : cid_codec c = codec_dagpb -> blen t + 8 < 2 ^ 32 -> get c = Some (serialize_symlink_block t []) ->
  resolve0 get decode (S k) hk c (s :: segs) follow 0 None = Some ([c], [], Err (RUnsupported c)) /\
  dag_resolve get decode (S k) hk c (s :: segs) follow = Some (Err (EUnsupported c)).
Proof.
  intros Hc Hs Hg.
  assert (E : resolve0 get decode (S k) hk c (s :: segs) follow 0 None = Some ([c], [], Err (RUnsupported c))).
  { cbn [resolve0]. rewrite Hg. cbn [resolve_local]. rewrite Hc, N.eqb_refl. unfold local_dagpb, resolve. rewrite (c77_read t Hs). reflexivity. }
  split; [exact E|]. unfold dag_resolve. rewrite E. reflexivity.
Qed.
Print Assumptions c77_not_followed.

(** Finding: the buffer has to be empty.  After another symlink the whole is read as the second one; the first target is gone. *)
Theorem c77_buffer_refuted t t' : blen t + 8 < 2 ^ 32 -> blen t' + 8 < 2 ^ 32 ->
  flat_parse (serialize_symlink_block t' (serialize_symlink_block t [])) = flat_parse (serialize_symlink_block t' []).
Proof.
  intros H H'. rewrite (c77_read t' H'). pose proof (node_wf t H) as (_ & Wu & Ws). pose proof (node_wf t' H') as W'.
  unfold flat_parse. assert (E : pbnode_read (serialize_symlink_block t' (serialize_symlink_block t [])) = Some (mk_pbnode [] (Some (unixfs_write (f_data (symlink_node t')))))).
  { unfold serialize_symlink_block. cbn [app]. unfold flat_write at 1. cbn [symlink_node f_links map concat app]. unfold pbnode_read, pbnode0. rewrite w_msg_assoc.
    erewrite read_message_field; [|apply pbnode_consuming|vm_compute; reflexivity|].
    2: { unfold pbnode_field. cbn [N.eqb Pos.eqb]. rewrite <- (unixfs_write_size _ Wu), read_bytes_w by (rewrite (unixfs_write_size _ Wu); exact Ws). reflexivity. }
    unfold flat_write. cbn [symlink_node f_links map concat app]. destruct W' as (_ & Wu' & Ws').
    match goal with |- context [w_msg 10 ?n ?b] => rewrite <- (app_nil_r (w_msg 10 n b)), w_msg_assoc end.
    erewrite read_message_field; [apply read_message_nil|apply pbnode_consuming|vm_compute; reflexivity|].
    unfold pbnode_field. cbn [N.eqb Pos.eqb]. rewrite <- (unixfs_write_size _ Wu'), read_bytes_w by (rewrite (unixfs_write_size _ Wu'); exact Ws'). reflexivity. }
  rewrite E. cbn [Pb.n_data Pb.n_links]. destruct (unixfs_write_nonempty (f_data (symlink_node t'))) as (b & d & Eb). rewrite Eb. cbv iota beta. rewrite <- Eb. pose proof (unixfs_roundtrip _ (proj1 (proj2 W'))) as R. rewrite R. reflexivity.
Qed.
Print Assumptions c77_buffer_refuted.

(** Finding: nothing is checked about the target.  With an empty one the block is written and walked, and /get of it, or of
    a directory with it, ends in an error. *)
Theorem c77_empty_refuted dbg get c k : get c = Some (serialize_symlink_block [] []) ->
  walk dbg (1 + k) get (walker_new c [114]) = ([OSymlink [] c [114] (mk_meta None None)], Done) /\
  get_stream dbg (1 + k) get c [114] = ([], Archived (TarFailed (InvalidLinkName []))).
Proof.
  intros Hg. assert (W : walk dbg (1 + k) get (walker_new c [114]) = ([OSymlink [] c [114] (mk_meta None None)], Done)).
  { apply (c77_walk dbg get c [] [114] k); [vm_compute; reflexivity|exact Hg|]. right. split; [discriminate|]. split; [intros [H|[]]; discriminate|discriminate]. }
  split; [exact W|]. unfold get_stream. rewrite W. reflexivity.
Qed.
Print Assumptions c77_empty_refuted.

(** A case: a directory with a symlink to a file next to it. *)
Definition linked : cid -> option bytes := PropsWalk.store
  [(1, PropsWalk.directory [PropsWalk.mk_link [97] (PropsWalk.cid_of 2); PropsWalk.mk_link [108] (PropsWalk.cid_of 3)]);
   (2, PropsWalk.file [7; 7]); (3, serialize_symlink_block [97] [])].
Example c77_case : linked (PropsWalk.cid_of 3) = Some (serialize_symlink_block [97] []) /\ good_target [97] /\ tidy_name [108] /\
  wf_cid (PropsWalk.cid_of 3) /\ cid_codec (PropsWalk.cid_of 3) = codec_dagpb /\
  walk true 4 linked (walker_new (PropsWalk.cid_of 1) [114]) =
    ([ORootDirectory (PropsWalk.cid_of 1) [114] PropsWalk.no_meta; OFile [7; 7] true true (PropsWalk.cid_of 2) [114; 47; 97] PropsWalk.no_meta 2;
      OSymlink [97] (PropsWalk.cid_of 3) [114; 47; 108] PropsWalk.no_meta], Done).
Proof.
  split; [vm_compute; reflexivity|]. split; [split; [discriminate|]; split; [intros [H|[]]; discriminate|reflexivity]|].
  split; [split; [split; [discriminate|]; split; [intros [H|[]]; discriminate|discriminate]|split; [discriminate|]; split; [intros [H|[]]; discriminate|repeat constructor]]|].
  split; [vm_compute; repeat split; repeat constructor|]. split; [reflexivity|vm_compute; reflexivity].
Qed.
