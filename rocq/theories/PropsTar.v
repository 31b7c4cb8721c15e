(** C53: the archives made by /get. *)
From Verif Require Import Base Wire WireProofs FMap Cid CidProofs Pb PbProofs FileVisit IpfsPath PathSpec IpfsPathProofs StdPath Walk WalkSpec WalkProofs WalkNames WalkTree
  Tar TarSpec TarFields TarPaths TarProofs TarWalk.
From Verif Require FileAdder PropsFile PropsDir PropsTree PropsWalk.
From Verif Require FileSpec.
Local Open Scope N_scope.

(** What a walk shows can be read from the archive: the same entries in the same order, with the
    content, the mode and the time of each; link targets at least mean the same. *)
Theorem c53_archive os es : shows os es ->
  exists l es', tar helper_new os = (l, TarDone) /\ unpack (concat l) = Some es' /\ Forall2 same_entry es es'.
Proof.
  intros H. destruct (tar_reads os es H helper_new helper_new_wf) as (l & es' & E & R & F).
  exists l, es'. split; [exact E|]. split; [apply read_as_unpack, R|exact F].
Qed.
Print Assumptions c53_archive.

(** Whatever the names are, and even when an error ends it, an archive consists of whole records. *)
Theorem c53_whole_records os : sized os -> (length (concat (fst (tar helper_new os))) mod 512 = 0)%nat.
Proof. intros H. exact (tar_whole os H helper_new helper_new_len). Qed.
Print Assumptions c53_whole_records.

(** /get of a stored tree. *)
Theorem c53_get dbg get c name os :
  honest get -> step_name name -> entry_at get true (root_path name) c os -> snd (walk_report os) = false -> Forall good_walked os ->
  exists es, shows os es /\ exists l es' n, (forall k, get_stream dbg (n + k) get c name = (l, Walked Done)) /\
    unpack (concat l) = Some es' /\ Forall2 same_entry es es'.
Proof.
  intros Hh Hn He Hr Hg. destruct (proj1 (tree_shown get Hh) _ _ _ _ He Hg) as (es & S).
  specialize (S [] [] shows_nil). rewrite !app_nil_r in S. exists es. split; [exact S|].
  destruct (c53_archive os es S) as (l & es' & E & U & F). exists l, es', (length os). split; [|split; assumption].
  intros k. unfold get_stream. rewrite (PropsWalk.c38_walk dbg get c name os k (or_intror Hn) He), Hr.
  rewrite tar_report by exact Hr. rewrite E. reflexivity.
Qed.
Print Assumptions c53_get.

(** /get of a file made by the adder: one entry, with what was added. *)
Theorem c53_added_file sha chunk bf slices out get dbg name :
  PropsFile.digest_fn sha -> PropsFile.config_ok chunk bf ->
  FileAdder.add_file sha chunk bf slices = FileAdder.Added out -> FileSpec.blocks_size out < u64_max1 -> PropsFile.holds get out ->
  tidy_name name -> fits (blen name + 1) -> fits (blen (concat slices)) ->
  exists front root block l n, out = front ++ [(root, block)] /\
    (forall k, get_stream dbg (n + k) get root name = (l, Walked Done)) /\
    unpack (concat l) = Some [mk_entry name (File (concat slices)) 420 0].
Proof.
  intros H1 H2 H3 H4 H5 Hn Hf Hc.
  destruct (PropsFile.c01_added_file_reads_back sha chunk bf slices out get (length out) H1 H2 H3 H4 H5 (le_n _)) as (front & root & block & E & Hr).
  destruct (PropsFile.c01_reported_file_size sha chunk bf slices out front root block None H1 H2 H3 H4 E) as (first & rest & Hv).
  assert (Hg : get root = Some block) by (apply H5; rewrite E; apply in_or_app; right; left; reflexivity).
  destruct (read_entry_file get _ root _ Hr true (root_path name)) as (os & He & Hb).
  assert (Hbytes : file_bytes os = concat slices) by (eapply file_shown; eassumption).
  assert (Hroot : root_path name = [name]) by (destruct Hn as ((Nn & _) & _); destruct name; [congruence|reflexivity]).
  assert (Good : good_path name).
  { split; [exists [name]; split; [discriminate|split; [constructor; [exact Hn|constructor]|reflexivity]]|]. split; [exact Hf|].
    intros (_ & q & Q). destruct Hn as ((_ & P & _) & _). apply P. rewrite <- (firstn_skipn 100 name), Q. apply in_or_app. left. apply in_or_app. right. left. reflexivity. }
  (* the report of the file *)
  assert (R : exists segs, segs <> [] /\ os = file_report root name (mk_meta None None) (blen (concat slices)) segs /\ file_bytes os = concat segs).
  { assert (LB : forall c p m sz segs, file_bytes (later_segments c p m sz segs) = concat segs) by (intros; apply later_bytes).
    inversion He as [? ? ? b f ? G P T|? ? ? b f ? G P T|? ? ? b f x size m G P T V|? ? ? b f x size m v segs G P T V S|? ? ? b f G P T]; subst;
      assert (b = block) by congruence; subst b.
    - exfalso. unfold visit_start, from_block in Hv. rewrite P in Hv. unfold from_parts in Hv. rewrite T in Hv. discriminate.
    - exfalso. unfold visit_start, from_block in Hv. rewrite P in Hv. unfold from_parts in Hv. rewrite T in Hv. discriminate.
    - rewrite Hv in V. injection V as <- <- <- ->. exists [first]. rewrite Hroot. split; [discriminate|]. split; reflexivity.
    - rewrite Hv in V. injection V as <- <- <- ->. exists (first :: segs). rewrite Hroot. split; [discriminate|].
      assert (Sn := segments_some _ _ _ S). destruct segs as [|s2 segs]; [congruence|]. split; [reflexivity|]. cbn [file_bytes]. rewrite LB. reflexivity.
    - exfalso. unfold visit_start, from_block in Hv. rewrite P in Hv. unfold from_parts in Hv. rewrite T in Hv. discriminate. }
  destruct R as (segs & Sn & Eo & Eb). rewrite Hbytes in Eb.
  assert (Sh : shows os [mk_entry name (File (concat slices)) 420 0]).
  { rewrite Eo, Eb, <- (app_nil_r (file_report _ _ _ _ _)). apply (shows_file root name (mk_meta None None) segs [] []); try assumption.
    - unfold fits. change (8 ^ 11) with 8589934592. cbn. lia.
    - rewrite <- Eb. exact Hc.
    - constructor. }
  destruct (c53_archive os _ Sh) as (l & es' & E' & U & F). exists front, root, block, l, (length os). split; [exact E|]. split.
  - intros k. unfold get_stream. assert (Wr : walk_report os = (os, false)) by (apply no_buckets_report, Hb).
    rewrite (PropsWalk.c38_walk dbg get root name os k (or_intror (proj1 Hn)) He), Wr. cbn [fst snd]. rewrite E'. reflexivity.
  - rewrite U. f_equal. destruct es' as [|e2 es']; [inversion F|].
    assert (F1 : same_entry (mk_entry name (File (concat slices)) 420 0) e2 /\ es' = []) by (inversion F as [|? ? ? ? F1 F2]; split; [exact F1|inversion F2; reflexivity]).
    destruct F1 as [(S1 & S2 & S3 & S4) ->]. destruct e2 as [p2 c2 m2 t2]. cbn in *. destruct c2; congruence.
Qed.
Print Assumptions c53_added_file.

(** The content of a file is passed on in pieces of at most 16 KiB. *)
Theorem c53_pieces t seg c p m size : exists l, put_walked t (OFile seg false false c p m size) = Ok (t, l) /\
  concat l = seg /\ Forall (fun b => b <> [] /\ blen b <= 16384) l.
Proof.
  exists (pieces (length seg) seg). cbn [put_walked app]. rewrite app_nil_r. split; [reflexivity|].
  split; [apply pieces_concat; lia|apply pieces_small].
Qed.
Print Assumptions c53_pieces.

(** Paths shorter than 100 bytes do not make it panic, whatever is in them. *)
Definition path_of (o : walked) : bytes :=
  match o with OBucket _ p | ODirectory _ p _ | ORootDirectory _ p _ | OFile _ _ _ _ p _ _ | OSymlink _ _ p _ => p end.
Theorem c53_no_panic_partial os : Forall (fun o => (length (path_of o) < 100)%nat) os -> snd (tar helper_new os) <> TarPanicked.
Proof.
  generalize helper_new. induction os as [|o os IH]; intros t H; [discriminate|]. inversion H as [|? ? Ho Hos]; subst. cbn [tar].
  assert (P : put_walked t o <> Panic).
  { assert (N : forall p, (length p < 100)%nat -> apply_name t p <> Panic).
    { intros p L. unfold apply_name. destruct (copy_path _ _ _) as [s [|]]; [discriminate|]. replace (length p <? 100)%nat with true by lia. discriminate. }
    specialize (N _ Ho). destruct o; cbn [put_walked path_of] in *; unfold apply_file, apply_directory, apply_symlink.
    - discriminate.
    - destruct (apply_name t path) as [[]|?|]; [destruct (finish _ _ _ _ _); discriminate|discriminate|congruence].
    - destruct first; [|discriminate]. destruct (apply_name t path) as [[]|?|]; [destruct (finish _ _ _ _ _); discriminate|discriminate|congruence].
    - destruct (apply_name t path) as [[]|?|]; [destruct (finish _ _ _ _ _); discriminate|discriminate|congruence].
    - destruct (utf8 target); [|discriminate]. destruct (apply_name t path) as [[]|?|]; [|discriminate|congruence].
      destruct (copy_path _ _ _) as [s [|]]; [destruct (finish _ _ _ _ _); discriminate|]. destruct (_ <? _)%nat; [discriminate|]. destruct (finish _ _ _ _ _); discriminate. }
  destruct (put_walked t o) as [[t' l]|e|]; [|discriminate|congruence]. specialize (IH t' Hos). destruct (tar t' os). exact IH.
Qed.
Print Assumptions c53_no_panic_partial.

(** Names which would lead out of the archive end it with an error. *)
Theorem c53_bad_name os c p m : (length p < 100)%nat -> is_absolute p = true \/ In [46; 46] (comps p) \/ In 0 p ->
  tar helper_new (ODirectory c p m :: os) = ([], TarFailed (InvalidFileName p)).
Proof.
  intros L H. cbn [tar put_walked]. unfold apply_directory, apply_name.
  assert (F : snd (copy_path false (h_name (t_header helper_new)) p) = false); [|destruct (copy_path _ _ p) as [s [|]]; [discriminate|]; replace (length p <? 100)%nat with true by lia; reflexivity].
  generalize (h_name (t_header helper_new)). intros slot. unfold copy_path. destruct (is_absolute p) eqn:A; [reflexivity|].
  destruct H as [H|H]; [discriminate|].
  (* some component is refused *)
  assert (B : exists x, In x (comps p) /\ (x = [46; 46] \/ In 0 x)).
  { destruct H as [H|H]; [exists [46; 46]; auto|]. clear - H A. unfold comps. destruct (split_inv p) as (x & l & -> & E & _). rewrite A.
    rewrite E in H. apply in_app_or in H as [H|H].
    - exists x. destruct x as [|a x]; [destruct H|]. cbn [beq]. split; [left; reflexivity|right; exact H].
    - assert (Q : exists y, In y l /\ In 0 y).
      { clear - H. induction l as [|y l IH]; [destruct H|]. cbn in H. destruct H as [H|H]; [discriminate|]. apply in_app_or in H as [H|H].
        - exists y. split; [left; reflexivity|exact H].
        - destruct (IH H) as (z & Hz & Z). exists z. split; [right; exact Hz|exact Z]. }
      destruct Q as (y & Hy & Z). exists y. split; [|right; exact Z].
      assert (Fy : In y (filter (fun s => negb (dropped s)) l)).
      { apply filter_In. split; [exact Hy|]. unfold dropped. destruct (beq_spec y []) as [->|]; [destruct Z|]. destruct (beq_spec y [46]) as [->|]; [destruct Z as [Z|[]]; discriminate|reflexivity]. }
      destruct (beq x []); [exact Fy|right; exact Fy]. }
  assert (C : forall alone l slash slot pos em, (exists x, In x l /\ (x = [46; 46] \/ In 0 x)) -> snd (copy_comps false alone l slash slot pos em) = None).
  { clear. intros alone l. induction l as [|y l IH]; intros slash slot pos em (x & Hx & B); [destruct Hx|]. cbn [copy_comps negb andb].
    destruct (beq_spec y [46; 46]) as [->|N1]; [reflexivity|].
    assert (Q : y = x \/ In x l) by exact Hx. clear Hx.
    destruct (beq y [46] && negb alone) eqn:E.
    { apply andb_prop in E as [E _]. destruct (beq_spec y [46]) as [->|]; [|discriminate]. destruct Q as [<-|Q]; [|apply IH; exists x; auto].
      destruct B as [B|B]; [discriminate|]. destruct B as [B|[]]; discriminate. }
    assert (PZ : forall s k, In 0 y -> put s k y = None).
    { intros s k Z. unfold put. replace (existsb (N.eqb 0) y) with true; [rewrite orb_true_r; reflexivity|]. symmetry. apply existsb_exists. exists 0. split; [exact Z|reflexivity]. }
    destruct (if slash then put slot pos [47] else Some slot) as [s1|]; [|reflexivity].
    destruct (put s1 _ y) as [s2|] eqn:E2; [|reflexivity].
    destruct Q as [<-|Q]; [|apply IH; exists x; auto]. destruct B as [B|B]; [congruence|]. rewrite PZ in E2 by exact B. discriminate. }
  specialize (C (negb false && (length (comps p) =? 1)%nat) (comps p) false slot 0%nat false B).
  destruct (copy_comps _ _ _ _ _ _ _) as [s [x|]]; [discriminate|reflexivity].
Qed.
Print Assumptions c53_bad_name.

(** ** An example *)
Definition ex_entries : list entry :=
  [mk_entry [114] Directory 493 0; mk_entry [114; 47; 97] (File [1; 2; 3]) 420 0; mk_entry [114; 47; 100] Directory 493 0;
   mk_entry [114; 47; 100; 47; 120] (File [7; 7]) 420 0; mk_entry [114; 47; 108] (Symlink [97]) 420 0; mk_entry [114; 47; 115] Directory 493 0;
   mk_entry [114; 47; 115; 47; 98] (File [7; 7]) 420 0; mk_entry [114; 47; 115; 47; 99] (File [7; 7]) 420 0].
Lemma honest_store l : Forall (fun e => forall fuel, match visit_start None (snd e) with
    | Ok (_, size, _, _) => match read_file fuel (PropsWalk.store l) None (PropsWalk.cid_of (fst e)) with ReadOk content => size = blen content | _ => True end
    | _ => True end) l -> honest (PropsWalk.store l).
Proof.
  intros H c b first size m rest fuel content Hg Hv Hr. unfold PropsWalk.store in Hg at 1.
  destruct (find _ l) as [e|] eqn:F; [|discriminate]. injection Hg as <-. apply find_some in F as [Fi Fe].
  rewrite Forall_forall in H. specialize (H e Fi fuel). rewrite Hv in H.
  destruct (cid_eqb_spec (PropsWalk.cid_of (fst e)) c) as [<-|]; [|discriminate]. rewrite Hr in H. exact H.
Qed.
Lemma small_good p ns : (length p <= 100)%nat -> ns <> [] -> Forall tidy_name ns -> p = join ns -> good_path p.
Proof.
  intros L N T E. split; [exists ns; auto|]. split; [|intros [Q _]; lia]. unfold fits, blen. change (8 ^ 11) with 8589934592. lia.
Qed.
Ltac tidy := split; [split; [discriminate|split; [vm_compute; intuition discriminate|discriminate]]|split; [discriminate|split; [vm_compute; intuition discriminate|repeat constructor]]].
Ltac good ns := apply (small_good _ ns); [vm_compute; lia|discriminate|repeat (constructor; [tidy|]); constructor|reflexivity].
Example ex_get : honest PropsWalk.ex_tree /\ Forall good_walked PropsWalk.ex_report /\ snd (walk_report PropsWalk.ex_report) = false /\
  unpack (concat (fst (get_stream true 20 PropsWalk.ex_tree (PropsWalk.cid_of 1) [114]))) = Some ex_entries.
Proof.
  split; [|split; [|split; [reflexivity|vm_compute; reflexivity]]].
  - apply honest_store. repeat (constructor; [intros [|[|[|fuel]]]; vm_compute; (reflexivity || exact Logic.I)|]). constructor.
  - assert (Z : fits (mtime_of PropsWalk.no_meta)) by reflexivity.
    assert (G1 : good_path [114]) by good [[114]]. assert (G2 : good_path [114; 47; 97]) by good [[114]; [97]].
    assert (G3 : good_path [114; 47; 100]) by good [[114]; [100]]. assert (G4 : good_path [114; 47; 100; 47; 120]) by good [[114]; [100]; [120]].
    assert (G5 : good_path [114; 47; 108]) by good [[114]; [108]]. assert (G6 : good_path [114; 47; 115]) by good [[114]; [115]].
    assert (G7 : good_path [114; 47; 115; 47; 98]) by good [[114]; [115]; [98]]. assert (G8 : good_path [114; 47; 115; 47; 99]) by good [[114]; [115]; [99]].
    assert (T : good_target [97]) by (split; [discriminate|split; [vm_compute; intuition discriminate|reflexivity]]).
    unfold PropsWalk.ex_report. repeat apply Forall_cons; try exact (Forall_nil _); cbn [good_walked]; try exact Logic.I;
      (split; [assumption|]); try exact Z; (split; [exact Z|]); try reflexivity. split; [exact T|reflexivity].
Qed.

(** ** Findings *)
(** There is no end mark: an archive should end with two records of zeros. *)
Theorem c53_end_mark_refuted : exists os es, shows os es /\
  skipn (length (concat (fst (tar helper_new os))) - 1024) (concat (fst (tar helper_new os))) <> zeros 1024.
Proof.
  exists [ODirectory (PropsWalk.cid_of 1) [114] PropsWalk.no_meta], [mk_entry [114] Directory 493 0]. split.
  - apply (shows_directory false _ [114] PropsWalk.no_meta [] []); [good [[114]]|reflexivity|constructor].
  - vm_compute. discriminate.
Qed.
Print Assumptions c53_end_mark_refuted.
(** A usual name makes it panic: the path is cut at 100 bytes, right after two dots. *)
Definition deep : cid -> option bytes := PropsWalk.store
  [(1, PropsWalk.directory [PropsWalk.mk_link (repeat 97 95) (PropsWalk.cid_of 2)]);
   (2, PropsWalk.directory [PropsWalk.mk_link [46; 46; 98] (PropsWalk.cid_of 3)]); (3, PropsWalk.file [7])].
Theorem c53_cut_name_refuted : Forall tidy_name [[114]; repeat 97 95; [46; 46; 98]] /\
  snd (get_stream true 5 deep (PropsWalk.cid_of 1) [114]) = Archived TarPanicked.
Proof.
  split; [|vm_compute; reflexivity]. constructor; [tidy|]. constructor; [|constructor; [tidy|constructor]].
  split; [split; [discriminate|split; [|discriminate]]|split; [discriminate|split]].
  - intros H. apply repeat_spec in H. discriminate.
  - intros H. apply repeat_spec in H. discriminate.
  - vm_compute. repeat constructor.
Qed.
Print Assumptions c53_cut_name_refuted.
(** So do long paths with ".." or a zero in them, which give an error when they are shorter. *)
Theorem c53_long_bad_name_refuted : exists c p p',
  tar helper_new [ODirectory c (p ++ [47; 46; 46]) PropsWalk.no_meta] = ([], TarPanicked) /\
  tar helper_new [ODirectory c (p' ++ [47; 46; 46]) PropsWalk.no_meta] = ([], TarFailed (InvalidFileName (p' ++ [47; 46; 46]))).
Proof. exists (PropsWalk.cid_of 1), (repeat 97 97), (repeat 97 96). split; vm_compute; reflexivity. Qed.
Print Assumptions c53_long_bad_name_refuted.
(** The size in a file's block is not compared to its content: the archive is then broken. *)
Definition lying : cid -> option bytes := PropsWalk.store
  [(1, flat_write (mk_flat [] (mk_unixfs TFile (Some [1; 2; 3]) (Some 5) [] None None None None)))].
Theorem c53_lying_size_refuted : exists l, get_stream true 5 lying (PropsWalk.cid_of 1) [114] = (l, Walked Done) /\
  (length (concat l) mod 512 <> 0)%nat /\ unpack (concat l) = None.
Proof. eexists. split; [vm_compute; reflexivity|]. split; [vm_compute; discriminate|vm_compute; reflexivity]. Qed.
Print Assumptions c53_lying_size_refuted.
(** The header is used again: after a file of 8 GiB or more, the size of the next file is wrong. *)
Theorem c53_after_large_refuted : exists t l t' b, apply_file helper_new [114] PropsWalk.no_meta (8 ^ 11 + 49) = Ok (t, l) /\
  apply_file t [115] PropsWalk.no_meta 5 = Ok (t', [b]) /\ sum_ok b = true /\ number (field 124 12 b) = Some 41.
Proof. do 4 eexists. split; [vm_compute; reflexivity|]. split; [vm_compute; reflexivity|]. split; vm_compute; reflexivity. Qed.
Print Assumptions c53_after_large_refuted.
(** A link target is not passed on as it is. *)
Theorem c53_target_refuted : exists os t t', shows os [mk_entry [114] (Symlink t) 420 0] /\ t <> t' /\
  unpack (concat (fst (tar helper_new os))) = Some [mk_entry [114] (Symlink t') 420 0].
Proof.
  exists [OSymlink [97; 47; 47; 98] (PropsWalk.cid_of 1) [114] PropsWalk.no_meta], [97; 47; 47; 98], [97; 47; 98]. split; [|split; [discriminate|vm_compute; reflexivity]].
  apply (shows_symlink [97; 47; 47; 98] _ [114] PropsWalk.no_meta [] []); [good [[114]]|reflexivity| |reflexivity|constructor].
  split; [discriminate|]. split; [vm_compute; intuition discriminate|reflexivity].
Qed.
Print Assumptions c53_target_refuted.
(** An empty target ends the archive. *)
Theorem c53_empty_target_refuted : exists c p m, tar helper_new [OSymlink [] c p m] = ([], TarFailed (InvalidLinkName [])).
Proof. exists (PropsWalk.cid_of 1), [114], PropsWalk.no_meta. vm_compute. reflexivity. Qed.
Print Assumptions c53_empty_target_refuted.
(** The header of a file after a symlink still holds the target of the link. *)
Theorem c53_stale_target_refuted : exists t l t' b, apply_symlink helper_new [114] [120; 121] PropsWalk.no_meta = Ok (t, l) /\
  apply_file t [115] PropsWalk.no_meta 5 = Ok (t', [b]) /\ until_zero (field 157 100 b) = [120; 121].
Proof. do 4 eexists. split; [vm_compute; reflexivity|]. split; vm_compute; reflexivity. Qed.
Print Assumptions c53_stale_target_refuted.
