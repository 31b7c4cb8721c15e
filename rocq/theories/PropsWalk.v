(** C38 and C39: walking UnixFS trees. *)
From Verif Require Import Base Wire WireProofs Cid CidProofs Pb PbProofs FileVisit FileSpec FMap BTree IpfsPath PathSpec IpfsPathProofs DirLookup
  WalkNames WalkPending StdPath Walk WalkProofs WalkSafe WalkSpec TreeBuilder TreeSpec TreeBuilderProofs TreeIter TreeIterSpec TreeOutSpec TreeOut TreeRead WalkTree Walk WalkSpec.
From Verif Require FileAdder PropsFile PropsDir PropsTree.
Local Open Scope N_scope.

(** * C38 *)

(** A walk over a stored tree shows the tree entry by entry, and stops; but buckets of sharded
    directories are reported as [walk_report] says. *)
Theorem c38_walk dbg get c name os k :
  name = [] \/ step_name name -> entry_at get true (root_path name) c os ->
  walk dbg (length os + k) get (walker_new c name) =
    (fst (walk_report os), if snd (walk_report os) then Panicked else Done).
Proof. apply walk_top. Qed.
Print Assumptions c38_walk.

Lemma report_elsewhere os : no_bucket_after_dir os -> reported Elsewhere os = (os, false).
Proof.
  intros H.
  enough (G : forall l, l <> AfterDirectory \/ ~ starts_with_bucket os -> (forall rc, l = AtRoot rc -> ~ starts_with_bucket os) -> reported l os = (os, false)).
  { apply G; [left|]; discriminate. }
  induction os as [|o os IH]; intros l H1 H2; [reflexivity|].
  assert (Hn : no_bucket_after_dir os).
  { destruct o; try exact H. cbn [no_bucket_after_dir] in H. destruct os as [|[]]; try exact H; contradiction. }
  assert (HE : reported Elsewhere os = (os, false)) by (apply IH; [exact Hn|left; discriminate|discriminate]).
  destruct o; cbn [reported]; rewrite ?HE; try reflexivity.
  - destruct l as [rc| |]; [exfalso; apply (H2 rc eq_refl); exact Logic.I|destruct H1 as [H1|H1]; exfalso; [apply H1; reflexivity|apply H1; exact Logic.I]|reflexivity].
  - rewrite IH; [reflexivity|exact Hn| |discriminate]. right. destruct os as [|[]]; cbn; auto.
Qed.
(** When there is no bucket right after a plain directory and none right after the root, the report
    is exactly the tree. *)
Theorem c38_exact_partial dbg get c name os k :
  name = [] \/ step_name name -> entry_at get true (root_path name) c os ->
  no_bucket_after_dir os -> ~ starts_with_bucket (tl os) ->
  walk dbg (length os + k) get (walker_new c name) = (os, Done).
Proof.
  intros Hn He Hb Hs. rewrite (c38_walk dbg get c name os k Hn He).
  assert (E : walk_report os = (os, false)); [|rewrite E; reflexivity].
  destruct os as [|o os]; [reflexivity|]. unfold walk_report. destruct o; try apply report_elsewhere; try exact Hb.
  cbn [tl no_bucket_after_dir] in *.
  assert (E : reported (AtRoot c0) os = reported Elsewhere os) by (destruct os as [|[]]; try reflexivity; exfalso; apply Hs; exact Logic.I).
  rewrite E, (report_elsewhere os Hb). reflexivity.
Qed.
Print Assumptions c38_exact_partial.

(** No entry is shown twice: the paths are different when the names in each directory are. *)
Theorem c38_paths_distinct get top path c os :
  names_distinct get -> Forall step_name path -> entry_at get top path c os -> NoDup (entry_paths os).
Proof. intros H. apply (paths_nodup get H). Qed.
Print Assumptions c38_paths_distinct.

(** The pieces of a file make up what reading the file gives. *)
Theorem c38_file_content get fuel top path c content : read_file fuel get None c = ReadOk content ->
  (exists os, entry_at get top path c os) /\ forall os, entry_at get top path c os -> file_bytes os = content.
Proof.
  intros H. split.
  - destruct (read_entry get fuel c content H top path) as (os & He & _). exists os. exact He.
  - intros os He. eapply file_shown; eassumption.
Qed.
Print Assumptions c38_file_content.

(** Walking a file made by the adder: pieces of that file which make up what was added. *)
Theorem c38_added_file sha chunk bf slices out get dbg name :
  PropsFile.digest_fn sha -> PropsFile.config_ok chunk bf ->
  FileAdder.add_file sha chunk bf slices = FileAdder.Added out -> FileSpec.blocks_size out < u64_max1 ->
  PropsFile.holds get out -> name = [] \/ step_name name ->
  exists front root block os n, out = front ++ [(root, block)] /\
    (forall k, walk dbg (n + k) get (walker_new root name) = (os, Done)) /\ file_bytes os = concat slices /\
    Forall (fun o => match o with OFile _ _ _ c p _ _ => c = root /\ p = join (root_path name) | _ => False end) os.
Proof.
  intros H1 H2 H3 H4 H5 Hn.
  destruct (PropsFile.c01_added_file_reads_back sha chunk bf slices out get (length out) H1 H2 H3 H4 H5 (le_n _)) as (front & root & block & E & Hr).
  destruct (read_entry get _ root _ Hr true (root_path name)) as (os & He & Hb & _).
  assert (HL : forall c p m sz segs, Forall (fun o => match o with OFile _ _ _ c' p' _ _ => c' = c /\ p' = p | _ => False end) (later_segments c p m sz segs)).
  { clear. intros c p m sz segs. induction segs as [|s [|s2 segs] IH]; [constructor|repeat constructor|].
    change (later_segments c p m sz (s :: s2 :: segs)) with (OFile s false false c p m sz :: later_segments c p m sz (s2 :: segs)).
    constructor; [auto|exact IH]. }
  assert (HF : Forall (fun o => match o with OFile _ _ _ c p _ _ => c = root /\ p = join (root_path name) | _ => False end) os).
  { assert (Hf : forall b f, get root = Some b -> flat_parse b = inl f -> u_type (f_data f) = TFile \/ u_type (f_data f) = TRaw).
    { intros b f Hg Hp. unfold read_file in Hr. rewrite Hg in Hr. unfold visit_start, from_block in Hr. rewrite Hp in Hr.
      unfold from_parts in Hr. destruct (u_type (f_data f)); auto; discriminate. }
    inversion He; subst;
      match goal with Hg : get root = Some ?b, Hp : flat_parse ?b = inl ?f |- _ => pose proof (Hf b f Hg Hp) as Ht end;
      try (destruct Ht; congruence); [repeat constructor|constructor; [auto|apply HL]]. }
  exists front, root, block, os, (length os). split; [exact E|]. split; [|split; assumption].
  intros k. rewrite (c38_walk dbg get root name os k Hn He).
  rewrite no_buckets_report; [reflexivity|]. eapply Forall_impl; [|exact HF]. intros []; tauto.
Qed.
Print Assumptions c38_added_file.

(** Walking a directory tree made by the tree builder shows every file and symlink that was linked, at
    the path it was linked under with its content or target, and every directory, and ends. *)
Theorem c38_built_tree sha wrap l dirs get name dbg :
  (forall x, wf_cid (CidV0 (sha x))) ->
  built sha wrap (PropsTree.accepted wrap l) dirs -> dirs <> [] ->
  Forall call_wf l -> Forall (fun c => utf8 (call_path c) = true) l ->
  Forall (fun c => Forall step_name (split_slash (call_path c))) l ->
  (forall q es, In (q, es) dirs -> blen (dir_block es) < 2 ^ 32 /\ dir_total es < 2 ^ 64) ->
  (forall q es, In (q, es) dirs -> get (dir_cid sha es) = Some (dir_block es)) ->
  (forall p c s, In (PutLink p c s) l -> (exists fuel content, read_file fuel get None c = ReadOk content) \/
     exists b f, get c = Some b /\ flat_parse b = inl f /\ u_type (f_data f) = TSymlink) ->
  name = [] \/ step_name name ->
  exists front q es os n,
    dirs = front ++ [(q, es)] /\
    (forall k, walk dbg (n + k) get (walker_new (dir_cid sha es) name) = (os, Done)) /\
    (forall p c s, In (PutLink p c s) (PropsTree.accepted wrap l) ->
       exists r, split_slash p = q ++ r /\ (r <> [] ->
         exists a o b, os = a ++ o ++ b /\ entry_at get false (root_path name ++ r) c o /\
           (forall fuel content, read_file fuel get None c = ReadOk content -> file_bytes o = content) /\
           (forall b f, get c = Some b -> flat_parse b = inl f -> u_type (f_data f) = TSymlink ->
              o = [OSymlink (match u_data (f_data f) with Some d => d | None => [] end) c (join (root_path name ++ r)) (meta_of (f_data f))]))) /\
    (forall q' sub, In (q', sub) dirs ->
       exists r, q' = q ++ r /\ (r <> [] -> exists a rest,
         os = a ++ ODirectory (dir_cid sha sub) (join (root_path name ++ r)) (mk_meta None None) :: rest)).
Proof.
  intros Hsha HB Hne Hw Hu Hst Hsz Hg Hf Hn. set (h := PropsTree.accepted wrap l) in *.
  assert (Hsub : forall c, In c h -> In c l).
  { intros c Hc. apply (PropsTree.c35_accepted wrap None) in Hc as (i & Hi & _). eapply nth_error_In. exact Hi. }
  assert (HA : forall P, Forall P l -> Forall P h) by (intros P H; rewrite Forall_forall in *; auto).
  assert (Hex : forall q, q <> [] -> link_at h q <> None -> dir_at h q = false).
  { intros q Hq Hl. pose proof (PropsTree.c35_contents wrap None l q Hq) as H. fold h in H.
    destruct (at_path (b_root (PropsTree.tree_of wrap None l)) q) as [[c s|]|]; destruct H as [Ha Hb]; try congruence. }
  assert (Hf' : forall q c s, link_at h q = Some (c, s) -> forall path, exists o, entry_at get false path c o /\ no_buckets o).
  { intros q c s Hl path. apply link_at_call in Hl as (p & Hp & _). destruct (Hf p c s (Hsub _ Hp)) as [(fuel & content & Hr)|(b & f & G & P & T)].
    - apply (read_entry_file get fuel c content Hr).
    - eexists. split; [eapply at_symlink; eassumption|repeat constructor]. }
  pose proof HB as (B1 & B2 & B3 & B4 & B5). destruct (B5 Hne) as (front & es & Htop).
  assert (Hq : exists q, dirs = front ++ [(q, es)] /\ (if wrap then q = [] else exists x, q = [x])).
  { destruct wrap; [exists []|destruct Htop as (x & ->); exists [x]]; eauto. }
  destruct Hq as (q & Hd & Hqw).
  assert (Hnth : nth_error dirs (length front) = Some (q, es)) by (rewrite Hd, nth_error_app2, Nat.sub_diag by lia; reflexivity).
  destruct (dir_walks sha Hsha wrap h dirs HB (HA _ Hw) (HA _ Hu) (HA _ Hst) Hsz Hex get Hg Hf' (S (length front)) (length front) q es
              (Nat.lt_succ_diag_r _) Hnth true (root_path name)) as (os & He & Hnb & HL & HD).
  assert (Hone : wrap = false -> forall c, In c h -> exists r, split_slash (call_path c) = q ++ r).
  { intros -> c Hc. destruct Hqw as [x ->].
    assert (HO : one_root h) by (apply (accept_one_root l []); exists []; intros ? []). destruct HO as (y & HO).
    assert (Hy : y = x).
    { assert (Hx : In [x] (map fst dirs)) by (rewrite Hd, map_app; apply in_or_app; right; left; reflexivity).
      apply B1 in Hx. cbn [is_dir] in Hx. apply dir_at_call in Hx as (k & r & Hk & Ek). destruct (HO k Hk) as (r' & Er).
      rewrite Ek in Er. cbn [app] in Er. congruence. }
    subst y. exact (HO c Hc). }
  exists front, q, es, os, (length os). split; [exact Hd|]. split; [|split].
  - intros k. rewrite (c38_walk dbg get _ name os k Hn He), (no_buckets_report os Hnb). reflexivity.
  - intros p c s Hp. assert (Hr : exists r, split_slash p = q ++ r).
    { destruct wrap; [subst q; eexists; reflexivity|]. exact (Hone eq_refl _ Hp). }
    destruct Hr as [r Hr]. exists r. split; [exact Hr|]. intros Hr0.
    assert (Hl : link_at h (q ++ r) = Some (c, s)).
    { apply nodup_in_link; [apply accept_puts; constructor|]. apply in_flat_map. exists (PutLink p c s). split; [exact Hp|].
      left. rewrite Hr. reflexivity. }
    destruct (HL r c s Hr0 Hl) as (a & o & b & -> & Ho). exists a, o, b. split; [reflexivity|]. split; [exact Ho|].
    split; [intros fuel content Hrd; eapply file_shown; eassumption|].
    intros b' f G P T. inversion Ho as [? ? ? b2 f2 ? G2 P2 T2|? ? ? b2 f2 ? G2 P2 T2|? ? ? b2 f2 ? ? ? G2 P2 T2|? ? ? b2 f2 ? ? ? ? ? G2 P2 T2|? ? ? b2 f2 G2 P2 T2];
      subst; assert (b2 = b') by congruence; subst b2; assert (f2 = f) by congruence; subst f2; try congruence; try (destruct T2; congruence).
  - intros q' sub Hs. assert (Hr : exists r, q' = q ++ r).
    { destruct wrap; [subst q; eexists; reflexivity|]. destruct Hqw as [x ->].
      assert (Hin : In q' (map fst dirs)) by (apply in_map_iff; exists (q', sub); auto). apply B1 in Hin.
      destruct q' as [|y q']; [discriminate|]. cbn [is_dir] in Hin. apply dir_at_call in Hin as (k & r & Hk & Ek).
      destruct (Hone eq_refl k Hk) as [r' Er]. rewrite Ek in Er. cbn [app] in Er. injection Er as -> _. exists q'. reflexivity. }
    destruct Hr as [r ->]. exists r. split; [reflexivity|]. intros Hr0.
    destruct (HD r sub Hr0 Hs) as (a & o & b & -> & Ho). 
    assert (Hwfb : wf_flat (mk_flat (map dir_link sub) (mk_unixfs TDirectory None None [] None None None None))).
    { destruct (Hsz _ _ Hs). apply block_wf; [|assumption|assumption]. apply Forall_forall. intros [x [c s]] Hx. cbn [fst snd].
      eapply (entry_facts sha Hsha); [exact HB|apply HA, Hw|apply HA, Hu|exact Hs|exact Hx]. }
    pose proof (flat_roundtrip _ Hwfb) as Hp. pose proof (Hg _ _ Hs) as Hgs. unfold dir_block in Hgs.
    assert (Hinv : forall b' f, get (dir_cid sha sub) = Some b' -> flat_parse b' = inl f -> f = mk_flat (map dir_link sub) (mk_unixfs TDirectory None None [] None None None None)).
    { intros b' f G P. rewrite Hgs in G. injection G as <-. congruence. }
    inversion Ho; subst;
      match goal with G : get _ = Some ?b', P : flat_parse ?b' = inl ?f |- _ => pose proof (Hinv b' f G P); subst f end;
      try (cbn in *; intuition discriminate).
    cbn [f_data u_mode u_mtime meta_of]. eexists a, _. reflexivity.
Qed.
Print Assumptions c38_built_tree.

(** ** Examples and findings *)
Definition cid_of := PropsDir.cid_of.
Definition mk_link := PropsDir.mk_link.
Definition store (l : list (N * bytes)) (c : cid) : option bytes :=
  match find (fun e => cid_eqb (cid_of (fst e)) c) l with Some e => Some (snd e) | None => None end.
Definition directory (links : list pblink) : bytes := flat_write (mk_flat links PropsDir.dir_unixfs).
Definition shard (links : list pblink) : bytes := flat_write (mk_flat links PropsDir.hamt_unixfs).
Definition file (content : bytes) : bytes :=
  flat_write (mk_flat [] (mk_unixfs TFile (Some content) (Some (blen content)) [] None None None None)).
Definition big_file (parts : list (N * N)) : bytes :=
  flat_write (mk_flat (map (fun p => mk_link [] (cid_of (fst p))) parts)
                (mk_unixfs TFile None (Some (sumN (map snd parts))) (map snd parts) None None None None)).
Definition symlink (target : bytes) : bytes :=
  flat_write (mk_flat [] (mk_unixfs TSymlink (Some target) None [] None None None None)).
Definition no_meta : metadata := mk_meta None None.

(* 1: { a: file of two blocks; d: { x: file }; l: symlink; s: shard { b: file, bucket 00 { c: file } } } *)
Definition ex_tree : cid -> option bytes := store
  [(1, directory [mk_link [97] (cid_of 2); mk_link [100] (cid_of 5); mk_link [108] (cid_of 7); mk_link [115] (cid_of 8)]);
   (2, big_file [(3, 2); (4, 1)]); (3, file [1; 2]); (4, file [3]);
   (5, directory [mk_link [120] (cid_of 6)]); (6, file [7; 7]); (7, symlink [97]);
   (8, shard [mk_link [48; 49; 98] (cid_of 6); mk_link [48; 48] (cid_of 9)]); (9, shard [mk_link [48; 48; 99] (cid_of 6)])].
Definition ex_report : list walked :=
  [ORootDirectory (cid_of 1) [114] no_meta;
   OFile [] true false (cid_of 2) [114; 47; 97] no_meta 3;
   OFile [1; 2] false false (cid_of 2) [114; 47; 97] no_meta 3;
   OFile [3] false true (cid_of 2) [114; 47; 97] no_meta 3;
   ODirectory (cid_of 5) [114; 47; 100] no_meta;
   OFile [7; 7] true true (cid_of 6) [114; 47; 100; 47; 120] no_meta 2;
   OSymlink [97] (cid_of 7) [114; 47; 108] no_meta;
   ORootDirectory (cid_of 8) [114; 47; 115] no_meta;
   OFile [7; 7] true true (cid_of 6) [114; 47; 115; 47; 98] no_meta 2;
   OBucket (cid_of 9) [114; 47; 115];
   OFile [7; 7] true true (cid_of 6) [114; 47; 115; 47; 99] no_meta 2].
Ltac computed := vm_compute; reflexivity.
Ltac a_step := split; [discriminate|split; [vm_compute; intuition discriminate|discriminate]].
Lemma ex_small top path : entry_at ex_tree top path (cid_of 6) [OFile [7; 7] true true (cid_of 6) (join path) no_meta 2].
Proof.
  eapply (at_small_file _ _ _ _ (file [7; 7]) (mk_flat [] (mk_unixfs TFile (Some [7; 7]) (Some 2) [] None None None None)));
    [computed|computed|left; reflexivity|computed].
Qed.
Lemma ex_entry : entry_at ex_tree true (root_path [114]) (cid_of 1) ex_report.
Proof.
  apply (at_directory _ true [[114]] (cid_of 1)
    (directory [mk_link [97] (cid_of 2); mk_link [100] (cid_of 5); mk_link [108] (cid_of 7); mk_link [115] (cid_of 8)])
    (mk_flat [mk_link [97] (cid_of 2); mk_link [100] (cid_of 5); mk_link [108] (cid_of 7); mk_link [115] (cid_of 8)] PropsDir.dir_unixfs));
    [computed|computed|reflexivity|reflexivity|]. cbn [f_links].
  apply (link_entry _ [[114]] (mk_link [97] (cid_of 2)) _ (cid_of 2) (firstn 3 (tl ex_report))); [computed|a_step| |].
  { pose (v := mk_visit [(cid_of 3, mk_range 0 2); (cid_of 4, mk_range 2 3)] None (mk_trav (TreeCoverage 3) 0 3 no_meta)).
    pose (v2 := mk_visit [(cid_of 4, mk_range 2 3)] None (mk_trav (Chunk 2) 0 2 no_meta)).
    apply (at_file _ false [[114]; [97]] (cid_of 2) (big_file [(3, 2); (4, 1)])
      (mk_flat [mk_link [] (cid_of 3); mk_link [] (cid_of 4)] (mk_unixfs TFile None (Some 3) [2; 1] None None None None))
      [] 3 no_meta v [[1; 2]; [3]]); [computed|computed|left; reflexivity|computed|].
    apply (seg_more _ v (cid_of 3) (file [1; 2]) [1; 2] v2); [computed|computed|computed|].
    apply (seg_last _ v2 (cid_of 4) (file [3]) [3]); computed. }
  apply (link_entry _ [[114]] (mk_link [100] (cid_of 5)) _ (cid_of 5) (firstn 2 (skipn 4 ex_report))); [computed|a_step| |].
  { apply (at_directory _ false [[114]; [100]] (cid_of 5) (directory [mk_link [120] (cid_of 6)])
      (mk_flat [mk_link [120] (cid_of 6)] PropsDir.dir_unixfs)); [computed|computed|reflexivity|reflexivity|]. cbn [f_links].
    apply (link_entry _ [[114]; [100]] (mk_link [120] (cid_of 6)) [] (cid_of 6) [OFile [7; 7] true true (cid_of 6) [114; 47; 100; 47; 120] no_meta 2] []);
      [computed|a_step|apply ex_small|constructor]. }
  apply (link_entry _ [[114]] (mk_link [108] (cid_of 7)) _ (cid_of 7) (firstn 1 (skipn 6 ex_report))); [computed|a_step| |].
  { apply (at_symlink _ false [[114]; [108]] (cid_of 7) (symlink [97]) (mk_flat [] (mk_unixfs TSymlink (Some [97]) None [] None None None None))); computed. }
  apply (link_entry _ [[114]] (mk_link [115] (cid_of 8)) _ (cid_of 8) (skipn 7 ex_report) []); [computed|a_step| |constructor].
  apply (at_shard _ false [[114]; [115]] (cid_of 8) (shard [mk_link [48; 49; 98] (cid_of 6); mk_link [48; 48] (cid_of 9)])
    (mk_flat [mk_link [48; 49; 98] (cid_of 6); mk_link [48; 48] (cid_of 9)] PropsDir.hamt_unixfs)); [computed|computed|reflexivity|reflexivity|]. cbn [f_links].
  apply (shard_entry _ [[114]; [115]] (mk_link [48; 49; 98] (cid_of 6)) _ (cid_of 6) 48 49 [98] [OFile [7; 7] true true (cid_of 6) [114; 47; 115; 47; 98] no_meta 2]);
    [computed|reflexivity|a_step|intros x n' [= <- _]; reflexivity|apply ex_small|].
  apply (shard_bucket _ [[114]; [115]] (mk_link [48; 48] (cid_of 9)) [] (cid_of 9) 48 48 (shard [mk_link [48; 48; 99] (cid_of 6)])
    (mk_flat [mk_link [48; 48; 99] (cid_of 6)] PropsDir.hamt_unixfs) [OFile [7; 7] true true (cid_of 6) [114; 47; 115; 47; 99] no_meta 2] []);
    [computed|reflexivity|computed|computed|reflexivity|reflexivity| |constructor]. cbn [f_links].
  apply (shard_entry _ [[114]; [115]] (mk_link [48; 48; 99] (cid_of 6)) [] (cid_of 6) 48 48 [99] [OFile [7; 7] true true (cid_of 6) [114; 47; 115; 47; 99] no_meta 2] []);
    [computed|reflexivity|a_step|intros x n' [= <- _]; reflexivity|apply ex_small|constructor].
Qed.
Example c38_example : entry_at ex_tree true (root_path [114]) (cid_of 1) ex_report /\
  step_name [114] /\ no_bucket_after_dir ex_report /\ ~ starts_with_bucket (tl ex_report) /\
  walk true 20 ex_tree (walker_new (cid_of 1) [114]) = (ex_report, Done) /\
  entry_paths ex_report = [[114]; [114; 47; 97]; [114; 47; 100]; [114; 47; 100; 47; 120]; [114; 47; 108]; [114; 47; 115]; [114; 47; 115; 47; 98]; [114; 47; 115; 47; 99]].
Proof.
  split; [exact ex_entry|]. split; [a_step|]. split; [exact Logic.I|]. split; [intros []|]. split; computed.
Qed.

(** A tree from the builder: a/f, a/b/g and c, all the file 6. *)
Definition ex_calls : list call :=
  [PutLink [97; 47; 102] (cid_of 6) 10; PutLink [97; 47; 98; 47; 103] (cid_of 6) 10; PutLink [99] (cid_of 6) 10].
Definition ex_dirs := Eval vm_compute in all_dirs PropsTree.sha0 true (b_root (PropsTree.tree_of true None ex_calls)).
Definition ex_built_get (c : cid) : option bytes :=
  match find (fun d => cid_eqb (dir_cid PropsTree.sha0 (snd d)) c) ex_dirs with
  | Some d => Some (dir_block (snd d))
  | None => ex_tree c
  end.
Lemma cid_of_wf x : x < 256 -> wf_cid (cid_of x).
Proof. intros H. split; [reflexivity|]. apply Forall_forall. intros y Hy. apply repeat_spec in Hy. subst. exact H. Qed.
Example c38_built_example :
  (forall x, wf_cid (CidV0 (PropsTree.sha0 x))) /\ built PropsTree.sha0 true (PropsTree.accepted true ex_calls) ex_dirs /\ length ex_dirs = 3%nat /\
  Forall call_wf ex_calls /\ Forall (fun c => utf8 (call_path c) = true) ex_calls /\
  Forall (fun c => Forall step_name (split_slash (call_path c))) ex_calls /\
  (forall q es, In (q, es) ex_dirs -> blen (dir_block es) < 2 ^ 32 /\ dir_total es < 2 ^ 64) /\
  (forall q es, In (q, es) ex_dirs -> ex_built_get (dir_cid PropsTree.sha0 es) = Some (dir_block es)) /\
  (forall p c s, In (PutLink p c s) ex_calls -> exists fuel content, read_file fuel ex_built_get None c = ReadOk content) /\
  exists root m, map (fun o => match o with OFile s _ _ _ p _ _ => (p, s) | ODirectory _ p _ | ORootDirectory _ p _ => (p, []) | _ => ([], []) end)
            (fst (walk true 10 ex_built_get (walker_new root []))) =
          [([], []); ([97], []); ([97; 47; 98], []); ([97; 47; 98; 47; 103], m); ([97; 47; 102], m); ([99], m)].
Proof.
  split; [exact PropsTree.sha0_wf|]. split.
  { change ex_dirs with (all_dirs PropsTree.sha0 true (b_root (PropsTree.tree_of true None ex_calls))).
    eapply built_ok; [apply PropsTree.tree_inv|discriminate]. }
  split; [reflexivity|]. split; [repeat constructor; apply cid_of_wf; reflexivity|]. split; [repeat constructor|].
  split; [repeat (constructor; [repeat (constructor; [a_step|]); constructor|]); constructor|].
  split; [|split; [|split]].
  - intros q es [[= <- <-]|[[= <- <-]|[[= <- <-]|[]]]]; split; computed.
  - intros q es [[= <- <-]|[[= <- <-]|[[= <- <-]|[]]]]; computed.
  - intros p c s [[= <- <- <-]|[[= <- <- <-]|[[= <- <- <-]|[]]]]; exists 0%nat, [7; 7]; computed.
  - exists (dir_cid PropsTree.sha0 (snd (last ex_dirs ([], [])))), [7; 7]. computed.
Qed.

(** A bucket right after the root of a sharded directory at the start is reported with the cid of
    the root. *)
Definition two_buckets : cid -> option bytes := store
  [(1, shard [mk_link [48; 48] (cid_of 2)]); (2, shard [mk_link [48; 48; 99] (cid_of 3)]); (3, file [7])].
Theorem c38_bucket_cid_refuted : exists get c os k,
  entry_at get true [] c os /\ nth_error os 1 = Some (OBucket (cid_of 2) []) /\
  nth_error (fst (walk true k get (walker_new c []))) 1 = Some (OBucket (cid_of 1) []).
Proof.
  exists two_buckets, (cid_of 1), [ORootDirectory (cid_of 1) [] no_meta; OBucket (cid_of 2) []; OFile [7] true true (cid_of 3) [99] no_meta 1], 5%nat.
  split; [|split; computed].
  apply (at_shard _ true [] (cid_of 1) (shard [mk_link [48; 48] (cid_of 2)]) (mk_flat [mk_link [48; 48] (cid_of 2)] PropsDir.hamt_unixfs));
    [computed|computed|reflexivity|reflexivity|]. cbn [f_links].
  apply (shard_bucket _ [] (mk_link [48; 48] (cid_of 2)) [] (cid_of 2) 48 48 (shard [mk_link [48; 48; 99] (cid_of 3)])
    (mk_flat [mk_link [48; 48; 99] (cid_of 3)] PropsDir.hamt_unixfs) [OFile [7] true true (cid_of 3) [99] no_meta 1] []);
    [computed|reflexivity|computed|computed|reflexivity|reflexivity| |constructor]. cbn [f_links].
  apply (shard_entry _ [] (mk_link [48; 48; 99] (cid_of 3)) [] (cid_of 3) 48 48 [99] [OFile [7] true true (cid_of 3) [99] no_meta 1] []);
    [computed|reflexivity|a_step|intros x n' [= <- _]; reflexivity| |constructor].
  apply (at_small_file _ false [[99]] (cid_of 3) (file [7]) (mk_flat [] (mk_unixfs TFile (Some [7]) (Some 1) [] None None None None)));
    [computed|computed|left; reflexivity|computed].
Qed.
Print Assumptions c38_bucket_cid_refuted.

(** Without debug assertions, after an entry named "." in the root [r] the entry [x] is reported as
    "x" and not as "r/x". *)
Definition dotted : cid -> option bytes := store
  [(1, directory [mk_link [46] (cid_of 2); mk_link [120] (cid_of 2)]); (2, file [7])].
Theorem c38_dot_name_refuted : exists get c k,
  walk false k get (walker_new c [114]) =
    ([ORootDirectory c [114] no_meta; OFile [7] true true (cid_of 2) [114; 47; 46] no_meta 1; OFile [7] true true (cid_of 2) [120] no_meta 1], Done).
Proof. exists dotted, (cid_of 1), 5%nat. computed. Qed.
Print Assumptions c38_dot_name_refuted.

(** Names are not checked: ".." leads out of the root in the reported path. *)
Definition dotdot : cid -> option bytes := store [(1, directory [mk_link [46; 46] (cid_of 2)]); (2, directory [mk_link [120] (cid_of 3)]); (3, file [7])].
Theorem c38_parent_name_refuted : exists get c k,
  walk true k get (walker_new c [114]) =
    ([ORootDirectory c [114] no_meta; ODirectory (cid_of 2) [114; 47; 46; 46] no_meta; OFile [7] true true (cid_of 3) [114; 47; 46; 46; 47; 120] no_meta 1], Done).
Proof. exists dotdot, (cid_of 1), 5%nat. computed. Qed.
Print Assumptions c38_parent_name_refuted.

(** * C39 *)

(** Over a store of blocks with usual names and files that can be read, whatever blocks are missing or
    broken otherwise, the only panic left is at a bucket right after a plain directory. *)
Theorem c39_panic_partial dbg get c name k os :
  safe_store get -> name = [] \/ step_name name ->
  walk dbg k get (walker_new c name) = (os, Panicked) ->
  exists front c' p m, os = front ++ [ODirectory c' p m].
Proof. intros H1 H2 H3. apply (walk_safe dbg get c name k os H1 H2 H3). Qed.
Print Assumptions c39_panic_partial.

(** Without sharded directories there is none. *)
Theorem c39_no_shards_partial dbg get c name k os :
  safe_store get -> name = [] \/ step_name name ->
  (forall c b f, get c = Some b -> flat_parse b = inl f -> u_type (f_data f) <> THAMTShard) ->
  walk dbg k get (walker_new c name) <> (os, Panicked).
Proof.
  intros H1 H2 H3 H4. destruct (walk_safe dbg get c name k os H1 H2 H4) as [(c' & b & f & G & P & T) _]. exact (H3 c' b f G P T).
Qed.
Print Assumptions c39_no_shards_partial.

(** The panics, with the debug assertions and without. *)
Definition panics (get : cid -> option bytes) : Prop :=
  forall dbg, exists os, walk dbg 10 get (walker_new (cid_of 1) []) = (os, Panicked).
Ltac panic := intros []; eexists; vm_compute; reflexivity.
Theorem c39_unnamed_link_refuted : panics (store [(1, directory [mk_link [] (cid_of 2)])]).
Proof. panic. Qed.
Print Assumptions c39_unnamed_link_refuted.
Theorem c39_missing_name_refuted :
  panics (store [(1, directory [mk_pblink (Some (cid_to_bytes (cid_of 2))) None None])]).
Proof. panic. Qed.
Print Assumptions c39_missing_name_refuted.
Theorem c39_slash_in_name_refuted : panics (store [(1, directory [mk_link [97; 47; 98] (cid_of 2)])]).
Proof. panic. Qed.
Print Assumptions c39_slash_in_name_refuted.
Theorem c39_short_shard_name_refuted : panics (store [(1, shard [mk_link [48] (cid_of 2)])]).
Proof. panic. Qed.
Print Assumptions c39_short_shard_name_refuted.
(** "AAé" cut in the middle of a character would need an odd prefix: "Aé" is cut so. *)
Theorem c39_cut_character_refuted : panics (store [(1, shard [mk_link [65; 195; 169] (cid_of 2)])]) /\ utf8 [65; 195; 169] = true.
Proof. split; [panic|reflexivity]. Qed.
Print Assumptions c39_cut_character_refuted.
(** A file with a block that is no UnixFS, such as a raw leaf. *)
Theorem c39_raw_leaf_refuted : panics (store [(1, big_file [(2, 3)]); (2, [104; 105; 33])]) /\
  read_file 5 (store [(1, big_file [(2, 3)]); (2, [104; 105; 33])]) None (cid_of 1) = ReadErr ReadFailed.
Proof. split; [panic|computed]. Qed.
Print Assumptions c39_raw_leaf_refuted.
(** A sharded directory where an empty plain directory is followed by a bucket: each block is as it
    should be. *)
Definition bucket_after_dir : cid -> option bytes := store
  [(1, shard [mk_link [48; 48; 97] (cid_of 2); mk_link [48; 49] (cid_of 3)]); (2, directory []); (3, shard [mk_link [48; 50; 98] (cid_of 2)])].
Lemma store_in l c b : store l c = Some b -> In b (map snd l).
Proof. unfold store. destruct (find _ l) as [e|] eqn:E; [|discriminate]. intros [= <-]. apply find_some in E as [H _]. apply in_map. exact H. Qed.
Lemma bucket_after_dir_safe : safe_store bucket_after_dir.
Proof.
  assert (HB : forall c b f, bucket_after_dir c = Some b -> flat_parse b = inl f ->
    f = mk_flat [mk_link [48; 48; 97] (cid_of 2); mk_link [48; 49] (cid_of 3)] PropsDir.hamt_unixfs \/
    f = mk_flat [] PropsDir.dir_unixfs \/ f = mk_flat [mk_link [48; 50; 98] (cid_of 2)] PropsDir.hamt_unixfs).
  { intros c b f H P. apply store_in in H. cbn [map snd In] in H. destruct H as [<-|[<-|[<-|[]]]]; vm_compute in P; injection P as <-; auto. }
  assert (HP : forall c b, bucket_after_dir c = Some b -> exists e, visit_start None b = Err e).
  { intros c b H. apply store_in in H. cbn [map snd In] in H. destruct H as [<-|[<-|[<-|[]]]]; eexists; computed. }
  assert (HV : forall v, ~ visits bucket_after_dir v).
  { induction 1; [|assumption]. destruct (HP _ _ H) as [e E]. congruence. }
  split.
  - intros c b f H P T. destruct (HB c b f H P) as [->|[->| ->]]; [discriminate|constructor|discriminate].
  - intros c b f H P T. destruct (HB c b f H P) as [->|[->| ->]]; [|discriminate|]; cbn [f_links].
    + constructor; [|constructor; [|constructor]].
      * exists 48, 48, [97]. split; [reflexivity|]. split; [a_step|reflexivity].
      * exists 48, 49, []. split; [reflexivity|]. intros c' b' f' E H' P'.
        assert (c' = cid_of 3) by (vm_compute in E; injection E as <-; reflexivity). subst c'.
        vm_compute in H'. injection H' as <-. vm_compute in P'. injection P' as <-. reflexivity.
    + constructor; [|constructor]. exists 48, 50, [98]. split; [reflexivity|]. split; [a_step|reflexivity].
  - intros c b H E. destruct (HP c b H). congruence.
  - intros v c b H. exfalso. exact (HV v H).
  - intros v H. exfalso. exact (HV v H).
Qed.
Theorem c39_bucket_after_directory_refuted : safe_store bucket_after_dir /\ panics bucket_after_dir.
Proof. split; [exact bucket_after_dir_safe|panic]. Qed.
Print Assumptions c39_bucket_after_directory_refuted.
(** A file without a size (see C07). *)
Theorem c39_file_without_size_refuted : panics (store [(1, PropsFile.hostile_leaf)]).
Proof. panic. Qed.
Print Assumptions c39_file_without_size_refuted.
(** With debug assertions also an entry named "." below another, and a two-letter shard link to a
    file. *)
Theorem c39_dot_name_refuted : exists get c k os, walk true k get (walker_new c [114]) = (os, Panicked) /\
  snd (walk false k get (walker_new c [114])) = Done.
Proof. exists dotted, (cid_of 1), 5%nat. eexists. split; computed. Qed.
Print Assumptions c39_dot_name_refuted.
Theorem c39_bucket_link_to_file_refuted : exists get c k os, walk true k get (walker_new c []) = (os, Panicked).
Proof. exists (store [(1, shard [mk_link [48; 48] (cid_of 2)]); (2, file [7])]), (cid_of 1), 5%nat. eexists. computed. Qed.
Print Assumptions c39_bucket_link_to_file_refuted.

(** A store without shards which is safe: a directory, a file and a block which is no UnixFS. *)
Definition plain_store : cid -> option bytes := store
  [(1, directory [mk_link [97] (cid_of 2); mk_link [98] (cid_of 3); mk_link [99] (cid_of 4)]); (2, file [7]); (3, [104; 105])].
Example c39_example : safe_store plain_store /\
  (forall c b f, plain_store c = Some b -> flat_parse b = inl f -> u_type (f_data f) <> THAMTShard) /\
  snd (walk true 10 plain_store (walker_new (cid_of 1) [])) = Failed WEmptyNode.
Proof.
  assert (HB : forall c b f, plain_store c = Some b -> flat_parse b = inl f ->
    f = mk_flat [mk_link [97] (cid_of 2); mk_link [98] (cid_of 3); mk_link [99] (cid_of 4)] PropsDir.dir_unixfs \/
    f = mk_flat [] (mk_unixfs TFile (Some [7]) (Some 1) [] None None None None)).
  { intros c b f H P. apply store_in in H. cbn [map snd In] in H. destruct H as [<-|[<-|[<-|[]]]]; vm_compute in P; [injection P as <-; auto|injection P as <-; auto|discriminate]. }
  assert (HV : forall v, ~ visits plain_store v).
  { induction 1; [|assumption]. apply store_in in H. cbn [map snd In] in H. destruct H as [<-|[<-|[<-|[]]]]; vm_compute in H0; discriminate. }
  split; [split|split].
  - intros c b f H P T. destruct (HB c b f H P) as [->| ->]; [|discriminate]. cbn [f_links].
    repeat (constructor; [a_step|]). constructor.
  - intros c b f H P T. destruct (HB c b f H P) as [->| ->]; discriminate.
  - intros c b H. apply store_in in H. cbn [map snd In] in H. destruct H as [<-|[<-|[<-|[]]]]; vm_compute; discriminate.
  - intros v c b H. exfalso. exact (HV v H).
  - intros v H. exfalso. exact (HV v H).
  - intros c b f H P. destruct (HB c b f H P) as [->| ->]; discriminate.
  - computed.
Qed.

(** The links offered for loading ahead, at any point of a walk, are blocks which the rest of the walk
    loads, in that order. *)
Theorem c38_pending_links dbg get c name w k os :
  comes_up dbg get (walker_new c name) w -> walk dbg k get w = (os, Done) ->
  exists cs, loads dbg get w cs /\ length cs = length os /\ in_order (pending_links w) cs.
Proof.
  intros Hw Hk. destruct (walk_loads dbg get k w os Hk) as (cs & H1 & H2). exists cs. split; [exact H1|]. split; [exact H2|].
  eapply loads_pending; [eapply comes_tidy; exact Hw|exact H1].
Qed.
Print Assumptions c38_pending_links.
Example c38_pending_example : exists w o b, ex_tree (cid_of 1) = Some b /\ walk_next true (walker_new (cid_of 1) [114]) b = Ok (w, o) /\
  comes_up true ex_tree (walker_new (cid_of 1) [114]) w /\ pending_links w = [cid_of 2; cid_of 5; cid_of 7; cid_of 8] /\
  walk true 20 ex_tree w = (tl ex_report, Done).
Proof.
  eexists _, _, _. split; [vm_compute; reflexivity|]. split; [vm_compute; reflexivity|]. split; [|split; computed].
  eapply comes_next; [apply comes_first|reflexivity|reflexivity|vm_compute; reflexivity|vm_compute; reflexivity].
Qed.

(** A walk that stops because of a link whose cid cannot be read names that link: the block it was
    given has a link at the index in the error, and the cid of that link is invalid. *)
Theorem c39_invalid_cid dbg w b n : walk_next dbg w b = Err (WInvalidCid n) ->
  exists f l, flat_parse b = inl f /\ nth_error (f_links f) n = Some l /\ link_cid l = None.
Proof. apply next_invalid_cid. Qed.
Print Assumptions c39_invalid_cid.
Example c39_invalid_cid_example :
  walk_next true (walker_new (cid_of 1) [114])
    (directory [mk_link [97] (cid_of 2); mk_pblink (Some [1; 2]) (Some [98]) None; mk_link [99] (cid_of 3)]) = Err (WInvalidCid 1).
Proof. vm_compute. reflexivity. Qed.
