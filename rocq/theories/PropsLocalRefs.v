(** C82: what /refs/local lists. *)
From Verif Require Import Base Wire Cid Text TextProofs FMap BlockSpec MemBlocks FsPaths FsPathsProofs FsBlocks FsBlocksProofs
  RefsHttp RefsHttpSpec Bodies BodiesSpec LocalRefs PropsBlocks PropsBodies PropsRefsHttp.
Local Open Scope N_scope.

(** [b] has one line for each of the cids, without an error; no text twice; and each text is read back
    as the cid, whatever the decoder of other multibase prefixes does. *)
Definition lists (b : bytes) (cs : list cid) : Prop :=
  read_body b = Some (map (fun c => (cid_to_text c, [])) cs) /\ NoDup (map cid_to_text cs) /\
  forall ob c, In c cs -> cid_from_text ob (cid_to_text c) = Some c.

Lemma lists_body cs w b fs items : local_items (Answer (RList cs)) = Some items -> Forall wf_cid cs -> NoDup cs ->
  arrives w (on_wire items AtEnd) -> chunked w b fs -> lists b cs.
Proof.
  intros [= <-] W D A C. destruct (c81_only _ _ _ _ _ A C) as (_ & _ & _ & -> & _). split; [|split].
  - replace (flat_map _ _) with (body (map (fun c => (cid_to_text c, @nil N)) cs)); [apply c61_lines|].
    unfold body. rewrite flat_map_concat_map, !map_map. reflexivity.
  - clear A C. induction D as [|c cs Hc D IH]; [constructor|]. inversion W as [|? ? Wc Wcs]; subst. cbn [map]. constructor; [|auto].
    intros Hi. apply in_map_iff in Hi as (d & E & Hd). rewrite Forall_forall in Wcs. apply cid_text_inj in E; [subst; auto|auto|auto].
  - intros ob c Hc. rewrite Forall_forall in W. apply cid_text_roundtrip; auto.
Qed.
Lemma local_whole items cs : local_items (Answer (RList cs)) = Some items -> exists b, chunked (on_wire items AtEnd) b [].
Proof. intros [= <-]. eexists. apply c81_whole. intros i Hi. apply in_map_iff in Hi as (c & <- & _). discriminate. Qed.
Lemma stored_put {K} (key : cid -> K) keq past k b : stored key keq past k = Some b -> In (Put b) past.
Proof.
  induction past as [|o past IH]; [discriminate|]. destruct o as [x|c|c|c|]; cbn [stored]; try (right; auto; fail).
  - destruct (stored key keq past k) as [y|]; [intros [= ->]; right; auto|]. destruct (keq _ _); [intros [= ->]; left; reflexivity|discriminate].
  - destruct (keq _ _); [discriminate|]. right. auto.
Qed.
Lemma content_known h k : Forall wf_event h -> content h k <> None -> exists c, wf_cid c /\ to_v1 c = k.
Proof.
  induction 1 as [|e h He _ IH]; [intros []; reflexivity|].
  destruct e as [[x|c|c|c|]| |x cs n|x cs n|x]; cbn [content]; try exact IH.
  - destruct (content h k); [intros _; apply IH; discriminate|]. destruct (cid_eqb (to_v1 (b_cid x)) k) eqn:E; [|intros []; reflexivity].
    intros _. destruct (cid_eqb_spec (to_v1 (b_cid x)) k) as [E'|E']; [|discriminate E]. eauto.
  - destruct (cid_eqb _ _); [intros []; reflexivity|exact IH].
  - destruct (content h k); [intros _; apply IH; discriminate|]. destruct (cid_eqb (to_v1 (b_cid x)) k) eqn:E; [|intros []; reflexivity].
    intros _. destruct (cid_eqb_spec (to_v1 (b_cid x)) k) as [E'|E']; [|discriminate E]. destruct He. eauto.
Qed.

(** Over the store in memory, after any calls: the request is answered, and a whole body lists one cid for each stored block, namely
    one under which it was put. *)
Theorem c82_memory h : Forall wf_op h ->
  exists items, local_items (Answer (snd (mem_step (mem_run h) ListAll))) = Some items /\
  (exists b, chunked (on_wire items AtEnd) b []) /\
  forall w b fs, arrives w (on_wire items AtEnd) -> chunked w b fs ->
  exists cs, lists b cs /\
    (forall c, snd (mem_step (mem_run h) (Contains c)) = RContains true <-> exists d, In d cs /\ cid_hash d = cid_hash c) /\
    (forall d d', In d cs -> In d' cs -> cid_hash d = cid_hash d' -> d = d') /\
    forall d, In d cs -> exists x, In (Put x) h /\ b_cid x = d /\ snd (mem_step (mem_run h) (Get d)) = RGet (Some x).
Proof.
  intros W. pose proof (c14_memory_store_is_a_map h ListAll) as L. destruct (snd (mem_step (mem_run h) ListAll)) as [| | | |cs] eqn:EL; try contradiction L.
  destruct L as [D L]. eexists. split; [reflexivity|]. split; [apply (local_whole _ cs eq_refl)|]. intros w b fs A C. exists cs.
  assert (Wc : forall d, In d cs -> exists x, In (Put x) h /\ b_cid x = d /\ stored cid_hash mh_eqb (rev h) (cid_hash d) = Some x).
  { intros d Hd. apply L in Hd as (x & E & Ex). exists x. split; [|auto]. apply in_rev. exact (stored_put _ _ _ _ _ E). }
  split; [|split; [|split]].
  - apply (lists_body cs w b fs _ eq_refl); auto. apply Forall_forall. intros d Hd. destruct (Wc d Hd) as (x & Hx & <- & _).
    rewrite Forall_forall in W. exact (W _ Hx).
  - intros c. pose proof (c14_memory_store_is_a_map h (Contains c)) as R. destruct (snd (mem_step (mem_run h) (Contains c))) as [| |y| |]; try contradiction R.
    cbn in R. subst y. split.
    + intros [= E]. destruct (stored cid_hash mh_eqb (rev h) (cid_hash c)) as [x|] eqn:S; [|discriminate].
      assert (Hk : cid_hash (b_cid x) = cid_hash c).
      { clear - S. revert S. induction (rev h) as [|o p IH]; [discriminate|]. destruct o; cbn [stored]; try exact IH.
        - destruct (stored cid_hash mh_eqb p (cid_hash c)); [exact IH|]. destruct (mh_eqb (cid_hash (b_cid b)) (cid_hash c)) eqn:E; [|discriminate]. intros [= ->]. destruct (mh_eqb_spec (cid_hash (b_cid x)) (cid_hash c)) as [E'|E']; [exact E'|discriminate E].
        - destruct (mh_eqb _ _); [discriminate|exact IH]. }
      exists (b_cid x). split; [|exact Hk]. apply L. exists x. rewrite Hk. auto.
    + intros (d & Hd & E). apply L in Hd as (x & S & _). rewrite <- E, S. reflexivity.
  - intros d d' Hd Hd' E. apply L in Hd as (x & S & <-). apply L in Hd' as (x' & S' & <-). rewrite E in S. congruence.
  - intros d Hd. destruct (Wc d Hd) as (x & H1 & H2 & H3). exists x. split; [exact H1|]. split; [exact H2|].
    pose proof (c14_memory_store_is_a_map h (Get d)) as R. destruct (snd (mem_step (mem_run h) (Get d))); try contradiction R. cbn in R. rewrite H3 in R. cbn in R. congruence.
Qed.
Print Assumptions c82_memory.

(** Over the store on disk, after any calls, restarts, crashes and failed writes: likewise, and a whole body lists the
    version 1 form of exactly the cids which the store says it has. *)
Theorem c82_disk ob h : Forall wf_event h ->
  exists items, local_items (snd (fs_call ob (fs_run ob h) ListAll)) = Some items /\
  (exists b, chunked (on_wire items AtEnd) b []) /\
  forall w b fs, arrives w (on_wire items AtEnd) -> chunked w b fs ->
  exists cs, lists b cs /\
    (forall c, wf_cid c ->
      (snd (fs_call ob (fs_run ob h) (Contains c)) = Answer (RContains true) <->
       In (match c with CidV0 d => CidV1 112 (Build_multihash 18 d) | _ => c end) cs)) /\
    forall d, In d cs -> wf_cid d /\ snd (fs_call ob (fs_run ob h) (Contains d)) = Answer (RContains true).
Proof.
  intros W. pose proof (fs_run_ok ob h W) as Hok. assert (Wr : Forall wf_event (rev h)) by (apply Forall_rev; exact W).
  destruct (fs_list_ok ob _ _ Wr Hok) as (cs & EL & D & L). cbn [fs_call snd]. rewrite EL. eexists. split; [reflexivity|]. split; [apply (local_whole _ cs eq_refl)|]. intros w b fs A C. exists cs.
  assert (Wc : forall d, In d cs -> wf_cid d /\ to_v1 d = d).
  { intros d Hd. apply L in Hd. destruct (content_known _ _ Wr Hd) as (c & Hc & <-). split; [apply wf_to_v1, Hc|]. destruct c; reflexivity. }
  assert (K : forall c, wf_cid c -> (fs_contains c (fs_run ob h) = Answer (RContains true) <-> In (to_v1 c) cs)).
  { intros c Hc. unfold fs_contains. rewrite block_path_ok by exact Hc. destruct Hok as [_ G]. rewrite (G c Hc), L.
    destruct (content (rev h) (to_v1 c)); cbn; split; intros X; try discriminate; try reflexivity. destruct X; reflexivity. }
  split; [|split].
  - apply (lists_body cs w b fs _ eq_refl); auto. apply Forall_forall. intros d Hd. exact (proj1 (Wc d Hd)).
  - intros c Hc. rewrite (K c Hc). destruct c; reflexivity.
  - intros d Hd. destruct (Wc d Hd) as [H1 H2]. split; [exact H1|]. apply (K d H1). rewrite H2. exact Hd.
Qed.
Print Assumptions c82_disk.

(** Not so: that a block is listed under a cid with which it was put, as it is over the store in memory. *)
Theorem c82_as_put_refuted : ~ forall ob h items cs b fs, Forall wf_event h ->
  local_items (snd (fs_call ob (fs_run ob h) ListAll)) = Some items -> chunked (on_wire items AtEnd) b fs -> lists b cs ->
  forall d, In d cs -> exists x, In (Call (Put x)) h /\ b_cid x = d.
Proof.
  intros H. set (x := mk_block ex_v0 [3]). assert (W : Forall wf_event [Call (Put x)]) by (repeat constructor).
  destruct (c82_disk (fun _ _ => None) _ W) as (items & E & _ & R).
  assert (C : chunked (on_wire items AtEnd) (flat_map (fun i => match i with Bytes b => b | Error => [] end) items) []).
  { apply c81_whole. vm_compute in E. injection E as <-. intros b [<-|[]]. discriminate. }
  destruct (R _ _ _ (ex_intro _ [] (eq_sym (app_nil_r _))) C) as (cs & Lb & Lc & _).
  assert (I : In (to_v1 ex_v0) cs) by (apply (Lc ex_v0); [repeat constructor|vm_compute; reflexivity]).
  destruct (H _ _ _ _ _ _ W E C Lb _ I) as (y & [Y|[]] & Z). injection Y as <-. discriminate Z.
Qed.
Print Assumptions c82_as_put_refuted.

(** With no crashes and no failed writes, each listed cid is the version 1 form of one with which a block
    was put, and reading it gives the bytes of that block. *)
Theorem c82_disk_content ob h items w b fs cs : Forall healthy h ->
  local_items (snd (fs_call ob (fs_run ob h) ListAll)) = Some items -> arrives w (on_wire items AtEnd) -> chunked w b fs -> lists b cs ->
  forall d, In d cs -> exists x, In (Call (Put x)) h /\ match b_cid x with CidV0 m => CidV1 112 (Build_multihash 18 m) | c => c end = d /\
    snd (fs_call ob (fs_run ob h) (Get d)) = Answer (RGet (Some (mk_block d (b_data x)))).
Proof.
  intros Hh E A C (R & _ & T) d Hd. destruct (c82_disk ob h (healthy_wf _ Hh)) as (items' & E' & _ & K). rewrite E in E'. injection E' as <-.
  destruct (K w b fs A C) as (cs' & (R' & _ & T') & _ & K').
  assert (Hd' : In d cs').
  { rewrite R in R'. injection R' as R'. assert (X : In (cid_to_text d, @nil N) (map (fun c => (cid_to_text c, [])) cs')) by (rewrite <- R'; apply in_map_iff; eauto).
    apply in_map_iff in X as (d' & [= X] & Hd'). pose proof (T (fun _ _ => None) d Hd) as T1. pose proof (T' (fun _ _ => None) d' Hd') as T2. rewrite X in T2. congruence. }
  destruct (K' d Hd') as [Wd _].
  destruct (c15_filesystem_store_is_a_map ob h ListAll Hh Logic.I) as (r & El & L). rewrite El in E. destruct r as [| | | |l]; try contradiction L. destruct L as [D L].
  assert (Hl : In d l).
  { injection E as <-. destruct (c81_only _ _ _ _ _ A C) as (_ & _ & _ & Eb & _).
    assert (Z : read_body b = Some (map (fun c => (cid_to_text c, [])) l)).
    { rewrite Eb. replace (flat_map _ _) with (body (map (fun c => (cid_to_text c, @nil N)) l)); [apply c61_lines|]. unfold body. rewrite flat_map_concat_map, !map_map. reflexivity. }
    rewrite R in Z. injection Z as Z. assert (X : In (cid_to_text d, @nil N) (map (fun c => (cid_to_text c, [])) l)) by (rewrite <- Z; apply in_map_iff; eauto).
    apply in_map_iff in X as (d' & [= X] & Hd2). assert (Wd' : wf_cid d').
    { apply L in Hd2 as (x & S & <-). apply stored_put, in_rev in S. apply wf_to_v1. clear - S Hh. induction Hh as [|e h He _ IH]; [destruct S|].
      destruct e as [o| | | |]; cbn in S, He; try contradiction; try (apply IH; exact S). destruct S as [->|S]; [exact He|auto]. }
    apply cid_text_inj in X; [subst; exact Hd2|exact Wd'|exact Wd]. }
  apply L in Hl as (x & S & Ex). exists x. assert (P := S). apply stored_put, in_rev in P. split; [|split].
  - clear - P. induction h as [|e h IH]; [destruct P|]. destruct e as [o| | | |]; cbn in P; try (right; apply IH; exact P). destruct P as [->|P]; [left; reflexivity|right; auto].
  - rewrite <- Ex. destruct (b_cid x); reflexivity.
  - destruct (c15_filesystem_store_is_a_map ob h (Get d) Hh Wd) as (r & Eg & G). rewrite Eg. destruct r; try contradiction G. cbn in G. rewrite S in G. cbn in G. subst. reflexivity.
Qed.
Print Assumptions c82_disk_content.

(** Not so: that what is listed can be read as it was put.  After a crash within a put the block is
    listed, and is empty. *)
Theorem c82_content_refuted : ~ forall ob h items cs b fs, Forall wf_event h ->
  local_items (snd (fs_call ob (fs_run ob h) ListAll)) = Some items -> chunked (on_wire items AtEnd) b fs -> lists b cs ->
  forall d data, In d cs -> snd (fs_call ob (fs_run ob h) (Get d)) = Answer (RGet (Some (mk_block d data))) ->
  exists x, b_data x = data /\ (In (Call (Put x)) h \/ exists parts n, In (CrashInPut x parts n) h).
Proof.
  intros H. set (x := mk_block ex_v1 [3]). assert (W : Forall wf_event [CrashInPut x [[3]] 1]) by (repeat constructor).
  destruct (c82_disk (fun _ _ => None) _ W) as (items & E & _ & R).
  assert (C : chunked (on_wire items AtEnd) (flat_map (fun i => match i with Bytes b => b | Error => [] end) items) []).
  { apply c81_whole. vm_compute in E. injection E as <-. intros b [<-|[]]. discriminate. }
  destruct (R _ _ _ (ex_intro _ [] (eq_sym (app_nil_r _))) C) as (cs & Lb & Lc & _).
  assert (I : In ex_v1 cs) by (apply (Lc ex_v1); [repeat constructor|vm_compute; reflexivity]).
  destruct (H _ _ _ _ _ _ W E C Lb _ [] I) as (y & Y & [[Z|[]]|(ps & n & [Z|[]])]); [vm_compute; reflexivity|discriminate Z|].
  injection Z as <- _ _. discriminate Y.
Qed.
Print Assumptions c82_content_refuted.

(** Cases: the history of C14 and one on disk with a removal and a restart. *)
Example c82_case : Forall wf_op ex_h /\
  local_items (Answer (snd (mem_step (mem_run ex_h) ListAll))) = Some [Bytes (edge_line (cid_to_text ex_v0, []))] /\
  let h := [Call (Put (mk_block ex_v0 [3])); Call (Put (mk_block ex_v1 [3])); Reopen; Call (Remove ex_v0)] in
  Forall healthy h /\ Forall wf_event h /\ local_items (snd (fs_call (fun _ _ => None) (fs_run (fun _ _ => None) h) ListAll)) = Some [Bytes (edge_line (cid_to_text ex_v1, []))].
Proof. split; [repeat constructor|]. split; [vm_compute; reflexivity|]. split; [repeat constructor|]. split; [repeat constructor|vm_compute; reflexivity]. Qed.
