(** C14, C15, C16, C18, C57: the block stores and their file names. *)
From Verif Require Import Base Wire WireProofs Cid CidProofs Text TextProofs FMap BlockSpec
  MemBlocks MemBlocksProofs FsPaths FsPathsProofs FsBlocks FsBlocksProofs.

(** The answers a block store must give to a call after the calls [past] (latest first), where
    blocks are told apart by [key] and a stored block is shown to a reader as [show asked block]. *)
Definition right_answer {K} (key : cid -> K) (keq : K -> K -> bool) (show : cid -> block -> block)
    (listed : block -> cid) (past : list bop) (o : bop) (r : bresp) : Prop :=
  let now := stored key keq past in
  match o, r with
  | Put b, RPut c is_new => c = b_cid b /\ is_new = negb (is_some (now (key c)))
  | Get c, RGet b => b = option_map (show c) (now (key c))
  | Contains c, RContains y => y = is_some (now (key c))
  | Remove c, RRemove c' found => c' = c /\ found = is_some (now (key c))
  | ListAll, RList l => NoDup l /\ forall c, In c l <-> exists b, now (key c) = Some b /\ listed b = c
  | _, _ => False
  end.

(** * C14: the in-memory store, keyed by multihash *)
Theorem c14_memory_store_is_a_map : forall h o,
  right_answer cid_hash mh_eqb (fun _ b => b) b_cid (rev h) o (snd (mem_step (mem_run h) o)).
Proof.
  intros h o. destruct (mem_run_spec h) as [[H1 H2] H3]. fold mh_stored in *.
  unfold right_answer. fold mh_stored. cbn zeta.
  assert (G : forall c, mget repo_cid_eqb c (mem_run h) = mh_stored (rev h) (cid_hash c)).
  { intros c. rewrite mget_hash. apply H3. }
  destruct o as [b|c|c|c|]; cbn [mem_step snd].
  - unfold mem_put. rewrite G. unfold mh_stored.
    destruct (stored cid_hash mh_eqb (rev h) (cid_hash (b_cid b))) eqn:E; cbn [snd]; (split; [reflexivity|try rewrite E; reflexivity]).
  - unfold mem_get. rewrite G. unfold mh_stored. destruct (stored _ _ _ _); reflexivity.
  - unfold mem_contains. rewrite G. reflexivity.
  - unfold mem_remove. rewrite G. unfold mh_stored.
    destruct (stored cid_hash mh_eqb (rev h) (cid_hash c)) eqn:E; cbn [snd]; (split; [reflexivity|try rewrite E; reflexivity]).
  - assert (Hn : NoDup (map fst (mem_run h))).
    { rewrite <- (map_map fst cid_hash) in H2. apply NoDup_map_inv in H2. exact H2. }
    split; [exact Hn|]. intros c. unfold mem_list. rewrite <- (G c). split.
    + intros Hi. apply in_map_iff in Hi as ([k b] & E & Hi). cbn in E. subst k. exists b.
      assert (Hb : b_cid b = c) by (rewrite Forall_forall in H1; apply (H1 _ Hi)). split; [|exact Hb].
      rewrite mget_hash. apply in_mget; [exact mh_eqb_spec|rewrite hash_keys; exact H2|].
      apply in_map_iff. exists (c, b). auto.
    + intros (b & E & Hb). rewrite mget_hash in E. apply (mget_in mh_eqb mh_eqb_spec) in E.
      apply in_map_iff in E as ([k b'] & [= E1 E2] & Hi). subst b'.
      rewrite Forall_forall in H1. pose proof (H1 _ Hi) as Hk. cbn in Hk. rewrite Hb in Hk. subst k.
      apply in_map_iff. exists (c, b). auto.
Qed.
Print Assumptions c14_memory_store_is_a_map.

(** A history that puts one block under two cids of one multihash, removes it, and puts again. *)
Definition ex_v0 : cid := CidV0 (repeat 7%N 32).
Definition ex_v1 : cid := CidV1 85 (Build_multihash 18 (repeat 7%N 32)).
Definition ex_h : list bop :=
  [Put (mk_block ex_v1 [1%N; 2%N]); Put (mk_block ex_v0 [3%N]); Remove ex_v0; Put (mk_block ex_v0 [3%N])].
Example c14_example :
  snd (mem_step (mem_run (firstn 2 ex_h)) (Get ex_v0)) = RGet (Some (mk_block ex_v1 [1%N; 2%N]))
  /\ snd (mem_step (mem_run ex_h) (Get ex_v1)) = RGet (Some (mk_block ex_v0 [3%N]))
  /\ snd (mem_step (mem_run ex_h) ListAll) = RList [ex_v0].
Proof. repeat split; vm_compute; reflexivity. Qed.

(** * C18: file names *)
(** Every cid has a block file and pin files: building the path never panics. *)
Theorem c18_paths_exist : forall c, wf_cid c ->
  (exists p, block_path c = Ok p) /\ (forall ext, exists p, with_ext ext (pin_path c) = Ok p).
Proof.
  intros c Hw. split; [eexists; apply block_path_ok; exact Hw|]. intros ext. eexists. apply pin_path_ok. exact Hw.
Qed.
Print Assumptions c18_paths_exist.

(** Two cids share a block file exactly when they are equal or one is the version 1 form of the
    other. *)
Theorem c18_block_file_identifies_cid : forall c1 c2, wf_cid c1 -> wf_cid c2 ->
  (block_path c1 = block_path c2 <->
   c1 = c2
   \/ (exists d, c1 = CidV0 d /\ c2 = CidV1 112 (Build_multihash 18 d))
   \/ (exists d, c2 = CidV0 d /\ c1 = CidV1 112 (Build_multihash 18 d))).
Proof.
  intros c1 c2 H1 H2. rewrite !block_path_ok by assumption. split.
  - intros [= E1 E2]. assert (E : to_v1 c1 = to_v1 c2) by (apply block_file_inj; auto; unfold block_file; congruence).
    destruct c1 as [d1|k1 m1], c2 as [d2|k2 m2]; cbn in E.
    + injection E as E. left. congruence.
    + right. left. exists d1. split; [reflexivity|]. symmetry. exact E.
    + right. right. exists d2. split; [reflexivity|]. exact E.
    + left. exact E.
  - intros [->|[(d & -> & ->)|(d & -> & ->)]]; reflexivity.
Qed.
Print Assumptions c18_block_file_identifies_cid.

(** A file written for a block is listed as that block's version 1 cid, whatever the decoder of other
    multibase prefixes does. *)
Theorem c18_block_file_lists_cid : forall ob c p, wf_cid c -> block_path c = Ok p ->
  listed_block ob (snd p) = Some (match c with CidV0 d => CidV1 112 (Build_multihash 18 d) | _ => c end).
Proof.
  intros ob c p Hw E. rewrite block_path_ok in E by exact Hw. injection E as <-.
  rewrite listed_block_file by exact Hw. destruct c; reflexivity.
Qed.
Print Assumptions c18_block_file_lists_cid.

(** Pin files: distinct cids and distinct kinds never share a file. *)
Theorem c18_pin_file_identifies_cid : forall c1 c2 e1 e2,
  wf_cid c1 -> wf_cid c2 ->
  In e1 [ext_direct; ext_recursive; ext_recursive_temp] -> In e2 [ext_direct; ext_recursive; ext_recursive_temp] ->
  with_ext e1 (pin_path c1) = with_ext e2 (pin_path c2) -> c1 = c2 /\ e1 = e2.
Proof.
  intros c1 c2 e1 e2 H1 H2 I1 I2 E. rewrite !pin_path_ok in E by assumption. injection E as _ E.
  assert (D : forall e, In e [ext_direct; ext_recursive; ext_recursive_temp] -> Forall (fun c => c <> 46%N) e).
  { intros e He. cbn in He. intuition subst; repeat constructor; lia. }
  assert (L1 := last_dot_app (pin_stem c1) e1 (alnum_dot _ (b32_chars _)) (D _ I1)).
  assert (L2 := last_dot_app (pin_stem c2) e2 (alnum_dot _ (b32_chars _)) (D _ I2)).
  rewrite E, L2 in L1. injection L1 as L1 L1'. split; [|auto]. symmetry in L1. apply pin_stem_inj in L1; auto.
Qed.
Print Assumptions c18_pin_file_identifies_cid.

(** Pin files are listed as the cid and kind they were written for; unfinished ones not at all. *)
Theorem c18_pin_file_lists_cid : forall c p, wf_cid c ->
  (with_ext ext_direct (pin_path c) = Ok p -> listed_pin (snd p) = Some (c, false)) /\
  (with_ext ext_recursive (pin_path c) = Ok p -> listed_pin (snd p) = Some (c, true)) /\
  (with_ext ext_recursive_temp (pin_path c) = Ok p -> listed_pin (snd p) = None).
Proof.
  intros c p Hw. rewrite !pin_path_ok by exact Hw. repeat split; intros [= <-]; cbn [snd].
  - apply (listed_pin_file c false Hw).
  - apply (listed_pin_file c true Hw).
  - unfold listed_pin. destruct (stem_app (pin_stem c) ext_recursive_temp) as [_ ->]; [| | |reflexivity].
    + apply length_nil, pin_length, Hw.
    + apply alnum_dot, b32_chars.
    + unfold ext_recursive_temp, ext_recursive. repeat constructor; lia.
Qed.
Print Assumptions c18_pin_file_lists_cid.

Example c18_example : wf_cid ex_v0 /\ wf_cid ex_v1 /\ block_path ex_v0 <> block_path ex_v1.
Proof. repeat split; try (repeat constructor; fail); vm_compute; congruence. Qed.

(** * C15: the filesystem store, one call at a time *)
(** A history on a healthy filesystem: calls and restarts. *)
Definition healthy (e : event) : Prop :=
  match e with Call o => wf_op o | Reopen => True | _ => False end.
Fixpoint calls (h : list event) : list bop :=
  match h with
  | [] => []
  | Call o :: r => o :: calls r
  | _ :: r => calls r
  end.

Lemma calls_content h k : Forall healthy h ->
  content h k = option_map b_data (stored to_v1 cid_eqb (calls h) k).
Proof.
  induction 1 as [|e h He HF IH]; [reflexivity|].
  destruct e as [[b|c|c|c|]| |b cs n|b cs n|b]; cbn [content calls stored]; cbn in He; try contradiction; try exact IH.
  - rewrite IH. destruct (stored to_v1 cid_eqb (calls h) k); [reflexivity|]. cbn. destruct (cid_eqb _ _); reflexivity.
  - rewrite IH. destruct (cid_eqb _ _); reflexivity.
Qed.
Lemma calls_rev h : calls (rev h) = rev (calls h).
Proof.
  assert (A : forall a b, calls (a ++ b) = calls a ++ calls b).
  { induction a as [|e a IH]; intros b; [reflexivity|]. destruct e; cbn; rewrite IH; reflexivity. }
  induction h as [|e h IH]; [reflexivity|]. cbn [rev]. rewrite A, IH. destruct e; cbn; rewrite ?app_nil_r; reflexivity.
Qed.
Lemma healthy_wf h : Forall healthy h -> Forall wf_event h.
Proof. apply Forall_impl. intros []; cbn; tauto. Qed.

(** The answers are those of a map keyed by version 1 cid; a reader gets the block under the cid
    asked for and the list shows version 1 cids. *)
Theorem c15_filesystem_store_is_a_map : forall ob h o,
  Forall healthy h -> wf_op o ->
  exists r, snd (fs_call ob (fs_run ob h) o) = Answer r /\
    right_answer to_v1 cid_eqb (fun asked b => mk_block asked (b_data b)) (fun b => to_v1 (b_cid b))
      (rev (calls h)) o r.
Proof.
  intros ob h o Hh Ho. pose proof (fs_run_ok ob h (healthy_wf _ Hh)) as Hok.
  assert (Hr : Forall healthy (rev h)) by (apply Forall_rev; exact Hh).
  assert (G : forall c, wf_cid c ->
     fs_get (block_file c) (fs_run ob h) = option_map b_data (stored to_v1 cid_eqb (rev (calls h)) (to_v1 c))).
  { intros c Hc. destruct Hok as [_ H]. rewrite H by exact Hc. rewrite calls_content by exact Hr. rewrite calls_rev. reflexivity. }
  unfold right_answer. cbn zeta.
  destruct o as [b|c|c|c|]; cbn [fs_call snd]; cbn in Ho.
  - unfold fs_put. rewrite block_path_ok, G by exact Ho.
    destruct (stored _ _ _ _) eqn:E; cbn; eexists; (split; [reflexivity|]); cbn beta iota; try rewrite E; auto.
  - unfold fs_get_block. rewrite block_path_ok, G by exact Ho. eexists. split; [reflexivity|].
    cbn beta iota. destruct (stored _ _ _ _); reflexivity.
  - unfold fs_contains. rewrite block_path_ok, G by exact Ho. eexists. split; [reflexivity|].
    cbn beta iota. destruct (stored _ _ _ _); reflexivity.
  - unfold fs_remove. rewrite block_path_ok, G by exact Ho.
    destruct (stored _ _ _ _) eqn:E; cbn; eexists; (split; [reflexivity|]); cbn beta iota; try rewrite E; auto.
  - destruct (fs_list_ok ob _ _ (Forall_rev (healthy_wf _ Hh)) Hok) as (l & El & Hn & Hi).
    exists (RList l). split; [exact El|]. split; [exact Hn|]. intros c. rewrite Hi, calls_content, calls_rev by exact Hr.
    split.
    + intros Hc. destruct (stored to_v1 cid_eqb (rev (calls h)) c) as [b|] eqn:E; [|cbn in Hc; congruence].
      assert (K : forall past k b, stored to_v1 cid_eqb past k = Some b -> to_v1 (b_cid b) = k).
      { clear. induction past as [|[b|c|c|c|] past IH]; intros k x; cbn [stored]; try discriminate; try apply IH.
        - destruct (stored _ _ past k) eqn:E; [intros [= <-]; auto|].
          destruct (cid_eqb_spec (to_v1 (b_cid b)) k); [intros [= <-]; assumption|discriminate].
        - destruct (cid_eqb _ _); [discriminate|apply IH]. }
      pose proof (K _ _ _ E) as Hk. exists b. split; [|exact Hk].
      rewrite <- Hk in E |- *. destruct (b_cid b); exact E.
    + intros (b & E & Hb). rewrite <- Hb in E |- *.
      replace (to_v1 (to_v1 (b_cid b))) with (to_v1 (b_cid b)) in E by (destruct (b_cid b); reflexivity).
      rewrite E. discriminate.
Qed.
Print Assumptions c15_filesystem_store_is_a_map.

Definition ex_fs : list event := map Call ex_h ++ [Reopen; Call (Put (mk_block ex_v1 [1%N; 2%N]))].
Example c15_example :
  Forall healthy ex_fs
  /\ snd (fs_call (fun _ _ => None) (fs_run (fun _ _ => None) ex_fs) (Get ex_v0)) = Answer (RGet (Some (mk_block ex_v0 [3%N])))
  /\ snd (fs_call (fun _ _ => None) (fs_run (fun _ _ => None) ex_fs) ListAll)
     = Answer (RList [CidV1 112 (Build_multihash 18 (repeat 7%N 32)); ex_v1])
  /\ snd (fs_call (fun _ _ => None) (fs_run (fun _ _ => None) ex_fs) (Put (mk_block ex_v1 []))) = Answer (RPut ex_v1 false).
Proof.
  split; [|repeat split; vm_compute; reflexivity].
  unfold ex_fs, ex_h. cbn [map app].
  assert (W0 : wf_cid ex_v0) by (split; [reflexivity|repeat constructor]).
  assert (W1 : wf_cid ex_v1) by (repeat split; try reflexivity; repeat constructor).
  repeat constructor; assumption.
Qed.

(** * C16: crashes *)
(** Blocks whose put was at least started. *)
Fixpoint begun (h : list event) : list block :=
  match h with
  | [] => []
  | (Call (Put b) | CrashInPut b _ _ | FailInPut b _ _ | FailCreate b) :: r => b :: begun r
  | _ :: r => begun r
  end.
(** The block files a crash touches. *)
Definition removes (c : cid) (e : event) : Prop :=
  match e with Call (Remove c') => to_v1 c' = to_v1 c | _ => False end.

(** Whatever calls, crashes, write failures and restarts came before, a get answers with nothing, with
    the complete bytes of a block put under that cid, or with an empty block: never with a part of a
    block or with another's bytes.  The empty block is the gap in the property
    (see [c16_crash_refuted]). *)
Theorem c16_get_after_crashes_partial : forall ob h c,
  Forall wf_event h -> wf_cid c ->
  exists r, snd (fs_call ob (fs_run ob h) (Get c)) = Answer (RGet r) /\
    (r = None \/ r = Some (mk_block c []) \/
     exists b, In b (begun h) /\ to_v1 (b_cid b) = to_v1 c /\ r = Some (mk_block c (b_data b))).
Proof.
  intros ob h c Hh Hc. destruct (fs_run_ok ob h Hh) as [_ H]. cbn [fs_call snd]. unfold fs_get_block.
  rewrite block_path_ok, H by exact Hc. eexists. split; [reflexivity|].
  assert (K : forall past x, content past (to_v1 c) = Some x ->
    x = [] \/ exists b, In b (begun past) /\ to_v1 (b_cid b) = to_v1 c /\ x = b_data b).
  { clear. induction past as [|e past IH]; intros x; [discriminate|].
    assert (W : content past (to_v1 c) = Some x -> forall l, (forall b, In b (begun past) -> In b l) ->
      x = [] \/ exists b, In b l /\ to_v1 (b_cid b) = to_v1 c /\ x = b_data b).
    { intros E l Hl. destruct (IH x E) as [->|(b & Hb & E1 & E2)]; [auto|]. right. exists b. auto. }
    destruct e as [[b|c0|c0|c0|]| |b cs n|b cs n|b]; cbn [content begun]; try (intros E; apply (W E); cbn; auto; fail).
    - destruct (content past (to_v1 c)) eqn:E; [intros [= ->]; apply W; cbn; auto|].
      destruct (cid_eqb_spec (to_v1 (b_cid b)) (to_v1 c)) as [E'|]; [|discriminate].
      intros [= <-]. right. exists b. cbn. auto.
    - destruct (cid_eqb _ _); [discriminate|]. intros E; apply (W E); auto.
    - destruct (content past (to_v1 c)) eqn:E; [intros [= ->]; apply W; cbn; auto|].
      destruct (cid_eqb_spec (to_v1 (b_cid b)) (to_v1 c)) as [E'|]; [|discriminate].
      destruct (n =? 0)%nat; [discriminate|]. destruct (n <=? length cs + 2)%nat; intros [= <-]; [auto|].
      right. exists b. cbn. auto. }
  assert (B : forall h b, In b (begun (rev h)) -> In b (begun h)).
  { clear. assert (A : forall a b, begun (a ++ b) = begun a ++ begun b).
    { induction a as [|e a IH]; intros b; [reflexivity|]. destruct e as [[]| | | |]; cbn; rewrite IH; reflexivity. }
    induction h as [|e h IH]; intros b; [auto|]. cbn [rev]. rewrite A. intros Hi. apply in_app_or in Hi as [Hi|Hi].
    - apply IH in Hi. destruct e as [[]| | | |]; cbn; auto.
    - destruct e as [[]| | | |]; cbn in *; tauto. }
  destruct (content (rev h) (to_v1 c)) as [x|] eqn:E; cbn; [|auto].
  right. destruct (K _ _ E) as [->|(b & Hb & E1 & ->)]; [auto|]. right. exists b. auto.
Qed.
Print Assumptions c16_get_after_crashes_partial.

(** A completed put survives: once put answered NewBlock, every later get returns all the bytes,
    through any number of crashes, failures and restarts, until the block is removed. *)
Theorem c16_completed_put_survives : forall ob h1 b h2 c,
  Forall wf_event (h1 ++ Call (Put b) :: h2) -> wf_cid c -> to_v1 c = to_v1 (b_cid b) ->
  snd (fs_call ob (fs_run ob h1) (Put b)) = Answer (RPut (b_cid b) true) ->
  Forall (fun e => ~ removes c e) h2 ->
  snd (fs_call ob (fs_run ob (h1 ++ Call (Put b) :: h2)) (Get c)) = Answer (RGet (Some (mk_block c (b_data b)))).
Proof.
  intros ob h1 b h2 c Hw Hc E Hp Hn. destruct (fs_run_ok ob _ Hw) as [_ H]. cbn [fs_call snd]. unfold fs_get_block.
  rewrite block_path_ok, H by exact Hc. rewrite rev_app_distr. cbn [rev]. rewrite <- app_assoc. cbn [app].
  apply Forall_app in Hw as [Hw1 Hw2]. inversion Hw2 as [|? ? Hb Hw3]; subst.
  assert (E1 : content (rev h1) (to_v1 c) = None).
  { destruct (fs_run_ok ob _ Hw1) as [_ H']. cbn [fs_call snd] in Hp. unfold fs_put in Hp.
    rewrite block_path_ok, H' in Hp by exact Hb. rewrite E.
    destruct (content (rev h1) (to_v1 (b_cid b))); [discriminate|reflexivity]. }
  assert (K : content (rev h2 ++ Call (Put b) :: rev h1) (to_v1 c) = Some (b_data b)).
  { apply Forall_rev in Hn. induction (rev h2) as [|e l IH]; cbn [app].
    - cbn [content]. rewrite E1, E. destruct (cid_eqb_spec (to_v1 (b_cid b)) (to_v1 (b_cid b))); congruence.
    - inversion Hn as [|? ? He Hl]; subst. specialize (IH Hl).
      destruct e as [[b0|c0|c0|c0|]| |b0 cs n|b0 cs n|b0]; cbn [content]; try exact IH.
      + rewrite IH. reflexivity.
      + destruct (cid_eqb_spec (to_v1 c0) (to_v1 c)) as [E0|]; [|exact IH]. exfalso. apply He. exact E0.
      + rewrite IH. reflexivity. }
  rewrite K. reflexivity.
Qed.
Print Assumptions c16_completed_put_survives.

(** An interrupted put changes no other block. *)
Theorem c16_other_blocks_untouched : forall ob h b chunks n c,
  Forall wf_event (h ++ [CrashInPut b chunks n]) -> wf_cid c -> to_v1 c <> to_v1 (b_cid b) ->
  snd (fs_call ob (fs_run ob (h ++ [CrashInPut b chunks n])) (Get c)) = snd (fs_call ob (fs_run ob h) (Get c)).
Proof.
  intros ob h b chunks n c Hw Hc E. destruct (fs_run_ok ob _ Hw) as [_ H].
  apply Forall_app in Hw as [Hw1 _]. destruct (fs_run_ok ob _ Hw1) as [_ H'].
  cbn [fs_call snd]. unfold fs_get_block. rewrite block_path_ok, H, H' by exact Hc.
  rewrite rev_app_distr. cbn [rev app content].
  destruct (content (rev h) (to_v1 c)); [reflexivity|].
  destruct (cid_eqb_spec (to_v1 (b_cid b)) (to_v1 c)); [congruence|reflexivity].
Qed.
Print Assumptions c16_other_blocks_untouched.

(** The full claim fails: after a crash right after the target file was created, get returns an empty
    block, and putting the block again answers Existed and does not repair it. *)
Theorem c16_crash_refuted : exists h b,
  Forall wf_event h /\ wf_cid (b_cid b) /\ b_data b <> [] /\ begun h = [b] /\
  snd (fs_call (fun _ _ => None) (fs_run (fun _ _ => None) h) (Get (b_cid b))) = Answer (RGet (Some (mk_block (b_cid b) []))) /\
  snd (fs_call (fun _ _ => None) (fs_run (fun _ _ => None) h) (Put b)) = Answer (RPut (b_cid b) false) /\
  snd (fs_call (fun _ _ => None) (fs_run (fun _ _ => None) (h ++ [Call (Put b)])) (Get (b_cid b)))
    = Answer (RGet (Some (mk_block (b_cid b) []))).
Proof.
  exists [CrashInPut (mk_block ex_v1 [1%N; 2%N]) [[1%N]; [2%N]] 1], (mk_block ex_v1 [1%N; 2%N]).
  assert (W1 : wf_cid ex_v1) by (repeat split; try reflexivity; repeat constructor).
  split; [constructor; [split; [exact W1|reflexivity]|constructor]|]. split; [exact W1|].
  split; [discriminate|]. repeat split; vm_compute; reflexivity.
Qed.
Print Assumptions c16_crash_refuted.

Example c16_example :
  let h := [CrashInPut (mk_block ex_v0 [9%N; 9%N]) [[9%N]; [9%N]] 3; Call (Put (mk_block ex_v1 [1%N; 2%N]));
            CrashInPut (mk_block ex_v1 [1%N; 2%N]) [[1%N; 2%N]] 2; Reopen] in
  snd (fs_call (fun _ _ => None) (fs_run (fun _ _ => None) h) (Get ex_v1)) = Answer (RGet (Some (mk_block ex_v1 [1%N; 2%N])))
  /\ snd (fs_call (fun _ _ => None) (fs_run (fun _ _ => None) (firstn 1 h)) (Get ex_v1)) = Answer (RGet None).
Proof. split; vm_compute; reflexivity. Qed.

(** * C57: write failures *)
(** A put that fails while writing reports the error and changes no answer: no get, contains, put or
    list can tell it was tried. *)
Theorem c57_failed_put_changes_nothing : forall ob h b chunks n o,
  Forall wf_event (h ++ [FailInPut b chunks n]) -> wf_op o ->
  match snd (fs_call ob (fs_run ob (h ++ [FailInPut b chunks n])) o), snd (fs_call ob (fs_run ob h) o) with
  | Answer (RList l1), Answer (RList l2) => NoDup l1 /\ NoDup l2 /\ forall c, In c l1 <-> In c l2
  | r1, r2 => r1 = r2
  end.
Proof.
  intros ob h b chunks n o Hw Ho. pose proof (fs_run_ok ob _ Hw) as Ok1. pose proof Hw as Hw'.
  apply Forall_app in Hw as [Hw1 _]. pose proof (fs_run_ok ob _ Hw1) as Ok2.
  rewrite rev_app_distr in Ok1. cbn [rev app] in Ok1.
  assert (G : forall c, wf_cid c ->
    fs_get (block_file c) (fs_run ob (h ++ [FailInPut b chunks n])) = fs_get (block_file c) (fs_run ob h)).
  { intros c Hc. rewrite (proj2 Ok1 c Hc), (proj2 Ok2 c Hc). reflexivity. }
  destruct o as [b0|c|c|c|]; cbn [fs_call snd]; cbn in Ho.
  - unfold fs_put. rewrite block_path_ok, G by exact Ho. destruct (fs_get _ (fs_run ob h)); reflexivity.
  - unfold fs_get_block. rewrite block_path_ok, G by exact Ho. reflexivity.
  - unfold fs_contains. rewrite block_path_ok, G by exact Ho. reflexivity.
  - unfold fs_remove. rewrite block_path_ok, G by exact Ho. destruct (fs_get _ (fs_run ob h)); reflexivity.
  - destruct (fs_list_ok ob _ _ (Forall_rev Hw1) Ok2) as (l2 & -> & N2 & I2).
    assert (Hw2 : Forall wf_event (FailInPut b chunks n :: rev h)).
    { apply Forall_rev in Hw'. rewrite rev_app_distr in Hw'. exact Hw'. }
    destruct (fs_list_ok ob _ _ Hw2 Ok1) as (l1 & -> & N1 & I1).
    split; [exact N1|]. split; [exact N2|]. intros c. rewrite I1, I2. reflexivity.
Qed.
Print Assumptions c57_failed_put_changes_nothing.

(** The put itself answers with an error, unless the block was stored already. *)
Theorem c57_failed_put_reports : forall ob h b chunks n,
  Forall wf_event (h ++ [FailInPut b chunks n]) ->
  snd (fs_event ob (fs_run ob h) (FailInPut b chunks n)) =
  (if match snd (fs_call ob (fs_run ob h) (Contains (b_cid b))) with Answer (RContains y) => y | _ => false end
   then Answer (RPut (b_cid b) false) else AError).
Proof.
  intros ob h b chunks n Hw. apply Forall_app in Hw as [_ Hw]. inversion Hw as [|? ? Hb0 _]; subst. destruct Hb0 as [Hb _].
  cbn [fs_event fs_call snd]. unfold fs_put_fail, fs_contains. rewrite block_path_ok by exact Hb.
  destruct (fs_get _ _); reflexivity.
Qed.
Print Assumptions c57_failed_put_reports.

(** A put whose target file cannot be created (read-only or full filesystem, over-long file name)
    answers Existed although nothing is stored. *)
Theorem c57_create_failure_refuted : exists h b,
  Forall wf_event h /\ wf_cid (b_cid b) /\
  snd (fs_event (fun _ _ => None) (fs_run (fun _ _ => None) h) (FailCreate b)) = Answer (RPut (b_cid b) false) /\
  snd (fs_call (fun _ _ => None) (fs_run (fun _ _ => None) (h ++ [FailCreate b])) (Get (b_cid b))) = Answer (RGet None).
Proof.
  exists [], (mk_block ex_v1 [1%N; 2%N]).
  assert (W1 : wf_cid ex_v1) by (repeat split; try reflexivity; repeat constructor).
  split; [constructor|]. split; [exact W1|]. split; vm_compute; reflexivity.
Qed.
Print Assumptions c57_create_failure_refuted.

Example c57_example :
  snd (fs_event (fun _ _ => None) [] (FailInPut (mk_block ex_v1 [1%N; 2%N]) [[1%N]; [2%N]] 2)) = AError
  /\ length (fs_run (fun _ _ => None) [FailInPut (mk_block ex_v1 [1%N; 2%N]) [[1%N]; [2%N]] 2]) = 1%nat.
Proof. split; vm_compute; reflexivity. Qed.
