(** The whole of an /add request, and reading its files back with /cat. *)
From Coq Require Import Permutation.
From Verif Require Import Base Wire WireProofs Cid CidProofs Pb PbProofs Ipld Text TextProofs FileSpec FileAdder FileAdderProofs FileTreeProofs FileVisit FileVisitProofs FileProps PropsFile
  BTree FMap IpfsPath PathSpec IpfsPathProofs DirLookup TreeBuilder TreeSpec TreeBuilderProofs TreeIter TreeIterSpec TreeIterProofs TreeIterMain TreeOutSpec
  TreeSizes TreeOut TreeRead TreeSteps PropsTree Resolve HttpAdd HttpAddSpec HttpAddProofs Cat.
Local Open Scope N_scope.

Lemma digest_wf sha : digest_fn sha -> forall x, wf_cid (CidV0 (sha x)).
Proof. intros H x. exact (H x). Qed.

(** * Accepted calls *)
Lemma accept_all wrap l : forall h, snd (TreeSpec.accept wrap h l) = map (fun _ => Ok tt) l -> fst (TreeSpec.accept wrap h l) = rev l ++ h.
Proof.
  induction l as [|c l IH]; intros h H; [reflexivity|]. cbn [TreeSpec.accept rev map] in *.
  destruct (verdict wrap h c) as [[]|e|] eqn:E.
  - specialize (IH (c :: h)). destruct (TreeSpec.accept wrap (c :: h) l) as [h' vs]. cbn [fst snd] in *. injection H as H. rewrite (IH H), <- app_assoc. reflexivity.
  - destruct (TreeSpec.accept wrap h l). discriminate.
  - destruct (TreeSpec.accept wrap h l). discriminate.
Qed.
Lemma accepted_all wrap limit l b : do_calls (new_builder wrap limit) l = (b, map (fun _ => Ok tt) l) -> accepted wrap l = rev l /\ tree_of wrap limit l = b.
Proof.
  intros H. split; [|unfold tree_of; rewrite H; reflexivity]. unfold accepted. rewrite accept_all; [apply app_nil_r|].
  rewrite <- (c35_results wrap limit l). unfold results_of. rewrite H. reflexivity.
Qed.
Lemma map_const {A B C} (f : A -> B) (c : C) l : map (fun _ => c) (map f l) = map (fun _ => c) l.
Proof. apply map_map. Qed.

Section Main.
Variable sha : bytes -> bytes.
Hypothesis Hsha : digest_fn sha.
Variables chunk bf : nat.
Hypothesis Hchunk : (0 < chunk)%nat.
Hypothesis Hbf : (2 <= bf)%nat.
Variable put_ok : nat -> bool.
Variables progress wrap : bool.
Variable cid_text : cid -> bytes.
Notation add_stream := (add_stream sha chunk bf put_ok progress wrap cid_text).
Notation all_did := (all_did sha chunk bf progress).

Lemma root_wf slices blocks front root block : add_file sha chunk bf slices = Added blocks -> blocks = front ++ [(root, block)] -> root = CidV0 (sha block).
Proof.
  intros E Eb. destruct (last_root sha chunk bf slices blocks Hchunk Hbf E) as (t & f & E1 & _). rewrite Eb in E1. apply app_inj_tail in E1 as [_ E1].
  rewrite tblock_render in E1. injection E1 as -> ->. reflexivity.
Qed.
Lemma did_wf p d : did_for sha chunk bf progress p d -> call_wf (did_call d).
Proof.
  destruct d as [name content blocks root reports|name]; [|intros _; exact Logic.I]. intros (_ & E & _ & (front & block & Eb) & _). cbn [did_call call_wf].
  rewrite (root_wf _ _ _ _ _ E Eb). apply digest_wf. exact Hsha.
Qed.
Lemma all_did_wf l ds : all_did l ds -> Forall call_wf (map did_call ds).
Proof. intros H. induction H as [|o d l ds (p & -> & Hd) _ IH]; constructor; [eapply did_wf; exact Hd|exact IH]. Qed.

Lemma did_announced ds name c s : In (PutLink name c s) (map did_call ds) -> exists n, In (n, c, s) (announced (concat (map (did_messages cid_text) ds))).
Proof.
  intros H. apply in_map_iff in H as (d & E & Hd). destruct d as [nm content blocks root reports|]; [|discriminate]. injection E as <- <- <-.
  exists (match nm with [] => cid_text root | _ => nm end). apply in_flat_map.
  exists (AddedMsg (match nm with [] => cid_text root | _ => nm end) root (blocks_size blocks)). split; [|left; reflexivity].
  apply in_concat. eexists. split; [apply in_map; exact Hd|]. apply in_or_app. right. left. reflexivity.
Qed.

Lemma stream_facts fuel parts t e : add_stream fuel parts = (t, e) ->
  sound sha chunk bf cid_text parts [] t /\
  (e = Done -> exists ds dirs, all_did parts ds /\
     accepted wrap (map did_call ds) = rev (map did_call ds) /\ results_of wrap default_limit (map did_call ds) = map (fun _ => Ok tt) ds /\
     built sha wrap (rev (map did_call ds)) dirs /\
     (forall q es, In (q, es) dirs ->
        dir_total es = blocks_below q dirs + links_below q (rev (map did_call ds)) /\ dir_total es < 2 ^ 64 /\ blen (dir_block es) <= 524288) /\
     put_blocks t = concat (map did_blocks ds) ++ map (fun d => (dir_cid sha (snd d), dir_block (snd d))) dirs /\
     messages t = concat (map (did_messages cid_text) ds) ++ map (fun d => AddedMsg (join (fst d)) (dir_cid sha (snd d)) (dir_total (snd d))) dirs).
Proof.
  unfold HttpAdd.add_stream. destruct (bind _ _ _) as [[t' n'] r] eqn:E. intros [= -> <-].
  apply bind_inv in E as [(t1 & n1 & b & t2 & H1 & H2 & ->)|(e' & H1 & ->)].
  - destruct (add_parts_spec sha (digest_wf sha Hsha) chunk bf put_ok progress cid_text parts parts (incl_refl _) _ _ _ _ _ [] H1) as [S1 (ds & D1 & D2 & D3 & D4)].
    destruct (build sha fuel b) as [nodes e] eqn:Eb.
    rewrite <- (map_const did_call) in D2. pose proof (accepted_all _ _ _ _ D2) as [Eacc Etree].
    pose proof (tree_inv wrap default_limit (map did_call ds)) as HI. rewrite Etree, Eacc in HI.
    pose proof (all_did_wf _ _ D1) as Hwf.
    set (ok := fun c s => wf_cid c /\ exists p, In (PutLink p c s) (map did_call ds)).
    assert (HN : forall l1 o l2, nodes = l1 ++ o :: l2 -> node_ok sha default_limit ok l1 o).
    { pose proof (build_nodes sha (digest_wf sha Hsha) wrap default_limit ok (fun c s H => proj1 H) b fuel nodes e) as G. apply G.
      - apply (leaves_ok_calls ok wrap default_limit (rev (map did_call ds)) b HI). intros p c s Hin. rewrite <- in_rev in Hin. split; [|exists p; exact Hin].
        rewrite Forall_forall in Hwf. exact (Hwf _ Hin).
      - destruct HI as (ns & -> & _). reflexivity.
      - destruct HI as (ns & -> & _). reflexivity.
      - exact Eb. }
    destruct (add_nodes_spec sha chunk bf put_ok cid_text parts ok default_limit nodes e [] HN n1 t2 n' r t1 H2) as [S2 G].
    + intros c s (_ & p & Hp). rewrite D4. eapply did_announced. exact Hp.
    + intros p c s b0 [].
    + split; [apply (proj2 (sound_app sha chunk bf put_ok cid_text parts t1 [] t2)); split; [exact S1|exact S2]|]. intros Er. destruct r as [u|]; [|discriminate]. destruct G as (-> & G1 & G2 & G3).
      rewrite <- Etree in Eb. destruct (c36_build_done sha wrap default_limit (map did_call ds) fuel nodes (digest_wf sha Hsha) Hwf Eb G1) as (dirs & B1 & B2 & B3).
      rewrite Eacc in B1, B3. exists ds, dirs. split; [exact D1|]. split; [exact Eacc|]. split; [unfold results_of; rewrite D2; apply map_const|]. split; [exact B1|]. split.
      { intros q es Hq. destruct (B3 q es Hq) as (X1 & X2 & X3). split; [exact X1|]. split; [exact X2|]. apply X3. reflexivity. }
      rewrite put_blocks_app, messages_app, D3, D4, G2, G3, B2. split; f_equal; clear; induction dirs as [|[q es] dirs IH]; cbn; rewrite ?IH; reflexivity.
  - destruct (add_parts_spec sha (digest_wf sha Hsha) chunk bf put_ok progress cid_text parts parts (incl_refl _) _ _ _ _ _ [] H1) as [S1 _]. split; [exact S1|discriminate].
Qed.
End Main.

(** * From what was done to what was asked *)
Lemma names_fun raw n1 n2 : names raw n1 -> names raw n2 -> n1 = n2.
Proof.
  intros (d1 & D1 & _ & H1) (d2 & D2 & _ & H2). assert (d2 = d1) as -> by (eapply decodes_fun; eassumption).
  destruct H1 as [E1|[E1 N1]], H2 as [E2|[E2 N2]].
  - congruence.
  - exfalso. exact (N2 _ E1).
  - exfalso. exact (N1 _ E2).
  - congruence.
Qed.
Lemma asks_fun p a1 a2 : asks p a1 -> asks p a2 -> a1 = a2.
Proof.
  assert (Hs : s_octets <> s_directory) by discriminate.
  intros (_ & f1 & r1 & F1 & R1 & H1) (_ & f2 & r2 & F2 & R2 & H2). assert (r2 = r1) as -> by congruence.
  destruct a1, a2; destruct H1 as (N1 & H1), H2 as (N2 & H2); rewrite (names_fun _ _ _ N1 N2).
  - destruct H1 as (-> & _), H2 as (-> & _). reflexivity.
  - destruct H1 as (_ & H1 & _), H2 as (H2 & _). congruence.
  - destruct H1 as (H1 & _), H2 as (_ & H2 & _). congruence.
  - reflexivity.
Qed.

Section Asked.
Variable sha : bytes -> bytes.
Variables chunk bf : nat.
Variable progress : bool.
Variable cid_text : cid -> bytes.
Definition ask_of (d : did) : ask := match d with DidFile name content _ _ _ => AskFile name content | DidDir name => AskDir name end.
Lemma did_ask p d : did_for sha chunk bf progress p d -> asks p (ask_of d) /\ did_call d = ask_call sha chunk bf (ask_of d) /\ did_blocks d = ask_blocks sha chunk bf (ask_of d) /\
  announced (did_messages cid_text d) = ask_announced sha chunk bf cid_text (ask_of d) /\ ask_fits sha chunk bf (ask_of d).
Proof.
  destruct d as [name content blocks root reports|name]; cbn [ask_of]; [|intros H; split; [exact H|repeat split]].
  intros (Ha & Hf & Hs & (front & block & Eb) & _). split; [exact Ha|].
  assert (Ec : content_blocks sha chunk bf content = blocks).
  { unfold content_blocks. destruct Ha as (_ & field & raw & _ & _ & _ & -> & _).
    assert (E : add_file sha chunk bf [concat (p_body p) : bytes] = add_file sha chunk bf (p_body p)) by (apply add_file_cuts; cbn; apply app_nil_r). rewrite E, Hf. reflexivity. }
  assert (Er : root_of blocks = root) by (rewrite Eb; unfold root_of; rewrite last_last; reflexivity).
  unfold ask_call, ask_blocks, ask_announced, ask_fits. cbn [did_call did_blocks did_messages]. rewrite Ec, Er. split; [reflexivity|]. split; [reflexivity|]. split; [|exact Hs].
  assert (Hp : forall l, announced (map (Progress name) l) = []) by (induction l as [|x l IH]; [reflexivity|exact IH]).
  unfold announced in *. rewrite flat_map_app, Hp. reflexivity.
Qed.
Lemma all_did_ask parts ds : all_did sha chunk bf progress parts ds -> all_ask parts (map ask_of ds) /\ map did_call ds = map (ask_call sha chunk bf) (map ask_of ds) /\
  concat (map did_blocks ds) = concat (map (ask_blocks sha chunk bf) (map ask_of ds)) /\
  announced (concat (map (did_messages cid_text) ds)) = concat (map (ask_announced sha chunk bf cid_text) (map ask_of ds)) /\
  Forall (ask_fits sha chunk bf) (map ask_of ds).
Proof.
  intros H. induction H as [|o d parts ds (p & -> & Hd) _ (I1 & I2 & I3 & I4 & I5)]; [split; [constructor|repeat split; constructor]|].
  apply did_ask in Hd as (D1 & D2 & D3 & D4 & D5). cbn [map concat]. split; [constructor; [exists p; auto|exact I1]|].
  rewrite D2, I2, D3, I3. split; [reflexivity|]. split; [reflexivity|]. unfold announced in *. rewrite flat_map_app, D4, I4. split; [reflexivity|]. constructor; assumption.
Qed.
End Asked.

(** * Running to the end *)
Section Eval.
Variable sha : bytes -> bytes.
Hypothesis sha_wf : forall b, wf_cid (CidV0 (sha b)).
Variables chunk bf : nat.
Hypothesis Hchunk : (0 < chunk)%nat.
Hypothesis Hbf : (2 <= bf)%nat.
Variable put_ok : nat -> bool.
Hypothesis Hput : forall k, put_ok k = true.
Variables progress wrap : bool.
Variable cid_text : cid -> bytes.
Notation ask_call := (ask_call sha chunk bf).
Definition not_one_chunk (a : ask) : Prop := match a with AskFile _ content => length content <> chunk | AskDir _ => True end.

Lemma part_eval b b' p a n : asks p a -> ask_fits sha chunk bf a -> not_one_chunk a -> do_call b (ask_call a) = (b', Ok tt) ->
  exists t n', add_part sha chunk bf put_ok progress cid_text b p n = (t, n', Go b').
Proof.
  intros (Hbr & field & raw & Hf & Hr & Ha) Hfit Hone Hcall. unfold HttpAdd.add_part. rewrite Hf, Hr.
  destruct a as [name content|name].
  - destruct Ha as (Hn & -> & Ht & Hk). apply decoded_name_spec in Hn. rewrite Hn, Ht. destruct (beq_spec s_octets s_octets); [|congruence].
    unfold add_file_part. apply field_ok_spec in Hk. rewrite Hk, Hbr. cbn [negb].
    destruct (FileTreeProofs.add_parts sha chunk bf (p_body p) ltac:(lia) Hbf) as (t & s & bs & fs & E1 & E2 & E3 & _ & (o & Eo) & _ & _).
    assert (Ec : content_blocks sha chunk bf (concat (p_body p)) = bs ++ fs).
    { unfold content_blocks. assert (E : add_file sha chunk bf [concat (p_body p) : bytes] = add_file sha chunk bf (p_body p)) by (apply add_file_cuts; cbn; apply app_nil_r).
      rewrite E. unfold add_file. rewrite E1, E2. reflexivity. }
    cbn [ask_fits not_one_chunk HttpAddSpec.ask_call do_call] in *. rewrite Ec in *.
    assert (Hb : blocks_size (bs ++ fs) = blocks_size bs + blocks_size fs) by apply blocks_size_app.
    assert (Hcont : blen (concat (p_body p)) < u64_max1).
    { destruct (add_file_tree sha chunk bf (p_body p) ltac:(lia) Hbf) as (t' & out & F1 & F2 & _ & F3 & _).
      unfold add_file in F1. rewrite E1, E2 in F1. injection F1 as <-. pose proof (content_le_blocks sha t') as G. rewrite F3 in G. rewrite <- (blocks_size_perm _ _ F2) in G.
      change (2 ^ 64) with u64_max1 in Hfit. lia. }
    change (2 ^ 64) with u64_max1 in Hfit.
    destruct (loop_eval sha sha_wf chunk bf put_ok progress cid_text name (p_body p) Hput adder0 0 0 n s bs E1 ltac:(lia) ltac:(lia)) as (t1 & n1 & El).
    rewrite (bind_eval _ _ _ _ _ _ El). rewrite !N.add_0_l, E2.
    rewrite (bind_eval _ _ _ _ _ _ (import_eval sha sha_wf chunk put_ok cid_text fs Hput None 0 n1 ltac:(lia))).
    assert (Hne : fs <> []) by (intros ->; apply Hone; apply E3; reflexivity).
    unfold import_result. destruct (rev fs) as [|[root blk] rfs] eqn:Er.
    { exfalso. apply Hne. rewrite <- (rev_involutive fs), Er. reflexivity. }
    assert (Efs : fs = rev rfs ++ [(root, blk)]) by (rewrite <- (rev_involutive fs), Er; reflexivity).
    rewrite plus_eval by lia. rewrite N.add_0_l.
    assert (Hroot : root_of (bs ++ fs) = root) by (rewrite Efs, app_assoc; unfold root_of; rewrite last_last; reflexivity).
    rewrite Hroot, Hb in Hcall. rewrite Hcall. unfold bind, item, give. eauto.
  - destruct Ha as (Hn & Ht & Hk). apply decoded_name_spec in Hn. rewrite Hn, Ht. destruct (beq_spec s_directory s_octets); [discriminate|].
    destruct (beq_spec s_directory s_directory); [|congruence]. unfold add_dir_part. apply field_ok_spec in Hk. rewrite Hk, Hbr. cbn [negb].
    cbn [HttpAddSpec.ask_call do_call] in Hcall. rewrite Hcall. unfold give. eauto.
Qed.
Lemma parts_eval parts asked : all_ask parts asked -> Forall (ask_fits sha chunk bf) asked -> Forall not_one_chunk asked -> forall b b' n,
  do_calls b (map ask_call asked) = (b', map (fun _ => Ok tt) asked) ->
  exists t n', add_parts sha chunk bf put_ok progress cid_text b parts n = (t, n', Go b').
Proof.
  intros H. induction H as [|o a parts asked (p & -> & Ha) _ IH]; intros Hf Ho b b' n Hc; cbn [HttpAdd.add_parts map do_calls] in *.
  - injection Hc as <-. unfold give. eauto.
  - inversion Hf; inversion Ho; subst. destruct (do_call b (ask_call a)) as [b1 x] eqn:E1. destruct (do_calls b1 (map ask_call asked)) as [b2 xs] eqn:E2.
    injection Hc as <- -> ->. destruct (part_eval b b1 p a n Ha) as (t1 & n1 & Ee); try assumption. rewrite (bind_eval _ _ _ _ _ _ Ee).
    destruct (IH ltac:(assumption) ltac:(assumption) b1 b2 n1 E2) as (t2 & n2 & ->). eauto.
Qed.
Lemma nodes_eval dirs : forall n, exists t n', add_nodes put_ok (map (node_of sha) dirs) (Some Finished) n = (t, n', Go tt).
Proof.
  induction dirs as [|[q es] dirs IH]; intros n; cbn [map HttpAdd.add_nodes node_of]; [unfold give; eauto|].
  rewrite (bind_eval _ _ n [EPut (dir_cid sha es) (dir_block es)] (S n) tt) by (unfold HttpAdd.put; rewrite Hput; reflexivity).
  unfold bind at 1. cbn [item]. destruct (IH (S n)) as (t & n' & ->). eauto.
Qed.
End Eval.

(** * Reading back *)
Section Read.
Variable sha : bytes -> bytes.
Hypothesis Hsha : digest_fn sha.
Variable get : cid -> option bytes.
Variable decode : cid -> bytes -> outcome ipld unit.

Lemma resolve_end hfuel c data total fuel : get c = Some data -> (0 < fuel)%nat ->
  exists docs shs, resolve0 get decode fuel hfuel c [] true total None = Some (docs, shs, Ok (NBlock c data, total)).
Proof. intros Hg Hf. destruct fuel as [|fuel]; [lia|]. cbn [resolve0]. rewrite Hg. cbn [resolve_local]. eauto. Qed.

Lemma resolve_chain wrap h dirs c s data hfuel : built sha wrap h dirs -> Forall call_wf h -> Forall (fun c => utf8 (call_path c) = true) h ->
  (forall q es, In (q, es) dirs -> get (dir_cid sha es) = Some (dir_block es) /\ blen (dir_block es) < 2 ^ 32 /\ dir_total es < 2 ^ 64) ->
  get c = Some data ->
  forall r q es, In (q, es) dirs -> r <> [] -> link_at h (q ++ r) = Some (c, s) ->
  forall fuel total, (length r < fuel)%nat ->
  exists docs shs, resolve0 get decode fuel hfuel (dir_cid sha es) r true total None = Some (docs, shs, Ok (NBlock c data, (total + length r)%nat)).
Proof.
  intros HB Hw Hu Hdirs Hc. induction r as [|n r IH]; intros q es Hin Hr Hl fuel total Hf; [congruence|].
  destruct fuel as [|fuel]; [cbn in Hf; lia|]. destruct (Hdirs q es Hin) as (Hg & Hb & Ht).
  pose proof HB as (B1 & _ & B3 & _). destruct (B3 q es Hin) as [_ Hes].
  assert (Hx : exists c' s', In (n, (c', s')) es /\ exists docs shs, resolve0 get decode fuel hfuel c' r true (total + 1)%nat None = Some (docs, shs, Ok (NBlock c data, (total + length (n :: r))%nat))).
  { destruct r as [|m r].
    - exists c, s. split; [apply Hes; left; exact Hl|]. cbn [length]. apply resolve_end; [exact Hc|cbn in Hf; lia].
    - assert (Hd : In (q ++ [n]) (map fst dirs)).
      { apply B1. assert (Hd : dir_at h (q ++ [n]) = true); [|destruct (q ++ [n]) eqn:E; [destruct q; discriminate|exact Hd]].
        apply link_at_call in Hl as (p & Hp & Ep). unfold dir_at. apply existsb_exists. eexists. split; [exact Hp|]. cbn [makes_dir]. unfold proper_prefix. rewrite Ep.
        apply andb_true_iff. split; [apply seg_prefix_spec; exists (m :: r); rewrite <- app_assoc; reflexivity|].
        destruct (seg_eqb_spec (q ++ [n]) (q ++ n :: m :: r)) as [E|]; [|reflexivity]. apply app_inv_head in E. discriminate. }
      apply in_map_iff in Hd as ([q' sub] & E & Hsub). cbn [fst] in E. subst q'.
      exists (dir_cid sha sub), (dir_total sub). split; [apply Hes; right; exists sub; auto|].
      replace (total + length (n :: m :: r))%nat with (total + 1 + length (m :: r))%nat by (cbn [length]; lia).
      apply (IH (q ++ [n]) sub Hsub); [discriminate|rewrite <- app_assoc; exact Hl|cbn [length] in *; lia]. }
  destruct Hx as (c' & s' & Hn & docs & shs & Er).
  assert (Hres : resolve (dir_block es) n None = Ok (Found c', None)).
  { apply (c36_read_back sha wrap h dirs q es n None c' (digest_wf sha Hsha) HB Hw Hu Hin Hb Ht). exists s'. exact Hn. }
  cbn [resolve0]. rewrite Hg. unfold resolve_local, dir_cid at 1. cbn [cid_codec]. replace (codec_dagpb =? codec_dagpb) with true by (symmetry; apply N.eqb_refl).
  unfold local_dagpb. rewrite Hres. cbn [option_map]. rewrite Er. cbn [option_map]. eauto.
Qed.

Lemma cat_loop_read fuel : forall v content, visit_loop fuel get v = ReadOk content ->
  exists ps, cat_loop get fuel v = (map Piece ps, Some Ended) /\ concat ps = content.
Proof.
  induction fuel as [|fuel IH]; intros v content H; cbn [visit_loop cat_loop] in *; [discriminate|].
  assert (Hp : forall b ps, piece b ++ map Piece ps = map Piece (match b with [] => [] | _ => [b] end ++ ps)) by (intros [|x b] ps; reflexivity).
  assert (Hq : forall (b : bytes) ps, concat (match b with [] => [] | _ => [b] end ++ ps) = b ++ concat ps) by (intros [|x b] ps; reflexivity).
  destruct (next_link v) as [c|]; [|discriminate]. destruct (get c) as [block|]; [|discriminate].
  destruct (visit_continue v block) as [[b [v'|]]|e|]; [| |discriminate|discriminate].
  - destruct (visit_loop fuel get v') as [rest| | | |] eqn:E; try discriminate. injection H as <-. destruct (IH _ _ E) as (ps & -> & <-).
    exists (match b with [] => [] | _ => [b] end ++ ps). rewrite Hp, Hq. auto.
  - injection H as <-. exists (match b with [] => [] | _ => [b] end ++ []). rewrite <- Hp, Hq. cbn. rewrite !app_nil_r. auto.
Qed.
Lemma cat_block_read fuel range c data content : get c = Some data -> read_file fuel get range c = ReadOk content ->
  exists ps, cat_block get fuel range c data = Ok (map Piece ps, Some Ended) /\ concat ps = content.
Proof.
  unfold read_file, cat_block. intros -> H.
  assert (Hp : forall b ps, piece b ++ map Piece ps = map Piece (match b with [] => [] | _ => [b] end ++ ps)) by (intros [|x b] ps; reflexivity).
  assert (Hq : forall (b : bytes) ps, concat (match b with [] => [] | _ => [b] end ++ ps) = b ++ concat ps) by (intros [|x b] ps; reflexivity).
  destruct (visit_start range data) as [[[[b size] md] [v|]]|e|]; [| |discriminate|discriminate].
  - destruct (visit_loop fuel get v) as [rest| | | |] eqn:E; try discriminate. injection H as <-. destruct (cat_loop_read _ _ _ E) as (ps & -> & <-).
    exists (match b with [] => [] | _ => [b] end ++ ps). rewrite Hp, Hq. auto.
  - injection H as <-. exists (match b with [] => [] | _ => [b] end ++ []). rewrite <- Hp, Hq. cbn. rewrite !app_nil_r. auto.
Qed.
End Read.

(** The name of an accepted call has proper segments. *)
Lemma verdict_segs wrap h c : verdict wrap h c = Ok tt -> call_path c <> [] -> Forall good_seg (split_slash (call_path c)).
Proof.
  unfold verdict. intros Hv Hne. destruct (ends_in_slash (call_path c)) eqn:E1; [discriminate|]. destruct (repeats_slash (call_path c)) eqn:E2; [discriminate|].
  destruct (starts_with_slash (call_path c)) eqn:E3; [discriminate|]. clear Hv.
  apply good_plain. split; [apply split_plain_all|]. pose proof (split_segs _ E1 E2) as H.
  destruct (split_inv (call_path c)) as (x & l & E & Hs & Hx & Hl). rewrite E in *. cbn [tl] in H. constructor; [|exact H].
  intros ->. destruct l as [|y l]; [apply Hne; rewrite Hs; reflexivity|]. rewrite Hs in E3. discriminate.
Qed.
Lemma accept_verdicts wrap l : forall h, snd (TreeSpec.accept wrap h l) = map (fun _ => Ok tt) l -> forall l1 c l2, l = l1 ++ c :: l2 -> verdict wrap (rev l1 ++ h) c = Ok tt.
Proof.
  induction l as [|c0 l IH]; intros h H l1 c l2 E; [destruct l1; discriminate|]. cbn [TreeSpec.accept map] in H.
  destruct (verdict wrap h c0) as [[]|e|] eqn:Ev.
  - specialize (IH (c0 :: h)). destruct (TreeSpec.accept wrap (c0 :: h) l) as [h' vs]. cbn [snd] in *. injection H as H.
    destruct l1 as [|c1 l1]; cbn [app] in E; injection E as -> ->; [exact Ev|]. cbn [rev]. rewrite <- app_assoc. cbn [app]. apply (IH H l1 c l2). reflexivity.
  - destruct (TreeSpec.accept wrap h l). discriminate.
  - destruct (TreeSpec.accept wrap h l). discriminate.
Qed.
(** Without wrapping, a name of one segment is alone. *)
Lemma alone l : snd (TreeSpec.accept false [] l) = map (fun _ => Ok tt) l -> forall x c s, plain x -> In (PutLink x c s) l -> l = [PutLink x c s].
Proof.
  intros H x c s Hx Hin. apply in_split in Hin as (l1 & l2 & ->). pose proof (accept_verdicts false _ _ H) as V.
  assert (E : split_slash x = [x]) by (apply split_plain; exact Hx).
  assert (l1 = []) as ->.
  { pose proof (V l1 _ l2 eq_refl) as Hv. rewrite app_nil_r in Hv. unfold verdict in Hv. cbn [call_path] in Hv. rewrite E in Hv.
    destruct (ends_in_slash x); [discriminate|]. destruct (repeats_slash x); [discriminate|]. destruct (starts_with_slash x); [discriminate|].
    destruct l1 as [|c1 l1]; [reflexivity|]. cbn [rev negb andb] in Hv. destruct (rev l1 ++ [c1]) eqn:Er; [destruct (rev l1); discriminate|discriminate]. }
  destruct l2 as [|c2 l2]; [reflexivity|]. exfalso. pose proof (V [PutLink x c s] c2 l2 eq_refl) as Hv. cbn [rev app] in Hv. unfold verdict in Hv.
  destruct (ends_in_slash _); [discriminate|]. destruct (repeats_slash _); [discriminate|]. destruct (starts_with_slash _); [discriminate|]. cbn [negb andb] in Hv.
  destruct (split_slash (call_path c2)) as [|y [|z r]] eqn:E2; [discriminate|discriminate|]. cbn [firstn] in Hv.
  destruct (taken [PutLink x c s] [y]) eqn:Et; cbn [negb] in Hv; [|discriminate].
  apply taken_hd in Et as (c' & r' & [<-|[]] & Ec). cbn [call_path] in Ec. rewrite E in Ec. injection Ec as <- <-.
  replace (existsb (is_link [PutLink x c s]) (ancestors (x :: z :: r))) with true in Hv; [discriminate|].
  symmetry. apply existsb_exists. exists [x]. split; [left; reflexivity|]. unfold is_link, link_at. cbn [first_some puts]. rewrite E. cbn [seg_eqb].
  destruct (beq_spec x x); [reflexivity|congruence].
Qed.
