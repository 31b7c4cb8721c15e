(** C64: pinning a dag keeps all of it. *)
From Verif Require Import Base Wire Cid CidProofs Pb BTree Ipld Codecs FMap BlockSpec FsPaths FsPathsProofs FsBlocks FsBlocksProofs PinSpec FsPins FsPinsProofs FsPinsReads KvPins PinnedRepo
  NodePins NodePinsSpec NodePinsProofs.
From Verif Require Refs RefsSpec PropsResolve PropsRefs.
Local Open Scope N_scope.

Section Props.
  Variable ob : N -> bytes -> option bytes.
  Variable decode : cid -> bytes -> outcome ipld unit.
  Variable checks : bool.
  Variable fuel : nat.
  Notation step := (fs_node_step ob decode checks fuel).
  Notation run := (fs_node_run ob decode checks fuel ([], []) []).
  Notation look s := (f_get (fst s)).
  Variable h : list nop.
  Hypothesis Hown : by_own_name decode h.
  Hypothesis Hwf : Forall nop_wf h.

  Lemma run_inv : let (s, ps) := run h in ninv decode h s ps.
  Proof. exact (inv_run ob decode checks fuel h Hown h Hwf (incl_refl _) _ _ (inv_start decode h)). Qed.

  (** After any calls, every block of a recursively pinned dag is stored and can be read, counts as
      pinned, and is not given up by [remove_block]. *)
  Theorem c64_kept c :
    let (s, ps) := run h in
    recursive ps c <> None ->
    complete (look s) decode c /\
    forall d, under (look s) decode c d -> fs_is_pinned ob (snd s) d = Some true /\ step s (NRemove d) = (s, Failed, []).
  Proof.
    pose proof run_inv as H. destruct (run h) as [s ps]. destruct H as (Hs & Hp & Hk). intros Hr. destruct (recursive ps c) as [rs|] eqn:E; [|contradiction].
    specialize (Hk c rs E). split.
    - intros d Hd. eapply kept_doc; [exact Hk|]. eapply kept_under; eassumption.
    - intros d Hd. pose proof (kept_under _ _ _ _ _ _ Hk Hd) as Hd'. assert (Hw : wf_cid d) by (eapply kept_wf; eassumption).
      pose proof (is_pinned_ok ob ps (snd s) Hp d Hw) as Hi. rewrite (kept_pinned decode h ps (fst s) c rs d E Hk Hd') in Hi. split; [exact Hi|].
      unfold fs_node_step, node_step, remove_block. rewrite Hi. reflexivity.
  Qed.

  (** Pinning never touches the blocks, and when it succeeds the whole dag is there and pinned. *)
  Theorem c64_pin_done c : wf_cid c ->
    let (s, ps) := run h in
    let '(s', a, acc) := step s (NPin c true) in
    fst s' = fst s /\
    match a with
    | Done => complete (look s) decode c /\ exists r, acc = [PinRec c r] /\ forall d, under (look s) decode c d -> fs_is_pinned ob (snd s') d = Some true
    | _ => s' = s /\ acc = []
    end.
  Proof.
    intros Hc. pose proof run_inv as H. destruct (run h) as [s ps]. pose proof H as (Hs & Hp & Hk). unfold fs_node_step, node_step.
    destruct (insert_call f_get decode checks fuel (fst s) c true) as [o|a] eqn:Ei; cbn [pin_op].
    2: { split; [reflexivity|]. cbn [accepted]. destruct a; auto. exfalso. unfold insert_call in Ei. destruct (f_get (fst s) c); [|discriminate]. cbn [negb] in Ei.
         destruct (decode c b) as [v|u|]; try discriminate. destruct (references _ _ _ _ _ _ _ _) as [[r|u|]|]; discriminate. }
    destruct (insert_call_ok decode checks fuel h Hown _ _ _ _ Hs Hc Ei) as [Ho Hcase]. unfold answered. pose proof (call_rep ps (snd s) o Hp Ho) as Hcall.
    destruct o as [c'|c' r|c'|c' r]; try contradiction; [destruct Hcase as (_ & [=] & _)|]. destruct Hcase as (-> & _ & v & Hv & Hr).
    destruct (fs_accepts ps (PinRec c r)) eqn:Ea; [|rewrite Hcall; cbn [fst snd accepted app]; destruct s; auto].
    destruct Hcall as (f' & -> & Hf' & _). cbn [fst snd accepted app]. split; [reflexivity|]. destruct r as [l br]. cbn [fs_accepts broken] in Ea. destruct br; [discriminate|].
    assert (Hu : forall d, under (look s) decode c d -> d = c \/ In d l).
    { intros d Hd. induction Hd as [|d w name e _ IH Hw Hl]; [left; reflexivity|right]. exact (references_closed f_get decode checks fuel (fst s) c v l Hv Hr d w name e IH Hw Hl). }
    split.
    - intros d Hd. destruct (Hu d Hd) as [->|Hi]; [exists v; exact Hv|]. eapply (references_from f_get decode checks fuel (fst s) c v true); [exact Hr|exact Hi].
    - eexists. split; [reflexivity|]. intros d Hd. assert (Hdw : wf_cid d).
      { destruct (Hu d Hd) as [->|Hi]; [exact Hc|]. destruct Ho as [_ Ho]. rewrite Forall_forall in Ho. apply Ho. exact Hi. }
      rewrite (is_pinned_ok ob _ f' Hf' d Hdw). unfold pinned. cbn [recursive roots]. destruct (Hu d Hd) as [->|Hi].
      + destruct (cid_eqb_spec c c); [reflexivity|contradiction].
      + f_equal. apply orb_true_iff. right. apply existsb_exists. exists c. split; [left; reflexivity|]. unfold refers. cbn [recursive]. destruct (cid_eqb_spec c c); [|contradiction].
        cbn [items]. apply existsb_exists. exists d. split; [exact Hi|]. destruct (cid_eqb_spec d d); congruence.
  Qed.

  (** A dag which is all there and finite, without links named "/", can be pinned; and a pinned one can
      be unpinned. *)
  Definition can_walk (s : fs * fs) (c : cid) : Prop :=
    (forall d v, under (look s) decode c d -> stored_doc (look s) decode d v -> exists ls, Refs.ipld_links d v = Ok ls) /\
    exists universe, (forall d, under (look s) decode c d -> In d universe) /\ (length universe < fuel)%nat.
  Theorem c64_pin_accepts c : wf_cid c ->
    let (s, ps) := run h in can_walk s c -> (snd (fst (step s (NPin c true))) = Done <-> complete (look s) decode c).
  Proof.
    intros Hc. pose proof (c64_pin_done c Hc) as Hd. pose proof run_inv as H. destruct (run h) as [s ps]. pose proof H as (Hs & Hp & Hk). intros [Hl (universe & Hu & Hf)].
    split; [destruct (step s (NPin c true)) as [[s' a] acc]; cbn [fst snd]; intros ->; apply Hd|]. clear Hd. intros Hcomp. unfold fs_node_step, node_step.
    destruct (Hcomp c (under_root _ _ _)) as (v & data & Hg & Hv). destruct (references_ok f_get decode checks fuel (fst s) c v true universe) as (l & El); try assumption; [exists data; auto|].
    assert (Ei : insert_call f_get decode checks fuel (fst s) c true = inl (PinRec c (mk_refs l false))) by (unfold insert_call; rewrite Hg; cbn [negb]; rewrite Hv, El; reflexivity).
    rewrite Ei. destruct (insert_call_ok decode checks fuel h Hown _ _ _ _ Hs Hc Ei) as [Ho _]. cbn [pin_op]. unfold answered. pose proof (call_rep ps (snd s) _ Hp Ho) as Hcall.
    cbn [fs_accepts broken negb] in Hcall. destruct Hcall as (f' & -> & _). reflexivity.
  Qed.
  Theorem c64_unpin c : wf_cid c ->
    let (s, ps) := run h in can_walk s c -> recursive ps c <> None ->
    let '(s', a, acc) := step s (NUnpin c true) in
    a = Done /\ fst s' = fst s /\ exists r, acc = [UnpinRec c r].
  Proof.
    intros Hc. pose proof (c64_kept c) as Hd. pose proof run_inv as H. destruct (run h) as [s ps]. pose proof H as (Hs & Hp & Hk). intros [Hl (universe & Hu & Hf)] Hr.
    destruct (Hd Hr) as [Hcomp _]. unfold fs_node_step, node_step.
    destruct (Hcomp c (under_root _ _ _)) as (v & data & Hg & Hv). destruct (references_ok f_get decode checks fuel (fst s) c v false universe) as (l & El); try assumption; [exists data; auto|].
    assert (Ei : remove_call f_get decode checks fuel (fst s) c true = inl (UnpinRec c (mk_refs l false))) by (unfold remove_call; rewrite Hg; cbn [negb]; rewrite Hv, El; reflexivity).
    rewrite Ei. destruct (remove_call_ok decode checks fuel h Hown _ _ _ _ Hs Hc Ei) as [Ho _]. cbn [pin_op]. unfold answered. pose proof (call_rep ps (snd s) _ Hp Ho) as Hcall.
    cbn [fs_accepts] in Hcall. destruct (recursive ps c); [|contradiction]. cbn [is_some orb] in Hcall. destruct Hcall as (f' & -> & _). cbn [fst snd accepted].
    split; [reflexivity|]. split; [reflexivity|]. eexists. reflexivity.
  Qed.
  (** What is under no pinned root can be removed: pins keep nothing else. *)
  Theorem c64_free d data : wf_cid d ->
    let (s, ps) := run h in look s d = Some data ->
    (forall c, recursive ps c <> None -> ~ under (look s) decode c d) -> direct ps d = false ->
    let '(s', a, acc) := step s (NRemove d) in a = Done /\ snd s' = snd s /\
      forall x, wf_cid x -> look s' x = if cid_eqb (to_v1 d) (to_v1 x) then None else look s x.
  Proof.
    intros Hw. pose proof run_inv as H. destruct (run h) as [s ps]. pose proof H as (Hs & Hp & Hk). intros Hg Hfree Hdir.
    unfold fs_node_step, node_step, remove_block. rewrite (is_pinned_ok ob ps (snd s) Hp d Hw).
    assert (Epin : pinned ps d = false).
    { unfold pinned. rewrite Hdir. destruct (recursive ps d) eqn:E; [exfalso; apply (Hfree d); [congruence|apply under_root]|]. cbn [is_some orb].
      unfold indirect. destruct (existsb _ (roots ps)) eqn:Ex; [|reflexivity]. apply existsb_exists in Ex as (c & _ & Hr). unfold refers in Hr.
      destruct (recursive ps c) as [rs|] eqn:Ec; [|discriminate]. apply existsb_exists in Hr as (e & He & Heq). destruct (cid_eqb_spec d e) as [->|]; [|discriminate].
      exfalso. apply (Hfree c); [congruence|]. eapply Hk; eassumption. }
    rewrite Epin. rewrite f_get_file in Hg by exact Hw. unfold f_remove, fs_remove. rewrite block_path_ok by exact Hw. rewrite Hg. cbn [fst snd].
    split; [reflexivity|]. split; [reflexivity|]. intros x Hx. rewrite !f_get_file, remove_view by assumption. reflexivity.
  Qed.
End Props.
Print Assumptions c64_kept.
Print Assumptions c64_pin_done.
Print Assumptions c64_pin_accepts.
Print Assumptions c64_unpin.
Print Assumptions c64_free.

(** ** A dag of four blocks (A links to B and C, which both link to D), a second root E over D, and a
    loose block F. *)
Import PropsResolve PropsRefs.
Definition dE := cbor_of 5.
Definition dF := cbor_of 6.
Definition put_of (c : cid) (v : ipld) : nop := NPut (mk_block c (cbor_block v)).
Definition pin_demo : list nop :=
  [put_of dA doc_A; put_of dB (IList [Link dD]); put_of dC (IList [Link dD]); NPin dA true; put_of dD Null; put_of dE (IList [Link dD]); put_of dF Null;
   NPin dA true; NPin dE true; NRemove dD; NRemove dB; NUnpin dE true; NRemove dD; NRemove dE; NPin dF false; NRemove dF; NUnpin dF false; NRemove dF].
Notation no_base := (fun _ _ => None).
Notation demo_run := (fs_node_run no_base real_decode true 10 ([], []) []).

Lemma decode_cases x b : cid_codec x = codec_dagcbor \/ cid_codec x = codec_dagpb \/ (cid_codec x <> codec_dagcbor /\ cid_codec x <> codec_dagpb /\ (real_decode x b = Err tt \/ real_decode x b = Ok (IBytes b))).
Proof.
  unfold real_decode, Resolve.decode_ipld. destruct (N.eqb_spec (cid_codec x) codec_dagcbor); [auto|]. destruct (N.eqb_spec (cid_codec x) codec_dagpb); [auto|].
  right. right. split; [assumption|]. split; [assumption|]. destruct (cid_codec x =? codec_dagjson); [left; reflexivity|]. destruct (cid_codec x =? codec_raw); [right|left]; reflexivity.
Qed.
Lemma demo_pb v : In v [doc_A; IList [Link dD]; Null] -> match dagpb_decode (cbor_block v) with Ok _ => false | _ => true end = true.
Proof. intros [<-|[<-|[<-|[]]]]; vm_compute; reflexivity. Qed.
Lemma demo_cbor v : In v [doc_A; IList [Link dD]; Null] -> real_decode dA (cbor_block v) = Ok v.
Proof. intros [<-|[<-|[<-|[]]]]; vm_compute; reflexivity. Qed.
Lemma occurs_list d e : RefsSpec.occurs d (IList [Link e]) -> d = e.
Proof. intros H. inversion H as [|l v Hi Hv|]; subst. destruct Hi as [<-|[]]. inversion Hv. reflexivity. Qed.
Lemma occurs_A d : RefsSpec.occurs d doc_A -> d = dB \/ d = dC.
Proof.
  unfold doc_A. intros H. inversion H as [| |m k v Hin Hv]; subst. cbn [In] in Hin. destruct Hin as [Hin|[Hin|[]]]; injection Hin as <- <-.
  - inversion Hv. auto.
  - inversion Hv as [|l v Hi Hv'|]; subst. destruct Hi as [<-|[<-|[]]]; inversion Hv'. auto.
Qed.
(** The links a block can be read to have, under any cid. *)
Lemma demo_links v x w name d : In v [doc_A; IList [Link dD]; Null] -> real_decode x (cbor_block v) = Ok w -> RefsSpec.has_link x w name d -> d = dB \/ d = dC \/ d = dD.
Proof.
  intros Hv. destruct (decode_cases x (cbor_block v)) as [Hc|[Hc|(H1 & H2 & H3)]].
  - assert (E : real_decode x (cbor_block v) = real_decode dA (cbor_block v)) by (unfold real_decode, Resolve.decode_ipld; rewrite Hc; reflexivity).
    rewrite E, (demo_cbor v Hv). intros [= <-] Hl. inversion Hl as [v' d' _ Ho|m l y nm d' Hpb]; subst; [|rewrite Hc in Hpb; discriminate].
    destruct Hv as [<-|[<-|[<-|[]]]]; [destruct (occurs_A _ Ho) as [->| ->]; auto|rewrite (occurs_list _ _ Ho); auto|inversion Ho].
  - unfold real_decode, Resolve.decode_ipld. rewrite Hc. change (codec_dagpb =? codec_dagcbor) with false. rewrite N.eqb_refl. cbn iota.
    pose proof (demo_pb v Hv) as Hp. destruct (dagpb_decode (cbor_block v)); discriminate.
  - intros Hw Hl. destruct H3 as [H3|H3]; rewrite H3 in Hw; [discriminate|]. injection Hw as <-. inversion Hl as [v' d' _ Ho|m l y nm d' Hpb]; subst. inversion Ho.
Qed.
Lemma demo_wf n : n < 256 -> wf_cid (cbor_of n).
Proof.
  intros Hn. split; [reflexivity|]. split; [reflexivity|]. split; [|reflexivity]. cbn [mh_digest cbor_of]. unfold wf_bytes. apply Forall_forall. intros y Hy. apply repeat_spec in Hy. subst y. exact Hn.
Qed.

(** The hypotheses hold of the example, in which: the first pin waits for D; D and B are kept, by two pins and
    then by one; E and F can go when they are not pinned any more. *)
Example c64_example :
  by_own_name real_decode pin_demo /\ Forall nop_wf pin_demo /\
  let answers := snd (fold_left (fun '(s, as_) o => let '(s', a, _) := fs_node_step no_base real_decode true 10 s o in (s', as_ ++ [a])) pin_demo (([], []), [])) in
  answers = [Done; Done; Done; Waits; Done; Done; Done; Done; Done; Failed; Failed; Done; Failed; Done; Done; Failed; Done; Done] /\
  let (s, ps) := demo_run pin_demo in
  recursive ps dA = Some [dB; dC; dD] /\ recursive ps dE = None /\ under (f_get (fst s)) real_decode dA dD /\
  f_get (fst s) dD = Some (cbor_block Null) /\ f_get (fst s) dE = None /\ f_get (fst s) dF = None.
Proof.
  split; [|split; [|split]].
  - split.
    + intros b x v name d Hin Hv Hl. assert (Hb : exists w, In w [doc_A; IList [Link dD]; Null] /\ b_data b = cbor_block w).
      { unfold pin_demo, put_of in Hin. cbn [In] in Hin. repeat (destruct Hin as [Hin|Hin]; [first [discriminate Hin|injection Hin as <-; eexists; split; [|cbn [b_data]; reflexivity]; cbn [In]; tauto]|]). destruct Hin. }
      destruct Hb as (w & Hw & Hb). rewrite Hb in Hv. pose proof (demo_links w x v name d Hw Hv Hl) as Hd.
      split; [destruct Hd as [->|[->| ->]]; apply demo_wf; reflexivity|]. intros r Hr.
      assert (Hr' : to_v1 r = r) by (unfold pin_demo, put_of in Hr; cbn [In] in Hr; repeat (destruct Hr as [Hr|Hr]; [try discriminate; injection Hr as <-; reflexivity|]); destruct Hr).
      rewrite Hr'. intros ->. destruct Hd as [->|[->| ->]]; reflexivity.
    + intros c r Hc Hr. assert (Hr' : to_v1 r = r) by (unfold pin_demo, put_of in Hr; cbn [In] in Hr; repeat (destruct Hr as [Hr|Hr]; [try discriminate; injection Hr as <-; reflexivity|]); destruct Hr).
      assert (Hc' : to_v1 c = c) by (unfold pin_demo, put_of in Hc; cbn [In] in Hc; repeat (destruct Hc as [Hc|Hc]; [try discriminate; injection Hc as <-; reflexivity|]); destruct Hc).
      congruence.
  - repeat (constructor; [apply demo_wf; reflexivity|]). constructor.
  - vm_compute. reflexivity.
  - assert (E : (let (s, ps) := demo_run pin_demo in (recursive ps dA, recursive ps dE, map (f_get (fst s)) [dA; dB; dD; dE; dF])) = 
      (Some [dB; dC; dD], None, [Some (cbor_block doc_A); Some (cbor_block (IList [Link dD])); Some (cbor_block Null); None; None])) by (vm_compute; reflexivity).
    destruct (demo_run pin_demo) as [s ps]. injection E as E1 E2 E3 E4 E5 E6 E7. repeat split; try assumption.
    apply under_link with (d := dB) (v := IList [Link dD]) (name := None).
    + apply under_link with (d := dA) (v := doc_A) (name := None); [apply under_root|exists (cbor_block doc_A); split; [exact E3|vm_compute; reflexivity]|].
      apply RefsSpec.link_plain; [discriminate|]. unfold doc_A. eapply RefsSpec.occ_map; [left; reflexivity|constructor].
    + exists (cbor_block (IList [Link dD])). split; [exact E4|vm_compute; reflexivity].
    + apply RefsSpec.link_plain; [discriminate|]. eapply RefsSpec.occ_list; [left; reflexivity|constructor].
Qed.

(** [d] is under [c], and missing. *)
Definition hole (s : fs) (c d : cid) : Prop := under (f_get s) real_decode c d /\ f_get s d = None.
Lemma one_link s c e data : f_get s c = Some data -> real_decode c data = Ok (IList [Link e]) -> cid_codec c <> codec_dagpb -> under (f_get s) real_decode c e.
Proof.
  intros Hg Hv Hc. eapply under_link; [apply under_root|exists data; eauto|]. apply RefsSpec.link_plain; [exact Hc|]. eapply RefsSpec.occ_list; [left; reflexivity|constructor].
Qed.

(** With pins in the key-value store: two pinned dags share a block; unpinning one of them frees the
    block of the other. *)
Definition kv_demo : list nop :=
  [put_of dE (IList [Link dD]); put_of dB (IList [Link dD]); put_of dD Null; NPin dE true; NPin dB true; NRemove dD; NUnpin dB true; NRemove dD].
Theorem c64_key_value_refuted :
  by_own_name real_decode kv_demo /\
  (let answers := snd (fold_left (fun '(s, as_) o => let '(s', a, _) := kv_node_step real_decode true 10 s o in (s', as_ ++ [a])) kv_demo (([], []), [])) in
   answers = [Done; Done; Done; Done; Done; Failed; Done; Done]) /\
  let (s, ps) := kv_node_run real_decode true 10 ([], []) [] kv_demo in
  recursive ps dE = Some [dD] /\ kv_is_pinned (snd s) dE = true /\ hole (fst s) dE dD.
Proof.
  split; [|split].
  - assert (Hr' : forall r, In (NRemove r) kv_demo -> r = dD) by (intros r Hr; unfold kv_demo, put_of in Hr; cbn [In] in Hr; repeat (destruct Hr as [Hr|Hr]; [try discriminate; injection Hr as <-; reflexivity|]); destruct Hr).
    split.
    + intros b x v name d Hin Hv Hl. assert (Hb : exists w, In w [doc_A; IList [Link dD]; Null] /\ b_data b = cbor_block w).
      { unfold kv_demo, put_of in Hin. cbn [In] in Hin. repeat (destruct Hin as [Hin|Hin]; [first [discriminate Hin|injection Hin as <-; eexists; split; [|cbn [b_data]; reflexivity]; cbn [In]; tauto]|]). destruct Hin. }
      destruct Hb as (w & Hw & Hb). rewrite Hb in Hv. pose proof (demo_links w x v name d Hw Hv Hl) as Hd.
      split; [destruct Hd as [->|[->| ->]]; apply demo_wf; reflexivity|]. intros r Hr. rewrite (Hr' r Hr). destruct Hd as [->|[->| ->]]; [discriminate..|reflexivity].
    + intros c r Hc Hr. rewrite (Hr' r Hr). intros Ev. assert (Hc' : c = dE \/ c = dB) by (unfold kv_demo, put_of in Hc; cbn [In] in Hc; repeat (destruct Hc as [Hc|Hc]; [try discriminate; injection Hc as <-; auto|]); destruct Hc).
      destruct Hc' as [->| ->]; discriminate Ev.
  - vm_compute. reflexivity.
  - assert (E : (let (s, ps) := kv_node_run real_decode true 10 ([], []) [] kv_demo in (recursive ps dE, kv_is_pinned (snd s) dE, f_get (fst s) dE, f_get (fst s) dD)) =
      (Some [dD], true, Some (cbor_block (IList [Link dD])), None)) by (vm_compute; reflexivity).
    destruct (kv_node_run real_decode true 10 ([], []) [] kv_demo) as [s ps]. injection E as E1 E2 E3 E4. repeat split; try assumption.
    eapply one_link; [exact E3|vm_compute; reflexivity|discriminate].
Qed.
Print Assumptions c64_key_value_refuted.

(** On disk, removing a block by another cid of it (version 1 where the dag has version 0) makes a hole
    in a pinned dag.  When it is the root that goes, it cannot be unpinned any more. *)
Definition leaf0 : cid := CidV0 (repeat 7 32).
Definition leaf1 : cid := CidV1 codec_dagpb {| mh_code := sha2_256; mh_digest := repeat 7 32 |}.
Definition leaf_block : bytes := pbnode_into_bytes (mk_PbNode [] []).
Definition alias_demo : list nop :=
  [NPut (mk_block leaf0 leaf_block); put_of dE (IList [Link leaf0]); NPin dE true; NRemove leaf0; NRemove leaf1].
Definition alias_root : list nop := [NPut (mk_block leaf0 leaf_block); NPin leaf0 true; NRemove leaf1; NUnpin leaf0 true].
Theorem c64_alias_refuted :
  to_v1 leaf0 = leaf1 /\
  (let answers h := snd (fold_left (fun '(s, as_) o => let '(s', a, _) := fs_node_step no_base real_decode true 10 s o in (s', as_ ++ [a])) h (([], []), [])) in
   answers alias_demo = [Done; Done; Done; Failed; Done] /\ answers alias_root = [Done; Done; Done; Failed]) /\
  (let (s, ps) := demo_run alias_demo in recursive ps dE = Some [leaf0] /\ fs_is_pinned no_base (snd s) leaf0 = Some true /\ hole (fst s) dE leaf0) /\
  (let (s, ps) := demo_run alias_root in recursive ps leaf0 = Some [] /\ hole (fst s) leaf0 leaf0).
Proof.
  split; [reflexivity|]. split; [split; vm_compute; reflexivity|]. split.
  - assert (E : (let (s, ps) := demo_run alias_demo in (recursive ps dE, fs_is_pinned no_base (snd s) leaf0, f_get (fst s) dE, f_get (fst s) leaf0)) =
      (Some [leaf0], Some true, Some (cbor_block (IList [Link leaf0])), None)) by (vm_compute; reflexivity).
    destruct (demo_run alias_demo) as [s ps]. injection E as E1 E2 E3 E4. repeat split; try assumption. eapply one_link; [exact E3|vm_compute; reflexivity|discriminate].
  - assert (E : (let (s, ps) := demo_run alias_root in (recursive ps leaf0, f_get (fst s) leaf0)) = (Some [], None)) by (vm_compute; reflexivity).
    destruct (demo_run alias_root) as [s ps]. injection E as E1 E2. repeat split; try assumption. apply under_root.
Qed.
Print Assumptions c64_alias_refuted.

(** A block removed while a pin call is between its walk and the pin store: the call succeeds and the
    pinned dag has a hole. *)
Theorem c64_race_refuted :
  (forall s c rec, fs_pin_during no_base real_decode true 10 s c rec [] = fst (fs_node_step no_base real_decode true 10 s (NPin c rec))) /\
  let s := fst (demo_run [put_of dE (IList [Link dD]); put_of dD Null]) in
  let (s', a) := fs_pin_during no_base real_decode true 10 s dE true [NRemove dD] in
  a = Done /\ fs_is_pinned no_base (snd s') dE = Some true /\ fs_is_pinned no_base (snd s') dD = Some true /\ hole (fst s') dE dD.
Proof.
  split.
  - intros s c rec. unfold fs_pin_during, pin_during, fs_node_step, node_step. cbn [node_run]. destruct (pin_op fs_pin_call s _) as [s' a]. reflexivity.
  - cbn zeta. set (s := fst (demo_run _)).
    assert (E : (let (s', a) := fs_pin_during no_base real_decode true 10 s dE true [NRemove dD] in
        (a, fs_is_pinned no_base (snd s') dE, fs_is_pinned no_base (snd s') dD, f_get (fst s') dE, f_get (fst s') dD)) =
      (Done, Some true, Some true, Some (cbor_block (IList [Link dD])), None)) by (vm_compute; reflexivity).
    destruct (fs_pin_during _ _ _ _ s dE true [NRemove dD]) as [s' a]. injection E as E1 E2 E3 E4 E5. repeat split; try assumption.
    eapply one_link; [exact E4|vm_compute; reflexivity|discriminate].
Qed.
Print Assumptions c64_race_refuted.

Example c64_can_walk_example : let (s, ps) := demo_run pin_demo in can_walk real_decode 10 s dA.
Proof.
  assert (E : (let (s, ps) := demo_run pin_demo in map (f_get (fst s)) [dA; dB; dC; dD]) =
      [Some (cbor_block doc_A); Some (cbor_block (IList [Link dD])); Some (cbor_block (IList [Link dD])); Some (cbor_block Null)]) by (vm_compute; reflexivity).
  destruct (demo_run pin_demo) as [s ps]. injection E as E1 E2 E3 E4.
  assert (Hu : forall d, under (f_get (fst s)) real_decode dA d -> In d [dA; dB; dC; dD]).
  { induction 1 as [|d v name e _ IH (data & Hg & Hv) Hl]; [left; reflexivity|].
    assert (Hd : exists w, In w [doc_A; IList [Link dD]; Null] /\ data = cbor_block w).
    { destruct IH as [<-|[<-|[<-|[<-|[]]]]]; rewrite Hg in *; [injection E1 as ->; exists doc_A|injection E2 as ->; exists (IList [Link dD])|injection E3 as ->; exists (IList [Link dD])|injection E4 as ->; exists Null]; (split; [cbn [In]; tauto|reflexivity]). }
    destruct Hd as (w & Hw & ->). destruct (demo_links w d v name e Hw Hv Hl) as [->|[->| ->]]; cbn [In]; tauto. }
  split.
  - intros d v Hd _. destruct (c32_other_links d v) as (ls & El & _); [|eauto]. destruct (Hu d Hd) as [<-|[<-|[<-|[<-|[]]]]]; discriminate.
  - exists [dA; dB; dC; dD]. split; [exact Hu|cbn; lia].
Qed.
