(** C19, C23-C25: pinned blocks, the key-value pin store, agreement between stores, failures. *)
From Verif Require Import Base Wire Cid CidProofs Text FMap FsPaths FsPathsProofs BlockSpec MemBlocks MemBlocksProofs
  FsBlocks FsBlocksProofs PinSpec PinSpecProofs MemPins MemPinsProofs MemPinsReads FsPins FsPinsProofs FsPinsReads KvPins KvPinsProofs
  PinnedRepo PropsPins.
Local Open Scope N_scope.
Notation wf_pop := PinSpec.wf_op.

Lemma is_indirect past c : indirect past c = true <-> exists root, refers past root c = true.
Proof. apply indirect_spec. Qed.

(** * C23: the key-value store *)

(** No cid is both pinned directly and unpinned recursively. *)
Definition direct_apart (h : list pop) : Prop := forall c r, In (PinDirect c) h -> ~ In (UnpinRec c r) h.
(** No cid below a recursively pinned root is itself the subject of a call, or below another root. *)
Definition no_sharing (refs_of : cid -> list cid) (h : list pop) : Prop :=
  (forall root r o, In (PinRec root r) h -> In o h -> ~ In (op_cid o) (refs_of root)) /\
  (forall a ra b rb x, In (PinRec a ra) h -> In (PinRec b rb) h -> In x (refs_of a) -> In x (refs_of b) -> a = b).

(** What is found is pinned; [list] shows it, [query] answers for those cids only, and truthfully. *)
Definition kv_sound (past : list pop) (db : kv) : Prop :=
  (forall c, wf_cid c -> kv_is_pinned db c = true -> pinned past c = true) /\
  (forall ob req, exists l, kv_pin_list ob db req = map Some l /\ NoDup (map fst l) /\
     forall c m, wf_cid c -> In (c, m) l -> pinned_as past c m = true /\ req_matches req m = true) /\
  (forall ob req ids, Forall wf_cid ids -> exists ans, kv_query ob db ids req = Some ans /\
     incl (map fst ans) ids /\
     forall c k, In (c, k) ans -> kind_true (fun r => r) past c k /\ req_matches req (kind_mode k) = true).
(** ... and everything pinned is found, in its one mode. *)
Definition kv_agrees (past : list pop) (db : kv) : Prop :=
  (forall c, wf_cid c -> kv_is_pinned db c = pinned past c) /\
  (forall ob req, exists l, kv_pin_list ob db req = map Some l /\ NoDup (map fst l) /\
     forall c m, wf_cid c -> (In (c, m) l <-> pinned_as past c m = true /\ req_matches req m = true)) /\
  (forall ob req ids, Forall wf_cid ids -> exists ans, kv_query ob db ids req = Some ans /\
     map fst ans = filter (fun c => existsb (fun m => pinned_as past c m && req_matches req m) [Indirect; Direct; Recursive]) ids /\
     forall c k, In (c, k) ans -> kind_true (fun r => r) past c k /\ req_matches req (kind_mode k) = true).

Definition directs (h : list pop) : list cid := flat_map (fun o => match o with PinDirect c => [c] | _ => [] end) h.
Lemma directs_in h c : In c (directs h) <-> In (PinDirect c) h.
Proof.
  unfold directs. rewrite in_flat_map. split.
  - intros (o & Ho & Hc). destruct o; cbn in Hc; try contradiction. destruct Hc as [->|[]]. exact Ho.
  - intros H. exists (PinDirect c). split; [exact H|left; reflexivity].
Qed.

Lemma list_fst db past ob req refs_of dt : ksound refs_of dt past db ->
  exists l, kv_pin_list ob db req = map Some l /\ NoDup (map fst l) /\
    forall c m, wf_cid c -> (In (c, m) l <-> has db c m = true /\ req_matches req m = true).
Proof.
  intros Hs. pose proof Hs as ((Hw & H1 & _) & _). destruct (kv_list_ok ob db req Hw) as (l & El & Hn & Hwf & Hl).
  exists l. split; [exact El|]. split; [|exact Hl].
  revert Hn Hwf. assert (H : forall c m n, wf_cid c -> In (c, m) l -> In (c, n) l -> m = n).
  { intros c m n Hc A B. apply Hl in A as [A _]; [|exact Hc]. apply Hl in B as [B _]; [|exact Hc]. exact (H1 c m n Hc A B). }
  clear -H. induction l as [|[c m] l IH]; [constructor|]. intros Hn Hwf. inversion Hn; subst. inversion Hwf; subst. cbn [map fst]. constructor.
  - intros Hi. apply in_map_iff in Hi as ([c' n] & E & Hi). cbn in E. subst c'. cbn [fst] in *.
    rewrite (H c n m) in Hi; auto; [right; exact Hi|left; reflexivity].
  - apply IH; auto. intros x m' n' Hx A B. apply (H x); auto; right; assumption.
Qed.

Lemma kv_mode_exists db past c refs_of dt : ksound refs_of dt past db -> wf_cid c ->
  kv_is_pinned db c = existsb (has db c) [Indirect; Direct; Recursive].
Proof.
  intros _ _. unfold kv_is_pinned. rewrite kv_mode_spec. cbn [existsb].
  destruct (has db c Direct), (has db c Recursive), (has db c Indirect); reflexivity.
Qed.
Lemma pinned_modes past c : pinned past c = existsb (pinned_as past c) [Indirect; Direct; Recursive].
Proof.
  unfold pinned. cbn [existsb pinned_as]. destruct (is_some (recursive past c)), (direct past c), (indirect past c); reflexivity.
Qed.

Lemma kv_history refs_of h : Forall (fun o => wf_pop o /\ from_dag refs_of o) h -> direct_apart h ->
  let r := prun kv_pin_call [] [] h in ksound refs_of (directs h) (snd r) (fst r).
Proof.
  intros HF Ha r. apply (prun_ind kv_pin_call (ksound refs_of (directs h)) (kv_ok refs_of (directs h))).
  - intros past db o Hs Ho. pose proof (ksound_step refs_of (directs h) past db o Hs Ho) as H. destruct (kv_accepts db o).
    + destruct H as (db' & -> & H & _). exact H.
    + rewrite H. exact Hs.
  - rewrite Forall_forall in *. intros o Ho. destruct (HF o Ho) as [A B]. split; [exact A|]. split; [exact B|].
    destruct o as [c|c rr|c|c rr]; cbn [apart]; auto.
    + apply directs_in. exact Ho.
    + rewrite directs_in. intros Hd. exact (Ha c rr Hd Ho).
  - apply ksound_nil.
Qed.

(** Nothing is ever reported as pinned which is not. *)
Theorem c23_key_value_no_false_pins_partial : forall refs_of h,
  Forall (fun o => wf_pop o /\ from_dag refs_of o) h -> direct_apart h ->
  let (db, past) := prun kv_pin_call [] [] h in kv_sound past db.
Proof.
  intros refs_of h HF Ha. pose proof (kv_history refs_of h HF Ha) as Hs. cbn zeta in Hs.
  destruct (prun kv_pin_call [] [] h) as [db past]. cbn [fst snd] in Hs. split; [|split].
  - intros c Hc. rewrite (kv_mode_exists db past c _ _ Hs Hc), pinned_modes, !existsb_exists. intros (m & Hm & H). exists m. split; [exact Hm|].
    exact (has_sound refs_of (directs h) past db c m Hs Hc H).
  - intros ob req. destruct (list_fst db past ob req _ _ Hs) as (l & El & Hn & Hl). exists l. split; [exact El|]. split; [exact Hn|].
    intros c m Hc Hi. apply Hl in Hi as [A B]; [|exact Hc]. split; [|exact B]. exact (has_sound refs_of (directs h) past db c m Hs Hc A).
  - intros ob req ids HI. destruct (kv_query_ok ob refs_of (directs h) past db req ids Hs HI) as (ans & E & Em & Hk).
    exists ans. split; [exact E|]. split; [|exact Hk]. rewrite Em. intros x Hx. apply filter_In in Hx. tauto.
Qed.
Print Assumptions c23_key_value_no_false_pins_partial.

(** The recursive pins are right whatever the calls. *)
Theorem c23_key_value_recursive : forall h ob, Forall wf_pop h ->
  let (db, past) := prun kv_pin_call [] [] h in
  exists l, kv_pin_list ob db (Some Recursive) = map Some l /\ NoDup (map fst l) /\
    forall c m, wf_cid c -> (In (c, m) l <-> m = Recursive /\ recursive past c <> None).
Proof.
  intros h ob HF.
  assert (Hs : let r := prun kv_pin_call [] [] h in krec (snd r) (fst r)).
  { apply (prun_ind kv_pin_call krec wf_pop); [|exact HF|exact krec_nil].
    intros past db o Hs Ho. pose proof (krec_step past db o Hs Ho) as H. destruct (kv_accepts db o).
    - destruct H as (db' & -> & H & _). exact H.
    - rewrite H. exact Hs. }
  cbn zeta in Hs. destruct (prun kv_pin_call [] [] h) as [db past]. cbn [fst snd] in Hs. pose proof Hs as (Hw & H1 & Hr).
  destruct (kv_list_ok ob db (Some Recursive) Hw) as (l & El & Hn & Hwf & Hl). exists l. split; [exact El|]. split.
  - assert (Hm : forall c m, In (c, m) l -> m = Recursive).
    { intros c m Hi. rewrite Forall_forall in Hwf. pose proof (Hwf _ Hi) as Hc. apply Hl in Hi as [_ E]; [|exact Hc]. destruct m; cbn in E; congruence. }
    clear -Hn Hm. induction l as [|[c m] l IH]; [constructor|]. inversion Hn; subst. cbn [map fst]. constructor.
    + intros Hi. apply in_map_iff in Hi as ([c' n] & E & Hi). cbn in E. subst c'.
      rewrite (Hm c m (or_introl eq_refl)) in *. rewrite (Hm c n (or_intror Hi)) in Hi. contradiction.
    + apply IH; auto. intros x m' Hx. apply (Hm x). right. exact Hx.
  - intros c m Hc. rewrite Hl by exact Hc. destruct m; cbn [req_matches mode_eqb].
    + split; [intros [_ [=]]|intros [[=] _]].
    + split; [intros [_ [=]]|intros [[=] _]].
    + rewrite Hr by exact Hc. destruct (recursive past c); cbn; intuition congruence.
Qed.
Print Assumptions c23_key_value_recursive.

(** Without sharing, everything is right. *)
Theorem c23_key_value_pins_partial : forall refs_of h,
  Forall (fun o => wf_pop o /\ from_dag refs_of o) h -> direct_apart h -> no_sharing refs_of h ->
  let (db, past) := prun kv_pin_call [] [] h in kv_agrees past db.
Proof.
  intros refs_of h HF Ha [Hn1 Hn2].
  assert (Hs : let r := prun kv_pin_call [] [] h in kfull refs_of (directs h) (map op_cid h) (roots h) (snd r) (fst r)).
  { apply (prun_ind kv_pin_call (kfull refs_of (directs h) (map op_cid h) (roots h)) (kv_alone refs_of (directs h) (map op_cid h) (roots h))).
    - intros past db o Hs Ho.
      assert (A1 : forall root x, In root (roots h) -> In x (refs_of root) -> ~ In x (map op_cid h)).
      { intros root x Hr Hx Hi. apply roots_in in Hr as [r Hr]. apply in_map_iff in Hi as (o' & <- & Ho'). exact (Hn1 root r o' Hr Ho' Hx). }
      assert (A2 : forall a b x, In a (roots h) -> In b (roots h) -> In x (refs_of a) -> In x (refs_of b) -> a = b).
      { intros a b x A B. apply roots_in in A as [ra A]. apply roots_in in B as [rb B]. eapply Hn2; eauto. }
      pose proof (kfull_step refs_of (directs h) (map op_cid h) (roots h) A1 A2 past db o Hs Ho) as H. destruct (kv_accepts db o).
      + destruct H as (db' & -> & H). exact H.
      + rewrite H. exact Hs.
    - rewrite Forall_forall in *. intros o Ho. destruct (HF o Ho) as [A B]. split; [split; [exact A|split; [exact B|]]|split].
      + destruct o as [c|c rr|c|c rr]; cbn [apart]; auto; [apply directs_in; exact Ho|].
        rewrite directs_in. intros Hd. exact (Ha c rr Hd Ho).
      + apply in_map. exact Ho.
      + destruct o as [c|c rr|c|c rr]; auto. apply roots_in. eauto.
    - apply kfull_nil. }
  cbn zeta in Hs. destruct (prun kv_pin_call [] [] h) as [db past]. cbn [fst snd] in Hs.
  assert (Hh : forall c m, wf_cid c -> has db c m = pinned_as past c m) by (intros; eapply has_full; eassumption).
  pose proof Hs as (Hk & _). pose proof Hk as ((_ & H1 & _) & _). split; [|split].
  - intros c Hc. rewrite (kv_mode_exists db past c _ _ Hk Hc), pinned_modes. cbn [existsb]. rewrite !Hh by exact Hc. reflexivity.
  - intros ob req. destruct (list_fst db past ob req _ _ Hk) as (l & El & Hn & Hl). exists l. split; [exact El|]. split; [exact Hn|].
    intros c m Hc. rewrite Hl, Hh by exact Hc. reflexivity.
  - intros ob req ids HI. destruct (kv_query_ok ob _ _ past db req ids Hk HI) as (ans & E & Em & Hq).
    exists ans. split; [exact E|]. split; [|exact Hq]. rewrite Em. clear -HI H1 Hh. induction HI as [|c ids Hc HI IH]; [reflexivity|].
    cbn [filter]. rewrite IH. replace (kv_asked db req c) with (existsb (fun m => pinned_as past c m && req_matches req m) [Indirect; Direct; Recursive]); [reflexivity|].
    unfold kv_asked. apply eq_true_iff_eq. rewrite existsb_exists. split.
    + intros (m & _ & H). apply andb_prop in H as [A B]. rewrite <- Hh in A by exact Hc.
      rewrite (proj2 (one_mode db c H1 Hc m) A). exact B.
    + destruct (kv_mode db c) as [m|] eqn:Em; [|discriminate]. intros B. apply (one_mode db c H1 Hc) in Em. rewrite Hh in Em by exact Hc.
      exists m. split; [destruct m; cbn; auto|]. rewrite Em. exact B.
Qed.
Print Assumptions c23_key_value_pins_partial.

Definition ex_kv : list pop :=
  [PinRec dir1 (of_dag dir1); PinDirect dir2; PinRec dir1 (of_dag dir1); UnpinRec dir1 (of_dag dir1); PinRec dir1 (of_dag dir1); UnpinDirect file_a].
Example c23_example :
  Forall (fun o => wf_pop o /\ from_dag links o) (firstn 5 ex_kv) /\ direct_apart (firstn 5 ex_kv) /\ no_sharing links (firstn 5 ex_kv) /\
  let (db, past) := prun kv_pin_call [] [] ex_kv in
  length past = 5%nat /\ map (pinned past) [dir1; file_a; file_b; dir2] = [true; true; true; true] /\
  kv_query (fun _ _ => None) db [file_a; dir2] None = Some [(file_a, KIndirect dir1); (dir2, KDirect)].
Proof.
  split; [ex_ops|]. split; [|split].
  - intros c r Hc Hu. cbn [firstn ex_kv In] in *.
    destruct Hc as [[=]|[[= <-]|[[=]|[[=]|[[=]|[]]]]]]. destruct Hu as [[=]|[[=]|[[=]|[[= E _]|[[=]|[]]]]]].
  - split.
    + intros root r o Hr Ho. cbn [firstn ex_kv In] in *.
      assert (root = dir1) as -> by (destruct Hr as [[= <- _]|[[=]|[[= <- _]|[[=]|[[= <- _]|[]]]]]]; reflexivity).
      destruct Ho as [<-|[<-|[<-|[<-|[<-|[]]]]]]; vm_compute; intros [[=]|[[=]|[]]].
    + intros a ra b rb x A B _ _. cbn [firstn ex_kv In] in *.
      destruct A as [[= <- _]|[[=]|[[= <- _]|[[=]|[[= <- _]|[]]]]]]; destruct B as [[= <- _]|[[=]|[[= <- _]|[[=]|[[= <- _]|[]]]]]]; reflexivity.
  - vm_compute. repeat split; reflexivity.
Qed.

(** Unpinning one of two roots which share a block forgets the block's indirect pin. *)
Theorem c23_shared_child_refuted : exists h, Forall (fun o => wf_pop o /\ from_dag links o) h /\ direct_apart h /\
  let (db, past) := prun kv_pin_call [] [] h in
  length past = length h /\ refers past dir1 file_b = true /\ kv_is_pinned db dir1 = true /\ kv_is_pinned db file_b = false.
Proof.
  exists [PinRec dir1 (of_dag dir1); PinRec dir2 (of_dag dir2); UnpinRec dir2 (of_dag dir2)].
  split; [ex_ops|]. split; [|vm_compute; repeat split; reflexivity]. intros c r [[=]|[[=]|[[=]|[]]]].
Qed.
Print Assumptions c23_shared_child_refuted.

(** A direct pin replaces an indirect one, and removing it leaves the block unpinned. *)
Theorem c23_direct_over_indirect_refuted : exists h, Forall (fun o => wf_pop o /\ from_dag links o) h /\ direct_apart h /\
  let (db, past) := prun kv_pin_call [] [] h in
  length past = length h /\ refers past dir1 file_a = true /\ kv_is_pinned db dir1 = true /\ kv_is_pinned db file_a = false.
Proof.
  exists [PinRec dir1 (of_dag dir1); PinDirect file_a; UnpinDirect file_a].
  split; [ex_ops|]. split; [|vm_compute; repeat split; reflexivity]. intros c r _ [[=]|[[=]|[[=]|[]]]].
Qed.
Print Assumptions c23_direct_over_indirect_refuted.

(** Removing a pin in the wrong mode answers success and removes nothing. *)
Theorem c23_wrong_mode_refuted :
  (let (db, _) := prun kv_pin_call [] [] [PinRec dir1 (of_dag dir1)] in
   snd (kv_unpin_direct db dir1) = Ok tt /\ kv_is_pinned (fst (kv_unpin_direct db dir1)) dir1 = true) /\
  (let (db, _) := prun kv_pin_call [] [] [PinDirect dir1] in
   snd (kv_unpin_rec db dir1 (of_dag dir1)) = Ok tt /\ kv_is_pinned (fst (kv_unpin_rec db dir1 (of_dag dir1))) dir1 = true).
Proof. vm_compute. repeat split; reflexivity. Qed.
Print Assumptions c23_wrong_mode_refuted.

(** A query for a cid which is not pinned succeeds without mentioning it; the other stores fail. *)
Theorem c23_query_refuted : forall ob, kv_query ob [] [dir1] None = Some [] /\
  fs_query ob [] [dir1] None = None /\ mem_query ob [] [dir1] None = Err ENotPinned.
Proof. intros ob. repeat split. Qed.
Print Assumptions c23_query_refuted.

(** * C24: the memory and filesystem stores agree *)
Definition same (p q : list pop) : Prop := (forall c, recursive p c = recursive q c) /\ (forall c, direct p c = direct q c).
Lemma same_modes p q c m : same p q -> pinned_as p c m = pinned_as q c m.
Proof.
  intros [Hr Hd]. destruct m; cbn [pinned_as]; [|apply Hd|rewrite Hr; reflexivity].
  apply eq_true_iff_eq. rewrite !is_indirect. unfold refers. split; intros [root H]; exists root; [rewrite <- Hr|rewrite Hr]; exact H.
Qed.
Lemma same_cons p q o : same p q -> same (o :: p) (o :: q).
Proof.
  intros [Hr Hd]. split; intros c; destruct o as [x|x r|x|x r]; cbn [recursive direct]; rewrite ?Hr, ?Hd; reflexivity.
Qed.

Section Both.
  Variable refs_of : cid -> list cid.
  Hypothesis refs_nodup : forall c, NoDup (refs_of c).
  Variable all : list pop.
  Hypothesis all_ok : Forall (fun o => wf_pop o /\ from_dag refs_of o) all.
  Hypothesis versions : one_version all.
  Hypothesis apart_all : direct_apart all.

  Lemma versions' : forall a b, In a (roots all) -> In b (roots all) -> to_v1 a = to_v1 b -> a = b.
  Proof. intros a b Ha Hb. apply roots_in in Ha as [ra Ha]. apply roots_in in Hb as [rb Hb]. eapply versions; eauto. Qed.

  Definition both (pm : list pop) (g : pins) (pf : list pop) (f : fs) : Prop :=
    rep refs_of (roots all) pm g /\ frep pf f /\ same pm pf /\ (forall c, direct pm c = true -> In (PinDirect c) all).

  Lemma both_step pm g pf f o : both pm g pf f -> In o all ->
    let (g', rm) := mem_pin_call g o in let (f', rf) := fs_pin_call f o in
    both (match rm with Ok _ => o :: pm | _ => pm end) g' (match rf with Ok _ => o :: pf | _ => pf end) f' /\
    ((rm = Ok tt <-> rf = Ok tt) \/ exists c r, o = PinRec c r /\ recursive pf c <> None).
  Proof.
    intros (Hm & Hf & Hs & Hd) Ho. rewrite Forall_forall in all_ok. destruct (all_ok o Ho) as [Hw Hdag].
    assert (Hc : call_ok refs_of (roots all) o).
    { split; [exact Hw|]. split; [exact Hdag|]. destruct o as [c|c r|c|c r]; auto. apply roots_in. eauto. }
    pose proof (call_ok_result refs_of refs_nodup (roots all) versions' pm g o Hm Hc) as HM. unfold result in HM.
    pose proof (call_rep pf f o Hf Hw) as HF.
    assert (Hd' : mem_accepts pm o = true -> forall c, direct (o :: pm) c = true -> In (PinDirect c) all).
    { intros _ c. destruct o as [x|x r|x|x r]; cbn [direct]; destruct (cid_eqb_spec c x) as [E|]; auto; try discriminate.
      intros _. rewrite E. exact Ho. }
    assert (Hcase : mem_accepts pm o = fs_accepts pf o \/
              (mem_accepts pm o = false /\ fs_accepts pf o = true /\ exists c r, o = PinRec c r /\ recursive pf c <> None)).
    { destruct Hs as [Hsr Hsd]. destruct o as [c|c r|c|c r]; cbn [mem_accepts fs_accepts].
      - left. rewrite Hsr. reflexivity.
      - destruct Hdag as [_ Hb]. rewrite Hb, Hsr. destruct (recursive pf c) eqn:E; [right|left; reflexivity].
        split; [reflexivity|]. split; [reflexivity|]. exists c, r. split; [reflexivity|congruence].
      - left. apply Hsd.
      - left. rewrite Hsr, <- Hsd. destruct (is_some (recursive pf c)); [reflexivity|]. cbn [orb].
        destruct (direct pm c) eqn:E; [|reflexivity]. exfalso. exact (apart_all c r (Hd c E) Ho). }
    destruct Hcase as [E|(E1 & E2 & c & r & -> & Hrec)].
    - rewrite <- E in HF. destruct (mem_accepts pm o) eqn:Ea.
      + destruct HM as (g' & -> & Hm'). destruct HF as (f' & -> & Hf' & _). split; [|left; tauto].
        split; [exact Hm'|]. split; [exact Hf'|]. split; [apply same_cons; exact Hs|apply Hd'; reflexivity].
      + destruct HM as (e & ->). rewrite HF. split; [|left; split; discriminate]. split; [exact Hm|]. split; [exact Hf|]. split; assumption.
    - rewrite E1 in HM. rewrite E2 in HF. destruct HM as (e & ->). destruct HF as (f' & -> & Hf' & _). split; [|right; eauto].
      split; [exact Hm|]. split; [exact Hf'|]. split; [|exact Hd].
      destruct Hs as [Hsr Hsd]. destruct Hdag as [Hi _]. split; intros x; cbn [recursive direct].
      + destruct (cid_eqb_spec x c) as [->|]; [|apply Hsr].
        destruct Hm as (_ & _ & Hfix). destruct (recursive pf c) as [rs|] eqn:Er; [|contradiction].
        rewrite Hsr, Er, Hi. f_equal. apply Hfix. rewrite Hsr. exact Er.
      + destruct (cid_eqb_spec x c) as [->|]; [|apply Hsd]. rewrite Hsd. apply Hf. exact Hrec.
  Qed.

  Lemma both_run h : incl h all -> forall pm g pf f, both pm g pf f ->
    let a := prun mem_pin_call g pm h in let b := prun fs_pin_call f pf h in both (snd a) (fst a) (snd b) (fst b).
  Proof.
    induction h as [|o h IH]; intros Hi pm g pf f Hb; [exact Hb|]. cbn [prun].
    pose proof (both_step pm g pf f o Hb (Hi o (or_introl eq_refl))) as H.
    destruct (mem_pin_call g o) as [g' rm]. destruct (fs_pin_call f o) as [f' rf]. destruct H as [H _].
    apply IH; [intros x Hx; apply Hi; right; exact Hx|exact H].
  Qed.
End Both.

(** After the same calls both stores give the same [is_pinned] answers, and the next call succeeds on
    both or on none, except pinning recursively what is pinned recursively already. *)
Theorem c24_stores_agree_partial : forall refs_of h o,
  (forall c, NoDup (refs_of c)) -> Forall (fun o => wf_pop o /\ from_dag refs_of o) (o :: h) ->
  one_version (o :: h) -> direct_apart (o :: h) ->
  let g := fst (prun mem_pin_call [] [] h) in let f := fst (prun fs_pin_call [] [] h) in
  (forall ob c, wf_cid c -> fs_is_pinned ob f c = Some (mem_is_pinned g c)) /\
  ((snd (mem_pin_call g o) = Ok tt <-> snd (fs_pin_call f o) = Ok tt) \/
   exists c r, o = PinRec c r /\ In (Some (c, Recursive)) (mem_pin_list g None)).
Proof.
  intros refs_of h o Hn HF Hv Ha g f.
  assert (H0 : both refs_of (o :: h) [] [] [] []).
  { split; [apply rep_nil|]. split; [apply frep_nil|]. split; [split; reflexivity|]. discriminate. }
  pose proof (both_run refs_of Hn (o :: h) HF Hv Ha h (fun x Hx => or_intror Hx) [] [] [] [] H0) as Hb. cbn zeta in Hb.
  fold g f in Hb. set (pm := snd (prun mem_pin_call [] [] h)) in *. set (pf := snd (prun fs_pin_call [] [] h)) in *.
  pose proof Hb as ((Hm & _) & Hf & Hs & _). split.
  - intros ob c Hc. rewrite (is_pinned_ok ob pf f Hf c Hc). change (mem_is_pinned g c) with (is_some (pget c g)).
    rewrite (present_spec pm g c Hm Hc), !pinned_modes. cbn [existsb]. rewrite !(same_modes pm pf c _ Hs). reflexivity.
  - pose proof (both_step refs_of Hn (o :: h) HF Hv Ha pm g pf f o Hb (or_introl eq_refl)) as H.
    destruct (mem_pin_call g o) as [g' rm]. destruct (fs_pin_call f o) as [f' rf]. destruct H as [_ [H|(c & r & -> & Hr)]]; [left; exact H|].
    right. exists c, r. split; [reflexivity|]. destruct (mem_list_ok pm g None Hm) as (l & -> & _ & Hl).
    apply in_map, Hl; [inversion HF as [|? ? [[Hc _] _] _]; exact Hc|]. split; [|reflexivity].
    unfold shown. cbn [find pinned_as mem_order]. rewrite (proj1 Hs). destruct (recursive pf c); [reflexivity|contradiction].
Qed.
Print Assumptions c24_stores_agree_partial.

Example c24_example : let h := ex_pins in let o := UnpinDirect file_a in
  (forall c, NoDup (links c)) /\ Forall (fun o => wf_pop o /\ from_dag links o) (o :: [PinRec dir1 (of_dag dir1); PinDirect file_a; UnpinRec dir1 (of_dag dir1)]) /\
  direct_apart (o :: [PinRec dir1 (of_dag dir1); PinDirect file_a; UnpinRec dir1 (of_dag dir1)]) /\
  map (mem_is_pinned (fst (prun mem_pin_call [] [] h))) [dir1; file_a; file_b; dir2] = [false; true; true; true] /\
  map (fs_is_pinned (fun _ _ => None) (fst (prun fs_pin_call [] [] h))) [dir1; file_a; file_b; dir2] = map Some [false; true; true; true].
Proof.
  cbn zeta. split; [exact links_nodup|]. split; [ex_ops|]. split; [|vm_compute; split; reflexivity].
  intros c r [[=]|[[=]|[[= <-]|[[=]|[]]]]] [[=]|[[=]|[[=]|[[=]|[]]]]].
Qed.

(** The two differences: pinning recursively again, and recursively unpinning a direct pin which is
    also below a root. *)
Theorem c24_repin_refuted :
  let h := [PinRec dir1 (of_dag dir1)] in let o := PinRec dir1 (of_dag dir1) in
  snd (mem_pin_call (fst (prun mem_pin_call [] [] h)) o) = Err EAlreadyRecursive /\
  snd (fs_pin_call (fst (prun fs_pin_call [] [] h)) o) = Ok tt.
Proof. vm_compute. split; reflexivity. Qed.
Print Assumptions c24_repin_refuted.

Theorem c24_unpin_refuted :
  let h := [PinRec dir1 (of_dag dir1); PinDirect file_a] in let o := UnpinRec file_a (of_dag file_a) in
  snd (mem_pin_call (fst (prun mem_pin_call [] [] h)) o) = Err EPinnedIndirectly /\
  snd (fs_pin_call (fst (prun fs_pin_call [] [] h)) o) = Ok tt.
Proof. vm_compute. split; reflexivity. Qed.
Print Assumptions c24_unpin_refuted.

(** * C25: failures *)

(** On disk: a call which fails, for whatever reason the store itself finds, leaves the files as they
    were; one which fails to write leaves all answers as they were. *)
Theorem c25_filesystem : forall h o, Forall wf_pop (o :: h) ->
  let (f, past) := prun fs_pin_call [] [] h in
  (forall e f', fs_pin_call f o = (f', Err e) -> f' = f) /\
  (forall c r, o = PinRec c r -> forall n b, exists f', fs_pin_rec_fail f c r n b = (f', Err tt) /\ fs_agrees true past f /\ fs_agrees true past f').
Proof.
  intros h o HF. inversion HF as [|? ? Ho Hh]; subst. pose proof (fs_history h Hh) as [Hr Hu].
  destruct (prun fs_pin_call [] [] h) as [f past]. cbn [fst snd] in *. split.
  - intros e f' E. pose proof (call_rep past f o Hr Ho) as H. destruct (fs_accepts past o).
    + destruct H as (f'' & E' & _). congruence.
    + congruence.
  - intros c r -> n b. destruct Ho as [Hc _]. destruct (rec_fail_rep past f c r n b Hr Hc) as (f' & E & Hr' & Hu').
    exists f'. split; [exact E|]. split; apply frep_agrees; auto.
Qed.
Print Assumptions c25_filesystem.

(** The key-value store commits a transaction or nothing. *)
Theorem c25_key_value : forall db o e db', kv_pin_call db o = (db', Err e) -> db' = db.
Proof.
  intros db o e db'. destruct o as [c|c r|c|c r]; cbn [kv_pin_call]; unfold kv_pin_direct, kv_pin_rec, kv_unpin_direct, kv_unpin_rec.
  - destruct (kv_mode db c) as [[| |]|]; congruence.
  - destruct (broken r); [congruence|]. destruct (kv_mode db c) as [[| |]|]; congruence.
  - destruct (not_target db c); congruence.
  - destruct (broken r); [congruence|]. destruct (not_target db c); congruence.
Qed.
Print Assumptions c25_key_value.

(** In memory: as long as reading the references does not fail. *)
Theorem c25_memory_partial : forall refs_of h o,
  (forall c, NoDup (refs_of c)) -> Forall (fun o => wf_pop o /\ from_dag refs_of o) (o :: h) -> one_version (o :: h) ->
  let g := fst (prun mem_pin_call [] [] h) in
  forall e g', mem_pin_call g o = (g', Err e) -> g' = g.
Proof.
  intros refs_of h o Hn HF Hv g e g' E.
  assert (Hv' := versions' (o :: h) Hv).
  assert (Hrep : let r := prun mem_pin_call [] [] h in rep refs_of (roots (o :: h)) (snd r) (fst r)).
  { apply history_rep; [exact Hn|exact Hv'|]. rewrite Forall_forall in *. intros x Hx. destruct (HF x (or_intror Hx)) as [A B].
    split; [exact A|]. split; [exact B|]. destruct x as [c|c rr|c|c rr]; auto. apply roots_in. exists rr. right. exact Hx. }
  cbn zeta in Hrep. fold g in Hrep. inversion HF as [|? ? [A B] _]; subst.
  assert (Ho : call_ok refs_of (roots (o :: h)) o) by (split; [exact A|]; split; [exact B|]; destruct o; auto; left; reflexivity).
  pose proof (call_ok_result refs_of Hn _ Hv' _ g o Hrep Ho) as H. unfold result in H.
  destruct (mem_accepts _ o); [destruct H as (g'' & E' & _)|destruct H as (e' & E')]; congruence.
Qed.
Print Assumptions c25_memory_partial.

(** Whatever fails, a call which pins never unpins anything. *)
Lemma insert_keeps g c k x : mem_is_pinned g x = true -> mem_is_pinned (fst (insert_pin g c k)) x = true.
Proof.
  intros H. assert (K : forall d, mem_is_pinned (mset beq (cid_to_bytes c) d g) x = true).
  { intros d. unfold mem_is_pinned, pget in *. rewrite mget_mset by exact beq_spec.
    destruct (beq (cid_to_bytes x) (cid_to_bytes c)); [reflexivity|exact H]. }
  unfold insert_pin. destruct (pget c g) as [d|].
  - destruct (update d true k) as [[d' []]|e|]; cbn [fst]; auto.
  - destruct (update new_doc true k) as [[d' b]|e|]; cbn [fst]; auto.
Qed.
Theorem c25_memory_pin_keeps : forall g o, match o with PinDirect _ | PinRec _ _ => True | _ => False end ->
  forall x, mem_is_pinned g x = true -> mem_is_pinned (fst (mem_pin_call g o)) x = true.
Proof.
  intros g o Ho x Hx. destruct o as [c|c r|c|c r]; try contradiction; cbn [mem_pin_call].
  - unfold mem_pin_direct. pose proof (insert_keeps g c KDirect x Hx). destruct (insert_pin g c KDirect). exact H.
  - unfold mem_pin_rec. pose proof (insert_keeps g c KIntent x Hx) as H. destruct (insert_pin g c KIntent) as [g1 [u|e|]]; cbn [fst] in *; auto.
    assert (K : forall l b g, mem_is_pinned g x = true ->
              mem_is_pinned (fst (each (fun g x => insert_pin g x (KIndirect (to_v1 c))) g l b)) x = true).
    { induction l as [|y l IH]; intros b g' Hg'; cbn [each]; [exact Hg'|].
      pose proof (insert_keeps g' y (KIndirect (to_v1 c)) x Hg') as H'. destruct (insert_pin g' y _) as [g2 [v|e|]]; cbn [fst] in *; auto. }
    specialize (K (items r) (broken r) g1 H). destruct (each _ g1 _ _) as [g2 [v|e|]]; cbn [fst] in *; auto.
    pose proof (insert_keeps g2 c (KRecursive (blen (items r))) x K) as H'. destruct (insert_pin g2 c _). exact H'.
Qed.
Print Assumptions c25_memory_pin_keeps.

Example c25_example :
  let g := fst (prun mem_pin_call [] [] ex_pins) in
  mem_pin_call g (PinRec dir2 (of_dag dir2)) = (g, Err EAlreadyRecursive) /\
  (let f := fst (prun fs_pin_call [] [] ex_pins) in fs_pin_call f (PinDirect dir2) = (f, Err tt)) /\
  mem_is_pinned g file_b = true.
Proof. vm_compute. repeat split; reflexivity. Qed.

(** A stream which fails half way leaves pins behind (pinning) or pins lost (unpinning). *)
Theorem c25_memory_stream_refuted :
  (let bad := mk_refs [file_a] true in
   snd (mem_pin_call [] (PinRec dir1 bad)) = Err EStream /\
   map (mem_is_pinned (fst (mem_pin_call [] (PinRec dir1 bad)))) [dir1; file_a] = [true; true]) /\
  (let g := fst (prun mem_pin_call [] [] [PinRec dir1 (of_dag dir1)]) in let bad := mk_refs [file_a] true in
   snd (mem_pin_call g (UnpinRec dir1 bad)) = Err EStream /\
   map (mem_is_pinned g) [dir1; file_a; file_b] = [true; true; true] /\
   map (mem_is_pinned (fst (mem_pin_call g (UnpinRec dir1 bad)))) [dir1; file_a; file_b] = [false; false; true]).
Proof. vm_compute. repeat split; reflexivity. Qed.
Print Assumptions c25_memory_stream_refuted.

(** * C19: pinned blocks are not removed *)

(** The stored block after the block calls that succeeded; the memory store tells blocks apart by
    multihash, the disk by the version 1 form of the cid. *)
Definition stored_mem (bs : list bop) (c : cid) : option block := stored cid_hash mh_eqb bs (cid_hash c).
Definition stored_fs (bs : list bop) (c : cid) : option block := stored to_v1 cid_eqb bs (to_v1 c).
(** The pin calls of a history. *)
Definition pin_ops (h : list rop) : list pop := flat_map (fun o => match o with RepoPin p => [p] | _ => [] end) h.
Definition rop_wf (o : rop) : Prop :=
  match o with RepoPut b => wf_cid (b_cid b) | RepoRemove c => wf_cid c | RepoPin o => wf_pop o end.

Lemma pin_ops_in h o : In o (pin_ops h) <-> In (RepoPin o) h.
Proof.
  unfold pin_ops. rewrite in_flat_map. split.
  - intros (x & Hx & Hi). destruct x; cbn in Hi; try contradiction. destruct Hi as [->|[]]. exact Hx.
  - intros H. exists (RepoPin o). split; [exact H|left; reflexivity].
Qed.

Definition blocks_are (m : mem_store) (bs : list bop) : Prop :=
  forall k, mget mh_eqb k (map (fun kv => (cid_hash (fst kv), snd kv)) m) = mh_stored bs k.
Lemma mem_get_stored m bs c : blocks_are m bs -> mget repo_cid_eqb c m = stored_mem bs c.
Proof. intros H. rewrite mget_hash. apply H. Qed.

Section MemRepo.
  Variable refs_of : cid -> list cid.
  Hypothesis refs_nodup : forall c, NoDup (refs_of c).
  Variable all : list pop.
  Hypothesis all_ok : Forall (fun o => wf_pop o /\ from_dag refs_of o) all.
  Hypothesis versions : one_version all.

  Lemma mem_repo_inv h : Forall rop_wf h -> incl (pin_ops h) all -> forall s bs ps,
    blocks_are (fst s) bs -> rep refs_of (roots all) ps (snd s) ->
    let '(s', bs', ps') := mem_repo_run s bs ps h in blocks_are (fst s') bs' /\ rep refs_of (roots all) ps' (snd s').
  Proof.
    induction 1 as [|o h Ho HF IH]; intros Hi s bs ps Hb Hp; [cbn; auto|]. cbn [mem_repo_run repo_run].
    destruct o as [b|c|o].
    - unfold m_put. apply IH; [exact Hi| |exact Hp]. cbn [fst]. intros k. apply (mem_step_stored (fst s) (Put b) bs k). exact Hb.
    - unfold remove_block. destruct (mem_is_pinned (snd s) c); [apply IH; assumption|].
      pose proof (fun k => mem_step_stored (fst s) (Remove c) bs k Hb) as Hst. cbn [mem_step] in Hst.
      unfold m_remove. unfold mem_remove in *. destruct (mget repo_cid_eqb c (fst s)) eqn:E.
      + apply IH; [exact Hi| |exact Hp]. cbn [fst] in *. exact Hst.
      + apply IH; [exact Hi| |exact Hp]. exact Hb.
    - assert (Hia : In o all) by (apply Hi, pin_ops_in; left; reflexivity).
      rewrite Forall_forall in all_ok. destruct (all_ok o Hia) as [A B].
      assert (Hc : call_ok refs_of (roots all) o).
      { split; [exact A|]. split; [exact B|]. destruct o as [c|c rr|c|c rr]; auto. apply roots_in. eauto. }
      pose proof (call_ok_result refs_of refs_nodup (roots all) (versions' all versions) ps (snd s) o Hp Hc) as HM. unfold result in HM.
      assert (Hi' : incl (pin_ops h) all) by (intros x Hx; apply Hi; right; exact Hx).
      destruct (mem_accepts ps o).
      + destruct HM as (g' & -> & Hp'). apply IH; auto.
      + destruct HM as (e & ->). apply IH; auto. 
  Qed.
End MemRepo.

(** In memory: [remove_block] fails and changes nothing when the cid is pinned or the block is not
    there; otherwise exactly that block goes. *)
Theorem c19_memory_partial : forall refs_of h c,
  (forall c, NoDup (refs_of c)) -> Forall rop_wf h -> Forall (from_dag refs_of) (pin_ops h) -> one_version (pin_ops h) -> wf_cid c ->
  let '(s, bs, ps) := mem_repo_run ([], []) [] [] h in
  match mem_remove_block s c with
  | (s', Ok c') =>
      c' = c /\ pinned ps c = false /\ stored_mem bs c <> None /\ snd s' = snd s /\
      forall x, mem_get x (fst s') = if mh_eqb (cid_hash x) (cid_hash c) then RGet None else mem_get x (fst s)
  | (s', Err _) => s' = s /\ (pinned ps c = true \/ stored_mem bs c = None)
  | (_, Panic) => False
  end.
Proof.
  intros refs_of h c Hn Hw Hd Hv Hc.
  assert (Hall : Forall (fun o => wf_pop o /\ from_dag refs_of o) (pin_ops h)).
  { rewrite Forall_forall in *. intros o Ho. split; [|auto]. apply pin_ops_in in Ho. exact (Hw _ Ho). }
  pose proof (mem_repo_inv refs_of Hn (pin_ops h) Hall Hv h Hw (incl_refl _) ([], []) [] []
    (fun k => eq_refl) (rep_nil refs_of (roots (pin_ops h)))) as H.
  destruct (mem_repo_run ([], []) [] [] h) as [[s bs] ps]. destruct H as [Hb [Hm _]].
  unfold mem_remove_block, remove_block.
  pose proof (present_spec ps (snd s) c Hm Hc) as Hp. change (is_some (pget c (snd s))) with (mem_is_pinned (snd s) c) in Hp. rewrite Hp.
  destruct (pinned ps c) eqn:Ep; [split; [reflexivity|left; reflexivity]|].
  unfold m_remove, mem_remove. pose proof (mem_get_stored (fst s) bs c Hb) as Hg. destruct (mget repo_cid_eqb c (fst s)) eqn:E.
  - repeat split; try congruence. intros x. unfold mem_get. cbn [fst].
    rewrite !mget_hash, mdel_hash, mget_mdel by exact mh_eqb_spec. destruct (mh_eqb (cid_hash x) (cid_hash c)); reflexivity.
  - split; [destruct s; reflexivity|right; congruence].
Qed.
Print Assumptions c19_memory_partial.

Lemma content_stored bs k : content (map Call bs) k = option_map b_data (stored to_v1 cid_eqb bs k).
Proof.
  induction bs as [|o bs IH]; [reflexivity|]. destruct o as [b|c|c|c|]; cbn [map content stored]; auto.
  - rewrite IH. destruct (stored to_v1 cid_eqb bs k); cbn [option_map]; [reflexivity|]. destruct (cid_eqb (to_v1 (b_cid b)) k); reflexivity.
  - destruct (cid_eqb (to_v1 c) k); [reflexivity|exact IH].
Qed.

Lemma fs_repo_inv ob h : Forall rop_wf h -> forall s bs ps,
  fs_ok (fst s) (map Call bs) -> frep ps (snd s) ->
  let '(s', bs', ps') := fs_repo_run ob s bs ps h in fs_ok (fst s') (map Call bs') /\ frep ps' (snd s').
Proof.
  induction 1 as [|o h Ho HF IH]; intros s bs ps Hb Hp; [cbn; auto|]. cbn [fs_repo_run repo_run].
  destruct o as [b|c|o].
  - cbn in Ho. pose proof (event_ok ob (fst s) (map Call bs) (Call (Put b)) Ho Hb) as He. cbn [fs_event fs_call] in He.
    unfold f_put, fs_put in *. rewrite block_path_ok in * by exact Ho. destruct (fs_get (block_file (b_cid b)) (fst s)); apply IH; auto.
  - cbn in Ho. unfold remove_block. rewrite (is_pinned_ok ob ps (snd s) Hp c Ho). destruct (pinned ps c); [apply IH; assumption|].
    pose proof (event_ok ob (fst s) (map Call bs) (Call (Remove c)) Ho Hb) as He. cbn [fs_event fs_call] in He.
    unfold f_remove, fs_remove in *. rewrite block_path_ok in * by exact Ho.
    destruct (fs_get (block_file c) (fst s)); apply IH; auto.
  - cbn in Ho. pose proof (call_rep ps (snd s) o Hp Ho) as H. destruct (fs_accepts ps o).
    + destruct H as (f' & -> & H & _). apply IH; auto.
    + rewrite H. apply IH; auto. 
Qed.

(** On disk, for any history. *)
Theorem c19_filesystem : forall ob h c, Forall rop_wf h -> wf_cid c ->
  let '(s, bs, ps) := fs_repo_run ob ([], []) [] [] h in
  match fs_remove_block ob s c with
  | (s', Ok c') =>
      c' = c /\ pinned ps c = false /\ stored_fs bs c <> None /\ snd s' = snd s /\
      forall x, wf_cid x -> fs_get_block x (fst s') = if cid_eqb (to_v1 c) (to_v1 x) then Answer (RGet None) else fs_get_block x (fst s)
  | (s', Err _) => s' = s /\ (pinned ps c = true \/ stored_fs bs c = None)
  | (_, Panic) => False
  end.
Proof.
  intros ob h c Hw Hc.
  assert (H0 : fs_ok [] (map Call [])) by (split; [split; [constructor|intros p []]|reflexivity]).
  pose proof (fs_repo_inv ob h Hw ([], []) [] [] H0 (proj1 frep_nil)) as H.
  destruct (fs_repo_run ob ([], []) [] [] h) as [[s bs] ps]. destruct H as [[_ Hb] Hm].
  unfold fs_remove_block, remove_block. rewrite (is_pinned_ok ob ps (snd s) Hm c Hc).
  destruct (pinned ps c) eqn:Ep; [split; [reflexivity|left; reflexivity]|].
  unfold f_remove, fs_remove. rewrite block_path_ok by exact Hc. pose proof (Hb c Hc) as Hg. rewrite content_stored in Hg.
  fold (stored_fs bs c) in Hg. destruct (fs_get (block_file c) (fst s)) eqn:E.
  - repeat split; try (destruct (stored_fs bs c); cbn in Hg; congruence).
    intros x Hx. unfold fs_get_block. rewrite block_path_ok by exact Hx. cbn [fst]. rewrite remove_view by assumption.
    destruct (cid_eqb (to_v1 c) (to_v1 x)); reflexivity.
  - split; [destruct s; reflexivity|right]. destruct (stored_fs bs c); [discriminate|reflexivity].
Qed.
Print Assumptions c19_filesystem.

Definition ex_repo : list rop :=
  [RepoPut (mk_block dir1 [1; 2]); RepoPut (mk_block file_a [3]); RepoPin (PinRec dir1 (of_dag dir1)); RepoRemove file_a; RepoRemove file_b;
   RepoPut (mk_block dir2 [4])].
Example c19_example :
  Forall rop_wf ex_repo /\ Forall (from_dag links) (pin_ops ex_repo) /\ one_version (pin_ops ex_repo) /\
  let '(s, bs, ps) := mem_repo_run ([], []) [] [] ex_repo in
  snd (mem_remove_block s file_a) = Err tt /\ snd (mem_remove_block s dir2) = Ok dir2 /\ snd (mem_remove_block s file_b) = Err tt.
Proof.
  split; [repeat (constructor; [first [apply ex_wf|split; [apply ex_wf|apply links_wf]]|]); constructor|].
  split; [repeat (constructor; [cbn; auto|]); constructor|]. split; [|vm_compute; repeat split; reflexivity].
  intros a r b r' [[= <- _]|[]] [[= <- _]|[]] _. reflexivity.
Qed.

(** The pins are by cid and the blocks by hash: a pinned block can be removed under another cid of
    the same block. *)
Theorem c19_alias_refuted :
  (let '(s, bs, ps) := mem_repo_run ([], []) [] [] [RepoPut (mk_block dir1 [1; 2]); RepoPin (PinDirect dir1)] in
   pinned ps dir1 = true /\ mem_get dir1 (fst s) = RGet (Some (mk_block dir1 [1; 2])) /\
   snd (mem_remove_block s dir1_v1) = Ok dir1_v1 /\
   let s' := fst (mem_remove_block s dir1_v1) in mem_get dir1 (fst s') = RGet None /\ mem_is_pinned (snd s') dir1 = true) /\
  (forall ob, let '(s, bs, ps) := fs_repo_run ob ([], []) [] [] [RepoPut (mk_block dir1 [1; 2]); RepoPin (PinDirect dir1)] in
   pinned ps dir1 = true /\ fs_get_block dir1 (fst s) = Answer (RGet (Some (mk_block dir1 [1; 2]))) /\
   snd (fs_remove_block ob s dir1_v1) = Ok dir1_v1 /\
   let s' := fst (fs_remove_block ob s dir1_v1) in fs_get_block dir1 (fst s') = Answer (RGet None) /\ fs_is_pinned ob (snd s') dir1 = Some true).
Proof. split; [vm_compute; repeat split; reflexivity|]. intros ob. vm_compute. repeat split; reflexivity. Qed.
Print Assumptions c19_alias_refuted.

(** With no pin calls in between, the interleaved removal is [remove_block]; with one, a pin call that
    succeeds before the removal does can end with its block missing. *)
Theorem c19_race_refuted :
  (forall s c, mem_remove_during s c [] = mem_remove_block s c) /\
  let '(s, bs, ps) := mem_repo_run ([], []) [] [] [RepoPut (mk_block dir1 [1; 2])] in
  snd (mem_pin_call (snd s) (PinDirect dir1)) = Ok tt /\
  snd (mem_remove_during s dir1 [PinDirect dir1]) = Ok dir1 /\
  let s' := fst (mem_remove_during s dir1 [PinDirect dir1]) in mem_is_pinned (snd s') dir1 = true /\ mem_get dir1 (fst s') = RGet None.
Proof. split; [reflexivity|]. vm_compute. repeat split; reflexivity. Qed.
Print Assumptions c19_race_refuted.
