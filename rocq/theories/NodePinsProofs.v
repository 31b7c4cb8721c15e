(** Proofs about [NodePins]. *)
From Verif Require Import Base Wire Cid CidProofs Ipld FMap BlockSpec FsPaths FsPathsProofs FsBlocks FsBlocksProofs PinSpec FsPins FsPinsProofs FsPinsReads PinnedRepo PropsPinsMore NodePins NodePinsSpec.
From Verif Require Refs RefsSpec RefsProofs RefsUnique PropsRefs.

(** * Walks *)
Lemma edges_in es : forall l b d, edges es = (l, b) -> In d l -> exists s nm, In (Refs.Edge s d nm) es.
Proof.
  induction es as [|e es IH]; intros l b d; cbn [edges]; [intros [= <- <-] []|]. destruct e; try (intros [= <- <-] []).
  destruct (edges es) as [l' b'] eqn:E. intros [= <- <-] [<-|Hd]; [eexists; eexists; left; reflexivity|].
  destruct (IH _ _ _ eq_refl Hd) as (s & nm & H). exists s, nm. right. exact H.
Qed.
Lemma edges_all es : forall l, edges es = (l, false) -> forall e, In e es -> exists s d nm, e = Refs.Edge s d nm /\ In d l.
Proof.
  induction es as [|x es IH]; intros l; cbn [edges]; [intros _ e []|]. destruct x; try discriminate. destruct (edges es) as [l' b']. intros [= <- ->] e [<-|He].
  - do 3 eexists. split; [reflexivity|left; reflexivity].
  - destruct (IH _ eq_refl e He) as (s & d & nm & -> & H). do 3 eexists. split; [reflexivity|right; exact H].
Qed.

Section Walk.
  Context {B : Type}.
  Variable get : B -> cid -> option bytes.
  Variable decode : cid -> bytes -> outcome ipld unit.
  Variable checks : bool.
  Variable fuel : nat.
  Variable b : B.
  Notation doc := (stored_doc (get b) decode).
  Lemma document_doc d v : RefsSpec.document (fetch get b) decode d v <-> doc d v.
  Proof. unfold RefsSpec.document, stored_doc, fetch. split; intros (x & H1 & H2); exists x; destruct (get b d); split; congruence. Qed.

  Variable c : cid.
  Variable v : ipld.
  Notation link_at := (RefsSpec.link_at (fetch get b) decode [(c, v)]).
  Lemma references_from dl r d : references get decode checks fuel b c v dl = Some (Ok r) -> In d (items r) ->
    (exists w, doc d w) /\ exists n s nm, link_at n s nm d.
  Proof.
    unfold references, stream_of. set (x := Refs.refs _ _ _ _ _ _). destruct (edges (fst x)) as [l br] eqn:E. intros H Hd.
    assert (Hi : In d l) by (destruct br; [injection H as <-; exact Hd|]; destruct (snd x) as [[| |]|]; try discriminate; injection H as <-; exact Hd).
    destruct (edges_in _ _ _ _ E Hi) as (s & nm & Hin).
    destruct (PropsRefs.c32_unique_nearest checks (fetch get b) decode [(c, v)] (Refs.mk_opts None true dl) fuel s d nm eq_refl Logic.I Hin) as (n & _ & Hl & (w & Hw) & _).
    split; [exists w; apply document_doc; exact Hw|eauto].
  Qed.
  Lemma references_all l : references get decode checks fuel b c v true = Some (Ok (mk_refs l false)) ->
    forall n s nm d, link_at n s nm d -> In d l.
  Proof.
    unfold references, stream_of. set (x := Refs.refs _ _ _ _ _ _). destruct (edges (fst x)) as [l0 br] eqn:E. destruct br; [discriminate|].
    destruct (snd x) as [[| |]|] eqn:Es; try discriminate. intros [= <-] n s nm d Hl.
    pose proof (PropsRefs.c32_unique_complete checks (fetch get b) decode [(c, v)] (Refs.mk_opts None true true) fuel (fst x) n s nm d eq_refl Logic.I) as H.
    rewrite <- Es in H. specialize (H ltac:(apply surjective_pairing) (or_introl eq_refl) Hl Logic.I). unfold fetch in H.
    destruct (get b d) as [y|]; [|destruct H; discriminate]. destruct (decode d y) as [w|u|].
    - destruct H as (s' & nm' & H). destruct (edges_all _ _ E _ H) as (? & ? & ? & [= -> -> ->] & Hin). exact Hin.
    - destruct (edges_all _ _ E _ H) as (? & ? & ? & [=] & _).
    - destruct (edges_all _ _ E _ H) as (? & ? & ? & [=] & _).
  Qed.
  Lemma references_closed l : doc c v -> references get decode checks fuel b c v true = Some (Ok (mk_refs l false)) ->
    forall d w name e, d = c \/ In d l -> doc d w -> RefsSpec.has_link d w name e -> In e l.
  Proof.
    intros Hc H d w name e [->|Hd] Hw Hl.
    - assert (w = v) as -> by (destruct Hc as (x & H1 & H2), Hw as (y & H3 & H4); congruence).
      apply (references_all l H 0 c name e). constructor 1 with v; [left; reflexivity|exact Hl].
    - destruct (references_from true _ d H Hd) as [_ (n & s & nm & Hn)].
      apply (references_all l H (S n) d name e). econstructor 2; [exact Hn|apply document_doc; exact Hw|exact Hl].
  Qed.
  (** The walk over a dag with nothing missing ends well. *)
  Lemma link_under n s nm d : doc c v -> link_at n s nm d -> under (get b) decode c d.
  Proof.
    intros Hv. induction 1 as [c' v' name d [[= <- <-]|[]] Hl|n s nm c' v' name d _ IH Hd Hl].
    - econstructor 2; [apply under_root|exact Hv|exact Hl].
    - econstructor 2; [exact IH|apply document_doc; exact Hd|exact Hl].
  Qed.
  Lemma references_ok dl universe : doc c v -> complete (get b) decode c ->
    (forall d w, under (get b) decode c d -> doc d w -> exists ls, Refs.ipld_links d w = Ok ls) ->
    (forall d, under (get b) decode c d -> In d universe) -> (length universe < fuel)%nat ->
    exists l, references get decode checks fuel b c v dl = Some (Ok (mk_refs l false)).
  Proof.
    intros Hv Hc Hl Hu Hf. unfold references. set (o := Refs.mk_opts None true dl).
    destruct (PropsRefs.refs_unique checks (fetch get b) decode [(c, v)] o fuel eq_refl Logic.I ltac:(discriminate)) as [[(c' & v' & [[= <- <-]|[]] & Hp) _]|(done & work & seen & es & e & -> & Hi & Hg & He)].
    { destruct (Hl c v (under_root _ _ _) Hv) as (ls & E). congruence. }
    assert (Ha : forall i, In i (done ++ work) -> exists s nm d, RefsSpec.answer (fetch get b) decode dl (RefsProofs.pt i) = ([Refs.Edge s d nm], None)).
    { intros i Hin. pose proof (RefsUnique.inv_link _ _ _ _ _ _ _ Hi i Hin) as Hla.
      assert (Hun : under (get b) decode c (Refs.i_dst i)) by (eapply link_under; eassumption).
      destruct (Hc _ Hun) as (w & x & Hx & Hw). destruct (Hl _ w Hun (ex_intro _ x (conj Hx Hw))) as (ls & El).
      unfold RefsSpec.answer, RefsProofs.pt, fetch. rewrite Hx, Hw, El. eauto. }
    assert (Hend : e <> None).
    { intros ->. destruct He as [_ Hlen]. assert (Hn : NoDup (map Refs.i_dst (done ++ work))).
      { pose proof (RefsUnique.inv_nodup _ _ _ _ _ _ _ Hi) as Hn. rewrite (RefsUnique.inv_seen _ _ _ _ _ _ _ Hi) in Hn. apply NoDup_rev in Hn. rewrite rev_involutive in Hn. exact Hn. }
      assert (Hle : (length (map Refs.i_dst (done ++ work)) <= length universe)%nat).
      { apply NoDup_incl_length; [exact Hn|]. intros d Hd. apply in_map_iff in Hd as (i & <- & Hd). apply Hu. eapply link_under; [exact Hv|apply (RefsUnique.inv_link _ _ _ _ _ _ _ Hi _ Hd)]. }
      rewrite map_length, app_length in Hle. lia. }
    destruct e as [en|]; [|contradiction]. destruct He as [(-> & -> & ->)|(i & w & -> & _ & Hen & _)].
    2: { destruct (Ha i) as (s & nm & d & E); [apply in_app_iff; right; left; reflexivity|]. cbn [o Refs.download] in Hen. rewrite E in Hen. discriminate. }
    rewrite app_nil_r in Ha. assert (Hed : exists l, edges (RefsUnique.events_of (fetch get b) decode o done) = (l, false)).
    { clear - Ha. induction done as [|i done IH]; [eexists; reflexivity|]. unfold RefsUnique.events_of. cbn [flat_map]. fold (RefsUnique.events_of (fetch get b) decode o done).
      destruct IH as (l & El); [intros j Hj; apply Ha; right; exact Hj|]. destruct (Ha i (or_introl eq_refl)) as (s & nm & d & E).
      cbn [o Refs.max_depth Refs.download]. rewrite E. cbn [fst app edges]. rewrite El. eexists. reflexivity. }
    destruct Hed as (l & El). exists l. unfold stream_of. cbn [fst snd]. rewrite El. reflexivity.
  Qed.
End Walk.

(** * The state on disk *)
Lemma f_get_file f c : wf_cid c -> f_get f c = fs_get (block_file c) f.
Proof. intros Hc. unfold f_get, fs_get_block. rewrite block_path_ok by exact Hc. destruct (fs_get (block_file c) f); reflexivity. Qed.
Lemma content_put bs k x : content (map Call bs) k = Some x -> exists b, In (Put b) bs /\ b_data b = x.
Proof.
  induction bs as [|o bs IH]; cbn [map content]; [discriminate|]. destruct o as [b|c|c|c|]; try (intros H; destruct (IH H) as (b0 & ? & ?); exists b0; split; [right|]; assumption).
  - destruct (content (map Call bs) k) eqn:E.
    + intros [= ->]. destruct (IH eq_refl) as (b0 & ? & ?). exists b0. split; [right|]; assumption.
    + destruct (cid_eqb (to_v1 (b_cid b)) k); [|discriminate]. intros [= <-]. exists b. split; [left|]; reflexivity.
  - destruct (cid_eqb (to_v1 c) k); [discriminate|]. intros H; destruct (IH H) as (b0 & ? & ?); exists b0; split; [right|]; assumption.
Qed.

Section Inv.
  Variable ob : N -> bytes -> option bytes.
  Variable decode : cid -> bytes -> outcome ipld unit.
  Variable checks : bool.
  Variable fuel : nat.
  Variable all : list nop.
  Hypothesis Hown : by_own_name decode all.

  (** A link in a block that was put. *)
  Definition named (e : cid) : Prop := exists b x v name, In (NPut b) all /\ decode x (b_data b) = Ok v /\ RefsSpec.has_link x v name e.
  Lemma named_wf e : named e -> wf_cid e.
  Proof. intros (b & x & v & name & H1 & H2 & H3). eapply (proj1 Hown); eassumption. Qed.
  Definition store_ok (f : fs) : Prop := exists bs, fs_ok f (map Call bs) /\ forall b, In (Put b) bs -> In (NPut b) all.
  Notation doc f := (stored_doc (f_get f) decode).

  Lemma doc_named f d v name e : store_ok f -> wf_cid d -> doc f d v -> RefsSpec.has_link d v name e -> named e.
  Proof.
    intros (bs & [_ H] & Hb) Hd (x & Hx & Hv) Hl. rewrite f_get_file, H in Hx by exact Hd. apply content_put in Hx as (b & Hin & <-).
    exists b, d, v, name. auto.
  Qed.
  Lemma link_named f c v n s nm d : store_ok f -> wf_cid c -> doc f c v -> RefsSpec.link_at (fetch f_get f) decode [(c, v)] n s nm d -> named d.
  Proof.
    intros Hs Hc Hv. induction 1 as [c' v' name d [[= <- <-]|[]] Hl|n s nm c' v' name d _ IH Hd Hl].
    - eapply doc_named; eassumption.
    - eapply doc_named; [exact Hs|apply named_wf, IH|apply (document_doc f_get decode f), Hd|exact Hl].
  Qed.

  (** A pinned dag: its root and the recorded references hold documents whose links are recorded. *)
  Definition kept (f : fs) (c : cid) (rs : list cid) : Prop :=
    In (NPin c true) all /\ wf_cid c /\ (exists v, doc f c v) /\
    (forall e, In e rs -> (named e /\ under (f_get f) decode c e) /\ exists v, doc f e v) /\
    forall d v name e, d = c \/ In d rs -> doc f d v -> RefsSpec.has_link d v name e -> In e rs.
  Definition ninv (s : fs * fs) (ps : list pop) : Prop :=
    store_ok (fst s) /\ frep ps (snd s) /\ forall c rs, recursive ps c = Some rs -> kept (fst s) c rs.

  Lemma kept_under f c rs d : kept f c rs -> under (f_get f) decode c d -> d = c \/ In d rs.
  Proof.
    intros Hk. induction 1 as [|d v name e _ IH Hv Hl]; [left; reflexivity|right]. destruct Hk as (_ & _ & _ & _ & H5). eapply H5; eassumption.
  Qed.
  Lemma kept_same f f' c rs : (forall d, d = c \/ In d rs -> f_get f' d = f_get f d) -> kept f c rs -> kept f' c rs.
  Proof.
    intros Hg Hk. pose proof Hk as (H1 & H2 & (v & Hv) & H4 & H5). assert (Hd : forall d w, d = c \/ In d rs -> (doc f' d w <-> doc f d w)).
    { intros d w Hd. unfold stored_doc. rewrite Hg by exact Hd. reflexivity. }
    assert (Hu : forall e, under (f_get f) decode c e -> under (f_get f') decode c e).
    { induction 1 as [|d w name e Hd' IH Hw Hl]; [apply under_root|]. econstructor 2; [exact IH|apply Hd; [eapply kept_under; eassumption|exact Hw]|exact Hl]. }
    split; [exact H1|]. split; [exact H2|]. split; [exists v; apply Hd; auto|]. split.
    - intros e He. destruct (H4 e He) as [[Hn Hue] (w & Hw)]. split; [split; [exact Hn|apply Hu, Hue]|]. exists w. apply Hd; auto.
    - intros d w name e Hin Hw. apply (H5 d w name e Hin). apply Hd; auto.
  Qed.
  Lemma kept_wf f c rs d : kept f c rs -> d = c \/ In d rs -> wf_cid d.
  Proof. intros (H1 & H2 & _ & H4 & _) [->|Hd]; [exact H2|]. apply named_wf, H4, Hd. Qed.
  Lemma kept_pinned ps f c rs d : recursive ps c = Some rs -> kept f c rs -> d = c \/ In d rs -> pinned ps d = true.
  Proof.
    intros Hr _ Hd. unfold pinned. destruct Hd as [->|Hd]; [rewrite Hr; reflexivity|]. apply orb_true_iff. right. unfold indirect.
    apply existsb_exists. exists c. split.
    - revert Hr. clear. induction ps as [|o ps IH]; cbn [recursive roots]; [discriminate|]. destruct o as [t|t r|t|t r]; auto.
      + destruct (cid_eqb_spec c t) as [->|]; [left; reflexivity|right; auto].
      + destruct (cid_eqb c t); [discriminate|auto].
    - unfold refers. rewrite Hr. apply existsb_exists. exists d. split; [exact Hd|]. destruct (cid_eqb_spec d d); congruence.
  Qed.
  Lemma kept_doc f c rs d : kept f c rs -> d = c \/ In d rs -> exists v, doc f d v.
  Proof. intros (_ & _ & Hc & H4 & _) [->|Hd]; [exact Hc|apply H4, Hd]. Qed.

  Lemma inv_put s ps b : wf_cid (b_cid b) -> In (NPut b) all -> ninv s ps -> ninv (fst (f_put (fst s) b), snd s) ps /\
    (forall d, f_get (fst s) d <> None -> wf_cid d -> f_get (fst (f_put (fst s) b)) d = f_get (fst s) d).
  Proof.
    intros Hw Hin ((bs & Hf & Hb) & Hp & Hk). pose proof (event_ok ob (fst s) (map Call bs) (Call (Put b)) Hw Hf) as He.
    assert (E : fst (f_put (fst s) b) = fst (fs_event ob (fst s) (Call (Put b)))).
    { cbn [fs_event fs_call]. unfold f_put. destruct (fs_put b [b_data b] (fst s)) as [f' []]; reflexivity. }
    rewrite <- E in He. assert (Hsame : forall d, f_get (fst s) d <> None -> wf_cid d -> f_get (fst (f_put (fst s) b)) d = f_get (fst s) d).
    { intros d Hd Hdw. rewrite !f_get_file in * by exact Hdw. destruct He as [_ He], Hf as [_ Hf]. rewrite (He d Hdw), (Hf d Hdw) in *. cbn [content].
      destruct (content (map Call bs) (to_v1 d)); [reflexivity|contradiction]. }
    split; [|exact Hsame]. split; [exists (Put b :: bs); split; [exact He|intros b' [[= <-]|Hi]; auto]|]. split; [exact Hp|].
    intros c rs Hr. cbn [fst]. specialize (Hk c rs Hr). apply (kept_same (fst s)); [|exact Hk]. intros d Hd. apply Hsame; [|eapply kept_wf; eassumption].
    destruct (kept_doc _ _ _ _ Hk Hd) as (v & x & Hx & _). congruence.
  Qed.

  Lemma inv_remove s ps r : wf_cid r -> In (NRemove r) all -> ninv s ps -> ninv (fst (fs_remove_block ob s r)) ps.
  Proof.
    intros Hw Hin (Hs & Hp & Hk). pose proof Hs as (bs & Hf & Hb). unfold fs_remove_block, remove_block. rewrite (is_pinned_ok ob ps (snd s) Hp r Hw).
    destruct (pinned ps r) eqn:Epin; [exact (conj Hs (conj Hp Hk))|].
    pose proof (event_ok ob (fst s) (map Call bs) (Call (Remove r)) Hw Hf) as He. cbn [fs_event fs_call] in He.
    unfold f_remove, fs_remove in *. rewrite block_path_ok in * by exact Hw.
    destruct (fs_get (block_file r) (fst s)) eqn:E; cbn [fst] in *; [|destruct s; exact (conj Hs (conj Hp Hk))].
    split; [exists (Remove r :: bs); split; [exact He|intros b' [[=]|Hi]; auto]|]. split; [exact Hp|]. intros c rs Hr. cbn [fst]. specialize (Hk c rs Hr).
    apply (kept_same (fst s)); [|exact Hk]. intros d Hd. pose proof (kept_wf _ _ _ _ Hk Hd) as Hdw. rewrite !f_get_file, remove_view by assumption.
    destruct (cid_eqb_spec (to_v1 r) (to_v1 d)) as [Ev|]; [exfalso|reflexivity].
    assert (r = d).
    { destruct Hd as [->|Hd].
      - apply (proj2 Hown); [apply Hk|exact Hin|exact Ev].
      - destruct Hk as (_ & _ & _ & H4 & _). destruct (H4 d Hd) as [[(b0 & x & v & name & Q1 & Q2 & Q3) _] _]. apply (proj2 (proj1 Hown b0 x v name d Q1 Q2 Q3) r Hin Ev). }
    subst d. rewrite (kept_pinned ps (fst s) c rs r Hr Hk Hd) in Epin. discriminate.
  Qed.

  Notation icall := (insert_call f_get decode checks fuel).
  Notation rcall := (remove_call f_get decode checks fuel).
  Lemma insert_call_ok f c rec o : store_ok f -> wf_cid c -> icall f c rec = inl o ->
    wf_op o /\ match o with
               | PinRec c' r => c' = c /\ rec = true /\ exists v, doc f c v /\ references f_get decode checks fuel f c v true = Some (Ok r)
               | PinDirect c' => c' = c /\ rec = false /\ f_get f c <> None
               | _ => False
               end.
  Proof.
    intros Hs Hc. unfold insert_call. destruct (f_get f c) as [data|] eqn:Eg; [|discriminate]. destruct rec; cbn [negb].
    - destruct (decode c data) as [v|u|] eqn:Ed; try discriminate. destruct (references f_get decode checks fuel f c v true) as [[r|u|]|] eqn:Er; try discriminate.
      intros [= <-]. assert (Hv : doc f c v) by (exists data; auto). split; [|split; [reflexivity|split; [reflexivity|exists v; auto]]]. split; [exact Hc|]. apply Forall_forall. intros d Hd.
      destruct (references_from f_get decode checks fuel f c v true r d Er Hd) as [_ (n & s & nm & Hl)]. apply named_wf. eapply link_named; eassumption.
    - intros [= <-]. split; [split; [exact Hc|constructor]|]. split; [reflexivity|]. split; [reflexivity|discriminate].
  Qed.
  Lemma remove_call_ok f c rec o : store_ok f -> wf_cid c -> rcall f c rec = inl o ->
    wf_op o /\ match o with UnpinRec c' _ => c' = c /\ rec = true | UnpinDirect c' => c' = c /\ rec = false | _ => False end.
  Proof.
    intros Hs Hc. unfold remove_call. destruct rec; cbn [negb].
    - destruct (f_get f c) as [data|] eqn:Eg; [|discriminate].
      destruct (decode c data) as [v|u|] eqn:Ed; try discriminate. destruct (references f_get decode checks fuel f c v false) as [[r|u|]|] eqn:Er; try discriminate.
      intros [= <-]. assert (Hv : doc f c v) by (exists data; auto). split; [|split; reflexivity]. split; [exact Hc|]. apply Forall_forall. intros d Hd.
      destruct (references_from f_get decode checks fuel f c v false r d Er Hd) as [_ (n & s & nm & Hl)]. apply named_wf. eapply link_named; eassumption.
    - intros [= <-]. split; [split; [exact Hc|constructor]|]. split; reflexivity.
  Qed.

  Lemma inv_pin s ps c rec : wf_cid c -> In (NPin c rec) all -> ninv s ps ->
    let x := icall (fst s) c rec in let (s', a) := pin_op fs_pin_call s x in ninv s' (accepted x a ++ ps) /\ fst s' = fst s.
  Proof.
    intros Hc Hin Hinv. pose proof Hinv as (Hs & Hp & Hk). cbn zeta. destruct (icall (fst s) c rec) as [o|a] eqn:Ei; [|split; [exact Hinv|reflexivity]].
    destruct (insert_call_ok _ _ _ _ Hs Hc Ei) as [Ho Hcase]. cbn [pin_op]. unfold answered. pose proof (call_rep ps (snd s) o Hp Ho) as H.
    destruct (fs_accepts ps o) eqn:Ea; [|rewrite H; cbn [fst snd accepted app]; split; [split; [exact Hs|split; [exact Hp|exact Hk]]|reflexivity]].
    destruct H as (f' & -> & Hf' & _). cbn [fst snd accepted app]. split; [|reflexivity]. split; [exact Hs|]. split; [exact Hf'|]. cbn [fst].
    destruct o as [c'|c' r|c'|c' r]; try contradiction.
    - exact Hk.
    - destruct Hcase as (-> & -> & v & Hv & Hr). intros c2 rs. cbn [recursive]. destruct (cid_eqb_spec c2 c) as [->|]; [|apply Hk].
      intros [= <-]. destruct r as [l br]. cbn [fs_accepts broken] in Ea. destruct br; [discriminate|]. cbn [items].
      split; [exact Hin|]. split; [exact Hc|]. split; [exists v; exact Hv|]. split.
      + intros e He. destruct (references_from f_get decode checks fuel (fst s) c v true _ e Hr He) as [Hd (n & s0 & nm & Hl)]. split; [split; [eapply link_named; eassumption|eapply link_under; eassumption]|exact Hd].
      + exact (references_closed f_get decode checks fuel (fst s) c v l Hv Hr).
  Qed.
  Lemma inv_unpin s ps c rec : wf_cid c -> ninv s ps ->
    let x := rcall (fst s) c rec in let (s', a) := pin_op fs_pin_call s x in ninv s' (accepted x a ++ ps) /\ fst s' = fst s.
  Proof.
    intros Hc Hinv. pose proof Hinv as (Hs & Hp & Hk). cbn zeta. destruct (rcall (fst s) c rec) as [o|a] eqn:Ei; [|split; [exact Hinv|reflexivity]].
    destruct (remove_call_ok _ _ _ _ Hs Hc Ei) as [Ho Hcase]. cbn [pin_op]. unfold answered. pose proof (call_rep ps (snd s) o Hp Ho) as H.
    destruct (fs_accepts ps o) eqn:Ea; [|rewrite H; cbn [fst snd accepted app]; split; [split; [exact Hs|split; [exact Hp|exact Hk]]|reflexivity]].
    destruct H as (f' & -> & Hf' & _). cbn [fst snd accepted app]. split; [|reflexivity]. split; [exact Hs|]. split; [exact Hf'|]. cbn [fst].
    destruct o as [c'|c' r|c'|c' r]; try contradiction.
    - exact Hk.
    - intros c2 rs. cbn [recursive]. destruct (cid_eqb c2 c'); [discriminate|apply Hk].
  Qed.

  Lemma inv_step s ps o : nop_wf o -> In o all -> ninv s ps ->
    let '(s', _, acc) := fs_node_step ob decode checks fuel s o in ninv s' (acc ++ ps).
  Proof.
    intros Hw Hin Hinv. unfold fs_node_step, node_step. destruct o as [b|c|c rec|c rec]; cbn in Hw.
    - pose proof (proj1 (inv_put s ps b Hw Hin Hinv)) as H. destruct (f_put (fst s) b) as [f' r]. exact H.
    - pose proof (inv_remove s ps c Hw Hin Hinv) as H. unfold fs_remove_block in H. destruct (remove_block (fs_is_pinned ob) f_remove s c) as [s' r]. exact H.
    - pose proof (inv_pin s ps c rec Hw Hin Hinv) as H. cbn zeta in *. destruct (pin_op _ _ _) as [s' a]. apply H.
    - pose proof (inv_unpin s ps c rec Hw Hinv) as H. cbn zeta in *. destruct (pin_op _ _ _) as [s' a]. apply H.
  Qed.
  Lemma inv_run h : Forall nop_wf h -> incl h all -> forall s ps, ninv s ps ->
    let (s', ps') := fs_node_run ob decode checks fuel s ps h in ninv s' ps'.
  Proof.
    induction 1 as [|o h Ho HF IH]; intros Hi s ps Hinv; [exact Hinv|]. unfold fs_node_run. cbn [node_run].
    pose proof (inv_step s ps o Ho (Hi o (or_introl eq_refl)) Hinv) as H. unfold fs_node_step in H.
    destruct (node_step f_get f_put f_remove (fs_is_pinned ob) fs_pin_call decode checks fuel s o) as [[s' a] acc].
    apply IH; [intros x Hx; apply Hi; right; exact Hx|exact H].
  Qed.
  Lemma inv_start : ninv ([], []) [].
  Proof.
    split; [exists []; split; [split; [split; [constructor|intros p []]|reflexivity]|intros b []]|]. split; [apply frep_nil|discriminate].
  Qed.
End Inv.
