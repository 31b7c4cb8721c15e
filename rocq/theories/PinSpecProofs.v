(** Facts about the pin specification. *)
From Verif Require Import Base Wire Cid FMap BlockSpec PinSpec.

Lemma cid_eqb_refl c : cid_eqb c c = true.
Proof. destruct (cid_eqb_spec c c); congruence. Qed.

Lemma existsb_cid c l : existsb (cid_eqb c) l = true <-> In c l.
Proof.
  rewrite existsb_exists. split.
  - intros (x & Hx & E). destruct (cid_eqb_spec c x); [congruence|discriminate].
  - intros H. exists c. split; [exact H|apply cid_eqb_refl].
Qed.

Lemma refers_spec past root c :
  refers past root c = true <-> exists rs, recursive past root = Some rs /\ In c rs.
Proof.
  unfold refers. destruct (recursive past root) as [rs|].
  - rewrite existsb_cid. split; [eauto|]. intros (rs' & [= ->] & H). exact H.
  - split; [discriminate|]. intros (rs & [=] & _).
Qed.

Lemma recursive_roots past c rs : recursive past c = Some rs -> In c (roots past).
Proof.
  induction past as [|o past IH]; cbn [recursive]; [discriminate|].
  destruct o as [t|t r|t|t r]; cbn [roots]; auto.
  - destruct (cid_eqb_spec c t) as [->|]; cbn; auto.
  - destruct (cid_eqb_spec c t); [discriminate|auto].
Qed.

Lemma indirect_spec past c : indirect past c = true <-> exists root, refers past root c = true.
Proof.
  unfold indirect. rewrite existsb_exists. split.
  - intros (x & _ & H). eauto.
  - intros (root & H). exists root. split; [|exact H].
    apply refers_spec in H as (rs & H & _). eapply recursive_roots; eauto.
Qed.

Lemma pinned_spec past c :
  pinned past c = true <-> recursive past c <> None \/ direct past c = true \/ exists root, refers past root c = true.
Proof.
  unfold pinned. rewrite !orb_true_iff, indirect_spec. destruct (recursive past c); cbn; intuition congruence.
Qed.

Section Run.
  Context {St E : Type}.
  Variable call : St -> pop -> St * outcome unit E.

  (** Invariants of histories: [I] relates the accepted calls to the state, [Q] is what every call
      satisfies. *)
  Lemma prun_ind (I : list pop -> St -> Prop) (Q : pop -> Prop) :
    (forall past s o, I past s -> Q o ->
       match call s o with (s', Ok _) => I (o :: past) s' | (s', _) => I past s' end) ->
    forall h past s, Forall Q h -> I past s ->
    I (snd (prun call s past h)) (fst (prun call s past h)).
  Proof.
    intros Hstep. induction h as [|o h IH]; intros past s HF HI; [exact HI|].
    inversion HF; subst. cbn [prun]. specialize (Hstep past s o HI H1).
    destruct (call s o) as [s' [x|e|]]; cbn in *; auto.
  Qed.

  Lemma prun_past h : forall past s, exists h', snd (prun call s past h) = h' ++ past /\ incl h' h.
  Proof.
    induction h as [|o h IH]; intros past s; [exists []; split; [reflexivity|apply incl_refl]|].
    cbn [prun]. destruct (call s o) as [s' r].
    destruct (IH (match r with Ok _ => o :: past | _ => past end) s') as (h' & E' & Hi).
    destruct r as [x|e|].
    - exists (h' ++ [o]). rewrite <- app_assoc. split; [exact E'|].
      apply incl_app; [intros y Hy; right; auto|]. intros y [->|[]]. left. reflexivity.
    - exists h'. split; [exact E'|]. intros y Hy. right. auto.
    - exists h'. split; [exact E'|]. intros y Hy. right. auto.
  Qed.
End Run.

Lemma roots_app a b : roots (a ++ b) = roots a ++ roots b.
Proof. induction a as [|o a IH]; cbn; [reflexivity|]. destruct o; cbn; rewrite ?IH; reflexivity. Qed.
Lemma roots_in past c : In c (roots past) <-> exists r, In (PinRec c r) past.
Proof.
  induction past as [|o past IH]; cbn [roots]; [split; [contradiction|intros (r & [])]|].
  destruct o as [t|t r|t|t r]; cbn [In]; rewrite ?IH; split; intros H; try (destruct H as (r' & [H|H]); [discriminate|eauto]);
    try (destruct H as (r' & H); eauto).
  - destruct H as [->|(r' & H)]; eauto.
  - destruct H as [H|H]; [injection H as -> _; auto|]. right. eauto.
Qed.
