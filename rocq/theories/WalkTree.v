(** Walking a tree that was built from calls to the tree builder. *)
From Verif Require Import Base Wire WireProofs Cid CidProofs Pb PbProofs FileVisit BTree IpfsPath PathSpec IpfsPathProofs DirLookup
  WalkNames StdPath Walk WalkProofs WalkSpec TreeBuilder TreeSpec TreeBuilderProofs TreeIter TreeIterSpec TreeOutSpec TreeOut TreeRead.
Local Open Scope N_scope.

Definition no_buckets (os : list walked) : Prop := Forall (fun o => match o with OBucket _ _ => False | _ => True end) os.
Lemma no_buckets_reported os : no_buckets os -> forall l, reported l os = (os, false).
Proof.
  induction 1 as [|o os Ho _ IH]; intros l; [reflexivity|]. destruct o; cbn [reported]; rewrite ?IH; try reflexivity. contradiction.
Qed.
Lemma no_buckets_report os : no_buckets os -> walk_report os = (os, false).
Proof.
  intros H. unfold walk_report. destruct os as [|o os]; [reflexivity|]. inversion H as [|? ? Ho Hos]; subst.
  destruct o; cbn [reported]; rewrite ?(no_buckets_reported os Hos); reflexivity || contradiction.
Qed.
Lemma file_no_buckets get top path c os b f : entry_at get top path c os -> get c = Some b -> flat_parse b = inl f ->
  u_type (f_data f) = TFile \/ u_type (f_data f) = TRaw -> no_buckets os.
Proof.
  intros He Hg Hf Ht.
  assert (HL : forall c p m sz segs, no_buckets (later_segments c p m sz segs)).
  { clear. intros c p m sz segs. induction segs as [|s [|s2 segs] IH]; [constructor|repeat constructor|].
    change (later_segments c p m sz (s :: s2 :: segs)) with (OFile s false false c p m sz :: later_segments c p m sz (s2 :: segs)).
    constructor; [exact Logic.I|exact IH]. }
  inversion He; subst.
  - rewrite Hg in H. injection H as <-. rewrite Hf in H0. injection H0 as <-. destruct Ht; congruence.
  - rewrite Hg in H. injection H as <-. rewrite Hf in H0. injection H0 as <-. destruct Ht; congruence.
  - repeat constructor.
  - constructor; [exact Logic.I|apply HL].
  - repeat constructor.
Qed.
Lemma read_entry_file get fuel c content : read_file fuel get None c = ReadOk content -> forall top path,
  exists os, entry_at get top path c os /\ no_buckets os.
Proof.
  intros H top path. destruct (read_entry get fuel c content H top path) as (os & He & _). exists os. split; [exact He|].
  unfold read_file in H. destruct (get c) as [b|] eqn:Hg; [|discriminate].
  destruct (visit_start None b) as [[[[s size] m] step]|e|] eqn:Hv; try discriminate.
  unfold visit_start, from_block in Hv. destruct (flat_parse b) as [f|] eqn:Hf; [|discriminate].
  eapply file_no_buckets; [exact He|exact Hg|exact Hf|].
  unfold from_parts in Hv. destruct (u_type (f_data f)); try (right; reflexivity); try (left; reflexivity); cbn in Hv; discriminate.
Qed.

(** A part of a report is the report of the entry [c] at [path]. *)
Definition contains (get : cid -> option bytes) (os : list walked) (path : list bytes) (c : cid) : Prop :=
  exists a o b, os = a ++ o ++ b /\ entry_at get false path c o.
Lemma contains_all get os path c : entry_at get false path c os -> contains get os path c.
Proof. intros H. exists [], os, []. rewrite app_nil_r. split; [reflexivity|exact H]. Qed.
Lemma contains_in get a os b path c : contains get os path c -> contains get (a ++ os ++ b) path c.
Proof. intros (x & o & y & -> & H). exists (a ++ x), o, (y ++ b). rewrite <- !app_assoc. auto. Qed.

Section Tree.
Variable sha : bytes -> bytes.
Hypothesis sha_wf : forall b, wf_cid (CidV0 (sha b)).
Variables (wrap : bool) (h : list call) (dirs : list (list bytes * list (bytes * (cid * N)))).
Hypothesis HB : built sha wrap h dirs.
Hypothesis Hwf : Forall call_wf h.
Hypothesis Hutf : Forall (fun c => utf8 (call_path c) = true) h.
Hypothesis Hsteps : Forall (fun c => Forall step_name (split_slash (call_path c))) h.
Hypothesis Hsize : forall q es, In (q, es) dirs -> blen (dir_block es) < u32_max1 /\ dir_total es < u64_max1.
Hypothesis Hex : forall q, q <> [] -> link_at h q <> None -> dir_at h q = false.
Variable get : cid -> option bytes.
Hypothesis Hget : forall q es, In (q, es) dirs -> get (dir_cid sha es) = Some (dir_block es).
Hypothesis Hfiles : forall q c s, link_at h q = Some (c, s) -> forall path, exists o, entry_at get false path c o /\ no_buckets o.

Lemma entry_step q es n c s : In (q, es) dirs -> In (n, (c, s)) es -> step_name n.
Proof.
  destruct HB as (B1 & _ & B3 & _). intros Hd He. destruct (B3 q es Hd) as [_ B]. rewrite Forall_forall in Hsteps.
  apply B in He as [Hl|(sub & Hs & _)].
  - apply link_at_call in Hl as (p & Hp & E). specialize (Hsteps _ Hp). cbn [call_path] in Hsteps. rewrite E in Hsteps.
    apply Forall_app in Hsteps as [_ F]. inversion F. assumption.
  - assert (Hin : In (q ++ [n]) (map fst dirs)) by (apply in_map_iff; exists (q ++ [n], sub); auto).
    apply B1 in Hin. assert (Hda : dir_at h (q ++ [n]) = true) by (destruct q; exact Hin).
    apply dir_at_call in Hda as (k & r & Hk & E). specialize (Hsteps _ Hk). rewrite E in Hsteps.
    apply Forall_app in Hsteps as [F _]. apply Forall_app in F as [_ F]. inversion F. assumption.
Qed.

Lemma links_exist B es (Q : bytes * (cid * N) -> list walked -> Prop) :
  (forall e, In e es -> step_name (fst e) /\ wf_cid (fst (snd e)) /\
     exists o, entry_at get false (B ++ [fst e]) (fst (snd e)) o /\ no_buckets o /\ Q e o) ->
  exists os, links_at get B (map dir_link es) os /\ no_buckets os /\
    forall e, In e es -> exists a o b, os = a ++ o ++ b /\ Q e o.
Proof.
  induction es as [|e es IH]; intros H.
  - exists []. split; [constructor|]. split; [constructor|intros e []].
  - destruct IH as (os & HL & HN & HQ). { intros e' He'. apply H. right. exact He'. }
    destruct (H e (or_introl eq_refl)) as (Hs & Hw & o & Ho & Hno & HQe). exists (o ++ os). split; [|split].
    + cbn [map]. eapply link_entry with (c := fst (snd e)); [|exact Hs|exact Ho|exact HL].
      unfold link_cid, dir_link. cbn [l_hash]. apply cid_roundtrip. exact Hw.
    + apply Forall_app. auto.
    + intros e' [<-|He'].
      * exists [], o, os. split; [reflexivity|exact HQe].
      * destruct (HQ e' He') as (a & o' & b & -> & HQ'). exists (o ++ a), o', b. rewrite <- app_assoc. auto.
Qed.

Lemma dirs_at_path q es es' : In (q, es) dirs -> In (q, es') dirs -> es = es'.
Proof.
  destruct HB as (_ & B2 & _). intros H1 H2. apply In_nth_error in H1 as [i Hi]. apply In_nth_error in H2 as [j Hj].
  assert (i = j).
  { eapply (proj1 (NoDup_nth_error (map fst dirs)) B2); [apply nth_error_Some; rewrite nth_error_map, Hi; discriminate|].
    rewrite !nth_error_map, Hi, Hj. reflexivity. }
  subst j. congruence.
Qed.

(** A directory on the way to a directory or a link. *)
Lemma dir_above q x r : dir_at h (q ++ x :: r) = true -> dir_at h (q ++ [x]) = true.
Proof.
  unfold dir_at. intros H. apply existsb_exists in H as (k & Hk & Hm). apply existsb_exists. exists k. split; [exact Hk|].
  destruct k as [p c s|p md]; cbn [makes_dir] in *; unfold proper_prefix in *.
  - apply andb_true_iff in Hm as [H1 H2]. apply seg_prefix_spec in H1 as [r' E]. rewrite E in *.
    apply andb_true_iff. split; [apply seg_prefix_spec; exists (r ++ r'); rewrite <- !app_assoc; reflexivity|].
    apply negb_true_iff. destruct (seg_eqb_spec (q ++ [x]) ((q ++ x :: r) ++ r')) as [E'|]; [|reflexivity].
    rewrite <- app_assoc in E'. apply app_inv_head in E'. cbn [app] in E'. injection E' as E'. symmetry in E'. apply app_eq_nil in E' as [-> ->].
    rewrite app_nil_r, seg_eqb_refl in H2. discriminate.
  - apply seg_prefix_spec in Hm as [r' E]. apply seg_prefix_spec. exists (r ++ r'). rewrite E, <- !app_assoc. reflexivity.
Qed.
Lemma dir_above_link q x y r c s : link_at h (q ++ x :: y :: r) = Some (c, s) -> dir_at h (q ++ [x]) = true.
Proof.
  intros H. apply link_at_call in H as (p & Hp & E). unfold dir_at. apply existsb_exists. eexists. split; [exact Hp|].
  cbn [makes_dir]. unfold proper_prefix. rewrite E. apply andb_true_iff. split; [apply seg_prefix_spec; exists (y :: r); rewrite <- app_assoc; reflexivity|].
  apply negb_true_iff. destruct (seg_eqb_spec (q ++ [x]) (q ++ x :: y :: r)) as [E'|]; [|reflexivity].
  apply app_inv_head in E'. discriminate.
Qed.
Lemma in_dirs q x sub : In (q ++ [x], sub) dirs -> dir_at h (q ++ [x]) = true.
Proof.
  intros H. destruct HB as (B1 & _). assert (Hin : In (q ++ [x]) (map fst dirs)) by (apply in_map_iff; eexists; split; [|exact H]; reflexivity).
  apply B1 in Hin. destruct q; exact Hin.
Qed.
Lemma in_dirs_above q x r sub : In (q ++ x :: r, sub) dirs -> exists sub', In (q ++ [x], sub') dirs.
Proof.
  intros H. destruct HB as (B1 & _). assert (Hin : In (q ++ x :: r) (map fst dirs)) by (apply in_map_iff; eexists; split; [|exact H]; reflexivity).
  apply B1 in Hin. assert (Hd : dir_at h (q ++ x :: r) = true) by (destruct q; exact Hin). apply dir_above in Hd.
  assert (In (q ++ [x]) (map fst dirs)) as Hi by (apply B1; destruct q; exact Hd).
  apply in_map_iff in Hi as ([q' sub'] & E & Hi). cbn [fst] in E. subst q'. exists sub'. exact Hi.
Qed.

Lemma dir_walks n : forall i q es, (i < n)%nat -> nth_error dirs i = Some (q, es) -> forall top B,
  exists os, entry_at get top B (dir_cid sha es) os /\ no_buckets os /\
    (forall r c s, r <> [] -> link_at h (q ++ r) = Some (c, s) -> contains get os (B ++ r) c) /\
    (forall r sub, r <> [] -> In (q ++ r, sub) dirs -> contains get os (B ++ r) (dir_cid sha sub)).
Proof.
  induction n as [|n IH]; intros i q es Hi Hn top B; [lia|].
  pose proof HB as (B1 & B2 & B3 & B4 & _).
  assert (Hin := nth_error_In _ _ Hn). destruct (Hsize q es Hin) as [Hb Ht].
  destruct (B3 q es Hin) as [_ BE].
  pose (Q := fun (e : bytes * (cid * N)) (o : list walked) =>
    (forall r c s, link_at h (q ++ fst e :: r) = Some (c, s) -> contains get o (B ++ fst e :: r) c) /\
    (forall r sub, In (q ++ fst e :: r, sub) dirs -> contains get o (B ++ fst e :: r) (dir_cid sha sub))).
  destruct (links_exist B es Q) as (os & HL & HN & HQ).
  { intros [x [c s]] He. cbn [fst snd]. split; [eapply entry_step; eassumption|].
    split; [eapply (entry_facts sha sha_wf); eassumption|].
    apply BE in He as [Hl|(sub & Hsub & -> & ->)].
    - destruct (Hfiles _ _ _ Hl (B ++ [x])) as (o & Ho & Hno).
      exists o. split; [exact Ho|]. split; [exact Hno|].
      assert (Hnd : dir_at h (q ++ [x]) = false) by (apply Hex; [destruct q; discriminate|congruence]).
      split; cbn [fst].
      + intros r c' s' Hl'. destruct r as [|y r].
        * assert (c' = c) by congruence. subst c'. apply contains_all. exact Ho.
        * apply dir_above_link in Hl'. congruence.
      + intros r sub Hsub. destruct (in_dirs_above _ _ _ _ Hsub) as [sub' Hs']. apply in_dirs in Hs'. congruence.
    - destruct (In_nth_error _ _ Hsub) as [j Hj].
      assert (Hji : (j < i)%nat) by (eapply (B4 i j q [x]); [exact Hn|exact Hj|discriminate]).
      destruct (IH j (q ++ [x]) sub ltac:(lia) Hj false (B ++ [x])) as (o & Ho & Hno & H1 & H2).
      exists o. split; [exact Ho|]. split; [exact Hno|]. split; cbn [fst].
      + intros r c' s' Hl'. destruct r as [|y r].
        * exfalso. apply in_dirs in Hsub. rewrite Hex in Hsub; [discriminate|destruct q; discriminate|congruence].
        * replace (B ++ x :: y :: r) with ((B ++ [x]) ++ y :: r) by (rewrite <- app_assoc; reflexivity).
          eapply H1; [discriminate|]. rewrite <- app_assoc. exact Hl'.
      + intros r sub' Hs'. destruct r as [|y r].
        * rewrite (dirs_at_path _ _ _ Hs' Hsub). apply contains_all. exact Ho.
        * replace (B ++ x :: y :: r) with ((B ++ [x]) ++ y :: r) by (rewrite <- app_assoc; reflexivity).
          eapply H2; [discriminate|]. rewrite <- app_assoc. exact Hs'. }
  assert (Hwfb : wf_flat (mk_flat (map dir_link es) (mk_unixfs TDirectory None None [] None None None None))).
  { apply block_wf; [|exact Hb|exact Ht]. apply Forall_forall. intros [x [c s]] He. cbn [fst snd].
    eapply (entry_facts sha sha_wf); eassumption. }
  pose proof (flat_roundtrip _ Hwfb) as Hp.
  eexists. split; [eapply at_directory; [apply (Hget q es Hin)|exact Hp|reflexivity|reflexivity|exact HL]|].
  split; [|split].
  - constructor; [destruct top; exact Logic.I|exact HN].
  - intros [|x r] c s Hr Hl; [contradiction|].
    assert (He : exists c' s', In (x, (c', s')) es).
    { destruct r as [|y r]; [exists c, s; apply BE; left; exact Hl|].
      apply dir_above_link in Hl. assert (In (q ++ [x]) (map fst dirs)) as Hi' by (apply B1; destruct q; exact Hl).
      apply in_map_iff in Hi' as ([q' sub'] & E & Hi'). cbn [fst] in E. subst q'. exists (dir_cid sha sub'), (dir_total sub'). apply BE. right. eauto. }
    destruct He as (c' & s' & He). destruct (HQ _ He) as (a & o & b & -> & [Q1 _]). cbn [fst] in Q1.
    change (?z :: a ++ o ++ b) with ((z :: a) ++ o ++ b). apply contains_in. eapply Q1. exact Hl.
  - intros [|x r] sub Hr Hs; [contradiction|].
    destruct (in_dirs_above _ _ _ _ Hs) as [sub' Hs'].
    assert (He : In (x, (dir_cid sha sub', dir_total sub')) es) by (apply BE; right; eauto).
    destruct (HQ _ He) as (a & o & b & -> & [_ Q2]). cbn [fst] in Q2.
    change (?z :: a ++ o ++ b) with ((z :: a) ++ o ++ b). apply contains_in. eapply Q2. exact Hs.
Qed.
End Tree.

(** What is shown for a file is determined by its blocks. *)
Lemma segments_det get v s1 : segments get v s1 -> forall s2, segments get v s2 -> s1 = s2.
Proof.
  induction 1 as [v c b x Hn Hg Hc|v c b x v' rest Hn Hg Hc Hs IH]; intros s2 Hs2;
    inversion Hs2 as [v2 c2 b2 x2 Hn2 Hg2 Hc2|v2 c2 b2 x2 v2' rest2 Hn2 Hg2 Hc2 Hs2']; subst;
    assert (c2 = c) by congruence; subst c2; assert (b2 = b) by congruence; subst b2; try congruence.
  rewrite Hc in Hc2. injection Hc2 as <- <-. f_equal. apply IH. exact Hs2'.
Qed.
Lemma file_shown get fuel c content top path o : read_file fuel get None c = ReadOk content -> entry_at get top path c o -> file_bytes o = content.
Proof.
  intros Hr He. destruct (read_entry get fuel c content Hr top path) as (o' & He' & Hb & _). rewrite <- Hb. f_equal.
  assert (Hf : forall b f, get c = Some b -> flat_parse b = inl f -> u_type (f_data f) = TFile \/ u_type (f_data f) = TRaw).
  { intros b f Hg Hp. unfold read_file in Hr. rewrite Hg in Hr. unfold visit_start, from_block in Hr. rewrite Hp in Hr.
    unfold from_parts in Hr. destruct (u_type (f_data f)); auto; discriminate. }
  inversion He; subst;
    match goal with Hg : get c = Some ?b, Hp : flat_parse ?b = inl ?f |- _ => pose proof (Hf b f Hg Hp) as Ht end;
    try (destruct Ht; congruence);
    inversion He'; subst;
    repeat match goal with
    | H1 : get c = Some ?b, H2 : get c = Some ?b' |- _ => tryif constr_eq b b' then fail else (assert (b = b') by congruence; subst b')
    end; try congruence;
    try (match goal with H1 : flat_parse ?b = inl ?f, H2 : flat_parse ?b = inl ?f' |- _ => assert (f = f') by congruence; subst f' end; destruct Ht; congruence).
  - match goal with H1 : visit_start None ?b = _, H2 : visit_start None ?b = _ |- _ => rewrite H1 in H2; injection H2 as -> -> -> -> end.
    match goal with H1 : segments get ?v ?a, H2 : segments get ?v ?b |- _ => rewrite (segments_det _ _ _ H1 _ H2) end. reflexivity.
Qed.
