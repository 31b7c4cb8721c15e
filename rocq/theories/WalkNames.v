From Verif Require Import Base Wire Cid Pb FileVisit DirLookup IpfsPath PathSpec IpfsPathProofs StdPath Walk WalkSpec WalkProofs.
Local Open Scope N_scope.

(** ** File content *)
Lemma later_bytes c p m sz segs : file_bytes (later_segments c p m sz segs) = concat segs.
Proof.
  induction segs as [|s [|s2 segs] IH]; [reflexivity|reflexivity|].
  change (later_segments c p m sz (s :: s2 :: segs)) with (OFile s false false c p m sz :: later_segments c p m sz (s2 :: segs)).
  cbn [file_bytes]. rewrite IH. reflexivity.
Qed.
Lemma later_length c p m sz segs : length (later_segments c p m sz segs) = length segs.
Proof.
  induction segs as [|s [|s2 segs] IH]; [reflexivity|reflexivity|].
  change (later_segments c p m sz (s :: s2 :: segs)) with (OFile s false false c p m sz :: later_segments c p m sz (s2 :: segs)).
  cbn [length] in *. rewrite IH. reflexivity.
Qed.
Lemma segments_loop get v segs : segments get v segs -> forall fuel, (length segs <= fuel)%nat ->
  visit_loop fuel get v = ReadOk (concat segs).
Proof.
  induction 1 as [v c b content Hn Hg Hv|v c b content v' r Hn Hg Hv Hs IH]; intros fuel Hf;
    (destruct fuel as [|fuel]; [cbn [length] in Hf; lia|]); cbn [visit_loop]; rewrite Hn, Hg, Hv.
  - cbn [concat]. rewrite app_nil_r. reflexivity.
  - rewrite IH by (cbn [length] in Hf; lia). reflexivity.
Qed.
Lemma loop_segments get fuel : forall v content, visit_loop fuel get v = ReadOk content ->
  exists segs, segments get v segs /\ concat segs = content /\ (length segs <= fuel)%nat.
Proof.
  induction fuel as [|fuel IH]; intros v content H; [discriminate|]. cbn [visit_loop] in H.
  destruct (next_link v) as [c|] eqn:Hn; [|discriminate]. destruct (get c) as [b|] eqn:Hg; [|discriminate].
  destruct (visit_continue v b) as [[s [v'|]]|e|] eqn:Hv; try discriminate.
  - destruct (visit_loop fuel get v') as [rest| | | |] eqn:E; try discriminate. injection H as <-.
    destruct (IH v' rest E) as (segs & H1 & H2 & H3). exists (s :: segs). split; [eapply seg_more; eassumption|].
    split; [cbn; rewrite H2; reflexivity|cbn; lia].
  - injection H as <-. exists [s]. split; [eapply seg_last; eassumption|]. split; [cbn; apply app_nil_r|cbn; lia].
Qed.
Lemma read_entry get fuel c content : read_file fuel get None c = ReadOk content -> forall top path,
  exists os, entry_at get top path c os /\ file_bytes os = content /\ (length os <= S fuel)%nat.
Proof.
  unfold read_file. intros H top path. destruct (get c) as [b|] eqn:Hg; [|discriminate].
  destruct (visit_start None b) as [[[[s size] m] step]|e|] eqn:Hv; try discriminate.
  assert (HT : exists f, flat_parse b = inl f /\ (u_type (f_data f) = TFile \/ u_type (f_data f) = TRaw)).
  { unfold visit_start, from_block in Hv. destruct (flat_parse b) as [f|]; [|discriminate]. exists f. split; [reflexivity|].
    unfold from_parts in Hv. destruct (u_type (f_data f)); try (right; reflexivity); try (left; reflexivity); cbn in Hv; discriminate. }
  destruct HT as (f & Hf & Ht). destruct step as [v|].
  - destruct (visit_loop fuel get v) as [rest| | | |] eqn:E; try discriminate. injection H as <-.
    destruct (loop_segments get fuel v rest E) as (segs & H1 & H2 & H3).
    eexists. split; [eapply at_file; eassumption|]. split; [cbn [file_bytes]; rewrite later_bytes, H2; reflexivity|].
    cbn [length]. rewrite later_length. lia.
  - injection H as <-. eexists. split; [eapply at_small_file; eassumption|]. split; [cbn; apply app_nil_r|cbn; lia].
Qed.

(** ** Distinct paths *)
Lemma entry_paths_app a b : entry_paths (a ++ b) = entry_paths a ++ entry_paths b.
Proof.
  induction a as [|o a IH]; [reflexivity|]. destruct o; cbn [app entry_paths]; rewrite IH; try reflexivity.
  destruct first; reflexivity.
Qed.
Lemma later_paths c p m sz segs : entry_paths (later_segments c p m sz segs) = [].
Proof.
  induction segs as [|s [|s2 segs] IH]; [reflexivity|reflexivity|].
  change (later_segments c p m sz (s :: s2 :: segs)) with (OFile s false false c p m sz :: later_segments c p m sz (s2 :: segs)).
  cbn [entry_paths]. exact IH.
Qed.

Section Names.
Variable get : cid -> option bytes.
Hypothesis HD : names_distinct get.

Definition at_path (path : list bytes) (qs : list (list bytes)) : list bytes := map (fun q => join (path ++ q)) qs.

Definition N_entry (top : bool) (path : list bytes) (c : cid) (os : list walked) : Prop :=
  exists qs, entry_paths os = at_path path ([] :: qs) /\ NoDup ([] :: qs) /\ Forall (Forall step_name) qs.
Definition N_links (path : list bytes) (ls : list pblink) (os : list walked) : Prop :=
  NoDup (map link_name ls) ->
  exists qs, entry_paths os = at_path path qs /\ NoDup qs /\ Forall (Forall step_name) qs
    /\ forall q, In q qs -> exists n q', q = n :: q' /\ In n (map link_name ls).
Definition N_shard (path : list bytes) (ls : list pblink) (os : list walked) : Prop :=
  exists names, shard_names get ls names /\ (NoDup names ->
  exists qs, entry_paths os = at_path path qs /\ NoDup qs /\ Forall (Forall step_name) qs
    /\ forall q, In q qs -> exists n q', q = n :: q' /\ In n names).

Lemma NoDup_appl {A} (a b : list A) : NoDup (a ++ b) -> NoDup a /\ NoDup b /\ forall x, In x a -> ~ In x b.
Proof.
  induction a as [|x a IH]; intros H.
  - split; [constructor|]. split; [exact H|]. intros y [].
  - inversion H as [|? ? Hn H']; subst. destruct (IH H') as (H1 & H2 & H3). split; [|split; [exact H2|]].
    + constructor; [|exact H1]. intros Hi. apply Hn, in_or_app. left. exact Hi.
    + intros y [<-|Hy]; [|apply H3, Hy]. intros Hi. apply Hn, in_or_app. right. exact Hi.
Qed.
Lemma NoDup_appi {A} (a b : list A) : NoDup a -> NoDup b -> (forall x, In x a -> ~ In x b) -> NoDup (a ++ b).
Proof.
  induction 1 as [|x a Hn Ha IH]; intros Hb H; [exact Hb|]. cbn. constructor.
  - intros Hi. apply in_app_or in Hi as [Hi|Hi]; [contradiction|]. apply (H x); [left; reflexivity|exact Hi].
  - apply IH; [exact Hb|]. intros y Hy. apply H. right. exact Hy.
Qed.

(** An entry named [n] in front of others with other names. *)
Lemma one_more path n qs1 qs2 names :
  NoDup qs1 -> Forall (Forall step_name) qs1 -> step_name n ->
  NoDup qs2 -> Forall (Forall step_name) qs2 -> (forall q, In q qs2 -> exists m q', q = m :: q' /\ In m names) ->
  ~ In n names ->
  exists qs, at_path (path ++ [n]) qs1 ++ at_path path qs2 = at_path path qs /\ NoDup qs
    /\ Forall (Forall step_name) qs /\ forall q, In q qs -> exists m q', q = m :: q' /\ In m (n :: names).
Proof.
  intros N1 S1 Hn N2 S2 H2 Hni. exists (map (cons n) qs1 ++ qs2). split; [|split; [|split]].
  - unfold at_path. rewrite map_app, map_map. f_equal. apply map_ext. intros q. rewrite <- app_assoc. reflexivity.
  - apply NoDup_appi; [|exact N2|].
    + clear - N1. induction N1 as [|x l Hx _ IH]; cbn; constructor; [|exact IH].
      rewrite in_map_iff. intros (y & [= ->] & Hy). contradiction.
    + intros q Hq Hq2. apply in_map_iff in Hq as (q1 & <- & _). destruct (H2 _ Hq2) as (m & q' & [= -> _] & Hm). contradiction.
  - apply Forall_app. split; [|exact S2]. rewrite Forall_map. eapply Forall_impl; [|exact S1]. intros a Ha. constructor; assumption.
  - intros q Hq. apply in_app_or in Hq as [Hq|Hq].
    + apply in_map_iff in Hq as (q1 & <- & _). exists n, q1. split; [reflexivity|left; reflexivity].
    + destruct (H2 _ Hq) as (m & q' & -> & Hm). exists m, q'. split; [reflexivity|right; exact Hm].
Qed.

Lemma names_ok :
  (forall top path c os, entry_at get top path c os -> N_entry top path c os)
  /\ (forall path ls os, links_at get path ls os -> N_links path ls os)
  /\ (forall path ls os, shard_at get path ls os -> N_shard path ls os).
Proof.
  assert (CONS : forall (path : list bytes) (qs : list (list bytes)) P names,
     NoDup qs -> (forall q, In q qs -> exists n q', q = n :: q' /\ In n names) ->
     P = at_path path qs -> join path :: P = at_path path ([] :: qs) /\ NoDup ([] :: qs)).
  { intros path qs P names N H ->. split; [cbn; rewrite app_nil_r; reflexivity|]. constructor; [|exact N].
    intros Hi. destruct (H _ Hi) as (n & q' & E & _). discriminate. }
  apply walk_ind.
  - intros top path c b f os Hg Hf Ht Hc _ IH. destruct (HD _ _ _ Hg Hf) as [HN _].
    destruct (IH (HN Ht)) as (qs & E & N & S & H). exists qs.
    destruct (CONS path qs _ _ N H E) as [E' N']. split; [|split; assumption]. rewrite <- E'. destruct top; reflexivity.
  - intros top path c b f os Hg Hf Ht Hc _ IH. destruct (HD _ _ _ Hg Hf) as [_ HN].
    destruct IH as (names & Hnm & IH). destruct (IH (HN Ht names Hnm)) as (qs & E & N & S & H). exists qs.
    destruct (CONS path qs _ _ N H E) as [E' N']. split; [|split; assumption]. rewrite <- E'. reflexivity.
  - intros. exists []. split; [cbn; rewrite app_nil_r; reflexivity|]. split; [constructor; [intros []|constructor]|constructor].
  - intros. exists []. split; [cbn [entry_paths]; rewrite later_paths; cbn; rewrite app_nil_r; reflexivity|].
    split; [constructor; [intros []|constructor]|constructor].
  - intros. exists []. split; [cbn; rewrite app_nil_r; reflexivity|]. split; [constructor; [intros []|constructor]|constructor].
  - intros path _. exists []. split; [reflexivity|]. split; [constructor|]. split; [constructor|intros q []].
  - intros path l ls c os os' Hc Hn _ (qs1 & E1 & N1 & S1) _ IH HN. cbn [map] in HN. inversion HN as [|? ? Hni HN']; subst.
    destruct (IH HN') as (qs2 & E2 & N2 & S2 & H2).
    destruct (one_more path (link_name l) ([] :: qs1) qs2 _ N1 (Forall_cons _ (Forall_nil _) S1) Hn N2 S2 H2 Hni) as (qs & E & R).
    exists qs. split; [|exact R]. rewrite entry_paths_app, E1, E2. exact E.
  - intros path. exists []. split; [constructor|]. intros _. exists []. split; [reflexivity|]. split; [constructor|]. split; [constructor|intros q []].
  - intros path l ls c a b n os os' Hc En Hn Hco _ (qs1 & E1 & N1 & S1) _ (names & Hnm & IH).
    destruct n as [|x n]; [destruct Hn; congruence|]. exists ((x :: n) :: names). split; [eapply names_entry; eassumption|].
    intros HN. inversion HN as [|? ? Hni HN']; subst. destruct (IH HN') as (qs2 & E2 & N2 & S2 & H2).
    destruct (one_more path (x :: n) ([] :: qs1) qs2 _ N1 (Forall_cons _ (Forall_nil _) S1) Hn N2 S2 H2 Hni) as (qs & E & R).
    exists qs. split; [|exact R]. rewrite entry_paths_app, E1, E2. exact E.
  - intros path l ls c a b blk f os os' Hc En Hg Hf Ht Hsup _ (in_names & Hin & IHb) _ (names & Hnm & IH).
    exists (in_names ++ names). split; [eapply names_bucket; eassumption|]. intros HN.
    destruct (NoDup_appl _ _ HN) as (NA & NB & NC).
    destruct (IHb NA) as (qs1 & E1 & N1 & S1 & H1). destruct (IH NB) as (qs2 & E2 & N2 & S2 & H2).
    exists (qs1 ++ qs2). split; [|split; [|split]].
    + rewrite entry_paths_app. cbn [entry_paths]. rewrite E1, E2. unfold at_path. rewrite map_app. reflexivity.
    + apply NoDup_appi; [exact N1|exact N2|]. intros q Hq1 Hq2.
      destruct (H1 _ Hq1) as (m1 & q1 & -> & Hm1). destruct (H2 _ Hq2) as (m2 & q2 & [= -> _] & Hm2).
      apply (NC m2); assumption.
    + apply Forall_app. auto.
    + intros q Hq. apply in_app_or in Hq as [Hq|Hq].
      * destruct (H1 _ Hq) as (m1 & q1 & -> & Hm1). exists m1, q1. split; [reflexivity|apply in_or_app; auto].
      * destruct (H2 _ Hq) as (m1 & q1 & -> & Hm1). exists m1, q1. split; [reflexivity|apply in_or_app; auto].
Qed.

Lemma paths_nodup top path c os : Forall step_name path -> entry_at get top path c os -> NoDup (entry_paths os).
Proof.
  intros HP He. destruct (proj1 names_ok _ _ _ _ He) as (qs & -> & N & S).
  assert (S' : Forall (Forall step_name) ([] :: qs)) by (constructor; [constructor|exact S]).
  revert N S'. generalize ([] :: qs). clear - HP. intros l N S'. unfold at_path.
  induction N as [|x l Hx _ IH]; [constructor|]. cbn [map]. inversion S' as [|? ? Hs S2]; subst. constructor; [|apply IH; exact S2].
  rewrite in_map_iff. intros (y & E & Hy).
  assert (Hys : Forall step_name y) by (eapply Forall_forall in S2; eauto).
  apply (f_equal comps) in E. rewrite !comps_join in E by (apply Forall_app; auto). apply app_inv_head in E. subst y. contradiction.
Qed.
End Names.
