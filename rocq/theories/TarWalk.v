(** Lemmas: sizes of archives, and archives of walks over stored trees. *)
From Verif Require Import Base Wire WireProofs Cid Pb FileVisit IpfsPath PathSpec IpfsPathProofs StdPath Walk WalkSpec WalkProofs WalkNames Tar TarSpec TarFields TarPaths TarProofs.
Local Open Scope N_scope.

(** ** Sizes *)
Definition lent (t : helper) : Prop := lenh (t_header t) /\ lenh (t_long t).
Definition whole (b : bytes) : Prop := (length b mod 512 = 0)%nat.
Lemma whole_app a b : whole a -> whole b -> whole (a ++ b).
Proof. unfold whole. intros Ha Hb. rewrite app_length, Nat.add_mod, Ha, Hb by discriminate. reflexivity. Qed.
Lemma whole_header h : lenh h -> whole (header_bytes h).
Proof. intros H. unfold whole. rewrite header_length by exact H. reflexivity. Qed.
Lemma whole_padded b : whole (b ++ concat (pad (blen b))).
Proof.
  unfold whole. rewrite pad_bytes, app_length. unfold zeros. rewrite repeat_length.
  assert (R : blen b <= rounded (blen b)) by (rewrite rounded_pad; destruct (_ <? _); lia).
  replace (length b + N.to_nat (rounded (blen b) - blen b))%nat with (N.to_nat (rounded (blen b))) by (unfold blen in *; lia).
  unfold rounded. rewrite N2Nat.inj_mul. change (N.to_nat 512) with 512%nat. apply Nat.mod_mul. discriminate.
Qed.
Lemma set_cksum_len h : lenh h -> lenh (set_cksum h).
Proof. intros []. constructor; try assumption. cbn [set_cksum h_cksum]. rewrite octal_into_length; [assumption|]. intros E. rewrite E in *. discriminate. Qed.
Lemma set_size_len h v : lenh h -> lenh (set_size h v).
Proof. intros []. constructor; try assumption. cbn [set_size h_size]. rewrite num_into_length by lia. assumption. Qed.
Lemma set_type_len h v : lenh h -> lenh (set_type h v).
Proof. intros []. constructor; assumption. Qed.
Lemma set_name_len h v : lenh h -> length v = 100%nat -> lenh (set_name h v).
Proof. intros [] H. constructor; assumption. Qed.
Lemma set_link_len h v : lenh h -> length v = 100%nat -> lenh (set_link h v).
Proof. intros [] H. constructor; assumption. Qed.
Lemma set_metadata_len h m d : lenh h -> lenh (set_metadata h m d).
Proof.
  intros []. unfold set_metadata, set_mtime, set_mode. constructor; cbn [h_name h_mode h_uid h_gid h_size h_mtime h_cksum h_link]; try assumption.
  - rewrite octal_into_length; [assumption|]. intros E. rewrite E in *. discriminate.
  - rewrite num_into_length by lia. assumption.
Qed.
Lemma finish_len t type size m d t' b : lent t -> finish t type size m d = (t', b) -> lent t' /\ whole b.
Proof.
  intros [H1 H2]. unfold finish. set (h := set_cksum _). intros [= <- <-].
  assert (L : lenh h) by (apply set_cksum_len, set_metadata_len, set_type_len, set_size_len, H1).
  split; [split; assumption|apply whole_header, L].
Qed.
Lemma whole_long h data type : lenh h -> let l := set_cksum (set_type (set_size h (blen data + 1)) type) in
  lenh l /\ whole (concat ((header_bytes l ++ data ++ [0]) :: pad (blen data + 1))).
Proof.
  intros H l. assert (L : lenh l) by (apply set_cksum_len, set_type_len, set_size_len, H). split; [exact L|].
  cbn [concat]. rewrite <- app_assoc. apply whole_app; [apply whole_header, L|].
  replace (blen data + 1) with (blen (data ++ [0])) by (unfold blen; rewrite app_length; cbn [length]; lia). apply whole_padded.
Qed.
Lemma apply_name_len t p t' l : lent t -> apply_name t p = Ok (t', l) -> lent t' /\ whole (concat l).
Proof.
  intros [H1 H2]. unfold apply_name. assert (Q := copy_path_length false (h_name (t_header t)) p).
  destruct (copy_path false (h_name (t_header t)) p) as [s [|]]; cbn [fst] in Q.
  - intros [= <- <-]. split; [split; [|exact H2]|reflexivity]. apply set_name_len; [exact H1|]. destruct H1; congruence.
  - destruct (_ <? 100)%nat; [discriminate|]. assert (Q2 := copy_path_length false s (firstn 100 p)).
    destruct (copy_path false s (firstn 100 p)) as [s2 [|]]; [|discriminate]. cbn [fst] in Q2.
    destruct (whole_long (t_long t) p 76 H2) as [W1 W2]. cbn zeta in W1, W2. set (hl := set_cksum _) in *. intros [= <- <-].
    split; [split; [|exact W1]|exact W2]. apply set_name_len; [exact H1|]. destruct H1; congruence.
Qed.
Lemma put_walked_len t o t' l : lent t -> match o with OFile _ _ _ _ _ _ _ => False | _ => True end ->
  put_walked t o = Ok (t', l) -> lent t' /\ whole (concat l).
Proof.
  intros H Ho. assert (D : forall p m, apply_directory t p m = Ok (t', l) -> lent t' /\ whole (concat l)).
  { intros p m. unfold apply_directory. destruct (apply_name t p) as [[t1 l1]|?|] eqn:E; try discriminate.
    destruct (apply_name_len _ _ _ _ H E) as [H1 W1]. destruct (finish t1 53 0 m 493) as [t2 b] eqn:F. intros [= <- <-].
    destruct (finish_len _ _ _ _ _ _ _ H1 F) as [H2 W2]. split; [exact H2|]. rewrite concat_app. cbn [concat]. rewrite app_nil_r. apply whole_app; assumption. }
  destruct o as [c p|c p m|? ? ? ? ? ? ?|c p m|x c p m]; cbn [put_walked]; [intros [= <- <-]; split; [exact H|reflexivity]|apply D|contradiction|apply D|].
  destruct (utf8 x); [|discriminate]. unfold apply_symlink. destruct (apply_name t p) as [[t1 l1]|?|] eqn:E; try discriminate.
  destruct (apply_name_len _ _ _ _ H E) as [[H1 H1'] W1].
  assert (Q := copy_path_length true (h_link (t_header t1)) x). destruct (copy_path true (h_link (t_header t1)) x) as [s [|]]; cbn [fst] in Q.
  - destruct (finish _ 50 0 m 420) as [t2 b] eqn:F. intros [= <- <-]. apply finish_len in F as [H2 W2].
    + split; [exact H2|]. rewrite concat_app. cbn [concat]. rewrite app_nil_r. apply whole_app; assumption.
    + split; [|exact H1']. apply set_link_len; [exact H1|]. destruct H1; congruence.
  - destruct (_ <? 100)%nat; [discriminate|]. destruct (whole_long (t_long t1) x 75 H1') as [V1 V2]. cbn zeta in V1, V2.
    set (hk := set_cksum _) in *. destruct (finish _ 50 0 m 420) as [t2 b] eqn:F. intros [= <- <-]. apply finish_len in F as [H2 W2].
    + split; [exact H2|]. rewrite concat_app. apply whole_app; [exact W1|].
      change ((header_bytes hk ++ x ++ [0]) :: pad (blen x + 1) ++ [b]) with (((header_bytes hk ++ x ++ [0]) :: pad (blen x + 1)) ++ [b]).
      rewrite concat_app. apply whole_app; [exact V2|]. cbn [concat]. rewrite app_nil_r. exact W2.
    + split; [|exact V1]. apply set_link_len; [exact H1|]. destruct H1; congruence.
Qed.
Lemma tar_whole os : sized os -> forall t, lent t -> whole (concat (fst (tar t os))).
Proof.
  induction 1 as [|c p m segs os Hs _ IH|o os Ho _ IH]; intros t H.
  - reflexivity.
  - destruct (apply_file t p m (blen (concat segs))) as [[t' l0]|e|] eqn:E.
    + destruct (tar_file c p m (blen (concat segs)) segs Hs) as (l1 & E1 & E2). rewrite (E2 _ _ _ _ E). cbn [fst].
      unfold apply_file in E. destruct (apply_name t p) as [[t1 l2]|?|] eqn:E3; try discriminate.
      destruct (apply_name_len _ _ _ _ H E3) as [H1 W1]. destruct (finish t1 48 _ m 420) as [t2 b] eqn:F. injection E as <- <-.
      destruct (finish_len _ _ _ _ _ _ _ H1 F) as [H2 W2]. rewrite !concat_app. cbn [concat]. rewrite app_nil_r, E1.
      apply whole_app; [apply whole_app; assumption|]. apply whole_app; [apply whole_padded|apply IH, H2].
    + destruct segs as [|s [|s2 segs]]; [congruence| |];
        [change (file_report c p m (blen (concat [s])) [s]) with [OFile s true true c p m (blen (concat [s]))]
        |change (file_report c p m (blen (concat (s :: s2 :: segs))) (s :: s2 :: segs)) with
           (OFile s true false c p m (blen (concat (s :: s2 :: segs))) :: later_segments c p m (blen (concat (s :: s2 :: segs))) (s2 :: segs))];
        cbn [app tar put_walked]; rewrite E; reflexivity.
    + destruct segs as [|s [|s2 segs]]; [congruence| |];
        [change (file_report c p m (blen (concat [s])) [s]) with [OFile s true true c p m (blen (concat [s]))]
        |change (file_report c p m (blen (concat (s :: s2 :: segs))) (s :: s2 :: segs)) with
           (OFile s true false c p m (blen (concat (s :: s2 :: segs))) :: later_segments c p m (blen (concat (s :: s2 :: segs))) (s2 :: segs))];
        cbn [app tar put_walked]; rewrite E; reflexivity.
  - cbn [tar]. destruct (put_walked t o) as [[t' l]|e|] eqn:E; [|reflexivity|reflexivity].
    destruct (put_walked_len _ _ _ _ H Ho E) as [H1 W1]. specialize (IH t' H1). destruct (tar t' os) as [r e]. cbn [fst] in *.
    rewrite concat_app. apply whole_app; assumption.
Qed.
Lemma helper_new_len : lent helper_new.
Proof. destruct helper_new_wf as [H1 H2 _ _]. split; apply wfh_lenh; assumption. Qed.

(** Pieces are not empty and short. *)
Lemma pieces_small fuel : forall b, Forall (fun x => x <> [] /\ blen x <= 16384) (pieces fuel b).
Proof.
  induction fuel as [|fuel IH]; intros b; [constructor|]. destruct b as [|c b]; [constructor|]. cbn [pieces]. constructor; [|apply IH].
  split.
  - pose proof bufsize_pos. destruct bufsize; [lia|discriminate].
  - unfold blen. rewrite firstn_length. unfold bufsize. lia.
Qed.

(** ** Buckets leave no trace *)
Definition not_bucket (o : walked) : bool := match o with OBucket _ _ => false | _ => true end.
Lemma tar_filter os : forall t, tar t (filter not_bucket os) = tar t os.
Proof.
  induction os as [|o os IH]; intros t; [reflexivity|]. destruct o; cbn [filter not_bucket tar put_walked]; try (rewrite IH; destruct (tar t os); reflexivity).
  - destruct (apply_directory t path m) as [[]|?|]; [rewrite IH|reflexivity..]. reflexivity.
  - match goal with |- (match ?x with _ => _ end) = _ => destruct x as [[]|?|]; [rewrite IH|reflexivity..] end. reflexivity.
  - destruct (apply_directory t path m) as [[]|?|]; [rewrite IH|reflexivity..]. reflexivity.
  - destruct (if utf8 target then _ else _) as [[]|?|]; [rewrite IH|reflexivity..]. reflexivity.
Qed.
Lemma reported_filter os : forall l, snd (reported l os) = false -> filter not_bucket (fst (reported l os)) = filter not_bucket os.
Proof.
  induction os as [|o os IH]; intros l H; [reflexivity|]. destruct o; cbn [reported] in *.
  - destruct l as [rc| |]; [|discriminate|].
    + specialize (IH (AtRoot rc)). destruct (reported (AtRoot rc) os). exact (IH H).
    + specialize (IH Elsewhere). destruct (reported Elsewhere os). exact (IH H).
  - specialize (IH AfterDirectory). destruct (reported AfterDirectory os). cbn [filter not_bucket fst snd] in *. rewrite (IH H). reflexivity.
  - specialize (IH Elsewhere). destruct (reported Elsewhere os). cbn [filter not_bucket fst snd] in *. rewrite (IH H). reflexivity.
  - specialize (IH Elsewhere). destruct (reported Elsewhere os). cbn [filter not_bucket fst snd] in *. rewrite (IH H). reflexivity.
  - specialize (IH Elsewhere). destruct (reported Elsewhere os). cbn [filter not_bucket fst snd] in *. rewrite (IH H). reflexivity.
Qed.
Lemma tar_report t os : snd (walk_report os) = false -> tar t (fst (walk_report os)) = tar t os.
Proof.
  intros H. rewrite <- (tar_filter (fst (walk_report os))), <- (tar_filter os). f_equal.
  destruct os as [|o os]; [reflexivity|]. unfold walk_report in *. destruct o; try (apply reported_filter, H).
  assert (R := reported_filter os (AtRoot c)). destruct (reported (AtRoot c) os) as [u x]. cbn [fst snd filter not_bucket] in *. rewrite (R H). reflexivity.
Qed.

(** ** Stored trees *)
Section Stored.
  Variable get : cid -> option bytes.
  Hypothesis Hh : honest get.
  Lemma segments_loop v segs : segments get v segs -> exists fuel, visit_loop fuel get v = ReadOk (concat segs).
  Proof.
    induction 1 as [v c b x H1 H2 H3|v c b x v' rest H1 H2 H3 _ (fuel & IH)].
    - exists 1%nat. cbn. rewrite H1, H2, H3, app_nil_r. reflexivity.
    - exists (S fuel). cbn [visit_loop]. rewrite H1, H2, H3, IH. reflexivity.
  Qed.
  Lemma segments_some v segs : segments get v segs -> segs <> [].
  Proof. destruct 1; discriminate. Qed.
  Definition shown (os : list walked) : Prop :=
    Forall good_walked os -> exists es, forall os' es', shows os' es' -> shows (os ++ os') (es ++ es').
  Lemma shown_app a b : shown a -> shown b -> shown (a ++ b).
  Proof.
    intros Ha Hb H. apply Forall_app in H as [H1 H2]. destruct (Ha H1) as (ea & Ea). destruct (Hb H2) as (eb & Eb).
    exists (ea ++ eb). intros os' es' S. rewrite <- !app_assoc. apply Ea, Eb, S.
  Qed.
  Lemma shown_dir (top : bool) c p m : shown [if top then ORootDirectory c p m else ODirectory c p m].
  Proof.
    intros H. inversion H as [|? ? G _]; subst. assert (G' : good_path p /\ fits (mtime_of m)) by (destruct top; exact G).
    eexists [_]. intros os' es' S. cbn [app]. apply shows_directory; tauto || exact S.
  Qed.
  Lemma tree_shown :
    (forall top path c os, entry_at get top path c os -> shown os) /\
    (forall path ls os, links_at get path ls os -> shown os) /\
    (forall path ls os, shard_at get path ls os -> shown os).
  Proof.
    apply (walk_ind get (fun top path c os _ => shown os) (fun path ls os _ => shown os) (fun path ls os _ => shown os)).
    - intros top path c b f os _ _ _ _ _ IH. apply (shown_app [_] os); [apply shown_dir|exact IH].
    - intros top path c b f os _ _ _ _ _ IH. apply (shown_app [_] os); [apply (shown_dir true)|exact IH].
    - intros top path c b f x size m Hg _ _ Hv H. inversion H as [|? ? G _]; subst. destruct G as (G1 & G2 & G3).
      assert (E : size = blen x).
      { apply (Hh c b x size m None 0%nat x Hg Hv). unfold read_file. rewrite Hg, Hv. reflexivity. }
      eexists [_]. intros os' es' S. cbn [app]. subst size.
      assert (Ex : x = concat [x]) by (cbn; symmetry; apply app_nil_r).
      assert (F : shows (file_report c (join path) m (blen (concat [x])) [x] ++ os') (mk_entry (join path) (File (concat [x])) (mode_of m 420) (mtime_of m) :: es')).
      { apply shows_file; try assumption; [discriminate|]. rewrite <- Ex. exact G3. }
      rewrite <- Ex in F. exact F.
    - intros top path c b f x size m v segs Hg _ _ Hv Hs H. inversion H as [|? ? G _]; subst. destruct G as (G1 & G2 & G3).
      assert (E : size = blen (concat (x :: segs))).
      { destruct (segments_loop v segs Hs) as (fuel & L). apply (Hh c b x size m (Some v) fuel _ Hg Hv). unfold read_file. rewrite Hg, Hv, L. reflexivity. }
      eexists [_]. intros os' es' S.
      assert (F : shows (file_report c (join path) m (blen (concat (x :: segs))) (x :: segs) ++ os') (mk_entry (join path) (File (concat (x :: segs))) (mode_of m 420) (mtime_of m) :: es')).
      { apply shows_file; try assumption; [discriminate|]. rewrite <- E. exact G3. }
      rewrite <- E in F. assert (Hn := segments_some _ _ Hs). destruct segs as [|s2 segs]; [congruence|]. exact F.
    - intros top path c b f _ _ _ H. inversion H as [|? ? G _]; subst. destruct G as (G1 & G2 & G3 & G4). eexists [_]. intros os' es' S. cbn [app].
      apply shows_symlink; assumption.
    - intros path _. exists []. intros os' es' S. exact S.
    - intros path l ls c os os' _ _ _ IH1 _ IH2. apply shown_app; assumption.
    - intros path _. exists []. intros os' es' S. exact S.
    - intros path l ls c a b n os os' _ _ _ _ _ IH1 _ IH2. apply shown_app; assumption.
    - intros path l ls c a b blk f os os' _ _ _ _ _ _ _ IH1 _ IH2. apply shown_app; [|exact IH2]. apply (shown_app [_] os); [|exact IH1].
      intros _. exists []. intros os2 es2 S. apply shows_bucket, S.
  Qed.
End Stored.
