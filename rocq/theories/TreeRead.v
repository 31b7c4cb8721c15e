(** Reading the built blocks back, and the reported paths. *)
From Coq Require Import Permutation.
From Verif Require Import Base Wire WireProofs Cid CidProofs Pb PbProofs FileVisit BTree FMap IpfsPath PathSpec IpfsPathProofs DirLookup DirSpec DirLookupProofs
  TreeBuilder TreeSpec TreeBuilderProofs TreeIter TreeIterSpec TreeIterProofs TreeIterMain TreeOutSpec TreeOut.
Local Open Scope N_scope.

(** * Names are valid UTF-8 *)
Lemma utf8_n_mono f : forall s, utf8_n f s = true -> utf8_n (S f) s = true.
Proof.
  induction f as [|f IH]; intros s H.
  - destruct s; [reflexivity|discriminate].
  - destruct s as [|b r]; [reflexivity|]. cbn [utf8_n] in H |- *.
    destruct (b <? 128); [apply (IH r H)|].
    destruct ((194 <=? b) && (b <=? 223)).
    { destruct r as [|c1 r]; [discriminate|]. apply andb_true_iff in H as [H1 H2]. apply andb_true_iff. split; [exact H1|apply (IH r H2)]. }
    destruct ((224 <=? b) && (b <=? 239)).
    { destruct r as [|c1 [|c2 r]]; [discriminate|discriminate|]. apply andb_true_iff in H as [H1 H2]. apply andb_true_iff. split; [exact H1|apply (IH r H2)]. }
    destruct ((240 <=? b) && (b <=? 244)); [|discriminate].
    destruct r as [|c1 [|c2 [|c3 r]]]; [discriminate|discriminate|discriminate|]. apply andb_true_iff in H as [H1 H2]. apply andb_true_iff. split; [exact H1|apply (IH r H2)].
Qed.
Lemma utf8_n_le f g s : (f <= g)%nat -> utf8_n f s = true -> utf8_n g s = true.
Proof. intros H Hs. induction H; [exact Hs|apply utf8_n_mono; assumption]. Qed.

Lemma utf8_split f : forall s, utf8_n f s = true -> Forall (fun x => utf8 x = true) (split_slash s).
Proof.
  induction f as [|f IH]; intros s H.
  { destruct s; [repeat constructor|discriminate]. }
  destruct s as [|b r]; [repeat constructor|].
  assert (Hcont : forall c, cont c = true -> c =? 47 = false) by (unfold cont; intros c Hc; lia).
  cbn [utf8_n] in H. cbn [split_slash]. destruct (b =? 47) eqn:E47.
  - destruct (b <? 128) eqn:E; [|lia]. constructor; [reflexivity|apply IH; exact H].
  - destruct (b <? 128) eqn:E1.
    { specialize (IH r H). destruct (split_slash r) as [|x l]; [repeat constructor; unfold utf8; cbn; rewrite E1; reflexivity|].
      inversion IH; subst. constructor; [|assumption]. unfold utf8 in *. cbn [length utf8_n]. rewrite E1. assumption. }
    destruct ((194 <=? b) && (b <=? 223)) eqn:E2.
    { destruct r as [|c1 r]; [discriminate|]. apply andb_true_iff in H as [H1 H2]. specialize (IH r H2). cbn [split_slash]. rewrite (Hcont c1 H1).
      destruct (split_slash r) as [|x l]; [repeat constructor; unfold utf8; cbn; rewrite E1, E2, H1; reflexivity|].
      inversion IH; subst. constructor; [|assumption]. unfold utf8 in *. cbn [length utf8_n]. rewrite E1, E2, H1. cbn [andb].
      apply (utf8_n_le (length x) (S (length x)) x); [lia|assumption]. }
    destruct ((224 <=? b) && (b <=? 239)) eqn:E3.
    { destruct r as [|c1 [|c2 r]]; [discriminate|discriminate|]. apply andb_true_iff in H as [H1 H2]. specialize (IH r H2).
      assert (Hc1 : cont c1 = true) by (destruct (cont c1); [reflexivity|discriminate]). assert (Hc2 : cont c2 = true) by (destruct (cont c1), (cont c2); [reflexivity|discriminate..]).
      cbn [split_slash]. rewrite (Hcont c1 Hc1), (Hcont c2 Hc2).
      destruct (split_slash r) as [|x l].
      - constructor; [|constructor]. unfold utf8. cbn [length utf8_n]. rewrite E1, E2, E3, H1. reflexivity.
      - inversion IH; subst. constructor; [|assumption]. unfold utf8 in *. cbn [length utf8_n]. rewrite E1, E2, E3, H1. cbn [andb]. apply (utf8_n_le (length x) (S (S (length x))) x); [lia|assumption]. }
    destruct ((240 <=? b) && (b <=? 244)) eqn:E4; [|discriminate].
    destruct r as [|c1 [|c2 [|c3 r]]]; [discriminate|discriminate|discriminate|]. apply andb_true_iff in H as [H1 H2]. specialize (IH r H2).
    assert (Hc1 : cont c1 = true) by (destruct (cont c1); [reflexivity|discriminate]). assert (Hc2 : cont c2 = true) by (destruct (cont c1), (cont c2); [reflexivity|discriminate..]).
    assert (Hc3 : cont c3 = true) by (destruct (cont c1), (cont c2), (cont c3); [reflexivity|discriminate..]).
    cbn [split_slash]. rewrite (Hcont c1 Hc1), (Hcont c2 Hc2), (Hcont c3 Hc3).
    destruct (split_slash r) as [|x l].
    + constructor; [|constructor]. unfold utf8. cbn [length utf8_n]. rewrite E1, E2, E3, E4, H1. reflexivity.
    + inversion IH; subst. constructor; [|assumption]. unfold utf8 in *. cbn [length utf8_n]. rewrite E1, E2, E3, E4, H1. cbn [andb]. apply (utf8_n_le (length x) (S (S (S (length x)))) x); [lia|assumption].
Qed.

(** * A path of a directory or a link is the beginning of the path of a call *)
Lemma dir_at_call h q : dir_at h q = true -> exists c r, In c h /\ split_slash (call_path c) = q ++ r.
Proof.
  unfold dir_at. intros H. apply existsb_exists in H as (c & H1 & H2). exists c.
  assert (Hp : seg_prefix q (split_slash (call_path c)) = true).
  { destruct c as [p c s|p md]; cbn [makes_dir call_path] in *; [|exact H2]. unfold proper_prefix in H2. apply andb_true_iff in H2 as [H2 _]. exact H2. }
  apply seg_prefix_spec in Hp as [r Hr]. exists r. auto.
Qed.
Lemma link_at_call h q c s : link_at h q = Some (c, s) -> exists p, In (PutLink p c s) h /\ split_slash p = q.
Proof.
  intros H. apply link_at_in in H. unfold puts_of in H. apply in_flat_map in H as (k & Hk & Hin). destruct k as [p c2 s2|]; [|destruct Hin].
  destruct Hin as [[= <- -> ->]|[]]. exists p. auto.
Qed.

Section Read.
Variable sha : bytes -> bytes.
Hypothesis sha_wf : forall b, wf_cid (CidV0 (sha b)).

Lemma entry_facts wrap h dirs q es n c s : built sha wrap h dirs -> Forall call_wf h -> Forall (fun c => utf8 (call_path c) = true) h ->
  In (q, es) dirs -> In (n, (c, s)) es -> wf_cid c /\ utf8 n = true.
Proof.
  intros (B1 & _ & B3 & _) Hw Hu Hd He. destruct (B3 q es Hd) as [_ B]. apply B in He as [Hl|(sub & Hs & -> & ->)].
  - apply link_at_call in Hl as (p & Hp & E). rewrite Forall_forall in Hw, Hu. split; [exact (Hw _ Hp)|].
    specialize (Hu _ Hp). cbn [call_path] in Hu. pose proof (utf8_split _ _ Hu) as F. rewrite E in F. apply Forall_app in F as [_ F]. inversion F. assumption.
  - split; [apply sha_wf|]. assert (Hin : In (q ++ [n]) (map fst dirs)) by (apply in_map_iff; exists (q ++ [n], sub); auto).
    apply B1 in Hin. assert (Hda : dir_at h (q ++ [n]) = true) by (destruct q; exact Hin).
    apply dir_at_call in Hda as (k & r & Hk & E). rewrite Forall_forall in Hu. specialize (Hu _ Hk). pose proof (utf8_split _ _ Hu) as F. rewrite E in F.
    apply Forall_app in F as [F _]. apply Forall_app in F as [_ F]. inversion F. assumption.
Qed.

Lemma block_wf es : Forall (fun e => wf_cid (fst (snd e)) /\ utf8 (fst e) = true) es -> blen (dir_block es) < u32_max1 -> dir_total es < u64_max1 ->
  wf_flat (mk_flat (map dir_link es) (mk_unixfs TDirectory None None [] None None None None)).
Proof.
  intros Hf Hb Ht.
  assert (Hs : Forall (fun e => snd (snd e) < u64_max1) es).
  { apply Forall_forall. intros e He. pose proof (sumN_in (map (fun e => snd (snd e)) es) (snd (snd e)) (in_map (fun e : bytes * (cid * N) => snd (snd e)) es e He)).
    unfold dir_total in Ht. lia. }
  split; [|split; [repeat split; constructor|vm_compute; reflexivity]]. cbn [f_links]. apply Forall_forall. intros l Hl. apply in_map_iff in Hl as (e & <- & He).
    rewrite Forall_forall in Hf, Hs. specialize (Hf e He). specialize (Hs e He). destruct Hf as [Hc Hu].
    assert (Hle : blen (pblink_write (dir_link e)) <= blen (dir_block es)).
    { unfold dir_block, flat_write. clear - He. cbn [f_links]. rewrite blen_app.
      enough (blen (pblink_write (dir_link e)) <= blen (concat (map (fun l => w_msg 18 (pblink_size l) (pblink_write l)) (map dir_link es)))) by lia.
      induction es as [|e0 es IH]; [destruct He|]. cbn [map concat]. rewrite blen_app. destruct He as [->|He]; [|specialize (IH He); lia].
      pose proof (blen_w_msg_ge 18 (pblink_size (dir_link e)) (pblink_write (dir_link e))). lia. }
    assert (Hsz : blen (pblink_write (dir_link e)) = pblink_size (dir_link e)).
    { pose proof (pblink_parts_le e) as [P1 P2]. apply pblink_size_bound; try assumption; unfold u32_max1, u64_max1 in *; lia. }
    split; [rewrite <- Hsz; lia|]. split; [exact Hu|exact Hs].
Qed.
Lemma block_links es : Forall (fun e => wf_cid (fst (snd e)) /\ utf8 (fst e) = true) es -> blen (dir_block es) < u32_max1 -> dir_total es < u64_max1 ->
  plain_dir (dir_block es) (map dir_link es).
Proof.
  intros Hf Hb Ht. pose proof (block_wf es Hf Hb Ht) as Hw.
  pose proof (flat_node_read _ Hw) as Hn. eexists. split; [exact Hn|]. split; [reflexivity|]. cbn [n_data f_data].
  destruct (unixfs_write_nonempty (mk_unixfs TDirectory None None [] None None None None)) as (b & d & E). rewrite E. rewrite <- E.
  destruct Hw as (_ & Hu & _). cbn [f_data] in Hu. rewrite (unixfs_roundtrip _ Hu). repeat split; auto.
Qed.

Lemma read_back es name ca c : Forall (fun e => wf_cid (fst (snd e)) /\ utf8 (fst e) = true) es -> blen (dir_block es) < u32_max1 -> dir_total es < u64_max1 ->
  bt_sorted es ->
  (resolve (dir_block es) name ca = Ok (Found c, ca) <-> exists s, In (name, (c, s)) es) /\
  (resolve (dir_block es) name ca = Ok (NotFound, ca) <-> forall x, ~ In (name, x) es).
Proof.
  intros Hf Hb Ht Hs. rewrite (plain_dir_resolve _ _ name ca (block_links es Hf Hb Ht)). pose proof (find_link_spec (map dir_link es) name) as HF.
  assert (Hnth : forall i l, nth_error (map dir_link es) i = Some l -> link_name l = name -> exists c s, nth_error es i = Some (name, (c, s)) /\ link_cid l = Some c).
  { intros i l Hi Hl. rewrite nth_error_map in Hi. destruct (nth_error es i) as [[n [c0 s0]]|] eqn:E; [|discriminate]. injection Hi as <-. cbn in Hl. subst n.
    exists c0, s0. split; [reflexivity|]. apply nth_error_In in E. rewrite Forall_forall in Hf. destruct (Hf _ E) as [Hc _]. apply cid_roundtrip. exact Hc. }
  assert (Huniq : forall i j x y, nth_error es i = Some (name, x) -> nth_error es j = Some (name, y) -> i = j /\ x = y).
  { intros i j x y Hi Hj. pose proof (bt_sorted_nodup es Hs) as Hn. assert (i = j).
    { eapply (proj1 (NoDup_nth_error (map fst es)) Hn); [apply nth_error_Some; rewrite nth_error_map, Hi; discriminate|]. rewrite !nth_error_map, Hi, Hj. reflexivity. }
    subst j. split; [reflexivity|congruence]. }
  destruct (find_link (map dir_link es) name) as [[d|q|]|e|]; try contradiction.
  - destruct HF as (i & l & (H1 & H2 & H3) & Hc). destruct (Hnth i l H1 H2) as (c0 & s0 & E & Hc0). assert (c0 = d) by congruence. subst c0. split.
    + split.
      * intros [= <-]. exists s0. eapply nth_error_In; exact E.
      * intros [s Hin]. apply In_nth_error in Hin as [j Hj]. destruct (Huniq _ _ _ _ E Hj) as [_ Ex]. congruence.
    + split; [discriminate|]. intros Hno. exfalso. eapply Hno. eapply nth_error_In; exact E.
  - split.
    + split; [discriminate|]. intros [s Hin]. exfalso. apply (HF (dir_link (name, (c, s)))); [apply in_map; exact Hin|reflexivity].
    + split; [|reflexivity]. intros _ x Hin. apply (HF (dir_link (name, x))); [apply in_map; exact Hin|reflexivity].
  - exfalso. destruct e as [a c0 b o|a|t| |r]; try contradiction.
    + destruct HF as (Hne & l1 & l2 & N1 & N2 & E1 & E2 & _). destruct (Hnth _ _ N1 E1) as (? & ? & X1 & _). destruct (Hnth _ _ N2 E2) as (? & ? & X2 & _).
      destruct (Huniq _ _ _ _ X1 X2). contradiction.
    + destruct HF as (l1 & N1 & E1 & Ec). destruct (Hnth _ _ N1 E1) as (? & ? & _ & X). congruence.
Qed.
End Read.

(** * Paths *)
Lemma split_joined q : q <> [] -> Forall plain q -> split_slash (join q) = q.
Proof.
  intros Hne Hp. destruct q as [|x l]; [contradiction|]. inversion Hp; subst.
  replace (join (x :: l)) with (x ++ slashed l); [apply split_slashed; assumption|]. clear. revert x. induction l as [|y l IH]; intros x; [cbn; apply app_nil_r|].
  change (join (x :: y :: l)) with (x ++ 47 :: join (y :: l)). rewrite <- IH. reflexivity.
Qed.
Lemma prefix_plain h q : dir_at h q = true -> Forall plain q.
Proof.
  intros H. apply dir_at_call in H as (c & r & _ & E). pose proof (split_plain_all (call_path c)) as F. rewrite E in F. apply Forall_app in F. tauto.
Qed.

Lemma accept_no_slash wrap l : forall h, Forall (fun c => starts_with_slash (call_path c) = false) h -> Forall (fun c => starts_with_slash (call_path c) = false) (fst (accept wrap h l)).
Proof.
  induction l as [|c l IH]; intros h Hh; [exact Hh|]. cbn [accept]. specialize (IH (match verdict wrap h c with Ok _ => c :: h | _ => h end)).
  destruct (accept wrap _ l) as [h' vs]. cbn [fst] in *. apply IH. clear IH. destruct (verdict wrap h c) as [u|e|] eqn:Ev; [|exact Hh|exact Hh].
  constructor; [|exact Hh]. unfold verdict in Ev. destruct (ends_in_slash _); [discriminate|]. destruct (repeats_slash _); [discriminate|]. destruct (starts_with_slash _); [discriminate|reflexivity].
Qed.

Lemma dir_paths_distinct sha wrap h dirs : built sha wrap h dirs -> Forall (fun c => starts_with_slash (call_path c) = false) h ->
  (forall c, In c h -> call_path c <> []) -> NoDup (map (fun d => join (fst d)) dirs).
Proof.
  intros (B1 & B2 & _) Hs Hne. rewrite <- map_map.
  assert (Hinj : forall a b, In a (map fst dirs) -> In b (map fst dirs) -> join a = join b -> a = b).
  { assert (Hcase : forall a, In a (map fst dirs) -> a = [] \/ (split_slash (join a) = a /\ join a <> [])).
    { intros a Ha. apply B1 in Ha. destruct a as [|x a]; [left; reflexivity|right]. cbn [is_dir] in Ha.
      assert (E : split_slash (join (x :: a)) = x :: a) by (apply split_joined; [discriminate|eapply prefix_plain; exact Ha]). split; [exact E|].
      intros E0. rewrite E0 in E. injection E as <- <-. apply dir_at_call in Ha as (c & r & Hc & Ec). rewrite Forall_forall in Hs. specialize (Hs c Hc).
      cbn [app] in Ec. destruct r as [|y r].
      - apply (Hne c Hc). destruct (split_inv (call_path c)) as (x0 & l0 & E1 & E2 & _). rewrite E1 in Ec. injection Ec as -> ->. exact E2.
      - apply split_head_empty in Ec as [z Ez]. rewrite Ez in Hs. discriminate. }
    intros a b Ha Hb E. destruct (Hcase a Ha) as [->|[Ea Na]], (Hcase b Hb) as [->|[Eb Nb]]; try congruence; cbn in E; congruence. }
  clear B1. induction (map fst dirs) as [|a l IH]; [constructor|]. inversion B2; subst. cbn [map]. constructor.
  - intros Hin. apply in_map_iff in Hin as (b & E & Hb). apply H1. rewrite (Hinj a b); [exact Hb|left; reflexivity|right; exact Hb|symmetry; exact E].
  - apply IH; [assumption|]. intros x y Hx Hy. apply Hinj; right; assumption.
Qed.
