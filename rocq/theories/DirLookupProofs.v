From Coq Require Import Permutation.
From Verif Require Import Base Wire Cid Pb DirLookup DirSpec.
Local Open Scope N_scope.

(** * Plain directories *)
Lemma plain_dir_resolve block links needle ca : plain_dir block links ->
  resolve block needle ca = match find_link links needle with Ok m => Ok (m, ca) | Err e => Err (Lookup e) | Panic => Panic end.
Proof.
  intros (n & Hn & -> & H). unfold resolve, flat_parse. rewrite Hn. destruct (n_data n) as [[|b d]|]; try reflexivity.
  destruct (unixfs_read (b :: d)) as [u|]; [|reflexivity]. destruct H as (Ht & H1 & H2 & H3 & H4 & H5).
  cbn [f_data f_links]. rewrite Ht. unfold check_directory_supported. rewrite H1, H2, H3, H4. destruct H5 as [->| ->]; reflexivity.
Qed.
Lemma matching_in links needle : forall i k l, In (k, l) (matching i links needle) <->
  (i <= k)%nat /\ nth_error links (k - i) = Some l /\ link_name l = needle.
Proof.
  induction links as [|x r IH]; intros i k l; cbn [matching].
  - split; [intros []|]. intros (_ & H & _). destruct (k - i)%nat; discriminate.
  - assert (Hr : In (k, l) (matching (S i) r needle) <-> (S i <= k)%nat /\ nth_error (x :: r) (k - i) = Some l /\ link_name l = needle).
    { rewrite IH. split.
      - intros (H1 & H2 & H3). repeat split; auto. replace (k - i)%nat with (S (k - S i)) by lia. exact H2.
      - intros (H1 & H2 & H3). repeat split; auto. replace (k - i)%nat with (S (k - S i)) in H2 by lia. exact H2. }
    destruct (beq_spec (link_name x) needle) as [E|E].
    + cbn [In]. rewrite Hr. split.
      * intros [[= <- <-]|(H1 & H2 & H3)]; [rewrite Nat.sub_diag; auto|]. split; [lia|auto].
      * intros (H1 & H2 & H3). destruct (Nat.eq_dec k i) as [->|]; [left; rewrite Nat.sub_diag in H2; injection H2 as <-; reflexivity|].
        right. repeat split; auto. lia.
    + rewrite Hr. split; [intros (H1 & H2 & H3); split; [lia|auto]|]. intros (H1 & H2 & H3). repeat split; auto.
      destruct (Nat.eq_dec k i) as [->|]; [rewrite Nat.sub_diag in H2; injection H2 as <-; congruence|lia].
Qed.
Lemma matching_sorted links needle : forall i, (forall k l, In (k, l) (matching i links needle) -> (i <= k)%nat) /\
  NoDup (map fst (matching i links needle)).
Proof.
  induction links as [|x r IH]; intros i; cbn [matching]; [split; [intros ? ? []|constructor]|].
  destruct (IH (S i)) as [H1 H2]. destruct (beq (link_name x) needle); [|split; [intros k l H; apply H1 in H; lia|exact H2]].
  split; [intros k l [[= <- <-]|H]; [lia|apply H1 in H; lia]|]. cbn [map fst]. constructor; [|exact H2].
  rewrite in_map_iff. intros [[k l] [E H]]. apply H1 in H. cbn in E. lia.
Qed.
Lemma find_link_spec links needle :
  match find_link links needle with
  | Ok (Found c) => exists i l, only_named links needle i l /\ link_cid l = Some c
  | Ok NotFound => forall l, In l links -> link_name l <> needle
  | Ok (NeedToLoadMore _) => False
  | Err (InvalidCid i) => exists l, nth_error links i = Some l /\ link_name l = needle /\ link_cid l = None
  | Err (Multiple i c j o) => i <> j /\ exists l l', nth_error links i = Some l /\ nth_error links j = Some l' /\
      link_name l = needle /\ link_name l' = needle /\ link_cid l = Some c /\ link_cid l' = o
  | Err _ => False
  | Panic => False
  end.
Proof.
  unfold find_link. pose proof (matching_in links needle 0) as Hin. pose proof (proj2 (matching_sorted links needle 0)) as Hnd.
  destruct (matching 0 links needle) as [|[i l] r].
  - intros l Hl E. apply In_nth_error in Hl as [k Hk]. apply (Hin k l). rewrite Nat.sub_0_r. split; [lia|auto].
  - assert (Hi : nth_error links i = Some l /\ link_name l = needle).
    { destruct (proj1 (Hin i l) (or_introl eq_refl)) as (_ & H & H'). rewrite Nat.sub_0_r in H. auto. }
    destruct (link_cid l) as [c|] eqn:Ec; [|exists l; tauto].
    destruct r as [|[j l2] r].
    + exists i, l. split; [|exact Ec]. split; [tauto|]. split; [tauto|]. intros j l' Hj En.
      destruct (proj2 (Hin j l')) as [[= -> ->]|[]]; [|reflexivity]. rewrite Nat.sub_0_r. split; [lia|auto].
    + destruct (proj1 (Hin j l2) (or_intror (or_introl eq_refl))) as (_ & H & H'). rewrite Nat.sub_0_r in H.
      split; [intros ->; inversion Hnd as [|? ? X]; apply X; left; reflexivity|]. exists l, l2. tauto.
Qed.

(** * Shards *)
Lemma shard_parse b links : shard b links <-> exists f, flat_parse b = inl f /\ f_links f = links /\ u_type (f_data f) = THAMTShard /\ check_supported (f_data f) = true.
Proof.
  unfold flat_parse. split.
  - intros (n & d & u & Hn & -> & Hd & Hne & Hu & Ht & Hf & Hh & Hs & Hb). rewrite Hn, Hd. destruct d as [|x d]; [congruence|]. rewrite Hu.
    exists (mk_flat (n_links n) u). repeat split; auto. unfold check_supported. cbn [f_data]. rewrite Hf, Hh, Hs, Hb. reflexivity.
  - intros (f & Hp & <- & Ht & Hc). destruct (pbnode_read b) as [n|] eqn:Hpb; [|discriminate].
    destruct (n_data n) as [[|x d]|] eqn:Hd; try discriminate. destruct (unixfs_read (x :: d)) as [u|] eqn:Hu; [|discriminate].
    injection Hp as <-. cbn [f_links f_data] in *. exists n, (x :: d), u. unfold check_supported in Hc.
    destruct (u_fanout u) as [fo|] eqn:E1, (u_hashtype u) as [ht|] eqn:E2, (u_filesize u) eqn:E3, (u_blocksizes u) eqn:E4; try discriminate.
    apply andb_prop in Hc as [H1 H2]. apply N.eqb_eq in H1. apply N.eqb_eq in H2. subst fo ht.
    assert (x :: d <> []) by discriminate. repeat (split; [first [reflexivity|assumption]|]). first [reflexivity|assumption].
Qed.

Definition buckets (links : list pblink) : list pblink := filter (fun l => (length (link_name l) =? 2)%nat) links.
Definition cuttable (l : pblink) : Prop := ~ uncuttable l.

Lemma partition_spec needle links : forall i found work cs,
  map link_cid (buckets links) = map Some cs ->
  match partition i links needle found work with
  | Ok (r, w) => w = work ++ cs /\ (forall l, In l links -> cuttable l) /\
      match r with
      | None => found = None /\ (forall l, In l links -> ~ entry_named needle l)
      | Some c =>
          (exists k, found = Some (k, c) /\ forall l, In l links -> ~ entry_named needle l) \/
          (found = None /\ exists k l, nth_error links k = Some l /\ entry_named needle l /\ link_cid l = Some c /\
             forall j l', nth_error links j = Some l' -> entry_named needle l' -> j = k)
      end
  | Err (InvalidCid k) => found = None /\ exists l, (i <= k)%nat /\ nth_error links (k - i) = Some l /\ entry_named needle l /\ link_cid l = None
  | Err (Multiple k c j o) => k = k /\ exists l, (i <= j)%nat /\ nth_error links (j - i) = Some l /\ entry_named needle l /\
      (found = Some (k, c) \/ exists l', (i <= k)%nat /\ nth_error links (k - i) = Some l' /\ entry_named needle l' /\ link_cid l' = Some c /\ (k < j)%nat)
  | Err _ => False
  | Panic => exists l, In l links /\ uncuttable l
  end.
Proof.
  induction links as [|x r IH]; intros i found work cs Hcs.
  - destruct cs; [|discriminate]. cbn [partition]. rewrite app_nil_r. split; [reflexivity|]. split; [intros l []|].
    destruct found as [[k c]|]; cbn [option_map snd]; [left; exists k; split; [reflexivity|intros l []]|]. split; [reflexivity|intros l []].
  - assert (Hlift : forall o, ~ uncuttable x -> ~ entry_named needle x ->
      forall f w cs', found = f -> match o with
      | Ok (r0, w0) => w0 = w ++ cs' /\ (forall l, In l r -> cuttable l) /\
          match r0 with
          | None => f = None /\ (forall l, In l r -> ~ entry_named needle l)
          | Some c =>
              (exists k, f = Some (k, c) /\ forall l, In l r -> ~ entry_named needle l) \/
              (f = None /\ exists k l, nth_error r k = Some l /\ entry_named needle l /\ link_cid l = Some c /\
                 forall j l', nth_error r j = Some l' -> entry_named needle l' -> j = k)
          end
      | Err (InvalidCid k) => f = None /\ exists l, (S i <= k)%nat /\ nth_error r (k - S i) = Some l /\ entry_named needle l /\ link_cid l = None
      | Err (Multiple k c j o) => k = k /\ exists l, (S i <= j)%nat /\ nth_error r (j - S i) = Some l /\ entry_named needle l /\
          (f = Some (k, c) \/ exists l', (S i <= k)%nat /\ nth_error r (k - S i) = Some l' /\ entry_named needle l' /\ link_cid l' = Some c /\ (k < j)%nat)
      | Err _ => False
      | Panic => exists l, In l r /\ uncuttable l
      end ->
      w ++ cs' = work ++ cs ->
      match o with
      | Ok (r0, w0) => w0 = work ++ cs /\ (forall l, In l (x :: r) -> cuttable l) /\
          match r0 with
          | None => found = None /\ (forall l, In l (x :: r) -> ~ entry_named needle l)
          | Some c =>
              (exists k, found = Some (k, c) /\ forall l, In l (x :: r) -> ~ entry_named needle l) \/
              (found = None /\ exists k l, nth_error (x :: r) k = Some l /\ entry_named needle l /\ link_cid l = Some c /\
                 forall j l', nth_error (x :: r) j = Some l' -> entry_named needle l' -> j = k)
          end
      | Err (InvalidCid k) => found = None /\ exists l, (i <= k)%nat /\ nth_error (x :: r) (k - i) = Some l /\ entry_named needle l /\ link_cid l = None
      | Err (Multiple k c j o) => k = k /\ exists l, (i <= j)%nat /\ nth_error (x :: r) (j - i) = Some l /\ entry_named needle l /\
          (found = Some (k, c) \/ exists l', (i <= k)%nat /\ nth_error (x :: r) (k - i) = Some l' /\ entry_named needle l' /\ link_cid l' = Some c /\ (k < j)%nat)
      | Err _ => False
      | Panic => exists l, In l (x :: r) /\ uncuttable l
      end).
    { intros o Hc He f w cs' <- H Ew.
      assert (Hnth : forall k l, (S i <= k)%nat -> nth_error r (k - S i) = Some l -> nth_error (x :: r) (k - i) = Some l).
      { intros k l Hk H0. replace (k - i)%nat with (S (k - S i)) by lia. exact H0. }
      destruct o as [[r0 w0]|e|].
      - destruct H as (-> & H2 & H3). split; [exact Ew|]. split; [intros l [<-|Hl]; [exact Hc|apply H2; exact Hl]|].
        destruct r0 as [c|].
        + destruct H3 as [(k & E & H3)|(E & k & l & H3 & H4 & H5 & H6)].
          * left. exists k. split; [exact E|]. intros l [<-|Hl]; [exact He|apply H3; exact Hl].
          * right. split; [exact E|]. exists (S k), l. repeat split; auto. intros [|j] l' Hj Hj'; [cbn in Hj; injection Hj as <-; contradiction|].
            f_equal. eapply H6; eassumption.
        + split; [apply H3|]. intros l [<-|Hl]; [exact He|apply H3; exact Hl].
      - destruct e as [k c j o|k|t| |b]; try contradiction.
        + destruct H as (_ & l & H1 & H2 & H3 & H4). split; [reflexivity|]. exists l. split; [lia|]. split; [auto|]. split; [exact H3|].
          destruct H4 as [H4|(l' & H4 & H5 & H6 & H7 & H8)]; [left; exact H4|right]. exists l'. split; [lia|]. split; [auto|]. auto.
        + destruct H as (E & l & H1 & H2 & H3 & H4). split; [exact E|]. exists l. split; [lia|]. auto.
      - destruct H as (l & H1 & H2). exists l. split; [right; exact H1|exact H2]. }
    unfold buckets in Hcs. cbn [filter] in Hcs. cbn [partition]. destruct (link_name x) as [|a [|b [|c rest]]] eqn:Ex; cbn [length Nat.eqb] in Hcs.
    + eapply Hlift; [| | reflexivity | apply (IH (S i) found work cs Hcs) | reflexivity].
      * intros (? & ? & ? & ? & E & _). rewrite Ex in E. discriminate.
      * intros (? & ? & E & _). rewrite Ex in E. discriminate.
    + eapply Hlift; [| | reflexivity | apply (IH (S i) found work cs Hcs) | reflexivity].
      * intros (? & ? & ? & ? & E & _). rewrite Ex in E. discriminate.
      * intros (? & ? & E & _). rewrite Ex in E. discriminate.
    + cbn [map] in Hcs. destruct cs as [|c0 cs]; [discriminate|]. injection Hcs as Hc0 Hcs. rewrite Hc0.
      eapply Hlift; [| | reflexivity | apply (IH (S i) found (work ++ [c0]) cs Hcs) | rewrite <- app_assoc; reflexivity].
      * intros (? & ? & ? & ? & E & _). rewrite Ex in E. discriminate.
      * intros (? & ? & E & Hn). rewrite Ex in E. injection E as _ _ <-. congruence.
    + destruct (cont c) eqn:Ec.
      { exists x. split; [left; reflexivity|]. exists a, b, c, rest. split; [exact Ex|]. unfold cont in Ec. lia. }
      assert (Hcut : ~ uncuttable x).
      { intros (? & ? & c' & ? & E & Hc'). rewrite Ex in E. injection E as _ _ <- _. unfold cont in Ec. lia. }
      destruct (beq_spec (c :: rest) needle) as [Hn|Hn].
      2:{ eapply Hlift; [exact Hcut| | reflexivity | apply (IH (S i) found work cs Hcs) | reflexivity].
          intros (? & ? & E & _). rewrite Ex in E. injection E as _ _ E. congruence. }
      assert (He : entry_named needle x) by (exists a, b; rewrite Ex, Hn; split; [reflexivity|rewrite <- Hn; discriminate]).
      destruct found as [[k0 first]|].
      { split; [reflexivity|]. exists x. rewrite Nat.sub_diag. repeat split; auto. }
      destruct (link_cid x) as [d|] eqn:Ed.
      2:{ split; [reflexivity|]. exists x. rewrite Nat.sub_diag. repeat split; auto. }
      pose proof (IH (S i) (Some (i, d)) work cs Hcs) as H. destruct (partition (S i) r needle (Some (i, d)) work) as [[r0 w0]|e|].
      * destruct H as (-> & H2 & H3). split; [reflexivity|]. split; [intros l [<-|Hl]; [exact Hcut|apply H2; exact Hl]|].
        destruct r0 as [c'|]; [|destruct H3; discriminate]. destruct H3 as [(k & [= <- <-] & H3)|(H3 & _)]; [|discriminate].
        right. split; [reflexivity|]. exists 0%nat, x. repeat split; auto. intros [|j] l' Hj Hj'; [reflexivity|].
        exfalso. apply (H3 l'); [eapply nth_error_In; exact Hj|exact Hj'].
      * destruct e as [k c' j o|k|t| |b']; try contradiction.
        -- destruct H as (_ & l & H1 & H2 & H3 & H4). split; [reflexivity|]. exists l. split; [lia|].
           split; [replace (j - i)%nat with (S (j - S i)) by lia; exact H2|]. split; [exact H3|]. right.
           destruct H4 as [[= <- <-]|(l' & H4 & H5 & H6 & H7 & H8)].
           ++ exists x. rewrite Nat.sub_diag. repeat split; auto.
           ++ exists l'. split; [lia|]. split; [replace (k - i)%nat with (S (k - S i)) by lia; exact H5|]. auto.
        -- destruct H; discriminate.
      * destruct H as (l & H1 & H2). exists l. split; [right; exact H1|exact H2].
Qed.

(** * Walking the shards *)
Definition present (get : cid -> option bytes) (x : cid * hamt) : Prop :=
  (exists b, get (fst x) = Some b /\ shard b (h_links (snd x))) /\ stored get (snd x).
Lemma stored_eq get links subs : stored get (Hamt links subs) <->
  map link_cid (buckets links) = map Some (map fst subs) /\ Forall (present get) subs.
Proof.
  cbn [stored]. rewrite map_map. unfold buckets.
  apply and_iff_compat_l. induction subs as [|[c t] r IH]; [split; [constructor|auto]|]. rewrite Forall_cons_iff, <- IH. unfold present. cbn [fst snd]. tauto.
Qed.
Definition pre (f : list (cid * hamt)) : list (cid * hamt) := flat_map (fun x => x :: below (snd x)) f.
Lemma below_eq links subs : below (Hamt links subs) = pre subs.
Proof. cbn [below]. induction subs as [|[c t] r IH]; [reflexivity|]. cbn [pre flat_map snd app]. rewrite IH. reflexivity. Qed.
Lemma pre_app a b : pre (a ++ b) = pre a ++ pre b.
Proof. apply flat_map_app. Qed.
Lemma pre_step c t q : Permutation (pre ((c, t) :: q)) ((c, t) :: pre (q ++ h_subs t)).
Proof.
  cbn [pre flat_map snd app]. constructor. fold (pre q). rewrite pre_app. destruct t as [links subs]. rewrite below_eq. cbn [h_subs]. apply Permutation_app_comm.
Qed.
Definition has_entry (needle : bytes) (links : list pblink) (c : cid) : Prop :=
  exists l, In l links /\ entry_named needle l /\ link_cid l = Some c.

(** What the answer of a walk over the shards [s] says. *)
Definition says (needle : bytes) (s : list (list pblink)) (o : outcome (cid * cache) walk_err) : Prop :=
  match o with
  | Ok (c, ca) => (exists links, In links s /\ has_entry needle links c) /\ ca = Some []
  | Err KeyNotFound => forall links l, In links s -> In l links -> ~ entry_named needle l
  | Err (Load _) => False
  | Err (LookupE e) => exists links, In links s /\ ~ tidy needle links
  | Panic => exists links l, In links s /\ In l links /\ uncuttable l
  end.

Lemma tidy_partition needle i links cs work : map link_cid (buckets links) = map Some cs -> tidy needle links ->
  exists r, partition i links needle None work = Ok (r, work ++ cs).
Proof.
  intros Hcs (H1 & H2 & H3). pose proof (partition_spec needle links i None work cs Hcs) as H.
  destruct (partition i links needle None work) as [[r w]|e|].
  - destruct H as [-> _]. eauto.
  - exfalso. destruct e as [k c j o|k|t| |b]; try contradiction.
    + destruct H as (_ & l & Hj & Hl & He & [X|(l' & Hk & Hl' & He' & _ & Hlt)]); [discriminate|].
      pose proof (H3 _ _ _ _ Hl Hl' He He'). lia.
    + destruct H as (_ & l & Hk & Hl & He & Hc). apply (H2 l); [eapply nth_error_In; exact Hl|exact He|exact Hc].
  - exfalso. destruct H as (l & Hl & Hu). apply (H1 l Hl Hu).
Qed.

Lemma walk_spec get needle : forall n f ca, f <> [] -> Forall (present get) f -> (length (pre f) <= n)%nat ->
  exists loads rest o, walk_shards get n (map fst f) needle ca = Some (loads, o) /\
    Permutation (loads ++ rest) (map fst (pre f)) /\ says needle (map (fun x => h_links (snd x)) (pre f)) o.
Proof.
  induction n as [|n IH]; intros f ca Hne Hf Hn.
  { destruct f as [|[c t] q]; [congruence|]. cbn in Hn. lia. }
  destruct f as [|[c t] q]; [congruence|]. inversion Hf as [|? ? [(b & Hb & Hsh) Hst] Hq]; subst. cbn [fst snd] in *.
  cbn [walk_shards map fst]. rewrite Hb. apply shard_parse in Hsh as (fl & Hp & Hl & Ht & Hc).
  unfold continue_walk. rewrite Hp, Ht, Hc, Hl. destruct t as [links subs]. cbn [h_links] in *. clear Hl fl Hp Ht Hc.
  apply stored_eq in Hst as [Hcs Hsubs].
  pose proof (pre_step c (Hamt links subs) q) as Hperm. cbn [h_subs] in Hperm.
  pose proof (partition_spec needle links 0 None (map fst q) (map fst subs) Hcs) as HP.
  set (xs := map (fun x => h_links (snd x)) (pre ((c, Hamt links subs) :: q))).
  assert (Hhd : In links xs) by (left; reflexivity).
  assert (Hp1 : Permutation ([c] ++ map fst (pre (q ++ subs))) (map fst (pre ((c, Hamt links subs) :: q)))).
  { symmetry. apply (Permutation_map fst) in Hperm. exact Hperm. }
  destruct (partition 0 links needle None (map fst q)) as [[r w]|e|] eqn:Epart; cbn [after_partition].
  - destruct HP as (-> & Hcut & HP). destruct r as [d|].
    + exists [c], (map fst (pre (q ++ subs))), (Ok (d, to_cache (map fst q ++ map fst subs))). repeat split; auto.
      destruct HP as [(k & X & _)|(_ & k & l & H1 & H2 & H3 & _)]; [discriminate|]. exists links. split; [exact Hhd|].
      exists l. split; [eapply nth_error_In; exact H1|auto].
    + destruct HP as [_ HP]. rewrite <- map_app. destruct (q ++ subs) as [|y ys] eqn:Eq.
      * exists [c], [], (Err KeyNotFound). repeat split; auto. cbn [says]. intros lk l Hlk Hl.
        assert (lk = links) as ->.
        { unfold xs in Hlk. apply in_map_iff in Hlk as (z & <- & Hz). apply (Permutation_in _ Hperm) in Hz.
          destruct Hz as [<-|[]]. reflexivity. }
        apply HP. exact Hl.
      * cbn [map]. rewrite <- Eq in *.
        destruct (IH (q ++ subs) ca) as (loads & rest & o & E & Hl & Hsay).
        -- rewrite Eq. discriminate.
        -- apply Forall_app. auto.
        -- apply Permutation_length in Hperm. cbn [length] in Hperm. lia.
        -- rewrite Eq in E. cbn [map] in E. rewrite E. cbn [option_map].
           exists (c :: loads), rest, o. split; [reflexivity|]. split; [cbn [app]; rewrite Hl; exact Hp1|].
           assert (Hin : forall z, In z xs <-> z = links \/ In z (map (fun x => h_links (snd x)) (pre (q ++ subs)))).
           { intros z. unfold xs. rewrite !in_map_iff. split.
             - intros (y0 & <- & Hy). apply (Permutation_in _ Hperm) in Hy. destruct Hy as [<-|Hy]; [left; reflexivity|right; eauto].
             - intros [->|(y0 & <- & Hy)]; [exists (c, Hamt links subs); split; [reflexivity|left; reflexivity]|].
               exists y0. split; [reflexivity|]. apply (Permutation_in _ (Permutation_sym Hperm)). right. exact Hy. }
           destruct o as [[d ca']|[d|e|]|]; cbn [says] in *.
           ++ destruct Hsay as [(lk & H1 & H2) ->]. split; [|reflexivity]. exists lk. split; [apply Hin; auto|exact H2].
           ++ exact Hsay.
           ++ destruct Hsay as (lk & H1 & H2). exists lk. split; [apply Hin; auto|exact H2].
           ++ intros lk l Hlk Hl'. apply Hin in Hlk as [->|Hlk]; [apply HP; exact Hl'|eapply Hsay; eassumption].
           ++ destruct Hsay as (lk & l & H1 & H2). exists lk, l. split; [apply Hin; auto|exact H2].
  - exists [c], (map fst (pre (q ++ subs))), (Err (LookupE e)). repeat split; auto. cbn [says]. exists links. split; [exact Hhd|].
    intros Htidy. destruct (tidy_partition needle 0 links (map fst subs) (map fst q) Hcs Htidy) as [r E]. congruence.
  - exists [c], (map fst (pre (q ++ subs))), Panic. repeat split; auto. cbn [says]. destruct HP as (l & H1 & H2). eauto.
Qed.

Lemma lookup_spec get t block needle ca : shard block (h_links t) -> stored get t -> ca = None \/ ca = Some [] ->
  forall fuel, (length (below t) <= fuel)%nat ->
  exists loads rest o, lookup_name get fuel block needle ca = Some (loads, o) /\
    Permutation (loads ++ rest) (map fst (below t)) /\
    match o with
    | Ok (Some c) => exists links, In links (shards t) /\ has_entry needle links c
    | Ok None => forall links l, In links (shards t) -> In l links -> ~ entry_named needle l
    | Err _ => exists links, In links (shards t) /\ ~ tidy needle links
    | Panic => exists links l, In links (shards t) /\ In l links /\ uncuttable l
    end.
Proof.
  intros Hsh Hst Hca fuel Hfuel. destruct t as [links subs]. cbn [h_links] in *. apply stored_eq in Hst as [Hcs Hsubs].
  apply shard_parse in Hsh as (f & Hp & Hl & Ht & Hc). unfold lookup_name, resolve. rewrite Hp, Ht. unfold lookup_or_start. rewrite Hc, Hl.
  assert (Hnil : match ca with Some l => l | None => [] end = []) by (destruct Hca as [->| ->]; reflexivity). rewrite Hnil.
  unfold shards. rewrite below_eq in *. cbn [h_links].
  pose proof (partition_spec needle links 0 None [] (map fst subs) Hcs) as HP.
  destruct (partition 0 links needle None []) as [[r w]|e|] eqn:Epart; cbn [after_partition].
  - cbn [app] in HP. destruct HP as (-> & Hcut & HP). destruct r as [d|].
    + exists [], (map fst (pre subs)), (Ok (Some d)). repeat split; auto. destruct HP as [(k & X & _)|(_ & k & l & H1 & H2 & H3 & _)]; [discriminate|].
      exists links. split; [left; reflexivity|]. exists l. split; [eapply nth_error_In; exact H1|auto].
    + destruct HP as [_ HP]. destruct subs as [|y ys].
      * cbn [map]. exists [], [], (Ok None). repeat split; auto. intros lk l [<-|[]] Hl'. apply HP. exact Hl'.
      * cbn [map]. destruct (walk_spec get needle fuel (y :: ys) None) as (loads & rest & o & E & Hperm & Hsay); [discriminate|exact Hsubs|exact Hfuel|].
        cbn [map] in E. rewrite E. cbn [option_map]. exists loads, rest. eexists. split; [reflexivity|]. split; [exact Hperm|].
        destruct o as [[d ca']|[d|e|]|]; cbn [says] in Hsay.
        -- destruct Hsay as [(lk & H1 & H2) _]. exists lk. split; [right; exact H1|exact H2].
        -- contradiction.
        -- destruct Hsay as (lk & H1 & H2). exists lk. split; [right; exact H1|exact H2].
        -- intros lk l [<-|Hlk] Hl'; [apply HP; exact Hl'|eapply Hsay; eassumption].
        -- destruct Hsay as (lk & l & H1 & H2). exists lk, l. split; [right; exact H1|exact H2].
  - exists [], (map fst (pre subs)), (Err (inl (Lookup e))). repeat split; auto. exists links. split; [left; reflexivity|].
    intros Htidy. destruct (tidy_partition needle 0 links (map fst subs) [] Hcs Htidy) as [r E]. congruence.
  - exists [], (map fst (pre subs)), Panic. repeat split; auto. destruct HP as (l & H1 & H2). exists links, l. split; [left; reflexivity|auto].
Qed.

(** * Whatever else is stored *)
Lemma partition_buckets needle links : forall i found work r w, partition i links needle found work = Ok (r, w) ->
  exists cs, map link_cid (buckets links) = map Some cs.
Proof.
  induction links as [|x rest IH]; intros i found work r w H; [exists []; reflexivity|].
  unfold buckets. cbn [filter]. cbn [partition] in H. destruct (link_name x) as [|a [|b [|c l]]]; cbn [length Nat.eqb].
  - eapply IH. exact H.
  - eapply IH. exact H.
  - destruct (link_cid x) as [d|] eqn:Ed; [|discriminate]. destruct (IH _ _ _ _ _ H) as [cs E]. exists (d :: cs). cbn [map]. rewrite Ed. unfold buckets in E. rewrite E. reflexivity.
  - destruct (cont c); [discriminate|]. destruct (beq (c :: l) needle); [|eapply IH; exact H].
    destruct found as [[k first]|]; [discriminate|]. destruct (link_cid x); [|discriminate]. eapply IH. exact H.
Qed.
Lemma bucket_in links cs c : map link_cid (buckets links) = map Some cs -> In c cs -> exists l, In l links /\ is_bucket l /\ link_cid l = Some c.
Proof.
  intros E H. assert (Hc : In (Some c) (map link_cid (buckets links))) by (rewrite E; apply in_map; exact H).
  apply in_map_iff in Hc as (l & El & Hl). apply filter_In in Hl as [Hl Hb]. exists l. repeat split; auto. apply Nat.eqb_eq. exact Hb.
Qed.
Lemma in_bucket links cs l : map link_cid (buckets links) = map Some cs -> In l links -> is_bucket l -> exists c, link_cid l = Some c /\ In c cs.
Proof.
  intros E Hl Hb. assert (Hc : In (link_cid l) (map Some cs)).
  { rewrite <- E. apply in_map. apply filter_In. split; [exact Hl|]. apply Nat.eqb_eq. exact Hb. }
  apply in_map_iff in Hc as (c & Ec & Hc). eauto.
Qed.
Lemma sub_shard_front get root links : sub_shard get root links ->
  links = root \/ exists l c b next, In l root /\ is_bucket l /\ link_cid l = Some c /\ get c = Some b /\ shard b next /\ sub_shard get next links.
Proof.
  induction 1 as [|links l c b links' H IH Hl Hb Hc Hg Hs]; [left; reflexivity|]. right.
  destruct IH as [->|(l0 & c0 & b0 & next & H1 & H2 & H3 & H4 & H5 & H6)].
  - exists l, c, b, links'. repeat split; auto. constructor.
  - exists l0, c0, b0, next. repeat split; auto. eapply ss_step; eassumption.
Qed.
Lemma sub_shard_trans get a b c : sub_shard get a b -> sub_shard get b c -> sub_shard get a c.
Proof. intros H1 H2. induction H2 as [|links l x y links' _ IH H3 H4 H5 H6 H7]; [exact H1|]. eapply ss_step; eassumption. Qed.
Lemma shard_unique b l1 l2 : shard b l1 -> shard b l2 -> l1 = l2.
Proof. intros (n & d & u & H & -> & _) (n' & d' & u' & H' & -> & _). congruence. Qed.

(** The queue holds sub shards of [root]. *)
Definition from_root (get : cid -> option bytes) (root : list pblink) (c : cid) : Prop :=
  exists links l, sub_shard get root links /\ In l links /\ is_bucket l /\ link_cid l = Some c.
Lemma all_valid (ls : list pblink) : (exists cs, map link_cid ls = map Some cs) \/ exists l, In l ls /\ link_cid l = None.
Proof.
  induction ls as [|l r [[cs IH]|(x & H1 & H2)]]; [left; exists []; reflexivity| |right; exists x; split; [right|]; assumption].
  destruct (link_cid l) as [c|] eqn:E; [left; exists (c :: cs); cbn [map]; rewrite E, IH; reflexivity|right; exists l; split; [left; reflexivity|exact E]].
Qed.
Lemma walk_sound get needle root : forall fuel queue ca loads o, queue <> [] -> Forall (from_root get root) queue ->
  walk_shards get fuel queue needle ca = Some (loads, o) ->
  Forall (from_root get root) loads /\
  match o with
  | Ok (c, ca') => ca' = Some [] /\ exists links l, sub_shard get root links /\ In l links /\ entry_named needle l /\ link_cid l = Some c
  | Err KeyNotFound => forall c, In c queue -> exists b links, get c = Some b /\ shard b links /\
      forall links', sub_shard get links links' ->
        (forall l, In l links' -> ~ entry_named needle l /\ cuttable l) /\
        (forall l, In l links' -> is_bucket l -> exists c b links'', link_cid l = Some c /\ get c = Some b /\ shard b links'')
  | Err (Load c) => from_root get root c /\ get c = None
  | Err (LookupE e) => exists c b, from_root get root c /\ get c = Some b /\
      (~ (exists links, shard b links) \/ exists links, shard b links /\ (~ tidy needle links \/ exists l, In l links /\ is_bucket l /\ link_cid l = None))
  | Panic => exists links l, sub_shard get root links /\ In l links /\ uncuttable l
  end.
Proof.
  induction fuel as [|fuel IH]; intros queue ca loads o Hne Hq H; (destruct queue as [|next q]; [congruence|]); [discriminate|].
  cbn [walk_shards] in H. inversion Hq as [|? ? Hn Hq']; subst. destruct (get next) as [b|] eqn:Eg.
  2:{ injection H as <- <-. split; [auto|]. split; assumption. }
  unfold continue_walk in H. destruct (flat_parse b) as [f|pf] eqn:Ef.
  2:{ assert (Hns : ~ exists links, shard b links).
      { intros (links & Hs). apply shard_parse in Hs as (f & E & _). congruence. }
      destruct pf; injection H as <- <-; (split; [auto|exists next, b; auto]). }
  destruct (u_type (f_data f)) eqn:Et;
    try (injection H as <- <-; split; [auto|]; exists next, b; repeat split; auto; left; intros (links & Hs); apply shard_parse in Hs as (f' & E & _ & E' & _); congruence).
  destruct (check_supported (f_data f)) eqn:Ec.
  2:{ injection H as <- <-. split; [auto|]. exists next, b. repeat split; auto. left. intros (links & Hs). apply shard_parse in Hs as (f' & E & _ & _ & E'). congruence. }
  assert (Hs : shard b (f_links f)) by (apply shard_parse; exists f; auto).
  assert (Hsub : sub_shard get root (f_links f)).
  { destruct Hn as (links & l & H1 & H2 & H3 & H4). eapply ss_step; eassumption. }
  destruct (partition 0 (f_links f) needle None q) as [[r w]|e|] eqn:Ep; cbn [after_partition] in H.
  - destruct (partition_buckets _ _ _ _ _ _ _ Ep) as [cs Hcs]. pose proof (partition_spec needle (f_links f) 0 None q cs Hcs) as HP. rewrite Ep in HP.
    destruct HP as (-> & Hcut & HP). destruct r as [c|].
    + injection H as <- <-. split; [auto|]. split; [reflexivity|]. destruct HP as [(k & X & _)|(_ & k & l & H1 & H2 & H3 & _)]; [discriminate|].
      exists (f_links f), l. split; [exact Hsub|]. split; [eapply nth_error_In; exact H1|auto].
    + destruct HP as [_ HP]. destruct (q ++ cs) as [|y ys] eqn:Eq.
      * injection H as <- <-. split; [auto|]. intros c [<-|Hc]; [|destruct q; [destruct Hc|discriminate]].
        assert (cs = []) as -> by (destruct q; [exact Eq|discriminate]).
        exists b, (f_links f). split; [exact Eg|]. split; [exact Hs|]. intros links' Hsl.
        apply sub_shard_front in Hsl as [->|(l0 & c0 & b0 & nx & H1 & H2 & H3 & _)]; [|destruct (in_bucket _ _ _ Hcs H1 H2) as (c1 & _ & [])].
        split; [intros l Hl; split; [apply HP; exact Hl|apply Hcut; exact Hl]|].
        intros l Hl Hb. destruct (in_bucket _ _ _ Hcs Hl Hb) as (c1 & _ & []).
      * destruct (walk_shards get fuel (y :: ys) needle ca) as [[lo o']|] eqn:Ew; [|discriminate]. cbn [option_map] in H. injection H as <- <-.
        assert (Hq2 : Forall (from_root get root) (y :: ys)).
        { rewrite <- Eq. apply Forall_app. split; [exact Hq'|]. apply Forall_forall. intros c Hc. destruct (bucket_in _ _ _ Hcs Hc) as (l & H1 & H2 & H3).
          exists (f_links f), l. auto. }
        destruct (IH (y :: ys) ca lo o' ltac:(discriminate) Hq2 Ew) as [Hlo Ho]. split; [constructor; auto|].
        destruct o' as [[c ca']|[c|e|]|]; auto.
        intros c [<-|Hc].
        -- exists b, (f_links f). split; [exact Eg|]. split; [exact Hs|]. intros links' Hsl.
           apply sub_shard_front in Hsl as [->|(l0 & c0 & b0 & nx & H1 & H2 & H3 & H4 & H5 & H6)].
           ++ split; [intros l Hl; split; [apply HP; exact Hl|apply Hcut; exact Hl]|].
              intros l Hl Hb. destruct (in_bucket _ _ _ Hcs Hl Hb) as (c1 & Hc1 & Hin).
              destruct (Ho c1) as (b1 & links1 & G1 & G2 & _); [rewrite <- Eq; apply in_or_app; right; exact Hin|]. exists c1, b1, links1. auto.
           ++ destruct (in_bucket _ _ _ Hcs H1 H2) as (c1 & Hc1 & Hin). assert (c1 = c0) by congruence. subst c1.
              destruct (Ho c0) as (b1 & links1 & G1 & G2 & G3); [rewrite <- Eq; apply in_or_app; right; exact Hin|].
              assert (b1 = b0) by congruence. subst b1. pose proof (shard_unique _ _ _ G2 H5). subst links1. apply G3. exact H6.
        -- apply Ho. rewrite <- Eq. apply in_or_app. left. exact Hc.
  - injection H as <- <-. split; [auto|]. exists next, b. split; [exact Hn|]. split; [exact Eg|]. right. exists (f_links f). split; [exact Hs|].
    destruct (all_valid (buckets (f_links f))) as [Hcs0|Hex].
    + left. intros Ht. destruct Hcs0 as [cs Hcs].
      destruct (tidy_partition needle 0 (f_links f) cs q Hcs Ht) as [r E]. congruence.
    + right. destruct Hex as (l & Hl & Hc). apply filter_In in Hl as [Hl Hb]. exists l. split; [exact Hl|]. split; [apply Nat.eqb_eq; exact Hb|exact Hc].
  - injection H as <- <-. split; [auto|]. clear IH Hq Hq' Hne.
    assert (HP : forall i found work, partition i (f_links f) needle found work = Panic -> exists l, In l (f_links f) /\ uncuttable l).
    { clear. induction (f_links f) as [|x rest IH]; intros i found work H; [discriminate|]. cbn [partition] in H.
      destruct (link_name x) as [|a [|b [|c l]]] eqn:Ex.
      - destruct (IH _ _ _ H) as (l & H1 & H2). exists l. split; [right|]; assumption.
      - destruct (IH _ _ _ H) as (l & H1 & H2). exists l. split; [right|]; assumption.
      - destruct (link_cid x); [|discriminate]. destruct (IH _ _ _ H) as (l & H1 & H2). exists l. split; [right|]; assumption.
      - destruct (cont c) eqn:Ec; [exists x; split; [left; reflexivity|]; exists a, b, c, l; split; [exact Ex|unfold cont in Ec; lia]|].
        assert (G : exists l, In l rest /\ uncuttable l).
        { destruct (beq (c :: l) needle); [|eapply IH; exact H]. destruct found as [[k first]|]; [discriminate|]. destruct (link_cid x); [|discriminate]. eapply IH. exact H. }
        destruct G as (l' & H1 & H2). exists l'. split; [right|]; assumption. }
    destruct (HP _ _ _ Ep) as (l & H1 & H2). eauto.
Qed.

Definition clean (ca : cache) : Prop := ca = None \/ ca = Some [].
Lemma resolve_shard get block links needle ca : shard block links -> clean ca ->
  match resolve block needle ca with
  | Ok (Found c, ca') => ca' = Some [] /\ exists l, In l links /\ entry_named needle l /\ link_cid l = Some c
  | Ok (NotFound, ca') => ca' = Some [] /\ (forall l, In l links -> ~ entry_named needle l /\ ~ is_bucket l /\ cuttable l)
  | Ok (NeedToLoadMore q, ca') => ca' = None /\ q <> [] /\ Forall (from_root get links) q /\
      (forall l, In l links -> ~ entry_named needle l /\ cuttable l) /\
      (forall l, In l links -> is_bucket l -> exists c, link_cid l = Some c /\ In c q)
  | Err (Lookup _) => ~ tidy needle links \/ exists l, In l links /\ is_bucket l /\ link_cid l = None
  | Err _ => False
  | Panic => exists l, In l links /\ uncuttable l
  end.
Proof.
  intros Hs Hca. pose proof Hs as Hsh. apply shard_parse in Hsh as (f & Hp & Hl & Ht & Hc). unfold resolve. rewrite Hp, Ht. unfold lookup_or_start. rewrite Hc, Hl.
  assert (Hnil : match ca with Some l => l | None => [] end = []) by (destruct Hca as [->| ->]; reflexivity). rewrite Hnil.
  destruct (all_valid (buckets links)) as [[cs Hcs]|(l0 & Hl0 & Hc0)].
  - pose proof (partition_spec needle links 0 None [] cs Hcs) as HP. destruct (partition 0 links needle None []) as [[r w]|e|] eqn:Ep; cbn [after_partition].
    + cbn [app] in HP. destruct HP as (-> & Hcut & HP). destruct r as [c|].
      * split; [reflexivity|]. destruct HP as [(k & X & _)|(_ & k & l & H1 & H2 & H3 & _)]; [discriminate|]. exists l. split; [eapply nth_error_In; exact H1|auto].
      * destruct HP as [_ HP]. destruct cs as [|c cs].
        -- split; [reflexivity|]. intros l Hl'. split; [apply HP; exact Hl'|]. split; [|apply Hcut; exact Hl'].
           intros Hb. destruct (in_bucket _ _ _ Hcs Hl' Hb) as (c & _ & []).
        -- split; [reflexivity|]. split; [discriminate|]. split.
           ++ apply Forall_forall. intros x Hx. destruct (bucket_in _ _ _ Hcs Hx) as (l & H1 & H2 & H3). exists links, l. repeat split; auto. constructor.
           ++ split; [intros l Hl'; split; [apply HP|apply Hcut]; exact Hl'|]. intros l Hl' Hb. apply (in_bucket _ _ _ Hcs Hl' Hb).
    + left. intros Htd. destruct (tidy_partition needle 0 links cs [] Hcs Htd) as [r E]. congruence.
    + exact HP.
  - destruct (partition 0 links needle None []) as [[r w]|e|] eqn:Ep; cbn [after_partition].
    + destruct (partition_buckets _ _ _ _ _ _ _ Ep) as [cs Hcs]. exfalso. apply filter_In in Hl0 as [H1 H2]. apply Nat.eqb_eq in H2.
      destruct (in_bucket _ _ _ Hcs H1 H2) as (c & E & _). congruence.
    + right. apply filter_In in Hl0 as [H1 H2]. apply Nat.eqb_eq in H2. exists l0. auto.
    + clear - Ep. revert Ep. generalize 0%nat (@None (nat * cid)) (@nil cid). induction links as [|x rest IH]; intros i found work H; [discriminate|]. cbn [partition] in H.
      destruct (link_name x) as [|a [|b [|c l]]] eqn:Ex.
      * destruct (IH _ _ _ H) as (l & H1 & H2). exists l. split; [right|]; assumption.
      * destruct (IH _ _ _ H) as (l & H1 & H2). exists l. split; [right|]; assumption.
      * destruct (link_cid x); [|discriminate]. destruct (IH _ _ _ H) as (l & H1 & H2). exists l. split; [right|]; assumption.
      * destruct (cont c) eqn:Ec; [exists x; split; [left; reflexivity|]; exists a, b, c, l; split; [exact Ex|unfold cont in Ec; lia]|].
        assert (G : exists l, In l rest /\ uncuttable l).
        { destruct (beq (c :: l) needle); [|eapply IH; exact H]. destruct found as [[k first]|]; [discriminate|]. destruct (link_cid x); [|discriminate]. eapply IH. exact H. }
        destruct G as (l' & H1 & H2). exists l'. split; [right|]; assumption.
Qed.

Lemma lookup_sound get fuel block links needle ca loads o : shard block links -> clean ca -> lookup_name get fuel block needle ca = Some (loads, o) ->
  Forall (from_root get links) loads /\
  match o with
  | Ok (Some c) => exists links' l, sub_shard get links links' /\ In l links' /\ entry_named needle l /\ link_cid l = Some c
  | Ok None => forall links', sub_shard get links links' ->
      (forall l, In l links' -> ~ entry_named needle l) /\
      (forall l, In l links' -> is_bucket l -> exists c b links'', link_cid l = Some c /\ get c = Some b /\ shard b links'')
  | Err _ => exists links', sub_shard get links links' /\
      (~ tidy needle links' \/ exists l, In l links' /\ is_bucket l /\
         forall c b links'', link_cid l = Some c -> get c = Some b -> ~ shard b links'')
  | Panic => exists links' l, sub_shard get links links' /\ In l links' /\ uncuttable l
  end.
Proof.
  intros Hs Hca H. unfold lookup_name in H. pose proof (resolve_shard get block links needle ca Hs Hca) as HR.
  destruct (resolve block needle ca) as [[[c|q|] ca']|e|].
  - injection H as <- <-. split; [constructor|]. destruct HR as (_ & l & H1 & H2 & H3). exists links, l. repeat split; auto. constructor.
  - destruct HR as (-> & Hne & Hq & Hno & Hb). destruct (walk_shards get fuel q needle None) as [[lo o']|] eqn:Ew; [|discriminate]. injection H as <- <-.
    destruct (walk_sound get needle links fuel q None lo o' Hne Hq Ew) as [Hlo Ho]. split; [exact Hlo|].
    destruct o' as [[c ca']|[c|e|]|].
    + destruct Ho as [_ Ho]. exact Ho.
    + destruct Ho as [(links' & l & H1 & H2 & H3 & H4) H5]. exists links'. split; [exact H1|]. right. exists l. repeat split; auto. intros; congruence.
    + destruct Ho as (c & b & (links' & l & H1 & H2 & H3 & H4) & H5 & [H6|(lk & H6 & [H7|(l' & H7 & H8 & H9)])]).
      * exists links'. split; [exact H1|]. right. exists l. repeat split; auto. intros c' b' lk' E1 E2 E3. apply H6. exists lk'. congruence.
      * exists lk. split; [eapply ss_step; eassumption|]. left. exact H7.
      * exists lk. split; [eapply ss_step; eassumption|]. right. exists l'. repeat split; auto. intros; congruence.
    + intros links' Hl. apply sub_shard_front in Hl as [->|(l0 & c0 & b0 & nx & H1 & H2 & H3 & H4 & H5 & H6)].
      * split; [intros l Hl; apply (Hno l Hl)|]. intros l Hl Hbk. destruct (Hb l Hl Hbk) as (c & E1 & Hin). destruct (Ho c Hin) as (b1 & lk & G1 & G2 & _).
        exists c, b1, lk. auto.
      * destruct (Hb l0 H1 H2) as (c & E1 & Hin). assert (c = c0) by congruence. subst c. destruct (Ho c0 Hin) as (b1 & lk & G1 & G2 & G3).
        assert (b1 = b0) by congruence. subst b1. pose proof (shard_unique _ _ _ G2 H5). subst lk. destruct (G3 links' H6) as [K1 K2].
        split; [intros l Hl; apply (K1 l Hl)|exact K2].
    + exact Ho.
  - injection H as <- <-. split; [constructor|]. destruct HR as [_ HR]. intros links' Hl. apply sub_shard_front in Hl as [->|(l0 & c0 & b0 & nx & H1 & H2 & _)].
    + split; [intros l Hl; apply (HR l Hl)|]. intros l Hl Hb. exfalso. destruct (HR l Hl) as (_ & X & _). exact (X Hb).
    + exfalso. destruct (HR l0 H1) as (_ & X & _). exact (X H2).
  - injection H as <- <-. split; [constructor|]. exists links. split; [constructor|]. destruct e; try contradiction. destruct HR as [HR|(l & H1 & H2 & H3)]; [left; exact HR|].
    right. exists l. repeat split; auto. intros; congruence.
  - injection H as <- <-. split; [constructor|]. destruct HR as (l & H1 & H2). exists links, l. repeat split; auto. constructor.
Qed.
