From Verif Require Import Base Wire Cid BTree Ipld Codecs Pb DirLookup DirSpec DirLookupProofs Resolve ResolveSpec.
Local Open Scope N_scope.

(** * Indices *)
Lemma decimal_from ds : forall a b, a <= b -> fold_left (fun a c => 10 * a + (c - 48)) ds a <= fold_left (fun a c => 10 * a + (c - 48)) ds b.
Proof. induction ds as [|c r IH]; intros a b H; [exact H|]. cbn [fold_left]. apply IH. lia. Qed.
Lemma decimal_ge ds : forall a, a <= fold_left (fun a c => 10 * a + (c - 48)) ds a.
Proof. induction ds as [|c r IH]; intros a; [reflexivity|]. cbn [fold_left]. etransitivity; [|apply IH]. lia. Qed.
Lemma digits_val_spec ds : forall a i, digits_val ds a = Some i <->
  Forall (fun c => 48 <= c <= 57) ds /\ i = fold_left (fun a c => 10 * a + (c - 48)) ds a /\ (ds = [] \/ i < 2 ^ 64).
Proof.
  assert (E64 : u64_max1 = 2 ^ 64) by reflexivity.
  induction ds as [|c r IH]; intros a i; cbn [digits_val fold_left].
  - split; [intros [= <-]; auto|]. intros (_ & -> & _). reflexivity.
  - destruct ((48 <=? c) && (c <=? 57)) eqn:Ec.
    + destruct (10 * a + (c - 48) <? u64_max1) eqn:El.
      * rewrite IH. split; intros (H1 & H2 & H3).
        -- split; [constructor; [lia|exact H1]|]. split; [exact H2|]. right. destruct H3 as [->|H3]; [|exact H3]. cbn [fold_left] in H2. lia.
        -- inversion H1; subst. split; [assumption|]. split; [reflexivity|]. right. destruct H3 as [|H3]; [discriminate|exact H3].
      * split; [discriminate|]. intros (H1 & H2 & [H3|H3]); [discriminate|]. pose proof (decimal_ge r (10 * a + (c - 48))). lia.
    + split; [discriminate|]. intros (H1 & _). inversion H1. lia.
Qed.
Lemma parse_usize_spec s i : parse_usize s = Some i <-> index_of s i.
Proof.
  unfold parse_usize, index_of, decimal. destruct s as [|c r].
  - split; [discriminate|]. intros (ds & [<-|H] & Hn & _); [congruence|discriminate].
  - destruct (N.eqb_spec c 43) as [->|Hc].
    + assert (Hr : match r with [] => None | _ => digits_val r 0 end = Some i <-> r <> [] /\ digits_val r 0 = Some i).
      { destruct r; [split; [discriminate|intros [? _]; congruence]|]. split; [split; [discriminate|assumption]|tauto]. }
      rewrite Hr, digits_val_spec. split.
      * intros (Hn & H1 & H2 & H3). exists r. repeat split; auto. destruct H3; [contradiction|assumption].
      * intros (ds & [<-|H] & Hn & H1 & H2 & H3); [inversion H1; lia|]. injection H as <-. auto.
    + rewrite digits_val_spec. split.
      * intros (H1 & H2 & H3). exists (c :: r). repeat split; auto; [discriminate|]. destruct H3; [discriminate|assumption].
      * intros (ds & [<-|H] & Hn & H1 & H2 & H3); [auto|]. injection H as -> _. congruence.
Qed.
Lemma parse_usize_none s : parse_usize s = None <-> forall i, ~ index_of s i.
Proof.
  split.
  - intros H i Hi. apply parse_usize_spec in Hi. congruence.
  - intros H. destruct (parse_usize s) as [i|] eqn:E; [|reflexivity]. exfalso. apply (H i). apply parse_usize_spec. exact E.
Qed.

(** * Inside a document *)
Lemma at_path_snoc v p w s w' : at_path v p w -> at_path w [s] w' -> at_path v (p ++ [s]) w'.
Proof. intros H. revert s w'. induction H; intros; cbn [app]; [assumption|eapply at_key; eauto|eapply at_index; eauto]. Qed.
Definition leaf (w : ipld) : Prop := match w with IMap _ | IList _ | Link _ => False | _ => True end.

Lemma local_ipld_spec doc : forall segs v m,
  match local_ipld doc v segs m with
  | Ok (Complete (NLink s d), m', rest) => s = doc /\ exists q, at_path v q (Link d) /\
      ((segs = q ++ rest /\ not_dot rest /\ m' = (m + length q)%nat) \/ (segs = q ++ dot :: rest /\ m' = (m + length q + 1)%nat))
  | Ok (Complete n, m', rest) => exists v', n = NProjection doc v' /\ at_path v segs v' /\ (forall d, v' <> Link d)
  | Ok (Incomplete _ _ _, _, _) => False
  | Err e => exists q s r w, segs = q ++ s :: r /\ at_path v q w /\
      ((exists mm, w = IMap mm /\ bt_get s mm = None /\ e = RNotFound doc (m + length q)) \/
       (exists l, w = IList l /\ (forall i, ~ index_of s i) /\ e = RInvalidIndex doc (m + length q)) \/
       (exists l i, w = IList l /\ index_of s i /\ blen l <= i /\ e = RListIndex doc (m + length q) i (blen l)) \/
       (leaf w /\ e = RNoLinks doc (m + length q)))
  | Panic => False
  end.
Proof.
  assert (Hlink : forall d segs m, match local_ipld doc (Link d) segs m with
    | Ok (Complete (NLink s d'), m', rest) => s = doc /\ exists q, at_path (Link d) q (Link d') /\
      ((segs = q ++ rest /\ not_dot rest /\ m' = (m + length q)%nat) \/ (segs = q ++ dot :: rest /\ m' = (m + length q + 1)%nat))
    | _ => False end).
  { intros d segs m. destruct segs as [|s r]; cbn [local_ipld].
    - split; [reflexivity|]. exists []. split; [constructor|]. left. cbn [app length]. repeat split; [intros r; discriminate|lia].
    - destruct (beq_spec s dot) as [->|Hs].
      + split; [reflexivity|]. exists []. split; [constructor|]. right. cbn [app length]. split; [reflexivity|lia].
      + split; [reflexivity|]. exists []. split; [constructor|]. left. cbn [app length]. repeat split; [intros r' [= E _]; congruence|lia]. }
  induction segs as [|s r IH]; intros v m.
  - destruct v; try (pose proof (Hlink c [] m) as X; cbn [local_ipld] in *; exact X);
      cbn [local_ipld]; (eexists; split; [reflexivity|]; split; [constructor|discriminate]).
  - assert (Hleaf : leaf v -> local_ipld doc v (s :: r) m = Err (RNoLinks doc m)) by (destruct v; intros []; reflexivity).
    destruct v as [| | | | | |l|mm|d];
      try (rewrite (Hleaf I); eexists [], s, r, _; split; [reflexivity|]; split; [constructor|]; right; right; right;
           split; [exact I|]; cbn [length]; rewrite Nat.add_0_r; reflexivity).
    + cbn [local_ipld]. destruct (parse_usize s) as [i|] eqn:Ep.
      * apply parse_usize_spec in Ep. destruct (i <? blen l) eqn:Ei.
        -- destruct (nth_error l (N.to_nat i)) as [f|] eqn:En; [|apply nth_error_None in En; unfold blen in Ei; lia].
           specialize (IH f (S m)). destruct (local_ipld doc f r (S m)) as [[[[n|] m'] rest]|e|]; try contradiction.
           ++ destruct n as [c b|c b|c v|src d]; try (destruct IH as (v' & H1 & H2 & H3); exists v'; split; [exact H1|]; split; [eapply at_index; eassumption|exact H3]).
              destruct IH as (H1 & q & H2 & H3). split; [exact H1|]. exists (s :: q). split; [eapply at_index; eassumption|].
              destruct H3 as [(-> & H3 & ->)|(-> & ->)]; [left|right]; cbn [app length]; repeat split; auto; lia.
           ++ destruct IH as (q & s0 & r0 & w & -> & H2 & H3). exists (s :: q), s0, r0, w. split; [reflexivity|]. split; [eapply at_index; eassumption|].
              cbn [length]. rewrite Nat.add_succ_r. exact H3.
        -- exists [], s, r, (IList l). split; [reflexivity|]. split; [constructor|]. right. right. left. exists l, i. cbn [length]. rewrite Nat.add_0_r. repeat split; auto. lia.
      * exists [], s, r, (IList l). split; [reflexivity|]. split; [constructor|]. right. left. exists l. cbn [length]. rewrite Nat.add_0_r. split; [reflexivity|]. split; [apply parse_usize_none; exact Ep|reflexivity].
    + cbn [local_ipld]. destruct (bt_get s mm) as [f|] eqn:Eg.
      * specialize (IH f (S m)). destruct (local_ipld doc f r (S m)) as [[[[n|] m'] rest]|e|]; try contradiction.
        -- destruct n as [c b|c b|c v|src d]; try (destruct IH as (v' & H1 & H2 & H3); exists v'; split; [exact H1|]; split; [eapply at_key; eassumption|exact H3]).
           destruct IH as (H1 & q & H2 & H3). split; [exact H1|]. exists (s :: q). split; [eapply at_key; eassumption|].
           destruct H3 as [(-> & H3 & ->)|(-> & ->)]; [left|right]; cbn [app length]; repeat split; auto; lia.
        -- destruct IH as (q & s0 & r0 & w & -> & H2 & H3). exists (s :: q), s0, r0, w. split; [reflexivity|]. split; [eapply at_key; eassumption|].
           cbn [length]. rewrite Nat.add_succ_r. exact H3.
      * exists [], s, r, (IMap mm). split; [reflexivity|]. split; [constructor|]. left. exists mm. cbn [length]. rewrite Nat.add_0_r. auto.
    + pose proof (Hlink d (s :: r) m) as X. destruct (local_ipld doc (Link d) (s :: r) m) as [[[[n|] m'] rest]|e|]; try contradiction.
      destruct n; try contradiction. exact X.
Qed.

(** * The data of a node *)
Lemma data_loop : forall fuel m x bs,
  (x = None /\ n_data m = None) \/ (exists d r, x = Some (d, r) /\ n_data m = Some d) ->
  match read_loop fuel data_field (m, x) bs with
  | None => read_loop fuel pbnode_field m bs = None
  | Some (n, y) => read_loop fuel pbnode_field m bs = Some n /\
      ((y = None /\ n_data n = None) \/ (exists d r, y = Some (d, r) /\ n_data n = Some d))
  end.
Proof.
  induction fuel as [|fuel IH]; intros m x bs Hx; (destruct bs as [|b0 bs]; [split; [reflexivity|exact Hx]|]).
  - reflexivity.
  - cbn [read_loop]. destruct (read_varint32 (b0 :: bs)) as [[tag r]|]; [|reflexivity].
    unfold data_field at 1. cbn [fst snd]. destruct (pbnode_field tag m r) as [[n r']|] eqn:Ef; [|reflexivity].
    apply IH. destruct (tag =? 10) eqn:Et.
    + destruct (n_data n) as [d|] eqn:Ed; [right; eauto|left; auto].
    + assert (Hn : n_data n = n_data m); [|rewrite Hn; exact Hx].
      unfold pbnode_field in Ef. destruct (tag =? 18).
      * destruct (read_bytes r) as [[v r2]|]; [|discriminate]. destruct (pblink_read v); [|discriminate]. cbn [option_map] in Ef. injection Ef as <- _. reflexivity.
      * rewrite Et in Ef. destruct (read_unknown tag r); [|discriminate]. injection Ef as <- _. reflexivity.
Qed.
Lemma wrap_node_data_spec b :
  match wrap_node_data b with
  | Ok d => exists n, pbnode_read b = Some n /\ d = match n_data n with Some x => x | None => [] end
  | Err _ => pbnode_read b = None
  | Panic => exists n, pbnode_read b = Some n /\ n_data n = Some []
  end.
Proof.
  unfold wrap_node_data, read_message, pbnode_read, read_message.
  pose proof (data_loop (length b) pbnode0 None b (or_introl (conj eq_refl eq_refl))) as H.
  destruct (read_loop (length b) data_field (pbnode0, None) b) as [[n y]|]; [|exact H]. destruct H as [H1 [[-> H2]|(d & r & -> & H2)]].
  - exists n. rewrite H2. auto.
  - destruct d as [|x d]; [destruct r|]; exists n; rewrite H2; auto.
Qed.

(** * One directory *)
Lemma not_plain_not_shard c b get : directory get c b ->
  forall f, flat_parse b = inl f -> u_type (f_data f) = TFile -> file get c.
Proof.
  intros Hd f Hf Ht. unfold flat_parse in Hf. destruct (pbnode_read b) as [n|] eqn:En; [|discriminate].
  destruct (n_data n) as [[|x d]|] eqn:Ed; try discriminate. destruct (unixfs_read (x :: d)) as [u|] eqn:Eu; [|discriminate].
  injection Hf as <-. exists b, n, (x :: d), u. repeat split; auto; try apply Hd. discriminate.
Qed.
Lemma plain_dir_flat b links : plain_dir b links ->
  match flat_parse b with inl f => u_type (f_data f) = TDirectory /\ check_directory_supported (f_data f) = true | inr InvalidDagPb => False | _ => True end.
Proof.
  intros (n & Hn & -> & H). unfold flat_parse. rewrite Hn. destruct (n_data n) as [[|x d]|]; try exact I.
  destruct (unixfs_read (x :: d)) as [u|]; [|exact I]. cbn [f_data]. destruct H as (Ht & H1 & H2 & H3 & H4 & H5). split; [exact Ht|].
  unfold check_directory_supported. rewrite H1, H2, H3, H4. destruct H5 as [->| ->]; reflexivity.
Qed.
(** Every dag-pb block is a plain directory, a shard, or rejected. *)
Lemma resolve_cases b s ca :
  (exists links, plain_dir b links /\ resolve b s ca = match find_link links s with Ok m => Ok (m, ca) | Err e => Err (Lookup e) | Panic => Panic end) \/
  (exists links, shard b links) \/
  ((forall links, ~ plain_dir b links) /\ (forall links, ~ shard b links) /\ exists e, resolve b s ca = Err e /\
     (e = UnexpectedType TFile <-> exists f, flat_parse b = inl f /\ u_type (f_data f) = TFile)).
Proof.
  destruct (flat_parse b) as [f|pf] eqn:Ef.
  - assert (Hb : resolve b s ca = match u_type (f_data f) with
        | THAMTShard => match lookup_or_start f s ca with Ok x => Ok x | Err e => Err (Lookup e) | Panic => Panic end
        | TDirectory => if check_directory_supported (f_data f) then match find_link (f_links f) s with Ok m => Ok (m, ca) | Err e => Err (Lookup e) | Panic => Panic end else Err UnexpectedDirProperties
        | t => Err (UnexpectedType t) end) by (unfold resolve; rewrite Ef; reflexivity).
    assert (Hns : u_type (f_data f) <> THAMTShard -> forall links, ~ shard b links).
    { intros Hn links Hs. apply shard_parse in Hs as (f' & E & _ & E' & _). congruence. }
    assert (Hnp : u_type (f_data f) <> TDirectory -> forall links, ~ plain_dir b links).
    { intros Hn links Hp. apply plain_dir_flat in Hp. rewrite Ef in Hp. tauto. }
    destruct (u_type (f_data f)) eqn:Et.
    1, 4, 5: (right; right; split; [apply Hnp; discriminate|]; split; [apply Hns; discriminate|]; eexists; split; [exact Hb|]; split; [discriminate|intros (f' & [= <-] & E'); congruence]).
    + destruct (check_directory_supported (f_data f)) eqn:Ec.
      * left. exists (f_links f). split; [|exact Hb]. unfold flat_parse in Ef. destruct (pbnode_read b) as [n|] eqn:En; [|discriminate].
        destruct (n_data n) as [[|x d]|] eqn:Ed; try discriminate. destruct (unixfs_read (x :: d)) as [u|] eqn:Eu; [|discriminate].
        injection Ef as <-. cbn [f_data f_links] in *. exists n. rewrite Ed, Eu. split; [exact En|]. split; [reflexivity|].
        unfold check_directory_supported in Ec. destruct (u_filesize u), (u_blocksizes u), (u_hashtype u), (u_fanout u), (u_data u) as [[|]|]; try discriminate; repeat split; auto.
      * right. right. split; [intros links Hp; apply plain_dir_flat in Hp; rewrite Ef in Hp; destruct Hp; congruence|].
        split; [apply Hns; discriminate|]. eexists. split; [exact Hb|]. split; [discriminate|intros (f' & [= <-] & E'); congruence].
    + right. right. split; [apply Hnp; discriminate|]. split; [apply Hns; discriminate|]. eexists. split; [exact Hb|]. split; [intros _; eauto|reflexivity].
    + destruct (check_supported (f_data f)) eqn:Ec.
      * right. left. exists (f_links f). apply shard_parse. exists f. auto.
      * right. right. split; [apply Hnp; discriminate|]. split; [intros links Hs; apply shard_parse in Hs as (f' & E & _ & _ & E'); congruence|].
        unfold lookup_or_start in Hb. rewrite Ec in Hb. eexists. split; [exact Hb|]. split; [discriminate|intros (f' & [= <-] & E'); congruence].
  - destruct pf as [|n|n].
    + right. right. split; [intros links Hp; apply plain_dir_flat in Hp; rewrite Ef in Hp; exact Hp|].
      split; [intros links Hs; apply shard_parse in Hs as (f' & E & _); congruence|]. unfold resolve. rewrite Ef. eexists. split; [reflexivity|]. split; [discriminate|intros (f' & E & _); discriminate].
    + left. exists (n_links n). split; [|unfold resolve; rewrite Ef; reflexivity]. unfold flat_parse in Ef. destruct (pbnode_read b) as [n'|] eqn:En; [|discriminate].
      destruct (n_data n') as [[|x d]|] eqn:Ed; [|destruct (unixfs_read (x :: d)); discriminate|]; injection Ef as <-; exists n'; rewrite Ed; auto.
    + left. exists (n_links n). split; [|unfold resolve; rewrite Ef; reflexivity]. unfold flat_parse in Ef. destruct (pbnode_read b) as [n'|] eqn:En; [|discriminate].
      destruct (n_data n') as [[|x d]|] eqn:Ed; try discriminate. destruct (unixfs_read (x :: d)) eqn:Eu; [discriminate|]. injection Ef as <-. exists n'. rewrite Ed, Eu. auto.
Qed.

(** The result of [resolve_local] on a directory. *)
Definition dagpb_result (get : cid -> option bytes) (c : cid) (b : bytes) (s : seg) (last : bool) (ca : cache) (o : outcome (local * nat * cache) raw_err) : Prop :=
  match o with
  | Ok (Complete (NLink src d), m, ca') => clean ca' /\ src = c /\ m = 1%nat /\ dir_entry get b s false d
  | Ok (Complete n, m, ca') => last = true /\ s = data_seg /\ no_entry get c data_seg /\
      exists nd, pbnode_read b = Some nd /\ n = NDagPbData c (match n_data nd with Some x => x | None => [] end)
  | Ok (Incomplete src q needle, m, ca') => src = c /\ needle = s /\ m = 0%nat /\ ca' = None /\ q <> [] /\ resolve b s ca = Ok (NeedToLoadMore q, ca') /\
      exists links, shard b links /\ Forall (from_root get links) q /\
        (forall l, In l links -> ~ entry_named s l /\ cuttable l) /\
        (forall l, In l links -> is_bucket l -> exists d, link_cid l = Some d /\ In d q)
  | Err (RNotFound d m) => d = c /\ m = 0%nat /\ (no_entry get c s \/ file get c)
  | Err (RUnsupported d) => d = c /\ unsupported get (fun _ _ => Panic) c s
  | Err _ => False
  | Panic => (exists links l, shard b links /\ In l links /\ uncuttable l) \/
      (last = true /\ s = data_seg /\ no_entry get c data_seg /\ exists nd, pbnode_read b = Some nd /\ n_data nd = Some [])
  end.
Lemma local_dagpb_spec get c b s last ca : directory get c b -> clean ca -> dagpb_result get c b s last ca (local_dagpb c b s last ca).
Proof.
  intros Hd Hca. unfold local_dagpb.
  assert (Hnf : forall ca' : cache, no_entry get c s ->
     dagpb_result get c b s last ca (if beq s data_seg && last then match wrap_node_data b with Ok d => Ok (Complete (NDagPbData c d), 1%nat, ca') | _ => Panic end else Err (RNotFound c 0))).
  { intros ca' Hno. unfold dagpb_result. destruct (beq_spec s data_seg) as [->|Hs]; [destruct last|]; cbn [andb].
    - assert (Hread : exists n, pbnode_read b = Some n).
      { destruct Hno as (b' & Hd' & [(links & (n & Hn & _) & _)|(links & (n & d & u & Hn & _) & _)]); destruct Hd as [_ Hd], Hd' as [_ Hd'];
          (assert (b' = b) by congruence); subst; eauto. }
      pose proof (wrap_node_data_spec b) as HW. destruct (wrap_node_data b) as [d|e|].
      + destruct HW as (n & Hn & ->). repeat split; auto. eauto.
      + destruct Hread as [n Hn]. congruence.
      + destruct HW as (n & Hn & Hdn). right. repeat split; auto. eauto.
    - auto.
    - auto. }
  destruct (resolve_cases b s ca) as [(links & Hp & ->)|[(links & Hs)|(Hnp & Hns & e & -> & He)]].
  - pose proof (find_link_spec links s) as HF. destruct (find_link links s) as [[d|q|]|e|]; try contradiction.
    + destruct HF as (i & l & H1 & H2). repeat split; auto. eapply in_plain; eassumption.
    + apply Hnf. exists b. split; [exact Hd|]. left. eauto.
    + split; [reflexivity|]. eapply bad_links; [exact Hd|exact Hp|]. destruct e as [i d j o|i|t| |r]; try contradiction.
      * left. destruct HF as (Hij & l & l' & H1 & H2 & H3 & H4 & _). exists i, j, l, l'. auto.
      * right. destruct HF as (l & H1 & H2 & H3). exists l. split; [eapply nth_error_In; exact H1|auto].
  - pose proof (resolve_shard get b links s ca Hs Hca) as HR. destruct (resolve b s ca) as [[[d|q|] ca']|e|] eqn:Er.
    + destruct HR as (-> & l & H1 & H2 & H3). split; [right; reflexivity|]. repeat split; auto. eapply in_root_shard; eassumption.
    + destruct HR as (-> & H1 & H2 & H3 & H4). repeat split; auto. exists links. auto.
    + destruct HR as [-> HR]. apply Hnf. exists b. split; [exact Hd|]. right. exists links. split; [exact Hs|]. intros l Hl. destruct (HR l Hl) as (X & Y & _). auto.
    + destruct e as [t| |r| ]; try contradiction. split; [reflexivity|]. eapply bad_shard; [exact Hd|exact Hs|constructor|].
      destruct HR as [HR|(l & H1 & H2 & H3)]; [left; exact HR|right]. exists l. repeat split; auto. intros; congruence.
    + left. destruct HR as (l & H1 & H2). exists links, l. auto.
  - assert (Hfile : file get c -> e = UnexpectedType TFile).
    { intros (b' & n & d & u & Hd' & H1 & H2 & H3 & H4 & H5). apply He. destruct Hd as [_ Hd], Hd' as [_ Hd'].
      assert (b' = b) by congruence. subst b'. exists (mk_flat (n_links n) u). split; [|exact H5]. unfold flat_parse. rewrite H1, H2.
      destruct d; [congruence|]. rewrite H4. reflexivity. }
    assert (Huns : e <> UnexpectedType TFile -> unsupported get (fun _ _ => Panic) c s).
    { intros Hne. eapply bad_directory; [exact Hd|exact Hnp|exact Hns|]. intros X. apply Hne. apply Hfile. exact X. }
    destruct e as [[]| |r|]; try (split; [reflexivity|]; apply Huns; discriminate).
    split; [reflexivity|]. split; [reflexivity|]. right. destruct (proj1 He eq_refl) as (f & Hf & Ht). eapply not_plain_not_shard; eassumption.
Qed.

Lemma unsupported_dir get decode c b s : directory get c b -> unsupported get (fun _ _ => Panic) c s -> unsupported get decode c s.
Proof. intros Hd H. inversion H; subst; [destruct Hd; contradiction|eapply bad_directory|eapply bad_links|eapply bad_shard]; eassumption. Qed.

(** A shard of which more must be loaded has a bucket. *)
Lemma resolve_bucket b s ca ca' c q links : shard b links -> resolve b s ca = Ok (NeedToLoadMore (c :: q), ca') ->
  clean ca -> exists l, In l links /\ is_bucket l.
Proof.
  intros Hs Hr Hca. pose proof (resolve_shard (fun _ => None) b links s ca Hs Hca) as HR. rewrite Hr in HR.
  destruct HR as (_ & _ & Hf & _). inversion Hf as [|? ? (links' & l & H1 & H2 & H3 & _) _]; subst.
  apply sub_shard_front in H1 as [->|(l0 & c0 & b0 & nx & _ & _ & _ & X & _)]; [eauto|discriminate].
Qed.

Section Main.
  Variable get : cid -> option bytes.
  Variable decode : cid -> bytes -> outcome ipld unit.
  Notation directory := (directory get).
  Notation document := (document get decode).
  Notation link_step := (link_step get decode).
  Notation leads := (leads get decode).
  Notation ends := (ends get decode).
  Notation fails := (fails get decode).
  Notation unsupported := (unsupported get decode).
  Notation panics := (panics get decode).

  (** An error of one block. *)
  Definition local_error (c : cid) (segs : list seg) (e : raw_err) : Prop :=
    exists q s r, segs = q ++ s :: r /\
      match e with
      | RNotFound d i | RInvalidIndex d i => d = c /\ i = length q /\ fails c q s Missing
      | RListIndex d i x n => d = c /\ i = length q /\ fails c q s (OutOfRange x n)
      | RNoLinks d i => d = c /\ i = length q /\ fails c q s Leaf
      | RUnsupported d => d = c /\ q = [] /\ unsupported c s
      | RLoading _ => False
      end.

  Lemma resolve_local_spec c data segs ca : get c = Some data -> clean ca ->
    match resolve_local decode c data segs ca with
    | Ok (Complete (NLink src d), m, rest, ca') => clean ca' /\ src = c /\ segs <> [] /\ link_step c segs false d rest /\
        length segs = (m + length rest)%nat
    | Ok (Complete n, m, rest, ca') => ends c segs n
    | Ok (Incomplete src q needle, m, rest, ca') => src = c /\ m = 0%nat /\ ca' = None /\ segs = needle :: rest /\ q <> [] /\
        directory c data /\ resolve data needle ca = Ok (NeedToLoadMore q, ca') /\
        exists links, shard data links /\ Forall (from_root get links) q /\
        (forall l, In l links -> ~ entry_named needle l /\ cuttable l) /\
        (forall l, In l links -> is_bucket l -> exists d, link_cid l = Some d /\ In d q)
    | Err e => local_error c segs e
    | Panic => panics c segs
    end.
  Proof.
    intros Hg Hca. destruct segs as [|s r]; [constructor; exact Hg|]. unfold resolve_local. destruct (cid_codec c =? codec_dagpb) eqn:Ecd.
    - assert (Hd : directory c data) by (split; [apply N.eqb_eq; exact Ecd|exact Hg]).
      pose proof (local_dagpb_spec get c data s (match r with [] => true | _ => false end) ca Hd Hca) as HL.
      destruct (local_dagpb c data s (match r with [] => true | _ => false end) ca) as [[[[n|src q needle] m] ca']|e|]; unfold dagpb_result in HL.
      + destruct n as [c' b|c' b|c' v|src d].
        1-3: (destruct HL as (Hr & -> & H1 & nd & H2 & [=]); try discriminate).
        * destruct r; [|discriminate]. subst. eapply end_data; eassumption.
        * destruct HL as (H0 & -> & -> & H1). split; [exact H0|]. split; [reflexivity|]. split; [discriminate|]. split; [eapply step_dir; eassumption|reflexivity].
      + destruct HL as (-> & -> & -> & -> & H1 & H2 & H3). repeat split; auto; apply Hd.
      + destruct e as [d|d|d i x n|d i|d i|d i]; try contradiction; exists [], s, r; (split; [reflexivity|]).
        * destruct HL as (-> & HL). repeat split; auto. eapply unsupported_dir; eassumption.
        * destruct HL as (-> & -> & [HL|HL]); repeat split; auto; [apply fail_entry|apply fail_file]; exact HL.
      + destruct HL as [(links & l & H1 & H2 & H3)|(H1 & -> & H2 & nd & H3 & H4)]; [eapply panic_name; try eassumption; constructor|].
        destruct r; [|discriminate]. eapply panic_data; eassumption.
    - assert (Hcd : cid_codec c <> codec_dagpb) by (apply N.eqb_neq; exact Ecd).
      destruct (decode c data) as [v|e|] eqn:Ed.
      + assert (Hdoc : document c v) by (split; [exact Hcd|eauto]).
        pose proof (local_ipld_spec c (s :: r) v 0) as HL. destruct (local_ipld c v (s :: r) 0) as [[[[n|src q needle] m] rest]|e|]; try contradiction.
        * destruct n as [c' b|c' b|c' w|src d].
          1-3: (destruct HL as (v' & [=] & H2 & H3); try discriminate).
          -- subst. eapply end_value; try eassumption. discriminate.
          -- destruct HL as (-> & q & H1 & H2). split; [exact Hca|]. split; [reflexivity|]. split; [discriminate|].
             destruct H2 as [(E & H2 & ->)|(E & ->)]; rewrite E, app_length; (split; [|cbn [length]; lia]).
             ++ eapply step_doc; try eassumption. rewrite <- E. discriminate.
             ++ eapply step_dot; eassumption.
        * destruct HL as (q & s0 & r0 & w & E & H1 & H2). exists q, s0, r0. split; [exact E|].
          destruct H2 as [(mm & -> & H2 & ->)|[(l & -> & H2 & ->)|[(l & i & -> & H2 & H3 & ->)|(H2 & ->)]]]; (split; [reflexivity|]; split; [reflexivity|]).
          -- eapply fail_key; eassumption.
          -- eapply fail_index; eassumption.
          -- eapply fail_range; eassumption.
          -- eapply fail_leaf; eassumption.
      + exists [], s, r. split; [reflexivity|]. repeat split; auto. destruct e. eapply bad_document; eassumption.
      + eapply panic_decode; eassumption.
  Qed.

  (** The walk after [Incomplete]. *)
  Lemma walk_after b s ca ca' q links fuel loads o : shard b links -> clean ca -> resolve b s ca = Ok (NeedToLoadMore q, ca') ->
    (forall l, In l links -> ~ entry_named s l) -> q <> [] -> Forall (from_root get links) q ->
    walk_shards get fuel q s ca' = Some (loads, o) ->
    match o with
    | Ok (d, ca2) => clean ca2 /\ dir_entry get b s true d
    | Err _ => (exists links', sub_shard get links links' /\ (~ tidy s links' \/ exists l, In l links' /\ is_bucket l /\
         forall c b links'', link_cid l = Some c -> get c = Some b -> ~ shard b links'')) \/
       (forall links', sub_shard get links links' -> (forall l, In l links' -> ~ entry_named s l) /\
        (forall l, In l links' -> is_bucket l -> exists c b links'', link_cid l = Some c /\ get c = Some b /\ shard b links''))
    | Panic => exists links' l, sub_shard get links links' /\ In l links' /\ uncuttable l
    end.
  Proof.
    intros Hs Hca Hr Hno Hq Hfr Hw.
    assert (HL : lookup_name get fuel b s ca = Some (loads, match o with Ok (c, _) => Ok (Some c) | Err KeyNotFound => Ok None | Err e => Err (inr e) | Panic => Panic end)).
    { unfold lookup_name. rewrite Hr, Hw. reflexivity. }
    destruct (lookup_sound get fuel b links s ca loads _ Hs Hca HL) as [_ H].
    destruct o as [[c ca2]|[c|e|]|]; auto.
    destruct H as (links' & l & H1 & H2 & H3 & H4). split.
    - destruct (walk_sound get s links fuel q ca' loads _ Hq Hfr Hw) as [_ [-> _]]. right. reflexivity.
    - eapply in_sub_shard; eassumption.
  Qed.

  Definition arrived (c : cid) (segs : list seg) (follow : bool) (total : nat) (n : node) (k : nat) : Prop :=
    (exists h d q, leads c segs h d q /\ ends d q n /\ (k + h + length q = total + length segs)%nat /\ (follow = false -> d = c /\ q = segs /\ h = 0%nat)) \/
    (follow = false /\ exists deep d q, link_step c segs deep d q /\ n = NLink c d /\ (k + (if deep then 1 else 0) + length q = total + length segs)%nat).
  Definition stopped (c : cid) (segs : list seg) (follow : bool) (total : nat) (e : raw_err) : Prop :=
    exists h d q, leads c segs h d q /\ (follow = false -> d = c /\ q = segs /\ h = 0%nat) /\
      match e with
      | RLoading x => x = d /\ get d = None
      | RUnsupported x => x = d /\ exists s r, q = s :: r /\ (unsupported d s \/ absent_in_shards get d s)
      | RNotFound x i | RInvalidIndex x i => x = d /\ exists a s r, q = a ++ s :: r /\ fails d a s Missing /\ (i + h + length (s :: r) = total + length segs)%nat
      | RListIndex x i j n => x = d /\ exists a s r, q = a ++ s :: r /\ fails d a s (OutOfRange j n) /\ (i + h + length (s :: r) = total + length segs)%nat
      | RNoLinks x i => x = d /\ exists a s r, q = a ++ s :: r /\ fails d a s Leaf /\ (i + h + length (s :: r) = total + length segs)%nat
      end.

  Lemma resolve0_spec : forall fuel hfuel c segs follow total ca docs shs o, clean ca ->
    resolve0 get decode fuel hfuel c segs follow total ca = Some (docs, shs, o) ->
    match o with
    | Ok (n, k) => arrived c segs follow total n k
    | Err e => stopped c segs follow total e
    | Panic => exists h d q, leads c segs h d q /\ panics d q
    end.
  Proof.
    induction fuel as [|fuel IH]; intros hfuel c segs follow total ca docs shs o Hca H; [discriminate|].
    cbn [resolve0] in H. destruct (get c) as [data|] eqn:Eg.
    2:{ injection H as <- <- <-. exists 0%nat, c, segs. split; [constructor|]. auto. }
    pose proof (resolve_local_spec c data segs ca Eg Hca) as HL.
    destruct (resolve_local decode c data segs ca) as [[[[[n|src q needle] m] rest] ca']|e|].
    - assert (Hother : forall n', (forall s d, n' <> NLink s d) -> n = n' -> ends c segs n' -> Some ([c], [], Ok (n, total)) = Some (docs, shs, o) ->
        match o with Ok (n, k) => arrived c segs follow total n k | Err e => stopped c segs follow total e | Panic => exists h d q, leads c segs h d q /\ panics d q end).
      { intros n' _ -> He [= <- <- <-]. left. exists 0%nat, c, segs. split; [constructor|]. split; [exact He|]. split; [lia|auto]. }
      destruct n as [c' b|c' b|c' v|src d]; try (eapply Hother; [|reflexivity|exact HL|exact H]; intros; discriminate).
      destruct HL as (Hca' & -> & Hne & Hstep & Hlen). destruct follow.
      + destruct (resolve0 get decode fuel hfuel d rest true (total + m) ca') as [[[docs' shs'] o']|] eqn:Er; [|discriminate]. cbn [option_map] in H. injection H as _ _ <-.
        specialize (IH _ _ _ _ _ _ _ _ _ Hca' Er). destruct o' as [[n k]|e|].
        * destruct IH as [(h & d' & q & H1 & H2 & H3 & _)|(X & _)]; [|discriminate]. left. exists h, d', q. split; [eapply (leads_step get decode c segs false); eassumption|].
          split; [exact H2|]. split; [lia|discriminate].
        * destruct IH as (h & d' & q & H1 & _ & H2). exists h, d', q. split; [eapply (leads_step get decode c segs false); eassumption|]. split; [discriminate|].
          destruct e; try exact H2; destruct H2 as (-> & a & s & r & H2 & H3 & H4); (split; [reflexivity|]); exists a, s, r; repeat split; auto; lia.
        * destruct IH as (h & d' & q & H1 & H2). exists h, d', q. split; [eapply (leads_step get decode c segs false); eassumption|exact H2].
      + injection H as <- <- <-. right. split; [reflexivity|]. exists false, d, rest. repeat split; auto. lia.
    - destruct HL as (-> & -> & -> & -> & Hq & Hdir & Hres & links & Hsh & Hfr & Hno & Hbk).
      destruct (walk_shards get hfuel q needle None) as [[wl wo]|] eqn:Ew; [|discriminate].
      pose proof (walk_after data needle ca None q links hfuel wl wo Hsh Hca Hres (fun l Hl => proj1 (Hno l Hl)) Hq Hfr Ew) as HW.
      destruct wo as [[d ca2]|we|].
      + destruct HW as [Hca2 Hent]. assert (Hstep : link_step c (needle :: rest) true d rest) by (eapply step_dir; eassumption).
        destruct follow.
        * destruct (resolve0 get decode fuel hfuel d rest true (total + 0) ca2) as [[[docs' shs'] o']|] eqn:Er; [|discriminate]. cbn [option_map] in H. injection H as _ _ <-.
          specialize (IH _ _ _ _ _ _ _ _ _ Hca2 Er). cbn [length]. destruct o' as [[n k]|e|].
          -- destruct IH as [(h & d' & q' & H1 & H2 & H3 & _)|(X & _)]; [|discriminate]. left. exists (S h), d', q'. split; [eapply (leads_step get decode c _ true); eassumption|].
             split; [exact H2|]. split; [cbn [length]; lia|discriminate].
          -- destruct IH as (h & d' & q' & H1 & _ & H2). exists (S h), d', q'. split; [eapply (leads_step get decode c _ true); eassumption|]. split; [discriminate|].
             destruct e; try exact H2; destruct H2 as (-> & a & s & r & H2 & H3 & H4); (split; [reflexivity|]); exists a, s, r; cbn [length] in *; repeat split; auto; lia.
          -- destruct IH as (h & d' & q' & H1 & H2). exists (S h), d', q'. split; [eapply (leads_step get decode c _ true); eassumption|exact H2].
        * injection H as <- <- <-. right. split; [reflexivity|]. exists true, d, rest. cbn [length]. repeat split; auto. lia.
      + assert (o = Err (RUnsupported c)) as -> by (destruct we; injection H as _ _ <-; reflexivity).
        exists 0%nat, c, (needle :: rest). split; [constructor|]. split; [auto|]. split; [reflexivity|]. exists needle, rest. split; [reflexivity|].
        destruct HW as [(links' & H1 & H2)|HW]; [left; eapply bad_shard; eassumption|right]. exists data, links. split; [exact Hdir|]. split; [exact Hsh|].
        split; [|exact HW]. destruct q as [|c0 q]; [congruence|]. exact (resolve_bucket data needle ca None c0 q links Hsh Hres Hca).
      + injection H as <- <- <-. destruct HW as (links' & l & H1 & H2 & H3). exists 0%nat, c, (needle :: rest). split; [constructor|]. eapply panic_name; eassumption.
    - injection H as <- <- <-. destruct HL as (q & s & r & E & HE). exists 0%nat, c, segs. split; [constructor|]. split; [auto|].
      destruct e; cbn [add_start]; try contradiction.
      + destruct HE as (-> & -> & HE). split; [reflexivity|]. exists s, r. auto.
      + destruct HE as (-> & -> & HE). split; [reflexivity|]. exists q, s, r. repeat split; auto. rewrite E, app_length. lia.
      + destruct HE as (-> & -> & HE). split; [reflexivity|]. exists q, s, r. repeat split; auto. rewrite E, app_length. lia.
      + destruct HE as (-> & -> & HE). split; [reflexivity|]. exists q, s, r. repeat split; auto. rewrite E, app_length. lia.
      + destruct HE as (-> & -> & HE). split; [reflexivity|]. exists q, s, r. repeat split; auto. rewrite E, app_length. lia.
    - injection H as <- <- <-. exists 0%nat, c, segs. split; [constructor|exact HL].
  Qed.
End Main.
