(** Building to the end without an error is only possible when all sizes fit: the converse of
    [TreeIterMain.build_ok]. *)
From Verif Require Import Base Wire WireProofs Cid CidProofs Pb PbProofs FileVisit BTree FMap IpfsPath PathSpec IpfsPathProofs
  TreeBuilder TreeSpec TreeBuilderProofs TreeIter TreeIterSpec TreeIterProofs TreeIterMain.
Local Open Scope N_scope.

Lemma flat_size_block es : flat_size (mk_flat (map dir_link es) directory_data) < u64_max1 -> Forall (fun e => snd (snd e) < u64_max1) es ->
  blen (dir_block es) = flat_size (mk_flat (map dir_link es) directory_data).
Proof.
  unfold dir_block, flat_write, flat_size. cbn [f_links f_data]. fold directory_data. intros Hb Hs. rewrite blen_app.
  assert (E2 : blen (w_msg 10 (unixfs_size directory_data) (unixfs_write directory_data)) = 1 + sizeof_len (unixfs_size directory_data)) by reflexivity.
  rewrite E2. f_equal.
  assert (Hb' : sumN (map (fun l => 1 + sizeof_len (pblink_size l)) (map dir_link es)) < u64_max1) by lia.
  clear Hb E2. induction Hs as [|e es He _ IH]; [reflexivity|]. cbn [map concat sumN] in *. rewrite blen_app.
  rewrite IH by lia. f_equal. pose proof (sizeof_len_ge (pblink_size (dir_link e))).
  assert (Hp : blen (pblink_write (dir_link e)) = pblink_size (dir_link e)) by (apply pblink_len; [lia|exact He]).
  apply blen_w_msg; [lia|lia|exact Hp].
Qed.

Lemma sum_u64_le l : forall acc v, sum_u64 acc l = Some v -> (acc < u64_max1 -> v < u64_max1) /\ v = acc + sumN l.
Proof.
  induction l as [|x l IH]; intros acc v H; cbn [sum_u64 sumN] in *.
  - injection H as <-. split; [auto|lia].
  - destruct (N.ltb_spec (acc + x) u64_max1); [|discriminate]. apply IH in H as [H1 H2]. split; [auto|lia].
Qed.

Section Main.
Variable sha : bytes -> bytes.
Hypothesis sha_wf : forall b, wf_cid (CidV0 (sha b)).
Variable wrap : bool.
Variable limit : option N.
Notation visit := (visit sha wrap limit).
Notation reach := (reach sha wrap limit).

(** A directory is rendered only when its total fits. *)
Lemma render_fits es buffer c t b : Forall (fun e => wf_cid (fst (snd e))) es ->
  render_directory sha (map Some (map nl_of es)) buffer limit = (Ok (c, t), b) -> dir_total es < u64_max1.
Proof.
  intros Hw. unfold render_directory. rewrite unwrap_all_some. destruct (custom_ok es Hw) as [-> ->].
  destruct (match limit with Some m => _ | None => false end); [discriminate|].
  set (size := flat_size _). set (buf := buffer ++ _). destruct (length buf <? length (dir_block es))%nat eqn:E; [discriminate|].
  replace (map nl_size (map nl_of es)) with (map (fun e : bytes * (cid * N) => snd (snd e)) es) by (rewrite map_map; reflexivity).
  destruct (sum_u64 0 _) as [v|] eqn:Ev; [|discriminate]. apply sum_u64_le in Ev as [Hv1 Hv2]. rewrite N.add_0_l in Hv2.
  set (out := firstn (N.to_nat size) _). destruct (N.ltb_spec (blen out + v) u64_max1) as [Hlt|]; [|discriminate]. intros _.
  assert (Hlen : blen out = size).
  { unfold out, blen. rewrite firstn_length, app_length, skipn_length. apply Nat.ltb_ge in E.
    assert (N.to_nat size <= length buf)%nat by (unfold buf; rewrite app_length, repeat_length; lia). lia. }
  assert (Hs : Forall (fun e : bytes * (cid * N) => snd (snd e) < u64_max1) es).
  { apply Forall_forall. intros e He. pose proof (sumN_in (map (fun e => snd (snd e)) es) (snd (snd e)) (in_map (fun e : bytes * (cid * N) => snd (snd e)) es e He)). lia. }
  unfold dir_total. rewrite flat_size_block by (fold size; try assumption; lia). fold size. lia.
Qed.

(** States from which no run ends well. *)
Definition bad (it : iter) : Prop := forall fuel l, run sha fuel wrap limit it = (l, Some Finished) -> exists e, In (Failed e) l.
Lemma reach_bad it l it' : reach it l it' -> bad it' -> bad it.
Proof.
  intros H Hb. induction H as [it|it v p it' l it'' E1 E2 H IH|it v p o it' l it'' E1 E2 H IH]; [exact Hb| |].
  - intros [|fuel] m; cbn [run]; [discriminate|]. rewrite E1, E2. apply IH, Hb.
  - intros [|fuel] m; cbn [run]; [discriminate|]. rewrite E1, E2. destruct (run sha fuel wrap limit it') as [m' e] eqn:Er.
    intros [= <- ->]. destruct (IH Hb _ _ Er) as [x Hx]. exists x. right. exact Hx.
Qed.
Lemma reach_failed it l it' e : reach it l it' -> In (Failed e) l -> bad it.
Proof.
  intros H. induction H as [it|it v p it' l it'' E1 E2 H IH|it v p o it' l it'' E1 E2 H IH]; intros Hin; [destruct Hin| |].
  - intros [|fuel] m; cbn [run]; [discriminate|]. rewrite E1, E2. apply IH, Hin.
  - intros [|fuel] m; cbn [run]; [discriminate|]. rewrite E1, E2. destruct (run sha fuel wrap limit it') as [m' x] eqn:Er.
    intros [= <- ->]. destruct Hin as [->|Hin]; [exists e; left; reflexivity|]. destruct (IH Hin _ _ Er) as [y Hy]. exists y. right. exact Hy.
Qed.
Lemma panic_bad it v p : it_pending it = v :: p -> visit v p it = Panicked -> bad it.
Proof. intros E1 E2 [|fuel] m; cbn [run]; [discriminate|]. rewrite E1, E2. discriminate. Qed.
Lemma failed_bad it v p e it' : it_pending it = v :: p -> visit v p it = Return (Failed e) it' -> bad it.
Proof. intros E1 E2. eapply reach_failed; [eapply reach_ret; [exact E1|exact E2|constructor]|left; reflexivity]. Qed.
Lemma cut_failed l : fits limit l = false -> (forall o, In o l -> exists p c s b, o = Node p c s b) -> exists e, In (Failed e) (cut limit l).
Proof.
  induction l as [|o l IH]; intros H Hn; [discriminate|]. destruct (Hn o (or_introl eq_refl)) as (p & c & s & b & ->).
  cbn [fits forallb fit1 cut] in *. destruct limit as [m|].
  - destruct (m <? blen b); [eexists; left; reflexivity|]. destruct IH as [e He]; [exact H|intros; apply Hn; right; assumption|]. exists e. right. exact He.
  - destruct IH as [e He]; [exact H|intros; apply Hn; right; assumption|]. exists e. right. exact He.
Qed.

Definition szs (l : list out) : bool := forallb (fun o => match o with Node _ _ s _ => s <? u64_max1 | Failed _ => true end) l.
Lemma szs_fit l : szs l = true -> sizes_fit l.
Proof. unfold szs. rewrite forallb_forall. intros H p c s b Hin. specialize (H _ Hin). cbn in H. apply N.ltb_lt in H. exact H. Qed.
Lemma szs_app a b : szs (a ++ b) = szs a && szs b.
Proof. apply forallb_app. Qed.

Definition stops (t : tree) : Prop := match t with Leaf _ _ => True | Dir m par id ns =>
  forall parent T name pending P buf M a b,
  par = Some parent -> wft (Some parent) t -> NoDup (ids t) -> ~ In parent (ids t) ->
  okdir (T ++ [name]) ns -> good P -> (length T = 0%nat \/ above T P) ->
  mget N.eqb parent M = Some (a ++ None :: b) -> links_wf t -> szs (post sha (T ++ [name]) t) = false ->
  bad (mk_iter (join P) (length P) buf (Descent t name (S (length T)) (length a) :: pending) M) end.

Lemma kids_stop Q id : forall pre suf pending P buf M,
  (forall n t, In (n, t) pre -> stops t) ->
  (forall n t, In (n, t) pre -> wft (Some id) t /\ plain n /\ good (Q ++ [n]) /\ (nodes_of t = [] \/ Forall (fun x => x <> []) (Q ++ [n]))) ->
  NoDup (ids_in pre) -> ~ In id (ids_in pre) -> good P -> above Q P ->
  mget N.eqb id M = Some (map hole pre ++ map Some (full sha suf)) ->
  (forall e, In e pre -> links_wf (snd e)) -> szs (post_entries sha Q pre) = false ->
  bad (mk_iter (join P) (length P) buf (rev (kidsof (length Q) 0 pre) ++ pending) M).
Proof.
  induction pre as [|[k v] pre IH] using rev_ind; intros suf pending P buf M Hd Hw Hnd Hid Hg Ha Hm Hl Hs; [discriminate|].
  rewrite post_entries_snoc in *.
  assert (Hd' : forall n t, In (n, t) pre -> stops t) by (intros n t H; eapply Hd; apply in_or_app; left; exact H).
  assert (Hw' := fun n t (H : In (n, t) pre) => Hw n t (in_or_app _ _ _ (or_introl H))).
  assert (Hl' := fun e (H : In e pre) => Hl e (in_or_app _ _ _ (or_introl H))).
  assert (Hids : ids_in (pre ++ [(k, v)]) = ids_in pre ++ ids v).
  { unfold ids_in. rewrite flat_map_app. cbn [flat_map snd]. rewrite app_nil_r. reflexivity. }
  rewrite Hids in *.
  assert (Hnd1 : NoDup (ids_in pre)) by (clear - Hnd; induction (ids_in pre); [constructor|]; inversion Hnd; subst; constructor; [intros X; apply H1; apply in_or_app; left; exact X|auto]).
  assert (Hnd2 : NoDup (ids v)) by (clear - Hnd; induction (ids_in pre); [exact Hnd|]; inversion Hnd; auto).
  assert (Hid1 : ~ In id (ids_in pre)) by (intros X; apply Hid; apply in_or_app; left; exact X).
  assert (Hid2 : ~ In id (ids v)) by (intros X; apply Hid; apply in_or_app; right; exact X).
  rewrite (kids_app sha sha_wf). cbn [Nat.add]. rewrite kids_cons. change (kidsof (length Q) (S (length pre)) []) with (@nil visited). rewrite app_nil_r.
  rewrite szs_app in Hs. destruct v as [c s|m par i sub].
  - rewrite app_nil_r. cbn [post app] in *.
    assert (Hm1 : mget N.eqb id M = Some (map hole pre ++ map Some (full sha ((k, Leaf c s) :: suf)))).
    { rewrite Hm, map_app, <- app_assoc. reflexivity. }
    apply (IH ((k, Leaf c s) :: suf)); assumption.
  - rewrite rev_app_distr. cbn [rev app].
    assert (Hin : In (k, Dir m par i sub) (pre ++ [(k, Dir m par i sub)])) by (apply in_or_app; right; left; reflexivity).
    specialize (Hd _ _ Hin). destruct (Hw _ _ Hin) as (W1 & W2 & W3 & W4).
    assert (Hpar : par = Some id) by (inversion W1; reflexivity). subst par.
    assert (Hmv : mget N.eqb id M = Some (map hole pre ++ None :: map Some (full sha suf))).
    { rewrite Hm, map_app, <- app_assoc. reflexivity. }
    rewrite Nat.add_1_r. destruct (szs (post sha (Q ++ [k]) (Dir m (Some id) i sub))) eqn:Es1.
    + pose proof (all_descend sha sha_wf wrap limit (Dir m (Some id) i sub) id Q k (rev (kidsof (length Q) 0 pre) ++ pending) P buf M (map hole pre) (map Some (full sha suf))
                    eq_refl W1 Hnd2 Hid2 (conj W3 W4) Hg (or_intror Ha) Hmv (Hl _ Hin) (szs_fit _ Es1)) as HD.
      cbv zeta in HD. rewrite map_length in HD. destruct HD as [D1 D2].
      destruct (fits limit (post sha (Q ++ [k]) (Dir m (Some id) i sub))) eqn:Ef.
      * destruct (D1 eq_refl) as (buf1 & M1 & R1 & R2 & R3). eapply reach_bad; [exact R1|].
        assert (Hm1 : mget N.eqb id M1 = Some (map hole pre ++ map Some (full sha ((k, Dir m (Some id) i sub) :: suf)))).
        { rewrite R2. reflexivity. }
        pose proof (IH ((k, Dir m (Some id) i sub) :: suf) pending (Q ++ [k]) buf1 M1 Hd' Hw' Hnd1 Hid1 W3 (above_snoc sha sha_wf Q k) Hm1 Hl' Hs) as HI.
        assert (El : length (Q ++ [k]) = S (length Q)) by (rewrite app_length; cbn; lia). rewrite El in HI. exact HI.
      * destruct (D2 eq_refl) as [it' R]. destruct (cut_failed _ Ef) as [e He]; [apply post_nodes|]. eapply reach_failed; [exact R|exact He].
    + specialize (Hd id Q k (rev (kidsof (length Q) 0 pre) ++ pending) P buf M (map hole pre) (map Some (full sha suf)) eq_refl W1 Hnd2 Hid2
                   (conj W3 W4) Hg (or_intror Ha) Hmv (Hl _ Hin) Es1). rewrite map_length in Hd. exact Hd.
Qed.

Lemma post_stop parent (T : list bytes) name ns a s P buf pending M stash :
  into_inner s M = Some (map Some (full sha ns), stash) ->
  (forall e, In e ns -> links_wf (snd e)) -> u64_max1 <= dir_total (entries sha ns) ->
  bad (mk_iter (join P) (length P) buf (Post parent (S (length T)) name a s :: pending) M).
Proof.
  intros Hi Hl Ht.
  destruct (visit (Post parent (S (length T)) name a s) pending (mk_iter (join P) (length P) buf (Post parent (S (length T)) name a s :: pending) M)) eqn:Hv.
  - exfalso. unfold TreeIter.visit in Hv. cbn [it_path it_depth it_persisted it_buffer] in Hv. destruct (update_full_path _ _ _ _) as [[? ?]|]; [|discriminate].
    rewrite Hi in Hv. destruct (render_directory _ _ _ _) as [[[? ?]|?|] ?]; try discriminate. destruct (mget _ _ _); [|discriminate]. destruct (fill _ _ _); discriminate.
  - destruct o as [p c t b|e]; [|eapply failed_bad; [reflexivity|exact Hv]]. exfalso.
    unfold TreeIter.visit in Hv. cbn [it_path it_depth it_persisted it_buffer] in Hv. destruct (update_full_path _ _ _ _) as [[? ?]|]; [|discriminate].
    rewrite Hi in Hv. destruct (render_directory _ _ _ _) as [[[? ?]|?|] ?] eqn:Er; try discriminate.
    unfold full in Er. apply render_fits in Er; [lia|apply entries_wf; assumption].
  - exfalso. unfold TreeIter.visit in Hv. cbn [it_path it_depth it_persisted it_buffer] in Hv. destruct (update_full_path _ _ _ _) as [[? ?]|]; [|discriminate].
    rewrite Hi in Hv. destruct (render_directory _ _ _ _) as [[[? ?]|?|] ?]; try discriminate. destruct (mget _ _ _); [|discriminate]. destruct (fill _ _ _); discriminate.
  - eapply panic_bad; [reflexivity|exact Hv].
Qed.

Lemma all_stop : forall t, stops t.
Proof.
  apply tree_ind2; [intros c s; exact Logic.I|].
  intros m par id ns IH parent T name pending P buf M a b Hpar Hw Hnd Hnp Hok Hg Ha Hm Hl Hs. subst par.
  set (it := mk_iter _ _ _ _ _).
  assert (Hlens : length (T ++ [name]) = S (length T)) by (rewrite app_length; cbn; lia).
  pose proof (proj1 (links_wf_dir m (Some parent) id ns) Hl) as Hl'.
  pose proof (wft_wfns _ _ _ _ _ Hw) as [_ [Hsort Hchild]].
  assert (Hv : visit (Descent (Dir m (Some parent) id ns) name (S (length T)) (length a)) pending it =
    match kidsof (S (length T)) 0 ns with
    | [] => Continue (mk_iter (join (T ++ [name])) (S (length T)) buf (Post parent (S (length T)) name (length a) (Direct (map hole ns)) :: pending) M)
    | _ => Continue (mk_iter (join (T ++ [name])) (S (length T)) buf (rev (kidsof (S (length T)) 0 ns) ++ Post parent (S (length T)) name (length a) (Stashed id) :: pending) (mset N.eqb id (map hole ns) M))
    end).
  { subst it. unfold TreeIter.visit. cbn [it_path it_depth it_persisted it_buffer]. rewrite update_ok by (try assumption; apply Hok).
    unfold kidsof. rewrite <- (part_leaves (S (length T)) 0 ns). destruct (partition_children (S (length T)) 0 ns) as [ch ls]. reflexivity. }
  rewrite post_dir, szs_app in Hs.
  destruct (kidsof (S (length T)) 0 ns) as [|k0 kr] eqn:Ek.
  - pose proof (kids_none _ _ _ Ek) as Hleaf. rewrite (post_entries_leaves _ _ _ Hleaf) in Hs. cbn [szs forallb andb node_at] in Hs.
    rewrite andb_true_r in Hs. apply N.ltb_ge in Hs.
    eapply reach_bad; [eapply reach_cont; [reflexivity|exact Hv|constructor]|]. rewrite <- Hlens.
    eapply (post_stop parent T name ns (length a) (Direct (map hole ns)) (T ++ [name]) buf pending M M) in Hs; [|cbn [into_inner]; rewrite (hole_leaves sha ns Hleaf); reflexivity|exact Hl'].
    rewrite Hlens in *. exact Hs.
  - assert (Hne : ns <> []) by (intros ->; discriminate).
    assert (Hall : Forall (fun x => x <> []) (T ++ [name])) by (destruct Hok as [_ [?|?]]; [congruence|assumption]).
    assert (Hpl : Forall plain (T ++ [name])) by apply Hok.
    assert (HW : forall n t, In (n, t) ns -> wft (Some id) t /\ plain n /\ good ((T ++ [name]) ++ [n]) /\ (nodes_of t = [] \/ Forall (fun x => x <> []) ((T ++ [name]) ++ [n]))).
    { intros n t Hin. destruct (Hchild n t Hin) as (C1 & C2 & C3). assert (n <> []) by (intros ->; destruct (C3 eq_refl); discriminate).
      destruct (okdir_child (T ++ [name]) n Hpl Hall C2 H). auto. }
    cbn [ids] in Hnd, Hnp. fold (ids_in ns) in Hnd, Hnp. inversion Hnd as [|? ? Hid Hnds]; subst.
    eapply reach_bad; [eapply reach_cont; [reflexivity|exact Hv|constructor]|].
    assert (Hmm : mget N.eqb id (mset N.eqb id (map hole ns) M) = Some (map hole ns ++ map Some (full sha []))) by (rewrite (mget_mset N.eqb eqN), N.eqb_refl; cbn; rewrite app_nil_r; reflexivity).
    destruct (szs (post_entries sha (T ++ [name]) ns)) eqn:Es1.
    + cbn [szs forallb andb node_at] in Hs. rewrite andb_true_r in Hs. apply N.ltb_ge in Hs.
      pose proof (kids_ok sha sha_wf wrap limit (T ++ [name]) id ns [] (Post parent (S (length T)) name (length a) (Stashed id) :: pending) (T ++ [name]) buf (mset N.eqb id (map hole ns) M)
                  (fun n t _ => all_descend sha sha_wf wrap limit t) HW Hnds Hid (proj1 Hok) (above_refl _) Hmm Hl' (szs_fit _ Es1)) as HK.
      cbv zeta in HK. rewrite Hlens, Ek in HK. destruct HK as [K1 K2].
      destruct (fits limit (post_entries sha (T ++ [name]) ns)) eqn:Ef.
      * destruct (K1 eq_refl) as (buf' & P' & M' & R1 & R2 & R3 & R4 & R5). cbn [full entries map] in R4. rewrite app_nil_r in R4.
        eapply reach_bad; [exact R1|]. eapply post_stop; [cbn [into_inner]; rewrite R4; reflexivity|exact Hl'|exact Hs].
      * destruct (K2 eq_refl) as [it' R]. destruct (cut_failed _ Ef) as [e He].
        -- intros o Ho. unfold post_entries in Ho. apply in_concat in Ho as (l & Hl0 & Ho). apply in_rev, in_map_iff in Hl0 as ([n t] & <- & _). eapply post_nodes; eauto.
        -- eapply reach_failed; [exact R|exact He].
    + pose proof (kids_stop (T ++ [name]) id ns [] (Post parent (S (length T)) name (length a) (Stashed id) :: pending) (T ++ [name]) buf (mset N.eqb id (map hole ns) M)
                  IH HW Hnds Hid (proj1 Hok) (above_refl _) Hmm Hl' Es1) as HK.
      rewrite Hlens, Ek in HK. exact HK.
Qed.

Lemma root_stop m ns : wfns None 0 ns -> NoDup (0 :: ids_in ns) -> links_wf (Dir m None 0 ns) -> szs (all_nodes sha wrap (Dir m None 0 ns)) = false ->
  bad (new_iter (Dir m None 0 ns)).
Proof.
  intros [Hsort Hchild] Hnd Hl Hs. unfold all_nodes in *. cbn [nodes_of] in *. rewrite szs_app in Hs.
  pose proof (proj1 (links_wf_dir m None 0 ns) Hl) as Hl'.
  assert (Hv : visit (DescentRoot (Dir m None 0 ns)) [] (new_iter (Dir m None 0 ns)) =
    match kidsof 0 0 ns with
    | [] => Continue (mk_iter [] 0 [] [PostRoot (Direct (map hole ns))] [])
    | _ => Continue (mk_iter [] 0 [] (rev (kidsof 0 0 ns) ++ [PostRoot (Stashed 0)]) (mset N.eqb 0 (map hole ns) []))
    end).
  { unfold TreeIter.visit. cbn [it_path it_depth it_persisted it_buffer new_iter]. change (update_full_path [] 0 None 0) with (Some (@nil N, 0%nat)).
    unfold kidsof. rewrite <- (part_leaves 0 0 ns). destruct (partition_children 0 0 ns) as [ch ls]. reflexivity. }
  (* the root itself *)
  assert (Hroot : forall s P buf M stash, into_inner s M = Some (map Some (full sha ns), stash) -> szs (if wrap then [node_at sha [] ns] else []) = false ->
     bad (mk_iter (join P) (length P) buf [PostRoot s] M)).
  { intros s P buf M stash Hi Hz. assert (Ew : wrap = true) by (destruct wrap; [reflexivity|discriminate]). rewrite Ew in Hz.
    cbn [szs forallb andb node_at] in Hz. rewrite andb_true_r in Hz. apply N.ltb_ge in Hz.
    destruct (visit (PostRoot s) [] (mk_iter (join P) (length P) buf [PostRoot s] M)) eqn:Hv2.
    - exfalso. unfold TreeIter.visit in Hv2. cbn [it_path it_depth it_persisted it_buffer] in Hv2. rewrite update_root, Hi, Ew in Hv2. cbn [negb] in Hv2.
      destruct (render_directory _ _ _ _) as [[[? ?]|?|] ?]; discriminate.
    - destruct o as [p c t b|e]; [|eapply failed_bad; [reflexivity|exact Hv2]]. exfalso.
      unfold TreeIter.visit in Hv2. cbn [it_path it_depth it_persisted it_buffer] in Hv2. rewrite update_root, Hi, Ew in Hv2. cbn [negb] in Hv2.
      destruct (render_directory _ _ _ _) as [[[? ?]|?|] ?] eqn:Er; try discriminate.
      unfold full in Er. apply render_fits in Er; [lia|apply entries_wf; assumption].
    - exfalso. unfold TreeIter.visit in Hv2. cbn [it_path it_depth it_persisted it_buffer] in Hv2. rewrite update_root, Hi, Ew in Hv2. cbn [negb] in Hv2.
      destruct (render_directory _ _ _ _) as [[[? ?]|?|] ?]; discriminate.
    - eapply panic_bad; [reflexivity|exact Hv2]. }
  destruct (kidsof 0 0 ns) as [|k0 kr] eqn:Ek.
  - pose proof (kids_none _ _ _ Ek) as Hleaf. rewrite (post_entries_leaves _ _ _ Hleaf) in Hs. cbn [szs forallb andb] in Hs. fold (szs (if wrap then [node_at sha [] ns] else [])) in Hs.
    eapply reach_bad; [eapply reach_cont; [reflexivity|exact Hv|constructor]|].
    apply (Hroot (Direct (map hole ns)) [] [] [] []); [cbn [into_inner]; rewrite (hole_leaves sha ns Hleaf); reflexivity|exact Hs].
  - inversion Hnd as [|? ? Hid Hnds]; subst.
    assert (HW : forall n t, In (n, t) ns -> wft (Some 0) t /\ plain n /\ good ([] ++ [n]) /\ (nodes_of t = [] \/ Forall (fun x => x <> []) ([] ++ [n]))).
    { intros n t Hin. destruct (Hchild n t Hin) as (C1 & C2 & C3). split; [exact C1|]. split; [exact C2|]. cbn [app].
      split; [split; [constructor; [exact C2|constructor]|exact Logic.I]|].
      destruct n as [|n0 nr]; [destruct (C3 eq_refl); left; assumption|right; repeat constructor; discriminate]. }
    assert (Hg0 : good []) by (split; [constructor|exact Logic.I]).
    assert (Hmm : mget N.eqb 0 (mset N.eqb 0 (map hole ns) []) = Some (map hole ns ++ map Some (full sha []))) by (rewrite (mget_mset N.eqb eqN), N.eqb_refl; cbn; rewrite app_nil_r; reflexivity).
    eapply reach_bad; [eapply reach_cont; [reflexivity|exact Hv|constructor]|].
    destruct (szs (post_entries sha [] ns)) eqn:Es1.
    + pose proof (kids_ok sha sha_wf wrap limit [] 0 ns [] [PostRoot (Stashed 0)] [] [] (mset N.eqb 0 (map hole ns) [])
                    (fun n t _ => all_descend sha sha_wf wrap limit t) HW Hnds Hid Hg0 (above_refl _) Hmm Hl' (szs_fit _ Es1)) as HK.
      cbv zeta in HK. cbn [length] in HK. rewrite Ek in HK. destruct HK as [K1 K2].
      destruct (fits limit (post_entries sha [] ns)) eqn:Ef.
      * destruct (K1 eq_refl) as (buf' & P' & M' & R1 & R2 & R3 & R4 & R5). cbn [full entries map] in R4. rewrite app_nil_r in R4.
        eapply reach_bad; [exact R1|]. eapply Hroot; [cbn [into_inner]; rewrite R4; reflexivity|exact Hs].
      * destruct (K2 eq_refl) as [it' R]. destruct (cut_failed _ Ef) as [e He].
        -- intros o Ho. unfold post_entries in Ho. apply in_concat in Ho as (l & Hl0 & Ho). apply in_rev, in_map_iff in Hl0 as ([n t] & <- & _). eapply post_nodes; eauto.
        -- eapply reach_failed; [exact R|exact He].
    + pose proof (kids_stop [] 0 ns [] [PostRoot (Stashed 0)] [] [] (mset N.eqb 0 (map hole ns) [])
                    (fun n t _ => all_stop t) HW Hnds Hid Hg0 (above_refl _) Hmm Hl' Es1) as HK.
      cbn [length] in HK. rewrite Ek in HK. exact HK.
Qed.

Lemma run_more fuel k it l e : run sha fuel wrap limit it = (l, Some e) -> run sha (fuel + k) wrap limit it = (l, Some e).
Proof.
  revert it l. induction fuel as [|fuel IH]; intros it l; cbn [Nat.add run]; [discriminate|].
  destruct (it_pending it) as [|v p]; [auto|]. destruct (visit v p it) as [it'|o it'|it'|]; auto.
  destruct (run sha fuel wrap limit it') as [m x] eqn:E. intros [= <- ->]. rewrite (IH _ _ E). reflexivity.
Qed.
End Main.

(** Building which ends without an error gave out all the nodes, and everything fitted. *)
Lemma build_done sha wrap limit h b fuel l : (forall x, wf_cid (CidV0 (sha x))) -> inv wrap limit h b -> links_wf (b_root b) ->
  build sha fuel b = (l, Some Finished) -> (forall e, ~ In (Failed e) l) ->
  l = all_nodes sha wrap (b_root b) /\ sizes_fit l /\ all_fit limit l.
Proof.
  intros Hsha Hi Hl Hb Hf. pose proof (build_ok sha wrap limit h b Hsha Hi Hl) as HB.
  pose proof Hi as (ns & Eb & Hw & _ & _ & Hnd & _). rewrite Eb in *. cbn [b_root] in *.
  set (b0 := Dir meta0 None 0 ns) in *. unfold build in *. cbn [b_wrap b_limit b_root] in *.
  destruct (szs (all_nodes sha wrap b0)) eqn:Es.
  - specialize (HB (szs_fit _ Es)). destruct HB as [B1 B2].
    destruct (fits limit (all_nodes sha wrap b0)) eqn:Ef.
    + pose proof (proj1 (fits_all limit _ (all_nodes_nodes sha wrap b0)) Ef) as Ha. destruct (B1 Ha) as [n Hn]. specialize (Hn fuel).
      rewrite (Nat.add_comm n fuel), (run_more _ _ _ _ _ _ _ _ Hb) in Hn. injection Hn as ->. split; [reflexivity|]. split; [apply szs_fit; exact Es|exact Ha].
    + exfalso. destruct B2 as [n Hn]; [intros Ha; apply (proj2 (fits_all limit _ (all_nodes_nodes sha wrap b0))) in Ha; congruence|].
      destruct (Hn fuel) as [rest Hr]. rewrite (Nat.add_comm n fuel), (run_more _ _ _ _ _ _ _ _ Hb) in Hr. cbn [fst] in Hr.
      destruct (cut_failed limit _ Ef (all_nodes_nodes sha wrap b0)) as [e He]. apply (Hf e). rewrite Hr. apply in_or_app. left. exact He.
  - exfalso. destruct (root_stop sha Hsha wrap limit meta0 ns Hw Hnd Hl Es _ _ Hb) as [e He]. exact (Hf e He).
Qed.
