(** C35, C36 and C37: building directory trees. *)
From Coq Require Import Permutation.
From Verif Require Import Base Wire WireProofs Cid CidProofs Pb PbProofs FileVisit BTree FMap IpfsPath PathSpec IpfsPathProofs DirLookup DirSpec DirLookupProofs
  TreeBuilder TreeSpec TreeBuilderProofs TreeIter TreeIterSpec TreeIterProofs TreeIterMain TreeSizes TreeOutSpec TreeOut TreeRead.
Local Open Scope N_scope.

(** The builder after a sequence of calls on a new one, the results, and the accepted calls. *)
Definition tree_of (wrap : bool) (limit : option N) (l : list call) : builder := fst (do_calls (new_builder wrap limit) l).
Definition results_of (wrap : bool) (limit : option N) (l : list call) := snd (do_calls (new_builder wrap limit) l).
Definition accepted (wrap : bool) (l : list call) : list call := fst (accept wrap [] l).

Lemma tree_inv wrap limit l : inv wrap limit (accepted wrap l) (tree_of wrap limit l).
Proof. apply (calls_inv wrap limit l [] _ (inv_new wrap limit)). Qed.

(** * C35 *)

(** Every call has the specified result; in particular duplicates and conflicting uses are rejected. *)
Theorem c35_results wrap limit l : results_of wrap limit l = snd (accept wrap [] l).
Proof. apply (calls_inv wrap limit l [] _ (inv_new wrap limit)). Qed.
Print Assumptions c35_results.

(** The accepted calls are those which returned [Ok]. *)
Theorem c35_accepted wrap limit l c :
  In c (accepted wrap l) <-> exists i, nth_error l i = Some c /\ nth_error (results_of wrap limit l) i = Some (Ok tt).
Proof. unfold accepted. rewrite accept_in, c35_results. split; [intros [[]|H]; exact H|auto]. Qed.
Print Assumptions c35_accepted.

(** The tree holds exactly what the accepted calls say, at every path. *)
Theorem c35_contents wrap limit l : holds (accepted wrap l) (b_root (tree_of wrap limit l)).
Proof. eapply inv_holds. apply tree_inv. Qed.
Print Assumptions c35_contents.

(** In terms of the calls: a path denotes a link iff a successful put_link named it. *)
Theorem c35_link_iff wrap limit l q c s : q <> [] ->
  (at_path (b_root (tree_of wrap limit l)) q = Some (Leaf c s) <->
   exists i p, nth_error l i = Some (PutLink p c s) /\ nth_error (results_of wrap limit l) i = Some (Ok tt) /\ split_slash p = q).
Proof.
  intros Hq. pose proof (c35_contents wrap limit l q Hq) as H.
  assert (Hn : NoDup (map fst (puts_of (accepted wrap l)))) by (apply accept_puts; constructor).
  transitivity (link_at (accepted wrap l) q = Some (c, s)).
  - destruct (at_path (b_root (tree_of wrap limit l)) q) as [[c' s'|]|]; destruct H as [H _]; rewrite H; split; congruence.
  - split.
    + intros E. apply link_at_call in E as (p & Hp & Ep). apply (c35_accepted wrap limit) in Hp as (i & H1 & H2). exists i, p. auto.
    + intros (i & p & H1 & H2 & Ep). apply nodup_in_link; [exact Hn|].
      assert (Hp : In (PutLink p c s) (accepted wrap l)) by (apply (c35_accepted wrap limit); exists i; auto).
      apply in_flat_map. exists (PutLink p c s). split; [exact Hp|]. left. rewrite Ep. reflexivity.
Qed.
Print Assumptions c35_link_iff.

(** A call which fails leaves the builder as it was; none panics. *)
Theorem c35_failed_call wrap limit l c :
  let b := tree_of wrap limit l in
  match do_call b c with
  | (b', Ok _) => b' = tree_of wrap limit (l ++ [c])
  | (b', Err e) => b' = b
  | (_, Panic) => False
  end.
Proof.
  cbv zeta. pose proof (call_step wrap limit _ _ c (tree_inv wrap limit l)) as H.
  assert (E : forall b, fst (do_calls b (l ++ [c])) = fst (do_call (fst (do_calls b l)) c)).
  { clear. induction l as [|x l IH]; intros b; cbn [app do_calls].
    - cbn [fst]. destruct (do_call b c); reflexivity.
    - destruct (do_call b x) as [b1 r1]. specialize (IH b1). destruct (do_calls b1 (l ++ [c])), (do_calls b1 l). exact IH. }
  unfold tree_of in *. specialize (E (new_builder wrap limit)). destruct (do_call _ c) as [b' [u|e|]]; [symmetry; exact E| |]; tauto.
Qed.
Print Assumptions c35_failed_call.

(** Putting twice at a path, below a link, or over a directory never succeeds twice. *)
Theorem c35_no_duplicates wrap limit l i j p c s p' c' s' :
  nth_error l i = Some (PutLink p c s) -> nth_error (results_of wrap limit l) i = Some (Ok tt) ->
  nth_error l j = Some (PutLink p' c' s') -> nth_error (results_of wrap limit l) j = Some (Ok tt) ->
  i <> j -> seg_prefix (split_slash p) (split_slash p') = false.
Proof.
  rewrite c35_results. unfold accepted. intros Hi Ri Hj Rj Hij.
  enough (G : forall l h,
    (forall i j p c s p' c' s', nth_error l i = Some (PutLink p c s) -> nth_error (snd (accept wrap h l)) i = Some (Ok tt) ->
       nth_error l j = Some (PutLink p' c' s') -> nth_error (snd (accept wrap h l)) j = Some (Ok tt) -> (i < j)%nat ->
       seg_prefix (split_slash p) (split_slash p') = false /\ seg_prefix (split_slash p') (split_slash p) = false)).
  { destruct (Nat.lt_trichotomy i j) as [H|[H|H]]; [|contradiction|].
    - apply (G l [] i j p c s p' c' s'); assumption.
    - apply (G l [] j i p' c' s' p c s); assumption. }
  clear. intros l h.
  (* a call accepted with [p] linked is not at, above or below [p] *)
  assert (V : forall h p c s p' c' s', In (PutLink p c s) h -> verdict wrap h (PutLink p' c' s') = Ok tt ->
    seg_prefix (split_slash p) (split_slash p') = false /\ seg_prefix (split_slash p') (split_slash p) = false).
  { clear. intros h p c s p' c' s' Hin Hv.
    unfold verdict in Hv. cbn [call_path] in Hv.
    repeat (match type of Hv with (if ?b then _ else _) = _ => destruct b eqn:? end; [discriminate|]).
    assert (Hl : is_link h (split_slash p) = true).
    { unfold is_link. destruct (link_at h (split_slash p)) eqn:E; [reflexivity|]. exfalso.
      apply (proj1 (in_link_at h (split_slash p))); [|exact E]. apply in_map_iff. exists (split_slash p, (c, s)). split; [reflexivity|].
      apply in_flat_map. exists (PutLink p c s). split; [exact Hin|left; reflexivity]. }
    assert (Ht : taken h (split_slash p') = false) by assumption.
    unfold taken in Ht. apply orb_false_iff in Ht as [Ht1 Ht2].
    assert (Hne : split_slash p <> split_slash p') by congruence.
    split; apply not_true_is_false; intros E; apply seg_prefix_spec in E as [r Er].
    - assert (Ha : existsb (is_link h) (ancestors (split_slash p')) = false) by assumption.
      apply not_true_iff_false in Ha. apply Ha. apply existsb_exists. exists (split_slash p). split; [|exact Hl].
      apply ancestors_spec. split; [apply split_nonempty|]. exists r. split; [|exact Er]. intros ->. rewrite app_nil_r in Er. congruence.
    - assert (Hd : dir_at h (split_slash p') = true); [|congruence]. unfold dir_at. apply existsb_exists. exists (PutLink p c s). split; [exact Hin|].
      cbn [makes_dir]. unfold proper_prefix. apply andb_true_iff. split; [apply seg_prefix_spec; exists r; exact Er|].
      destruct (seg_eqb_spec (split_slash p') (split_slash p)); [congruence|reflexivity]. }
  assert (W : forall l h p c s j p' c' s', In (PutLink p c s) h -> nth_error l j = Some (PutLink p' c' s') -> nth_error (snd (accept wrap h l)) j = Some (Ok tt) ->
    seg_prefix (split_slash p) (split_slash p') = false /\ seg_prefix (split_slash p') (split_slash p) = false).
  { clear - V. induction l as [|x l IH]; intros h p c s j p' c' s' Hin Hj Rj; [destruct j; discriminate|].
    cbn [accept] in Rj. destruct j as [|j].
    - destruct (accept wrap _ l). cbn in Hj, Rj. injection Hj as ->. injection Rj as Rj. eapply V; eassumption.
    - specialize (IH (match verdict wrap h x with Ok _ => x :: h | _ => h end) p c s j p' c' s').
      destruct (accept wrap _ l). cbn in Hj, Rj, IH. apply IH; [|assumption|assumption]. destruct (verdict wrap h x); [right| |]; exact Hin. }
  revert h. induction l as [|x l IH]; intros h i j p c s p' c' s' Hi Ri Hj Rj Hlt; [destruct i; discriminate|].
  destruct j as [|j]; [lia|]. cbn [accept] in Ri, Rj.
  specialize (IH (match verdict wrap h x with Ok _ => x :: h | _ => h end)). specialize (W l (match verdict wrap h x with Ok _ => x :: h | _ => h end)).
  destruct (accept wrap _ l) as [h' vs]. cbn [fst snd] in *. destruct i as [|i].
  - cbn in Hi, Ri, Hj, Rj. injection Hi as ->. injection Ri as Ri. eapply (W p c s j p' c' s'); try eassumption. rewrite Ri. left. reflexivity.
  - cbn in Hi, Ri, Hj, Rj. eapply (IH i j p c s p' c' s'); try eassumption. lia.
Qed.
Print Assumptions c35_no_duplicates.

(** Finding: without wrapping, metadata cannot be set on the existing top directory. *)
Theorem c35_top_metadata_refuted : exists l md,
  results_of false default_limit l = [Ok tt] /\ dir_at (accepted false l) [[97]] = true /\
  snd (do_call (tree_of false default_limit l) (SetMetadata [97] md)) = Err TooManyRootLevelEntries.
Proof. exists [PutLink [97; 47; 98] (CidV0 (repeat 1 32)) 5], meta0. repeat split. Qed.
Print Assumptions c35_top_metadata_refuted.

(** * C36 and C37 *)

(** The whole story: there is a list of directories, as specified from the accepted calls, with
    sizes adding up, and building gives out exactly their nodes in that order and ends; or, when a
    block is over the limit, the nodes before it and an error. *)
Theorem c36_build (sha : bytes -> bytes) (wrap : bool) (limit : option N) (l : list call) :
  (forall x, wf_cid (CidV0 (sha x))) -> Forall call_wf l ->
  exists dirs,
    built sha wrap (accepted wrap l) dirs /\
    (forall q es, In (q, es) dirs -> dir_total es = blocks_below q dirs + links_below q (accepted wrap l)) /\
    ((forall q es, In (q, es) dirs -> dir_total es < 2 ^ 64) ->
       ((forall q es m, In (q, es) dirs -> limit = Some m -> blen (dir_block es) <= m) ->
          exists n, forall k, build sha (n + k) (tree_of wrap limit l) = (map (node_of sha) dirs, Some Finished)) /\
       (forall m i q es, limit = Some m -> nth_error dirs i = Some (q, es) -> m < blen (dir_block es) ->
          (forall q' es', In (q', es') (firstn i dirs) -> blen (dir_block es') <= m) ->
          exists n, forall k, exists rest,
            fst (build sha (n + k) (tree_of wrap limit l)) =
            map (node_of sha) (firstn i dirs) ++ Failed (TooLargeBlock (blen (dir_block es))) :: rest)).
Proof.
  intros Hsha Hwf. pose proof (tree_inv wrap limit l) as HI. set (b := tree_of wrap limit l) in *. set (h := accepted wrap l) in *.
  assert (Hh : Forall call_wf h).
  { apply Forall_forall. intros c Hc. apply (c35_accepted wrap limit) in Hc as (i & Hi & _). rewrite Forall_forall in Hwf. apply Hwf. eapply nth_error_In; exact Hi. }
  assert (Hn : NoDup (map fst (puts_of h))) by (apply accept_puts; constructor).
  exists (all_dirs sha wrap (b_root b)). split; [|split].
  - eapply built_ok; [exact HI|]. intros ->. apply accept_one_root. exists []. intros c [].
  - intros q es Hin. exact (total_ok sha wrap limit h b q es HI Hn Hin).
  - intros Hs. assert (Hs' : sizes_fit (all_nodes sha wrap (b_root b))).
    { intros p c s x Hin. rewrite all_nodes_dirs in Hin. apply in_map_iff in Hin as ([q es] & E & Hin). unfold node_of in E. cbn [fst snd] in E.
      injection E as _ _ <- _. exact (Hs q es Hin). }
    destruct (build_ok sha wrap limit h b Hsha HI (links_wf_ok _ _ _ _ HI Hh) Hs') as [B1 B2]. rewrite all_nodes_dirs in B1, B2. split.
    + intros Hl. apply B1. unfold all_fit. destruct limit as [m|]; [|exact Logic.I]. intros p c s x Hin. apply in_map_iff in Hin as ([q es] & E & Hin).
      injection E as _ _ _ <-. exact (Hl q es m Hin eq_refl).
    + intros m i q es -> Hi Hm Hbefore. destruct B2 as [n Hn2].
      * intros Hall. cbn [all_fit] in Hall. specialize (Hall (join q) (dir_cid sha es) (dir_total es) (dir_block es)).
        assert (Hx : In (Node (join q) (dir_cid sha es) (dir_total es) (dir_block es)) (map (node_of sha) (all_dirs sha wrap (b_root b)))).
        { apply in_map_iff. exists (q, es). split; [reflexivity|eapply nth_error_In; exact Hi]. }
        specialize (Hall Hx). lia.
      * exists n. intros k. destruct (Hn2 k) as [rest Hr]. exists rest. rewrite Hr.
        replace (map (node_of sha) (firstn i (all_dirs sha wrap (b_root b))) ++ Failed (TooLargeBlock (blen (dir_block es))) :: rest)
          with ((map (node_of sha) (firstn i (all_dirs sha wrap (b_root b))) ++ [Failed (TooLargeBlock (blen (dir_block es)))]) ++ rest) by (rewrite <- app_assoc; reflexivity).
        f_equal. clear - Hi Hm Hbefore. revert i Hi Hbefore. induction (all_dirs sha wrap (b_root b)) as [|[q0 es0] d IH]; intros i Hi Hbefore; [destruct i; discriminate|].
        cbn [map]. unfold node_of at 1. cbn [fst snd cut]. destruct i as [|i].
        -- cbn in Hi. injection Hi as -> ->. destruct (N.ltb_spec m (blen (dir_block es))); [reflexivity|lia].
        -- cbn [firstn] in *. pose proof (Hbefore q0 es0 (or_introl eq_refl)). destruct (N.ltb_spec m (blen (dir_block es0))); [lia|].
           cbn [map app]. f_equal. apply IH; [exact Hi|]. intros q' es' Hin. apply (Hbefore q' es'). right. exact Hin.
Qed.
Print Assumptions c36_build.

(** The converse: whenever building ends without an error, it gave out exactly the nodes of the
    directories as specified, all totals are below 2^64 and all blocks within the limit. *)
Theorem c36_build_done (sha : bytes -> bytes) (wrap : bool) (limit : option N) (l : list call) fuel nodes :
  (forall x, wf_cid (CidV0 (sha x))) -> Forall call_wf l ->
  build sha fuel (tree_of wrap limit l) = (nodes, Some Finished) -> (forall e, ~ In (Failed e) nodes) ->
  exists dirs, built sha wrap (accepted wrap l) dirs /\ nodes = map (node_of sha) dirs /\
    forall q es, In (q, es) dirs ->
      dir_total es = blocks_below q dirs + links_below q (accepted wrap l) /\ dir_total es < 2 ^ 64 /\
      forall m, limit = Some m -> blen (dir_block es) <= m.
Proof.
  intros Hsha Hwf HB He. pose proof (tree_inv wrap limit l) as HI. set (b := tree_of wrap limit l) in *. set (h := accepted wrap l) in *.
  assert (Hh : Forall call_wf h).
  { apply Forall_forall. intros c Hc. apply (c35_accepted wrap limit) in Hc as (i & Hi & _). rewrite Forall_forall in Hwf. apply Hwf. eapply nth_error_In; exact Hi. }
  assert (Hn : NoDup (map fst (puts_of h))) by (apply accept_puts; constructor).
  destruct (build_done sha wrap limit h b fuel nodes Hsha HI (links_wf_ok _ _ _ _ HI Hh) HB He) as (-> & Hs & Hf).
  exists (all_dirs sha wrap (b_root b)). split; [|split].
  - eapply built_ok; [exact HI|]. intros ->. apply accept_one_root. exists []. intros c [].
  - apply all_nodes_dirs.
  - intros q es Hin.
    assert (Hx : In (Node (join q) (dir_cid sha es) (dir_total es) (dir_block es)) (all_nodes sha wrap (b_root b))).
    { rewrite all_nodes_dirs. apply in_map_iff. exists (q, es). split; [reflexivity|exact Hin]. }
    split; [exact (total_ok sha wrap limit h b q es HI Hn Hin)|]. split; [exact (Hs _ _ _ _ Hx)|].
    intros m ->. exact (Hf _ _ _ _ Hx).
Qed.
Print Assumptions c36_build_done.

(** Reading a given out block back finds exactly the entries. *)
Theorem c36_read_back sha wrap h dirs q es name ca c :
  (forall x, wf_cid (CidV0 (sha x))) -> built sha wrap h dirs -> Forall call_wf h -> Forall (fun c => utf8 (call_path c) = true) h ->
  In (q, es) dirs -> blen (dir_block es) < 2 ^ 32 -> dir_total es < 2 ^ 64 ->
  (resolve (dir_block es) name ca = Ok (Found c, ca) <-> exists s, In (name, (c, s)) es) /\
  (resolve (dir_block es) name ca = Ok (NotFound, ca) <-> forall x, ~ In (name, x) es).
Proof.
  intros Hsha HB Hw Hu Hin Hb Ht. pose proof HB as (_ & _ & B3 & _). destruct (B3 q es Hin) as [Hs _]. apply read_back; try assumption.
  apply Forall_forall. intros [n [c0 s0]] He. cbn [fst snd]. eapply entry_facts; eassumption.
Qed.
Print Assumptions c36_read_back.

(** Every link which was put is in the block given out for the directory named by its path. *)
Theorem c37_link_directory sha wrap limit l dirs i d n c s :
  built sha wrap (accepted wrap l) dirs ->
  nth_error l i = Some (PutLink (d ++ 47 :: n) c s) -> nth_error (results_of wrap limit l) i = Some (Ok tt) -> plain n ->
  exists q es, In (q, es) dirs /\ join q = d /\ split_slash d = q /\ In (n, (c, s)) es.
Proof.
  intros (B1 & _ & B3 & _) Hi Hr Hn. assert (Hin : In (PutLink (d ++ 47 :: n) c s) (accepted wrap l)) by (apply (c35_accepted wrap limit); eauto).
  assert (Es : split_slash (d ++ 47 :: n) = split_slash d ++ [n]) by (rewrite split_join, (split_plain n Hn); reflexivity).
  assert (Hd : dir_at (accepted wrap l) (split_slash d) = true).
  { unfold dir_at. apply existsb_exists. eexists. split; [exact Hin|]. cbn [makes_dir]. unfold proper_prefix. rewrite Es. apply andb_true_iff. split; [apply seg_prefix_spec; eauto|].
    destruct (seg_eqb_spec (split_slash d) (split_slash d ++ [n])) as [E|]; [|reflexivity]. rewrite <- (app_nil_r (split_slash d)) in E at 1. apply app_inv_head in E. discriminate. }
  assert (Hx : In (split_slash d) (map fst dirs)) by (apply B1; destruct (split_slash d) eqn:E; [exfalso; exact (split_nonempty d E)|exact Hd]).
  apply in_map_iff in Hx as ([q es] & E & Hq). cbn [fst] in E. subst q. exists (split_slash d), es. split; [exact Hq|]. split.
  - destruct (split_inv d) as (x & r & E1 & E2 & _). rewrite E1, E2. clear. revert x. induction r as [|y r IH]; intros x; [cbn; symmetry; apply app_nil_r|].
    change (join (x :: y :: r)) with (x ++ 47 :: join (y :: r)). rewrite IH. reflexivity.
  - split; [reflexivity|]. destruct (B3 _ _ Hq) as [_ B]. apply B. left.
    assert (Hk : link_at (accepted wrap l) (split_slash (d ++ 47 :: n)) = Some (c, s)); [|rewrite Es in Hk; exact Hk].
    apply nodup_in_link; [apply accept_puts; constructor|].
    apply in_flat_map. exists (PutLink (d ++ 47 :: n) c s). split; [exact Hin|left; reflexivity].
Qed.
Print Assumptions c37_link_directory.

(** A link put at a plain name is in the root block. *)
Theorem c37_link_root sha limit l dirs i n c s :
  built sha true (accepted true l) dirs ->
  nth_error l i = Some (PutLink n c s) -> nth_error (results_of true limit l) i = Some (Ok tt) -> plain n ->
  exists es, In ([], es) dirs /\ In (n, (c, s)) es.
Proof.
  intros (B1 & _ & B3 & _) Hi Hr Hn. assert (Hin : In (PutLink n c s) (accepted true l)) by (apply (c35_accepted true limit); eauto).
  assert (Hx : In [] (map fst dirs)) by (apply B1; reflexivity). apply in_map_iff in Hx as ([q es] & E & Hq). cbn [fst] in E. subst q.
  exists es. split; [exact Hq|]. destruct (B3 _ _ Hq) as [_ B]. apply B. left. cbn [app]. apply nodup_in_link; [apply accept_puts; constructor|].
  apply in_flat_map. exists (PutLink n c s). split; [exact Hin|]. left. rewrite (split_plain n Hn). reflexivity.
Qed.
Print Assumptions c37_link_root.

(** The reported paths tell the directories apart, if nothing was put at the empty path. *)
Theorem c37_paths_distinct sha wrap l dirs : built sha wrap (accepted wrap l) dirs ->
  (forall c, In c (accepted wrap l) -> call_path c <> []) ->
  NoDup (map (fun d => join (fst d)) dirs).
Proof. intros H. apply (dir_paths_distinct sha wrap _ dirs H). apply accept_no_slash. constructor. Qed.
Print Assumptions c37_paths_distinct.

(** The reported path of a directory other than the root, cut at the slashes, is the path of the directory. *)
Theorem c37_path_names sha wrap l dirs q es : built sha wrap (accepted wrap l) dirs -> In (q, es) dirs -> q <> [] -> split_slash (join q) = q.
Proof.
  intros (B1 & _) Hin Hq. apply split_joined; [exact Hq|]. assert (H : In q (map fst dirs)) by (apply in_map_iff; exists (q, es); auto).
  apply B1 in H. destruct q; [contradiction|]. eapply prefix_plain; exact H.
Qed.
Print Assumptions c37_path_names.

(** * Examples and refutations *)
Definition sha0 (b : bytes) : bytes := repeat (blen b mod 256) 32.
Lemma sha0_wf x : wf_cid (CidV0 (sha0 x)).
Proof. unfold sha0. split; [apply repeat_length|]. apply Forall_forall. intros y Hy. apply repeat_spec in Hy. subst. unfold is_byte. apply N.mod_lt. discriminate. Qed.
Definition ex_cid (x : N) : cid := CidV0 (repeat x 32).
(* a/b/f, a/c, a/b/g, a twice (rejected), a/c/x (rejected), "z/" (rejected), metadata on d *)
Definition ex_calls : list call :=
  [PutLink [97; 47; 98; 47; 102] (ex_cid 1) 10; PutLink [97; 47; 99] (ex_cid 2) 20; PutLink [97; 47; 98; 47; 103] (ex_cid 3) 30;
   PutLink [97; 47; 98] (ex_cid 4) 1; PutLink [97; 47; 99; 47; 120] (ex_cid 5) 1; PutLink [122; 47] (ex_cid 5) 1;
   SetMetadata [100] (mk_meta (Some 420) None)].
Example c36_example :
  results_of true default_limit ex_calls =
    [Ok tt; Ok tt; Ok tt; Err (DuplicatePath [97; 47; 98]); Err (LeafAsDirectory [97; 47; 99; 47; 120]); Err (PathEndsInSlash [122; 47]); Ok tt] /\
  exists d1 d2 d3 d4, build sha0 20 (tree_of true default_limit ex_calls) =
    ([node_of sha0 ([[100]], d1); node_of sha0 ([[97]; [98]], d2); node_of sha0 ([[97]], d3); node_of sha0 ([], d4)], Some Finished) /\
    d1 = [] /\ map fst d2 = [[102]; [103]] /\ map fst d3 = [[98]; [99]] /\ map fst d4 = [[97]; [100]].
Proof.
  split; [vm_compute; reflexivity|].
  set (e2 := [([102], (ex_cid 1, 10)); ([103], (ex_cid 3, 30))]).
  set (e3 := [([98], (dir_cid sha0 e2, dir_total e2)); ([99], (ex_cid 2, 20))]).
  set (e4 := [([97], (dir_cid sha0 e3, dir_total e3)); ([100], (dir_cid sha0 [], dir_total []))]).
  exists [], e2, e3, e4. split; [vm_compute; reflexivity|repeat split].
Qed.
Example c36_example_hypotheses : (forall x, wf_cid (CidV0 (sha0 x))) /\ Forall call_wf ex_calls /\ Forall (fun c => utf8 (call_path c) = true) ex_calls.
Proof.
  split; [exact sha0_wf|]. split; [|repeat constructor].
  assert (H : forall x, is_byte x -> wf_cid (ex_cid x)).
  { intros x Hx. split; [reflexivity|]. apply Forall_forall. intros y Hy. apply repeat_spec in Hy. subst. exact Hx. }
  repeat constructor; apply H; unfold is_byte; lia.
Qed.

(** Finding: iterating on after a too large block panics, although the items are [Result]s. *)
Theorem c36_continue_after_error_refuted : exists limit l,
  results_of true (Some limit) l = [Ok tt] /\
  build sha0 10 (tree_of true (Some limit) l) = ([Failed (TooLargeBlock 47)], Some Crashed).
Proof. exists 10, [PutLink [97; 47; 98] (ex_cid 1) 5]. split; vm_compute; reflexivity. Qed.
Print Assumptions c36_continue_after_error_refuted.

(** Finding: sizes whose sum passes 2^64 panic. *)
Theorem c36_size_overflow_refuted : exists l,
  results_of true default_limit l = [Ok tt] /\ build sha0 10 (tree_of true default_limit l) = ([], Some Crashed).
Proof. exists [PutLink [97] (ex_cid 1) (2 ^ 64 - 1)]. split; vm_compute; reflexivity. Qed.
Print Assumptions c36_size_overflow_refuted.

(** Finding: the metadata which was set is in no block. *)
Theorem c36_metadata_lost_refuted : exists p md,
  results_of true default_limit [SetMetadata p md] = [Ok tt] /\ md <> meta0 /\
  build sha0 10 (tree_of true default_limit [SetMetadata p md]) = build sha0 10 (tree_of true default_limit [SetMetadata p meta0]).
Proof. exists [97], (mk_meta (Some 420) (Some (mk_time 5 (Some 6)))). split; [vm_compute; reflexivity|]. split; [discriminate|vm_compute; reflexivity]. Qed.
Print Assumptions c36_metadata_lost_refuted.

(** Finding: a directory made at the empty path is reported with the same path as the root. *)
Theorem c37_empty_path_refuted : exists l c s b c' s' b',
  build sha0 10 (tree_of true default_limit l) = ([Node [] c s b; Node [] c' s' b'], Some Finished) /\ c <> c'.
Proof.
  exists [SetMetadata [] meta0], (dir_cid sha0 []), (dir_total []), (dir_block []).
  exists (dir_cid sha0 [([], (dir_cid sha0 [], dir_total []))]), (dir_total [([], (dir_cid sha0 [], dir_total []))]), (dir_block [([], (dir_cid sha0 [], dir_total []))]).
  split; [vm_compute; reflexivity|]. vm_compute. discriminate.
Qed.
Print Assumptions c37_empty_path_refuted.
