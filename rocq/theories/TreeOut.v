(** The list of nodes is what the accepted calls ask for. *)
From Coq Require Import Permutation.
From Verif Require Import Base Wire WireProofs Cid CidProofs Pb PbProofs FileVisit BTree FMap IpfsPath PathSpec IpfsPathProofs
  TreeBuilder TreeSpec TreeBuilderProofs TreeIter TreeIterSpec TreeIterProofs TreeIterMain TreeOutSpec.
Local Open Scope N_scope.

(** * Collecting things from a tree *)
Section Collect.
Context {A : Type} (own : tree -> list A).

Fixpoint collect (Q : list bytes) (t : tree) : list (list bytes * A) :=
  match t with
  | Leaf _ _ => []
  | Dir _ _ _ ns =>
      (fix all (l : list (bytes * tree)) : list (list bytes * A) :=
         match l with
         | [] => []
         | (n, t) :: r => all r ++ collect (Q ++ [n]) t
         end) ns
  end ++ map (pair Q) (own t).
Definition collect_in (Q : list bytes) (ns : list (bytes * tree)) : list (list bytes * A) :=
  concat (rev (map (fun e => collect (Q ++ [fst e]) (snd e)) ns)).
Lemma collect_in_cons Q n t ns : collect_in Q ((n, t) :: ns) = collect_in Q ns ++ collect (Q ++ [n]) t.
Proof. unfold collect_in. cbn [map rev]. rewrite concat_app. cbn [concat fst snd]. rewrite app_nil_r. reflexivity. Qed.
Lemma collect_dir Q m p i ns : collect Q (Dir m p i ns) = collect_in Q ns ++ map (pair Q) (own (Dir m p i ns)).
Proof.
  cbn [collect nodes_of]. f_equal. induction ns as [|[n t] ns IH]; [reflexivity|]. rewrite collect_in_cons, <- IH. reflexivity.
Qed.
Lemma in_collect_in Q ns x : In x (collect_in Q ns) <-> exists n t, In (n, t) ns /\ In x (collect (Q ++ [n]) t).
Proof.
  induction ns as [|[n t] ns IH].
  - split; [intros []|intros (n & t & [] & _)].
  - rewrite collect_in_cons, in_app_iff, IH. split.
    + intros [(k & v & H1 & H2)|H]; [exists k, v; split; [right|]; assumption|exists n, t; split; [left; reflexivity|assumption]].
    + intros (k & v & [E|H1] & H2); [injection E as -> ->; right; assumption|left; exists k, v; auto].
Qed.

Lemma collect_spec : forall t p, wft p t -> forall Q q a,
  In (q, a) (collect Q t) <-> exists r t', q = Q ++ r /\ at_path t r = Some t' /\ In a (own t').
Proof.
  intros t. pattern t. revert t. apply tree_ind2.
  - intros c s p _ Q q a. cbn [collect nodes_of app]. rewrite in_map_iff. split.
    + intros (x & [= <- <-] & H). exists [], (Leaf c s). rewrite app_nil_r. auto.
    + intros ([|y r] & t' & -> & H1 & H2); [|discriminate]. cbn in H1. injection H1 as <-. rewrite app_nil_r. exists a. auto.
  - intros m p' i ns IH p Hw Q q a. apply wft_wfns in Hw as [-> [Hs Hc]]. rewrite collect_dir, in_app_iff, in_collect_in, in_map_iff. split.
    + intros [(n & t & H1 & H2)|(x & [= <- <-] & H)].
      * destruct (Hc n t H1) as [W _]. apply (IH n t H1 _ W) in H2 as (r & t' & -> & E & Ho). exists (n :: r), t'. split; [rewrite <- app_assoc; reflexivity|].
        split; [|exact Ho]. cbn [at_path nodes_of]. rewrite (nodup_get n t ns); [exact E|apply bt_sorted_nodup; exact Hs|exact H1].
      * exists [], (Dir m p i ns). rewrite app_nil_r. auto.
    + intros ([|n r] & t' & -> & E & Ho).
      * right. cbn in E. injection E as <-. exists a. rewrite app_nil_r. auto.
      * left. cbn [at_path nodes_of] in E. destruct (bt_get n ns) as [t|] eqn:Eg; [|discriminate]. apply bt_get_in in Eg. exists n, t. split; [exact Eg|].
        destruct (Hc n t Eg) as [W _]. apply (IH n t Eg _ W). exists r, t'. split; [rewrite <- app_assoc; reflexivity|auto].
Qed.

(** No element comes after one whose path extends or equals its own... *)
Definition before (x y : list bytes * A) : Prop := ~ exists r, fst y = fst x ++ r.
Lemma fop_app {B} (R : B -> B -> Prop) l1 l2 : ForallOrdPairs R l1 -> ForallOrdPairs R l2 -> (forall a b, In a l1 -> In b l2 -> R a b) ->
  ForallOrdPairs R (l1 ++ l2).
Proof.
  intros H1 H2 H. induction H1 as [|a l Ha Hl IH]; [exact H2|]. cbn [app]. constructor.
  - apply Forall_app. split; [exact Ha|]. apply Forall_forall. intros b Hb. apply H; [left; reflexivity|exact Hb].
  - apply IH. intros x y Hx Hy. apply H; [right; exact Hx|exact Hy].
Qed.
Lemma collect_in_fop Q p i ns : wfns p i ns -> (forall n t, In (n, t) ns -> ForallOrdPairs before (collect (Q ++ [n]) t)) ->
  ForallOrdPairs before (collect_in Q ns).
Proof.
  intros [Hs Hc]. induction ns as [|[n t] ns IH]; intros H; [constructor|]. rewrite collect_in_cons. pose proof Hs as [Hlt Hs'].
  apply fop_app.
  - apply IH; [exact Hs'|intros; apply Hc; right; assumption|intros; apply H; right; assumption].
  - apply H. left. reflexivity.
  - intros x y Hx Hy [r E]. apply in_collect_in in Hx as (k & v & Hk & Hx). destruct x as [qx ax], y as [qy ay].
    destruct (Hc k v (or_intror Hk)) as [Wk _]. destruct (Hc n t (or_introl eq_refl)) as [Wn _].
    apply (collect_spec _ _ Wk) in Hx as (rx & _ & -> & _). apply (collect_spec _ _ Wn) in Hy as (ry & _ & -> & _).
    cbn [fst] in E. rewrite <- !app_assoc in E. apply app_inv_head in E. cbn [app] in E. injection E as -> _.
    rewrite Forall_forall in Hlt. specialize (Hlt _ Hk). cbn in Hlt. rewrite bcmp_refl in Hlt. discriminate.
Qed.
Lemma collect_fop : (forall t, (length (own t) <= 1)%nat) -> forall t p, wft p t -> forall Q, ForallOrdPairs before (collect Q t).
Proof.
  intros Hone. assert (H1 : forall Q t, ForallOrdPairs before (map (pair Q) (own t))).
  { intros Q t. specialize (Hone t). destruct (own t) as [|a [|b l]]; [constructor|repeat constructor|cbn in Hone; lia]. }
  intros t. pattern t. revert t. apply tree_ind2; [intros c s p _ Q; apply H1|].
  intros m p' i ns IH p Hw Q. apply wft_wfns in Hw as [-> Hw]. rewrite collect_dir. apply fop_app; [|apply H1|].
  - eapply collect_in_fop; [exact Hw|]. intros n t Hin. destruct Hw as [_ Hc]. destruct (Hc n t Hin) as [W _]. eapply IH; eassumption.
  - intros x y Hx Hy [r E]. apply in_collect_in in Hx as (k & v & Hk & Hx). destruct x as [qx ax]. destruct Hw as [_ Hc]. destruct (Hc k v Hk) as [W _].
    apply (collect_spec _ _ W) in Hx as (rx & _ & -> & _). apply in_map_iff in Hy as (a & <- & _). cbn [fst] in E.
    rewrite <- !app_assoc in E. symmetry in E. rewrite <- (app_nil_r Q) in E at 2. apply app_inv_head in E. discriminate.
Qed.

Lemma fop_nth {B} (R : B -> B -> Prop) l i j a b : ForallOrdPairs R l -> nth_error l i = Some a -> nth_error l j = Some b -> (i < j)%nat -> R a b.
Proof.
  intros H. revert i j. induction H as [|x l Hx Hl IH]; intros i j Hi Hj Hlt; [destruct i; discriminate|].
  destruct j as [|j]; [lia|]. destruct i as [|i]; cbn in Hi, Hj.
  - injection Hi as ->. rewrite Forall_forall in Hx. apply Hx. eapply nth_error_In; exact Hj.
  - apply (IH i j); auto. lia.
Qed.
Lemma before_order l i j q r a b : ForallOrdPairs before l -> nth_error l i = Some (q, a) -> nth_error l j = Some (q ++ r, b) -> r <> [] -> (j < i)%nat.
Proof.
  intros H Hi Hj Hr. destruct (Nat.lt_trichotomy i j) as [Hlt|[->|Hlt]]; [|exfalso|exact Hlt].
  - exfalso. apply (fop_nth _ _ _ _ _ _ H Hi Hj Hlt). exists r. reflexivity.
  - rewrite Hi in Hj. injection Hj as E _. apply Hr. rewrite <- (app_nil_r q) in E at 1. apply app_inv_head in E. congruence.
Qed.
Lemma before_nodup l : ForallOrdPairs before l -> NoDup (map fst l).
Proof.
  intros H. induction H as [|a l Ha Hl IH]; [constructor|]. cbn [map]. constructor; [|exact IH].
  intros Hin. apply in_map_iff in Hin as (b & E & Hb). rewrite Forall_forall in Ha. apply (Ha b Hb). exists []. rewrite app_nil_r. exact E.
Qed.

(** ...and the things below a path are those of the tree at that path. *)
Lemma filter_none {B} (f : B -> bool) l : (forall x, In x l -> f x = false) -> filter f l = [].
Proof. induction l as [|x l IH]; intros H; [reflexivity|]. cbn. rewrite (H x (or_introl eq_refl)). apply IH. intros y Hy. apply H. right. exact Hy. Qed.
Lemma filter_all {B} (f : B -> bool) l : (forall x, In x l -> f x = true) -> filter f l = l.
Proof. induction l as [|x l IH]; intros H; [reflexivity|]. cbn. rewrite (H x (or_introl eq_refl)). f_equal. apply IH. intros y Hy. apply H. right. exact Hy. Qed.

Lemma collect_in_filter Q p i ns n r t' : wfns p i ns -> bt_get n ns = Some t' ->
  filter (fun x => seg_prefix (Q ++ n :: r) (fst x)) (collect_in Q ns) =
  filter (fun x => seg_prefix (Q ++ n :: r) (fst x)) (collect (Q ++ [n]) t').
Proof.
  intros [Hs Hc] Hg. induction ns as [|[k v] ns IH]; [discriminate|]. rewrite collect_in_cons, filter_app. pose proof Hs as [Hlt Hs'].
  cbn [bt_get] in Hg. destruct (beq_spec n k) as [<-|Hne].
  - injection Hg as ->. rewrite (filter_none _ (collect_in Q ns)); [reflexivity|]. intros [q a] Hin.
    apply in_collect_in in Hin as (k & v & Hk & Hin). destruct (Hc k v (or_intror Hk)) as [W _].
    apply (collect_spec _ _ W) in Hin as (rx & _ & -> & _). cbn [fst]. apply not_true_is_false. intros E. apply seg_prefix_spec in E as [z E].
    rewrite <- !app_assoc in E. apply app_inv_head in E. cbn [app] in E. injection E as -> _.
    rewrite Forall_forall in Hlt. specialize (Hlt _ Hk). cbn in Hlt. rewrite bcmp_refl in Hlt. discriminate.
  - rewrite (IH Hs' (fun a b H => Hc a b (or_intror H)) Hg).
    rewrite (filter_none _ (collect (Q ++ [k]) v)); [apply app_nil_r|]. intros [q a] Hin.
    destruct (Hc k v (or_introl eq_refl)) as [W _].
    apply (collect_spec _ _ W) in Hin as (rx & _ & -> & _). cbn [fst]. apply not_true_is_false. intros E. apply seg_prefix_spec in E as [z E].
    rewrite <- !app_assoc in E. apply app_inv_head in E. cbn [app] in E. injection E as E _. congruence.
Qed.
Lemma collect_filter : forall r t p Q t', wft p t -> at_path t r = Some t' ->
  filter (fun x => seg_prefix (Q ++ r) (fst x)) (collect Q t) = collect (Q ++ r) t'.
Proof.
  induction r as [|n r IH]; intros t p Q t' Hw E.
  - cbn in E. injection E as <-. rewrite app_nil_r. apply filter_all. intros [q a] Hin.
    apply (collect_spec _ _ Hw) in Hin as (rx & _ & -> & _). apply seg_prefix_spec. exists rx. reflexivity.
  - destruct t as [c s|m p' i ns]; [discriminate|]. apply wft_wfns in Hw as [-> Hw]. cbn [at_path nodes_of] in E.
    destruct (bt_get n ns) as [t|] eqn:Eg; [|discriminate]. rewrite collect_dir, filter_app.
    rewrite (collect_in_filter Q p i ns n r t Hw Eg).
    rewrite (filter_none _ (map (pair Q) (own (Dir m p i ns)))).
    + rewrite app_nil_r. replace (Q ++ n :: r) with ((Q ++ [n]) ++ r) by (rewrite <- app_assoc; reflexivity).
      destruct Hw as [_ Hc]. destruct (Hc n t (bt_get_in _ _ _ Eg)) as [W _]. exact (IH t _ (Q ++ [n]) t' W E).
    + intros x Hin. apply in_map_iff in Hin as (a & <- & _). cbn [fst]. apply not_true_is_false. intros E2. apply seg_prefix_spec in E2 as [z E2].
      rewrite <- app_assoc in E2. rewrite <- (app_nil_r Q) in E2 at 1. apply app_inv_head in E2. discriminate.
Qed.
End Collect.

(** * Directories and links *)
Section Dirs.
Variable sha : bytes -> bytes.

Definition own_dir (t : tree) : list (list (bytes * (cid * N))) := match t with Dir _ _ _ ns => [entries sha ns] | Leaf _ _ => [] end.
Definition own_leaf (t : tree) : list (cid * N) := match t with Leaf c s => [(c, s)] | Dir _ _ _ _ => [] end.
Definition all_dirs (wrap : bool) (root : tree) : list (list bytes * list (bytes * (cid * N))) :=
  collect_in own_dir [] (nodes_of root) ++ (if wrap then [([], entries sha (nodes_of root))] else []).

Lemma post_collect : forall t Q, post sha Q t = map (node_of sha) (collect own_dir Q t).
Proof.
  intros t. pattern t. revert t. apply tree_ind2; [reflexivity|]. intros m p i ns IH Q. rewrite post_dir, collect_dir, map_app. f_equal.
  unfold post_entries, collect_in. rewrite concat_map, map_rev, map_map. do 2 f_equal. apply map_ext_in. intros [n t] Hin. apply (IH n t Hin).
Qed.
Lemma all_nodes_dirs wrap root : all_nodes sha wrap root = map (node_of sha) (all_dirs wrap root).
Proof.
  unfold all_nodes, all_dirs. rewrite map_app. f_equal; [|destruct wrap; reflexivity].
  unfold post_entries, collect_in. rewrite concat_map, map_rev, map_map. do 2 f_equal. apply map_ext. intros [n t]. apply post_collect.
Qed.

Lemma at_path_app t q r : at_path t (q ++ r) = match at_path t q with Some t => at_path t r | None => None end.
Proof. revert t. induction q as [|x q IH]; intros t; [reflexivity|]. cbn [app at_path]. destruct (bt_get x (nodes_of t)); [apply IH|reflexivity]. Qed.

Lemma wft_at p t q t' : wft p t -> at_path t q = Some t' -> exists p', wft p' t'.
Proof.
  revert t p. induction q as [|x q IH]; intros t p Hw E; [cbn in E; injection E as <-; eauto|]. cbn [at_path] in E.
  destruct t as [c s|m p' i ns]; [discriminate|]. apply wft_wfns in Hw as [_ [_ Hc]]. cbn [nodes_of] in E. destruct (bt_get x ns) as [t|] eqn:Eg; [|discriminate].
  destruct (Hc x t (bt_get_in _ _ _ Eg)) as [W _]. eapply IH; eassumption.
Qed.

Lemma in_all_dirs wrap m ns q es : wfns None 0 ns ->
  In (q, es) (all_dirs wrap (Dir m None 0 ns)) <-> (q = [] -> wrap = true) /\ exists m' p i sub, at_path (Dir m None 0 ns) q = Some (Dir m' p i sub) /\ es = entries sha sub.
Proof.
  intros Hw. pose proof (wfns_wft None m 0 ns Hw) as Hw'. unfold all_dirs. cbn [nodes_of].
  assert (Hall : In (q, es) (collect own_dir [] (Dir m None 0 ns)) <-> exists m' p i sub, at_path (Dir m None 0 ns) q = Some (Dir m' p i sub) /\ es = entries sha sub).
  { rewrite (collect_spec own_dir _ _ Hw'). split.
    - intros (r & t' & -> & E & Ho). destruct t' as [c s|m' p i sub]; [destruct Ho|]. destruct Ho as [<-|[]]. cbn [app]. rewrite E. eauto 6.
    - intros (m' & p & i & sub & E & ->). exists q, (Dir m' p i sub). split; [reflexivity|]. split; [exact E|left; reflexivity]. }
  rewrite collect_dir in Hall. cbn [own_dir map] in Hall. destruct wrap.
  - rewrite Hall. split; [intros H; split; [reflexivity|exact H]|intros [_ H]; exact H].
  - rewrite app_nil_r. rewrite in_app_iff in Hall. split.
    + intros H. split; [|apply Hall; left; exact H]. intros ->. exfalso. apply in_collect_in in H as (n & t & Hn & H). destruct Hw as [_ Hc].
      destruct (Hc n t Hn) as [W _]. apply (collect_spec own_dir _ _ W) in H as (r & _ & E & _). discriminate.
    + intros [H1 H2]. apply Hall in H2 as [H2|[[= <- _]|[]]]; [exact H2|]. specialize (H1 eq_refl). discriminate.
Qed.

Lemma entries_in n c s ns : In (n, (c, s)) (entries sha ns) <-> exists t, In (n, t) ns /\ linked sha t = (c, s).
Proof.
  unfold entries. rewrite in_map_iff. split.
  - intros ([k t] & [= -> E] & H). exists t. auto.
  - intros (t & H & E). exists (n, t). cbn [fst snd]. rewrite E. auto.
Qed.
Lemma entries_sorted ns : bt_sorted ns -> bt_sorted (entries sha ns).
Proof.
  unfold entries. induction ns as [|[n t] ns IH]; intros H; [exact Logic.I|]. destruct H as [H1 H2]. cbn [map]. split; [|apply IH; exact H2].
  apply Forall_forall. intros x Hx. apply in_map_iff in Hx as (e & <- & He). rewrite Forall_forall in H1. exact (H1 e He).
Qed.

(** Without wrapping everything is below one name. *)
Definition one_root (h : list call) : Prop := exists x, forall c, In c h -> exists r, split_slash (call_path c) = x :: r.
Lemma taken_hd h x : taken h [x] = true -> exists c r, In c h /\ split_slash (call_path c) = x :: r.
Proof.
  unfold taken, is_link, link_at, dir_at. intros H. apply orb_true_iff in H as [H|H].
  - destruct (first_some (puts [x]) h) as [y|] eqn:E; [|discriminate]. clear H. induction h as [|c h IH]; [discriminate|]. cbn [first_some] in E.
    destruct (puts [x] c) as [z|] eqn:Ep.
    + exists c. destruct c as [p c s|p md]; [|discriminate]. cbn [puts call_path] in *. destruct (seg_eqb_spec [x] (split_slash p)) as [Es|]; [|discriminate].
      exists []. split; [left; reflexivity|symmetry; exact Es].
    + destruct (IH E) as (c' & r & H1 & H2). exists c', r. split; [right|]; assumption.
  - apply existsb_exists in H as (c & H1 & H2). exists c. assert (Hp : seg_prefix [x] (split_slash (call_path c)) = true).
    { destruct c as [p c s|p md]; cbn [makes_dir call_path] in *; [|exact H2]. unfold proper_prefix in H2. apply andb_true_iff in H2 as [H2 _]. exact H2. }
    apply seg_prefix_spec in Hp as [r Hr]. exists r. auto.
Qed.
Lemma accept_one_root l : forall h, one_root h -> one_root (fst (accept false h l)).
Proof.
  induction l as [|c l IH]; intros h Hh; [exact Hh|]. cbn [accept]. specialize (IH (match verdict false h c with Ok _ => c :: h | _ => h end)).
  destruct (accept false _ l) as [h' vs]. cbn [fst] in *. apply IH. clear IH.
  destruct (verdict false h c) as [u|e|] eqn:Ev; [|exact Hh|exact Hh].
  unfold verdict in Ev. destruct (ends_in_slash _); [discriminate|]. destruct (repeats_slash _); [discriminate|]. destruct (starts_with_slash _); [discriminate|].
  cbn [negb andb] in Ev. destruct h as [|c0 h].
  - destruct (split_slash (call_path c)) as [|x r] eqn:E; [exfalso; destruct (call_path c) as [|a p]; [discriminate|]; cbn in E; destruct (a =? 47); [discriminate|destruct (split_slash p); discriminate]|].
    exists x. intros c' [<-|[]]. exists r. exact E.
  - destruct (split_slash (call_path c)) as [|x [|y r]] eqn:E; [discriminate|discriminate|]. cbn [firstn andb] in Ev.
    destruct (taken (c0 :: h) [x]) eqn:Et; [|discriminate]. destruct (taken_hd _ _ Et) as (c1 & r1 & H1 & H2). destruct Hh as [z Hz].
    destruct (Hz c1 H1) as [r2 H3]. rewrite H2 in H3. injection H3 as <- _. exists x. intros c' [<-|H']; [exists (y :: r); exact E|apply Hz; exact H'].
Qed.

Theorem built_ok wrap limit h b : inv wrap limit h b -> (wrap = false -> one_root h) -> built sha wrap h (all_dirs wrap (b_root b)).
Proof.
  intros HI Hone. pose proof (inv_holds _ _ _ _ HI) as Hh. destruct HI as (ns & Hb & Hw & _ & _ & _ & Hview & _). rewrite Hb in *. cbn [b_root] in *.
  pose proof (wfns_wft None meta0 0 ns Hw) as Hw'. set (root := Dir meta0 None 0 ns) in *.
  assert (Hin := fun q es => in_all_dirs wrap meta0 ns q es Hw). fold root in Hin.
  assert (Hfop : ForallOrdPairs before (all_dirs wrap root)).
  { assert (H1 : ForallOrdPairs before (collect own_dir [] root)).
    { apply (collect_fop own_dir) with (p := None); [intros [?|]; cbn; lia|exact Hw']. }
    unfold root in H1. rewrite collect_dir in H1. unfold all_dirs. cbn [nodes_of root]. destruct wrap; [exact H1|]. rewrite app_nil_r.
    clear - H1. induction (collect_in own_dir [] ns) as [|x l IH]; [constructor|]. cbn [app] in H1. inversion H1; subst. constructor; [|auto].
    apply Forall_app in H2. tauto. }
  split; [|split; [|split; [|split]]].
  - intros q. rewrite in_map_iff. split.
    + intros ([q' es] & Eq & H). cbn [fst] in Eq. subst q'. apply Hin in H as (H1 & m' & p & i & sub & E & _).
      destruct q as [|x q]; [apply H1; reflexivity|]. specialize (Hh (x :: q) ltac:(discriminate)). rewrite E in Hh. cbn [is_dir]. tauto.
    + intros H. assert (exists m' p i sub, at_path root q = Some (Dir m' p i sub)) as (m' & p & i & sub & E).
      { destruct q as [|x q]; [exists meta0, None, 0, ns; reflexivity|]. specialize (Hh (x :: q) ltac:(discriminate)). cbn [is_dir] in H.
        destruct (at_path root (x :: q)) as [[c s|m' p i sub]|]; [destruct Hh; congruence|eauto|destruct Hh; congruence]. }
      exists (q, entries sha sub). split; [reflexivity|]. apply Hin. split; [intros ->; exact H|]. exists m', p, i, sub. auto.
  - apply before_nodup. exact Hfop.
  - intros q es H. apply Hin in H as (H1 & m' & p & i & sub & E & ->). destruct (wft_at _ _ _ _ Hw' E) as [p' W]. apply wft_wfns in W as [-> [Ws Wc]].
    split; [apply entries_sorted; exact Ws|]. intros n c s. rewrite entries_in.
    assert (Hne : q ++ [n] <> []) by (destruct q; discriminate).
    assert (Hat : at_path root (q ++ [n]) = bt_get n sub).
    { rewrite at_path_app, E. cbn [at_path nodes_of]. destruct (bt_get n sub); reflexivity. }
    pose proof (Hh (q ++ [n]) Hne) as Hn. rewrite Hat in Hn. split.
    + intros (t & Ht & El). rewrite (nodup_get n t sub (bt_sorted_nodup _ Ws) Ht) in *. destruct t as [c' s'|m2 p2 i2 sub2].
      * cbn [linked] in El. injection El as -> ->. left. tauto.
      * right. exists (entries sha sub2). split; [|cbn [linked] in El; injection El as <- <-; auto]. apply Hin. split; [congruence|]. eauto 6.
    + intros [Hl|(sub' & Hd & -> & ->)].
      * destruct (bt_get n sub) as [[c' s'|]|] eqn:Eg; [|destruct Hn; congruence|destruct Hn; congruence]. destruct Hn as [Hn _]. rewrite Hl in Hn. injection Hn as -> ->.
        exists (Leaf c' s'). split; [apply bt_get_in; exact Eg|reflexivity].
      * apply Hin in Hd as (_ & m2 & p2 & i2 & sub2 & E2 & ->). rewrite Hat in E2. exists (Dir m2 p2 i2 sub2). split; [apply bt_get_in; exact E2|reflexivity].
  - intros i j q r es es' Hi Hj Hr. eapply before_order; eassumption.
  - intros Hne. unfold all_dirs in *. cbn [nodes_of root] in *. destruct wrap.
    + exists (collect_in own_dir [] ns), (entries sha ns). reflexivity.
    + rewrite app_nil_r in *. destruct (Hone eq_refl) as [x Hx].
      assert (Hsingle : forall n t, In (n, t) ns -> n = x).
      { intros n t Hnt. assert (Ht : taken h [n] = true).
        { rewrite taken_says, <- Hview by discriminate. rewrite view_cons. destruct Hw as [Ws _]. rewrite (nodup_get n t ns (bt_sorted_nodup _ Ws) Hnt). reflexivity. }
        destruct (taken_hd _ _ Ht) as (c & r & H1 & H2). destruct (Hx c H1) as [r2 H3]. congruence. }
      destruct ns as [|[n t] [|[n2 t2] ns]].
      * contradiction.
      * rewrite (Hsingle n t (or_introl eq_refl)) in *. unfold collect_in in *. cbn [map rev app concat fst snd] in *. rewrite app_nil_r in *.
        destruct t as [c s|m p i sub]; [contradiction|]. rewrite collect_dir. exists (collect_in own_dir [x] sub), (entries sha sub), x. reflexivity.
      * exfalso. pose proof (Hsingle n t (or_introl eq_refl)). pose proof (Hsingle n2 t2 (or_intror (or_introl eq_refl))). subst.
        destruct Hw as [[W _] _]. rewrite Forall_forall in W. specialize (W _ (or_introl eq_refl)). cbn in W. rewrite bcmp_refl in W. discriminate.
Qed.
End Dirs.

(** * Sizes *)
Lemma sumN_perm a b : Permutation a b -> sumN a = sumN b.
Proof. induction 1; cbn [sumN]; lia. Qed.

Section Sizes.
Variable sha : bytes -> bytes.
Definition dirs_sum (l : list (list bytes * list (bytes * (cid * N)))) : N := sumN (map (fun d => blen (dir_block (snd d))) l).
Definition leaves_sum (l : list (list bytes * (cid * N))) : N := sumN (map (fun d => snd (snd d)) l).

Lemma linked_size : forall t Q, snd (linked sha t) = dirs_sum (collect (own_dir sha) Q t) + leaves_sum (collect own_leaf Q t).
Proof.
  intros t. pattern t. revert t. apply tree_ind2.
  - intros c s Q. cbn. unfold dirs_sum, leaves_sum. cbn. lia.
  - intros m p i ns IH Q. rewrite !collect_dir. cbn [own_dir own_leaf map linked snd]. fold (entries sha ns). rewrite app_nil_r. unfold dirs_sum. rewrite map_app, sumN_app. fold (dirs_sum (collect_in (own_dir sha) Q ns)).
    unfold dir_total. cbn [map snd]. assert (H : sumN (map (fun e => snd (snd e)) (entries sha ns)) = dirs_sum (collect_in (own_dir sha) Q ns) + leaves_sum (collect_in own_leaf Q ns)).
    { clear m p i. induction ns as [|[n t] ns IHn]; [reflexivity|]. rewrite !collect_in_cons. unfold dirs_sum, leaves_sum in *. rewrite !map_app, !sumN_app.
      unfold entries at 1. cbn [map fst snd sumN].
      fold (entries sha ns). rewrite IHn by (intros; eapply IH; right; eassumption). rewrite (IH n t (or_introl eq_refl) (Q ++ [n])). lia. }
    rewrite H. cbn [sumN]. lia.
Qed.

(** The links of a history. *)
Definition puts_of (h : list call) : list (list bytes * (cid * N)) :=
  flat_map (fun c => match c with PutLink p c s => [(split_slash p, (c, s))] | _ => [] end) h.
Lemma link_at_in h q x : link_at h q = Some x -> In (q, x) (puts_of h).
Proof.
  unfold link_at. induction h as [|c h IH]; [discriminate|]. cbn [first_some puts_of flat_map]. rewrite in_app_iff.
  destruct (puts q c) as [y|] eqn:E; [|intros; right; apply IH; assumption]. intros [= ->]. left.
  destruct c as [p c s|]; [|discriminate]. cbn [puts] in E. destruct (seg_eqb_spec q (split_slash p)) as [->|]; [|discriminate]. injection E as <-. left. reflexivity.
Qed.
Lemma in_link_at h q : In q (map fst (puts_of h)) <-> link_at h q <> None.
Proof.
  split.
  - unfold link_at. induction h as [|c h IH]; [intros []|]. cbn [first_some puts_of flat_map]. rewrite map_app, in_app_iff. intros [H|H].
    + destruct c as [p c s|]; [|destruct H]. destruct H as [<-|[]]. cbn [puts fst]. rewrite seg_eqb_refl. discriminate.
    + destruct (puts q c); [discriminate|apply IH; exact H].
  - destruct (link_at h q) as [x|] eqn:E; [|congruence]. intros _. apply in_map_iff. exists (q, x). split; [reflexivity|apply link_at_in; exact E].
Qed.
Lemma accept_puts wrap l : forall h, NoDup (map fst (puts_of h)) -> NoDup (map fst (puts_of (fst (accept wrap h l)))).
Proof.
  induction l as [|c l IH]; intros h Hh; [exact Hh|]. cbn [accept]. specialize (IH (match verdict wrap h c with Ok _ => c :: h | _ => h end)).
  destruct (accept wrap _ l) as [h' vs]. cbn [fst] in *. apply IH. clear IH. destruct (verdict wrap h c) as [u|e|] eqn:Ev; [|exact Hh|exact Hh].
  destruct c as [p c s|]; [|exact Hh]. cbn [puts_of flat_map app map fst]. constructor; [|exact Hh].
  intros Hin. apply in_link_at in Hin. unfold verdict in Ev. cbn [call_path] in Ev. repeat (match type of Ev with (if ?b then _ else _) = _ => destruct b eqn:? end; [discriminate|]).
  unfold taken, is_link in *. destruct (link_at h (split_slash p)); [discriminate|congruence].
Qed.
Lemma nodup_in_link h q x : NoDup (map fst (puts_of h)) -> (In (q, x) (puts_of h) <-> link_at h q = Some x).
Proof.
  intros Hn. split; [|apply link_at_in]. intros Hin. destruct (link_at h q) as [y|] eqn:E.
  - apply link_at_in in E. f_equal. clear - Hn Hin E. induction (puts_of h) as [|[k v] l IH]; [destruct Hin|]. cbn [map fst] in Hn. inversion Hn; subst.
    destruct Hin as [Ea|Ha], E as [Eb|Hb].
    + congruence.
    + injection Ea as -> ->. exfalso. apply H1. apply in_map_iff. exists (q, y). auto.
    + injection Eb as -> ->. exfalso. apply H1. apply in_map_iff. exists (q, x). auto.
    + auto.
  - exfalso. apply (proj1 (in_link_at h q)); [apply in_map_iff; exists (q, x); auto|exact E].
Qed.

Lemma leaves_perm wrap limit h b : inv wrap limit h b -> NoDup (map fst (puts_of h)) -> Permutation (collect own_leaf [] (b_root b)) (puts_of h).
Proof.
  intros HI Hn. pose proof (inv_holds _ _ _ _ HI) as Hh. destruct HI as (ns & Hb & Hw & _). rewrite Hb in *. cbn [b_root] in *.
  pose proof (wfns_wft None meta0 0 ns Hw) as Hw'. apply NoDup_Permutation.
  - apply (NoDup_map_inv fst). apply before_nodup. apply (collect_fop own_leaf) with (p := None); [intros [?|]; cbn; lia|exact Hw'].
  - apply (NoDup_map_inv fst). exact Hn.
  - intros [q [c s]]. rewrite (nodup_in_link h q (c, s) Hn), (collect_spec own_leaf _ _ Hw'). split.
    + intros (r & t' & -> & E & Ho). destruct t' as [c' s'|]; [|destruct Ho]. destruct Ho as [Eo|[]]. injection Eo as -> ->. cbn [app].
      destruct r as [|x r]; [discriminate|]. specialize (Hh (x :: r) ltac:(discriminate)). rewrite E in Hh. tauto.
    + intros E. exists q, (Leaf c s). split; [reflexivity|]. split; [|left; reflexivity].
      destruct q as [|x q]; [rewrite no_root_link in E; discriminate|]. specialize (Hh (x :: q) ltac:(discriminate)).
      destruct (at_path (Dir meta0 None 0 ns) (x :: q)) as [[c' s'|]|]; destruct Hh as [Hh _]; congruence.
Qed.

Lemma links_below_puts q h : links_below q h = leaves_sum (filter (fun x => seg_prefix q (fst x)) (puts_of h)).
Proof.
  unfold links_below, leaves_sum. induction h as [|c h IH]; [reflexivity|]. cbn [puts_of flat_map map]. rewrite filter_app, map_app, sumN_app.
  fold (puts_of h). rewrite <- IH. destruct c as [p c s|p md]; cbn [filter fst]; [destruct (seg_prefix q (split_slash p))|]; cbn; lia.
Qed.
Lemma filter_perm {A} (f : A -> bool) a b : Permutation a b -> Permutation (filter f a) (filter f b).
Proof.
  induction 1 as [|x l l' H IH|x y l|l l' l'' H1 IH1 H2 IH2]; cbn [filter].
  - constructor.
  - destruct (f x); [constructor; exact IH|exact IH].
  - destruct (f x), (f y); try apply Permutation_refl. constructor.
  - eapply Permutation_trans; eassumption.
Qed.

Theorem total_ok wrap limit h b q es : inv wrap limit h b -> NoDup (map fst (puts_of h)) ->
  In (q, es) (all_dirs sha wrap (b_root b)) ->
  dir_total es = blocks_below q (all_dirs sha wrap (b_root b)) + links_below q h.
Proof.
  intros HI Hn Hin. pose proof (leaves_perm _ _ _ _ HI Hn) as Hp. destruct HI as (ns & Hb & Hw & _). rewrite Hb in *. cbn [b_root] in *.
  pose proof (wfns_wft None meta0 0 ns Hw) as Hw'. apply (in_all_dirs sha wrap meta0 ns q es Hw) in Hin as (H1 & m & p & i & sub & E & ->).
  change (dir_total (entries sha sub)) with (snd (linked sha (Dir m p i sub))). rewrite (linked_size _ q). f_equal.
  - unfold blocks_below, dirs_sum. do 2 f_equal. pose proof (collect_filter (own_dir sha) q _ _ [] _ Hw' E) as Hc. cbn [app] in Hc. rewrite <- Hc. clear Hc.
    rewrite collect_dir. unfold all_dirs. cbn [nodes_of]. destruct wrap; [reflexivity|]. rewrite app_nil_r, filter_app. cbn [own_dir map filter fst].
    destruct q as [|x q]; [specialize (H1 eq_refl); discriminate|]. cbn [seg_prefix]. rewrite app_nil_r. reflexivity.
  - rewrite links_below_puts. unfold leaves_sum. apply sumN_perm, Permutation_map. eapply Permutation_trans; [|apply filter_perm; exact Hp].
    pose proof (collect_filter own_leaf q _ _ [] _ Hw' E) as Hc. cbn [app] in Hc. rewrite Hc. apply Permutation_refl.
Qed.
End Sizes.

(** * Accepted calls *)
Lemma accept_in wrap l : forall h c, In c (fst (accept wrap h l)) <->
  In c h \/ exists i, nth_error l i = Some c /\ nth_error (snd (accept wrap h l)) i = Some (Ok tt).
Proof.
  induction l as [|x l IH]; intros h c.
  - cbn. split; [auto|]. intros [H|([|i] & E & _)]; [exact H|discriminate|discriminate].
  - cbn [accept]. specialize (IH (match verdict wrap h x with Ok _ => x :: h | _ => h end) c).
    destruct (accept wrap _ l) as [h' vs]. cbn [fst snd] in *. rewrite IH. clear IH. split.
    + intros [H|(i & E1 & E2)]; [|right; exists (S i); auto]. destruct (verdict wrap h x) as [[]|e|] eqn:Ev; auto.
      destruct H as [->|H]; [|auto]. right. exists 0%nat. split; reflexivity.
    + intros [H|([|i] & E1 & E2)].
      * left. destruct (verdict wrap h x); [right|..]; exact H.
      * cbn in E1, E2. injection E1 as ->. injection E2 as E2. rewrite E2. left. left. reflexivity.
      * right. exists i. auto.
Qed.

Lemma links_wf_ok wrap limit h b : inv wrap limit h b -> Forall call_wf h -> links_wf (b_root b).
Proof.
  intros HI Hc. pose proof (inv_holds _ _ _ _ HI) as Hh. destruct HI as (ns & Hb & Hw & _). rewrite Hb in *. cbn [b_root] in *.
  assert (G : forall t p, wft p t -> (forall q c s, at_path t q = Some (Leaf c s) -> wf_cid c) -> links_wf t).
  { intros t. pattern t. revert t. apply tree_ind2; [intros c s p _ H; apply (H [] c s); reflexivity|].
    intros m p' i sub IH p W H. apply wft_wfns in W as [-> [Ws Wc]]. apply links_wf_dir. intros [n t] He. cbn [snd]. destruct (Wc n t He) as [W _].
    apply (IH n t He _ W). intros q c s E. apply (H (n :: q) c s). cbn [at_path nodes_of]. rewrite (nodup_get n t sub (bt_sorted_nodup _ Ws) He). exact E. }
  apply (G _ None (wfns_wft None meta0 0 ns Hw)). intros q c s E. destruct q as [|x q]; [discriminate|].
  specialize (Hh (x :: q) ltac:(discriminate)). rewrite E in Hh. destruct Hh as [Hl _]. apply link_at_in in Hl. unfold puts_of in Hl.
  apply in_flat_map in Hl as (k & Hk & Hin). rewrite Forall_forall in Hc. specialize (Hc k Hk). destruct k as [p2 c2 s2|]; [|destruct Hin].
  destruct Hin as [[= _ -> ->]|[]]. exact Hc.
Qed.
