(** Lemmas about the tree builder. *)
From Coq Require Import Permutation.
From Verif Require Import Base Wire Cid Pb FileVisit BTree IpfsPath PathSpec IpfsPathProofs TreeBuilder TreeSpec.
Local Open Scope N_scope.

(** * Induction over trees *)
Section Ind.
  Variable P : tree -> Prop.
  Hypothesis Hleaf : forall c s, P (Leaf c s).
  Hypothesis Hdir : forall m p i ns, (forall n t, In (n, t) ns -> P t) -> P (Dir m p i ns).
  Fixpoint tree_ind2 (t : tree) : P t :=
    match t with
    | Leaf c s => Hleaf c s
    | Dir m p i ns =>
        Hdir m p i ns
          ((fix go (l : list (bytes * tree)) : forall n t, In (n, t) l -> P t :=
              match l with
              | [] => fun n t H => match H with end
              | (n0, t0) :: r => fun n t H =>
                  match H with
                  | or_introl E => eq_ind t0 P (tree_ind2 t0) t (f_equal snd E)
                  | or_intror H => go r n t H
                  end
              end) ns)
    end.
End Ind.

(** * Segments *)
Lemma seg_eqb_spec a b : reflect (a = b) (seg_eqb a b).
Proof.
  revert b. induction a as [|x a IH]; intros [|y b]; cbn; try (constructor; congruence).
  destruct (beq_spec x y) as [->|]; cbn; [|constructor; congruence].
  destruct (IH b) as [->|]; constructor; congruence.
Qed.
Lemma seg_prefix_spec a b : seg_prefix a b = true <-> exists r, b = a ++ r.
Proof.
  revert b. induction a as [|x a IH]; intros b; cbn.
  - split; [eauto|reflexivity].
  - destruct b as [|y b]; [split; [discriminate|intros [r H]; discriminate]|].
    destruct (beq_spec x y) as [->|Hn]; cbn.
    + rewrite IH. split; intros [r H]; exists r; congruence.
    + split; [discriminate|intros [r H]; congruence].
Qed.
Lemma seg_eqb_refl a : seg_eqb a a = true.
Proof. destruct (seg_eqb_spec a a); congruence. Qed.
Lemma seg_prefix_refl a : seg_prefix a a = true.
Proof. apply seg_prefix_spec. exists []. rewrite app_nil_r. reflexivity. Qed.

Lemma ancestors_spec p a : In a (ancestors p) <-> a <> [] /\ exists r, r <> [] /\ p = a ++ r.
Proof.
  revert a. induction p as [|x p IH]; intros a.
  - cbn. split; [tauto|]. intros [H [r [H1 H2]]]. destruct a; [congruence|discriminate].
  - destruct p as [|y p].
    + cbn. split; [tauto|]. intros [H [r [H1 H2]]]. destruct a as [|z a]; [congruence|].
      injection H2 as _ H2. symmetry in H2. apply app_eq_nil in H2. tauto.
    + change (ancestors (x :: y :: p)) with ([x] :: map (cons x) (ancestors (y :: p))).
      split.
      * intros [<-|H]; [split; [discriminate|]; exists (y :: p); split; [discriminate|reflexivity]|].
        apply in_map_iff in H as (b & <- & H). apply IH in H as [H1 [r [H2 H3]]].
        split; [discriminate|]. exists r. split; [assumption|]. cbn. congruence.
      * intros [H [r [H1 H2]]]. destruct a as [|z a]; [congruence|]. injection H2 as -> H2.
        destruct a as [|w a]; [left; reflexivity|]. right. apply in_map. apply IH.
        split; [discriminate|]. eauto.
Qed.

(** * What is at a path *)
Definition content := (cid * N + metadata)%type.
Definition show (t : tree) : content := match t with Leaf c s => inl (c, s) | Dir md _ _ _ => inr md end.
Definition view (ns : list (bytes * tree)) (q : list bytes) : option content :=
  option_map show (at_path (Dir meta0 None 0 ns) q).
Lemma view_dir m p i ns q : q <> [] -> option_map show (at_path (Dir m p i ns) q) = view ns q.
Proof. destruct q; [congruence|reflexivity]. Qed.
Lemma view_cons ns x r : view ns (x :: r) = match bt_get x ns with Some t => match r with [] => Some (show t) | _ => view (nodes_of t) r end | None => None end.
Proof.
  unfold view. cbn [at_path nodes_of]. destruct (bt_get x ns) as [t|]; [|reflexivity].
  destruct r; reflexivity.
Qed.
Lemma view_nil_nodes q : q <> [] -> view [] q = None.
Proof. destruct q; [congruence|reflexivity]. Qed.

Definition is_leafb (o : option content) : bool := match o with Some (inl _) => true | _ => false end.

(** * Well-formed trees *)
Inductive wft : option N -> tree -> Prop :=
| wft_leaf p c s : wft p (Leaf c s)
| wft_dir p m i ns : bt_sorted ns ->
    (forall n t, In (n, t) ns -> wft (Some i) t /\ plain n /\ (n = [] -> p = None /\ nodes_of t = [])) ->
    wft p (Dir m p i ns).

Fixpoint ids (t : tree) : list N :=
  match t with
  | Leaf _ _ => []
  | Dir _ _ i ns => i :: flat_map (fun x => ids (snd x)) ns
  end.
Definition ids_in (ns : list (bytes * tree)) : list N := flat_map (fun x => ids (snd x)) ns.

Lemma bt_insert_same {V} k (v : V) m : bt_sorted m -> bt_get k m = Some v -> bt_insert k v m = m.
Proof.
  intros Hs Hg. apply bt_ext; [apply bt_insert_sorted; assumption|assumption|].
  intros k'. rewrite bt_get_insert by assumption. destruct (beq_spec k' k) as [->|]; congruence.
Qed.
Lemma bt_insert_in {V} k (v : V) m k' v' : In (k', v') (bt_insert k v m) -> (k', v') = (k, v) \/ In (k', v') m.
Proof.
  induction m as [|[k0 v0] m IH]; cbn [bt_insert]; [intros [E|[]]; auto|].
  destruct (bcmp k k0); cbn [In]; intuition.
Qed.
Lemma ids_insert_new k t ns : bt_get k ns = None -> Permutation (ids_in (bt_insert k t ns)) (ids t ++ ids_in ns).
Proof.
  unfold ids_in. induction ns as [|[k0 t0] ns IH]; intros Hg; [cbn; apply Permutation_refl|].
  cbn [bt_insert]. cbn [bt_get] in Hg. rewrite bcmp_beq in Hg. destruct (bcmp k k0); [discriminate| |].
  - cbn [flat_map snd]. apply Permutation_refl.
  - cbn [flat_map snd]. rewrite (IH Hg). rewrite !app_assoc. apply Permutation_app_tail. apply Permutation_app_comm.
Qed.
Lemma ids_insert_old k t t0 ns : bt_sorted ns -> bt_get k ns = Some t0 ->
  Permutation (ids t0 ++ ids_in (bt_insert k t ns)) (ids t ++ ids_in ns).
Proof.
  unfold ids_in. induction ns as [|[k1 t1] ns IH]; intros Hs Hg; [discriminate|].
  cbn [bt_insert]. cbn [bt_get] in Hg. rewrite bcmp_beq in Hg. destruct Hs as [Hf Hs].
  destruct (bcmp k k1) eqn:E.
  - injection Hg as ->. cbn [flat_map snd]. rewrite !app_assoc. apply Permutation_app_tail. apply Permutation_app_comm.
  - exfalso. rewrite bt_get_lb in Hg; [discriminate|]. eapply Forall_impl; [|exact Hf]. intros a Ha. eapply bcmp_trans; eassumption.
  - cbn [flat_map snd]. specialize (IH Hs Hg).
    transitivity (ids t1 ++ (ids t0 ++ flat_map (fun x => ids (snd x)) (bt_insert k t ns))).
    + rewrite !app_assoc. apply Permutation_app_tail. apply Permutation_app_comm.
    + rewrite IH. rewrite !app_assoc. apply Permutation_app_tail. apply Permutation_app_comm.
Qed.

(** Every id in the tree is below the counter. *)
Definition below_c (c : N) (ns : list (bytes * tree)) : Prop := forall i, In i (ids_in ns) -> i < c.
Lemma below_child c ns k t : below_c c ns -> bt_get k ns = Some t -> forall i, In i (ids t) -> i < c.
Proof. intros H Hg i Hi. apply H. unfold ids_in. apply in_flat_map. exists (k, t). split; [apply bt_get_in; assumption|exact Hi]. Qed.

(** The entries of a directory. *)
Definition wfns (parent : option N) (own : N) (ns : list (bytes * tree)) : Prop :=
  bt_sorted ns /\
  forall n t, In (n, t) ns -> wft (Some own) t /\ plain n /\ (n = [] -> parent = None /\ nodes_of t = []).
Lemma wft_wfns p m p' i ns : wft p (Dir m p' i ns) -> p' = p /\ wfns p i ns.
Proof. intros H. inversion H; subst. split; [reflexivity|]. split; assumption. Qed.
Lemma wfns_wft p m i ns : wfns p i ns -> wft p (Dir m p i ns).
Proof. intros [H1 H2]. constructor; assumption. Qed.
Lemma wfns_insert p i ns k t : wfns p i ns -> wft (Some i) t -> plain k -> (k = [] -> p = None /\ nodes_of t = []) ->
  wfns p i (bt_insert k t ns).
Proof.
  intros [H1 H2] H3 H4 H5. split; [apply bt_insert_sorted; assumption|].
  intros n t' Hin. apply bt_insert_in in Hin as [[= -> ->]|Hin]; [auto|apply H2; assumption].
Qed.

(** * The actions *)
Definition act (c : call) : action :=
  match c with PutLink p c s => put_leaf p c s | SetMetadata p md => set_meta p md end.
(** What a call does with what is at its path. *)
Definition final (c : call) (o : option content) : outcome content building_failed :=
  match c, o with
  | PutLink p c s, None => Ok (inl (c, s))
  | PutLink p _ _, Some _ => Err (DuplicatePath p)
  | SetMetadata p md, Some (inl _) => Err (LeafAsDirectory p)
  | SetMetadata p md, _ => Ok (inr md)
  end.
Definition kids (o : option tree) : list (bytes * tree) := match o with Some t => nodes_of t | None => [] end.

Lemma act_spec c p own ns name next : wfns p own ns -> own < next -> below_c next ns -> plain name ->
  (name = [] -> p = None) ->
  let '(ns', tk, r) := act c own ns name next in
  match final c (option_map show (bt_get name ns)) with
  | Err e => r = Err e /\ ns' = ns /\ tk = false
  | Ok v => r = Ok tt /\ exists t', ns' = bt_insert name t' ns /\ show t' = v /\ nodes_of t' = kids (bt_get name ns)
      /\ wft (Some own) t'
      /\ (ids t' = if tk then [next] else match bt_get name ns with Some t => ids t | None => [] end)
      /\ (tk = true -> bt_get name ns = None)
  | Panic => False
  end.
Proof.
  intros [Hs Hw] Hlt Hb Hp Hr. destruct c as [fp c s|fp md]; cbn [act].
  - unfold put_leaf. destruct (bt_get name ns) as [t|] eqn:E; cbn [option_map final]; [auto|].
    split; [reflexivity|]. exists (Leaf c s). repeat split; auto; try constructor; discriminate.
  - unfold set_meta. destruct (bt_get name ns) as [[c s|m p' i ns']|] eqn:E; cbn [option_map final show]; [auto| |].
    + split; [reflexivity|]. apply bt_get_in in E. apply Hw in E as (E1 & E2 & E3). apply wft_wfns in E1 as [-> E1].
      exists (Dir md (Some own) i ns'). repeat split; auto; try discriminate. apply wfns_wft. assumption.
    + destruct (N.eqb_spec own next); [lia|]. split; [reflexivity|]. exists (Dir md (Some own) next []).
      repeat split; auto. constructor; [exact Logic.I|]. intros n' t [].
Qed.

(** * The loop *)
Lemma loop_wrap wrap fp f d parts own ns ctr :
  modify_loop wrap fp f (S d) parts own ns ctr = modify_loop true fp f (S d) parts own ns ctr.
Proof.
  revert d own ns ctr. induction parts as [|x parts IH]; intros; [reflexivity|].
  cbn [modify_loop]. destruct (is_empty x); [reflexivity|]. cbn [Nat.eqb andb].
  destruct parts; [reflexivity|]. destruct (bt_get x ns) as [[|]|]; try reflexivity; rewrite IH; reflexivity.
Qed.

Definition added (c : call) (ns ns' : list (bytes * tree)) (parts : list bytes) (v : content) : Prop :=
  forall q, q <> [] -> view ns' q =
    if seg_eqb q parts then Some v
    else if seg_prefix q parts then match view ns q with None => Some (inr meta0) | s => s end
    else view ns q.

Definition fresh (ns ns' : list (bytes * tree)) (ctr ctr' : N) : Prop :=
  ctr <= ctr' /\
  exists new, Permutation (ids_in ns') (new ++ ids_in ns) /\ NoDup new /\ forall i, In i new -> ctr <= i < ctr'.
Lemma fresh_refl ns ctr : fresh ns ns ctr ctr.
Proof. split; [lia|]. exists []. split; [apply Permutation_refl|]. split; [constructor|]. intros i []. Qed.
Lemma fresh_below ns ns' ctr ctr' : fresh ns ns' ctr ctr' -> below_c ctr ns -> below_c ctr' ns'.
Proof.
  intros (Hle & new & Hp & _ & Hn) Hb i Hi. apply (Permutation_in _ Hp) in Hi. apply in_app_or in Hi as [Hi|Hi].
  - apply Hn in Hi. lia.
  - apply Hb in Hi. lia.
Qed.

Definition ok_parts (p : option N) (d : nat) (parts : list bytes) : Prop :=
  parts <> [] /\ Forall plain parts /\
  match d with
  | O => p = None /\ match parts with [] :: _ :: _ => False | _ => True end /\ Forall (fun x => x <> []) (tl parts)
  | S _ => Forall (fun x => x <> []) parts
  end.
Lemma ok_parts_tl p d x parts i : ok_parts p d (x :: parts) -> parts <> [] -> x <> [] /\ ok_parts (Some i) (S d) parts.
Proof.
  intros (H1 & H2 & H3) Hn. apply Forall_cons_iff in H2 as [H2 H4]. destruct d.
  - destruct H3 as (H3 & H5 & H6). destruct parts as [|y parts]; [congruence|]. destruct x; [contradiction|].
    split; [discriminate|]. split; [discriminate|]. split; assumption.
  - apply Forall_cons_iff in H3 as [H3 H5]. split; [assumption|]. split; [assumption|]. split; assumption.
Qed.

Lemma loop_spec c : forall parts p d own ns ctr,
  ok_parts p d parts -> wfns p own ns -> own < ctr -> below_c ctr ns ->
  let '(ns', ctr', r) := modify_loop true (call_path c) (act c) d parts own ns ctr in
  wfns p own ns' /\ fresh ns ns' ctr ctr' /\
  if existsb (fun a => is_leafb (view ns a)) (ancestors parts)
  then r = Err (LeafAsDirectory (call_path c)) /\ ns' = ns /\ ctr' = ctr
  else match final c (view ns parts) with
       | Err e => r = Err e /\ ns' = ns /\ ctr' = ctr
       | Ok v => r = Ok tt /\ added c ns ns' parts v
       | Panic => False
       end.
Proof.
  induction parts as [|x parts IH]; intros p d own ns ctr Hok Hw Hlt Hb; [destruct Hok; congruence|].
  cbn [modify_loop].
  assert (Hguard : match d, is_empty x, match parts with [] => true | _ => false end with
    | O, true, false => False | S _, true, _ => False | _, _, _ => True end).
  { destruct Hok as (_ & _ & H). destruct d.
    - destruct H as (_ & H & _). destruct x; [|exact Logic.I]. destruct parts; [exact Logic.I|contradiction].
    - inversion H; subst. destruct x; [congruence|exact Logic.I]. }
  assert (Hplain : plain x) by (destruct Hok as (_ & H & _); inversion H; assumption).
  destruct parts as [|y parts].
  - (* the last segment *)
    cbn [ancestors existsb]. rewrite andb_false_r. cbn [negb andb].
    assert (Hx : x = [] -> p = None).
    { intros ->. destruct d; [|destruct Hok as (_ & _ & H); inversion H; congruence]. destruct Hok as (_ & _ & H & _). exact H. }
    rewrite view_cons.
    pose proof (act_spec c p own ns x ctr Hw Hlt Hb Hplain Hx) as HA.
    assert (Eif : forall X Y : list (bytes * tree) * N * outcome unit building_failed,
              match d, is_empty x with O, _ => X | S _, true => Y | S _, false => X end = X).
    { intros. destruct d; [destruct x; reflexivity|]. destruct (is_empty x); [contradiction|reflexivity]. }
    assert (Ebig : forall R : list (bytes * tree) * N * outcome unit building_failed,
      match d with
      | O => if is_empty x then R else R
      | S _ => if is_empty x then (ns, ctr, Panic) else R end = R).
    { intros. destruct d; destruct (is_empty x); try reflexivity; contradiction. }
    rewrite Ebig. clear Eif Ebig.
    destruct (act c own ns x ctr) as [[ns' tk] r] eqn:EA.
    replace (match bt_get x ns with Some t => Some (show t) | None => None end) with (option_map show (bt_get x ns)) by reflexivity.
    destruct (final c (option_map show (bt_get x ns))) as [v|e|] eqn:EF; [| |contradiction].
    + destruct HA as (-> & t' & -> & Hv & Hk & Hwt & Hids & Htk).
      split; [apply wfns_insert; auto|].
      { intros ->. split; [auto|]. rewrite Hk. destruct (bt_get [] ns) as [t|] eqn:E; [|reflexivity].
        apply bt_get_in in E. destruct Hw as [_ Hw]. apply Hw in E. cbn. tauto. }
      split.
      { split; [destruct tk; lia|]. destruct tk.
        - specialize (Htk eq_refl). exists [ctr]. rewrite (ids_insert_new x t' ns Htk), Hids. split; [apply Permutation_refl|].
          split; [repeat constructor; intros []|]. intros i [<-|[]]; lia.
        - exists []. split; [|split; [constructor|intros i []]]. cbn [app]. destruct (bt_get x ns) as [t|] eqn:E.
          + apply (Permutation_app_inv_l (ids t)). rewrite (ids_insert_old x t' t ns (proj1 Hw) E), Hids. apply Permutation_refl.
          + rewrite (ids_insert_new x t' ns E), Hids. apply Permutation_refl. }
      split; [reflexivity|]. intros q Hq. destruct q as [|z q]; [congruence|].
      rewrite !view_cons, bt_get_insert by apply Hw. cbn [seg_eqb seg_prefix].
      destruct (beq_spec z x) as [->|Hne]; cbn [andb]; [|reflexivity].
      destruct q as [|w q]; cbn [seg_eqb seg_prefix]; [rewrite Hv; reflexivity|].
      rewrite Hk. destruct (bt_get x ns) as [t|]; cbn [kids]; [reflexivity|apply view_nil_nodes; discriminate].
    + destruct HA as (-> & -> & ->). split; [assumption|]. split; [apply fresh_refl|]. auto.
  - (* a middle segment *)
    assert (Hnn : y :: parts <> []) by discriminate.
    assert (Ebig : forall (R Q T : list (bytes * tree) * N * outcome unit building_failed),
      match d with
      | O => if is_empty x then T else R
      | S _ => if is_empty x then Q else R end = R).
    { intros. destruct d; destruct (is_empty x); try reflexivity; contradiction. }
    rewrite Ebig. clear Ebig. rewrite andb_false_r. cbn [negb andb].
    change (ancestors (x :: y :: parts)) with ([x] :: map (cons x) (ancestors (y :: parts))).
    cbn [existsb]. rewrite view_cons.
    destruct (bt_get x ns) as [[lc ls|m p' i sub]|] eqn:Eg; cbn [show is_leafb orb].
    + split; [assumption|]. split; [apply fresh_refl|]. auto.
    + (* an existing directory *)
      pose proof Eg as Ein. apply bt_get_in in Ein. destruct Hw as [Hs Hw]. pose proof (Hw _ _ Ein) as (Hwt & _ & Hx).
      apply wft_wfns in Hwt as [-> Hwn].
      destruct (ok_parts_tl p d x (y :: parts) own Hok Hnn) as [Hxn Hok'].
      assert (Hbs : below_c ctr sub).
      { intros j Hj. eapply below_child; [exact Hb|exact Eg|]. cbn. right. exact Hj. }
      assert (Hi : i < ctr) by (eapply below_child; [exact Hb|exact Eg|]; cbn; left; reflexivity).
      specialize (IH (Some own) (S d) i sub ctr Hok' Hwn Hi Hbs).
      destruct (modify_loop true (call_path c) (act c) (S d) (y :: parts) i sub ctr) as [[ns' ctr'] r] eqn:EL.
      destruct IH as (IH1 & IH2 & IH3).
      assert (Hv : forall q, q <> [] -> view ns (x :: q) = view sub q).
      { intros q Hq. rewrite view_cons, Eg. destruct q; [congruence|reflexivity]. }
      assert (Ea : existsb (fun a => is_leafb (view ns a)) (map (cons x) (ancestors (y :: parts)))
                   = existsb (fun a => is_leafb (view sub a)) (ancestors (y :: parts))).
      { clear - Hv. assert (H : forall a, In a (ancestors (y :: parts)) -> a <> []) by (intros a Ha; apply ancestors_spec in Ha; tauto).
        induction (ancestors (y :: parts)) as [|a l IH]; [reflexivity|]. cbn [map existsb]. rewrite Hv by (apply H; left; reflexivity).
        rewrite IH; [reflexivity|]. intros b Hb. apply H. right. exact Hb. }
      rewrite Ea, Hv by discriminate.
      assert (Hwi : wfns p own (bt_insert x (Dir m (Some own) i ns') ns)).
      { apply wfns_insert; [split; assumption|apply wfns_wft; assumption|assumption|]. intros ->. congruence. }
      split; [exact Hwi|]. split.
      { destruct IH2 as (Hle & new & Hp & Hnd & Hnew). split; [exact Hle|]. exists new. split; [|auto].
        apply (Permutation_app_inv_l (ids (Dir m (Some own) i sub))). rewrite (ids_insert_old x _ _ ns Hs Eg).
        cbn [ids app]. fold (ids_in ns'). fold (ids_in sub). constructor. rewrite Hp.
        rewrite !app_assoc. apply Permutation_app_tail. apply Permutation_app_comm. }
      assert (Esame : ns' = sub -> bt_insert x (Dir m (Some own) i ns') ns = ns).
      { intros ->. apply bt_insert_same; assumption. }
      destruct (existsb (fun a => is_leafb (view sub a)) (ancestors (y :: parts))) eqn:Eex.
      { destruct IH3 as (-> & E1 & ->). auto. }
      destruct (final c (view sub (y :: parts))) as [v|e|]; [| |contradiction].
      * destruct IH3 as [-> IH3]. split; [reflexivity|]. intros q Hq. destruct q as [|z q]; [congruence|].
        cbn [seg_eqb seg_prefix]. rewrite !view_cons, bt_get_insert by exact Hs.
        destruct (beq_spec z x) as [->|Hne]; cbn [andb]; [|reflexivity].
        rewrite Eg. destruct q as [|w q]; [reflexivity|].
        cbn [nodes_of]. rewrite IH3 by discriminate. reflexivity.
      * destruct IH3 as (-> & E1 & ->). auto.
    + (* a new directory *)
      destruct (N.eqb_spec own ctr) as [|_]; [lia|].
      destruct (ok_parts_tl p d x (y :: parts) own Hok Hnn) as [Hxn Hok'].
      assert (Hwn : wfns (Some own) ctr []) by (split; [exact Logic.I|intros n t []]).
      assert (Hb0 : below_c (ctr + 1) []) by (intros i []).
      specialize (IH (Some own) (S d) ctr [] (ctr + 1) Hok' Hwn ltac:(lia) Hb0).
      destruct (modify_loop true (call_path c) (act c) (S d) (y :: parts) ctr [] (ctr + 1)) as [[ns' ctr'] r] eqn:EL.
      destruct IH as (IH1 & IH2 & IH3).
      assert (Ea : existsb (fun a => is_leafb (view ns a)) (map (cons x) (ancestors (y :: parts))) = false).
      { clear - Eg. induction (ancestors (y :: parts)) as [|a l IHl]; [reflexivity|]. cbn [map existsb]. rewrite view_cons, Eg. exact IHl. }
      assert (Eb : existsb (fun a => is_leafb (view [] a)) (ancestors (y :: parts)) = false).
      { assert (H : forall a, In a (ancestors (y :: parts)) -> a <> []) by (intros a Ha; apply ancestors_spec in Ha; tauto).
        clear - H. induction (ancestors (y :: parts)) as [|a l IHl]; [reflexivity|]. cbn [existsb]. rewrite view_nil_nodes by (apply H; left; reflexivity).
        apply IHl. intros b Hb1. apply H. right. exact Hb1. }
      rewrite Ea. replace (view ns (x :: y :: parts)) with (@None content) by (rewrite view_cons, Eg; reflexivity). rewrite Eb in IH3. rewrite view_nil_nodes in IH3 by discriminate.
      split.
      { apply wfns_insert; [assumption|apply wfns_wft; assumption|assumption|]. intros ->. congruence. }
      split.
      { destruct IH2 as (Hle & new & Hp & Hnd & Hnew). split; [lia|]. exists (ctr :: new).
        rewrite (ids_insert_new x _ ns Eg). cbn [ids app]. fold (ids_in ns').
        split; [constructor; apply Permutation_app_tail; rewrite Hp; unfold ids_in; cbn; rewrite app_nil_r; apply Permutation_refl|].
        split; [constructor; [intros H; apply Hnew in H; lia|assumption]|].
        intros i [<-|H]; [lia|]. apply Hnew in H. lia. }
      destruct (final c None) as [v|e|] eqn:EF; [| |contradiction].
      2:{ destruct c; discriminate. }
      destruct IH3 as [-> IH3]. split; [reflexivity|]. intros q Hq. destruct q as [|z q]; [congruence|].
      cbn [seg_eqb seg_prefix]. rewrite !view_cons, bt_get_insert by apply Hw.
      destruct (beq_spec z x) as [->|Hne]; cbn [andb]; [|reflexivity].
      rewrite Eg. destruct q as [|w q]; [reflexivity|]. cbn [nodes_of].
      rewrite IH3 by discriminate. cbn [seg_eqb seg_prefix]. rewrite view_nil_nodes by discriminate. reflexivity.
Qed.

(** * Paths *)
Lemma split_segs s : ends_in_slash s = false -> repeats_slash s = false -> Forall (fun x => x <> []) (tl (split_slash s)).
Proof.
  induction s as [|a r IH]; intros H1 H2; [constructor|]. cbn [split_slash].
  assert (Hr : r <> [] -> ends_in_slash r = false /\ repeats_slash r = false).
  { intros Hn. destruct r as [|b r]; [congruence|]. split; [exact H1|]. cbn [repeats_slash] in H2. apply orb_false_iff in H2. tauto. }
  destruct (N.eqb_spec a 47) as [->|Ha]; cbn [tl].
  - destruct r as [|b r]; [cbn in H1; discriminate|]. destruct (Hr ltac:(discriminate)) as [G1 G2]. specialize (IH G1 G2).
    assert (Hb : b <> 47).
    { intros ->. cbn [repeats_slash] in H2. rewrite N.eqb_refl in H2. discriminate. }
    cbn [split_slash] in IH |- *. destruct (N.eqb_spec b 47); [congruence|].
    destruct (split_slash r) as [|y l]; constructor; try discriminate; [constructor|exact IH].
  - destruct r as [|b r]; [constructor|]. destruct (Hr ltac:(discriminate)) as [G1 G2]. specialize (IH G1 G2).
    destruct (split_slash (b :: r)) as [|y l]; [constructor|exact IH].
Qed.
Lemma split_plain_all s : Forall plain (split_slash s).
Proof. destruct (split_inv s) as (x & l & -> & _ & H1 & H2). constructor; assumption. Qed.
Lemma split_rooted r : split_slash (47 :: r) = [] :: split_slash r.
Proof. reflexivity. Qed.
Lemma split_head_empty s y l : split_slash s = [] :: y :: l -> exists r, s = 47 :: r.
Proof.
  destruct s as [|a r]; [discriminate|]. cbn [split_slash]. destruct (N.eqb_spec a 47) as [->|]; [eauto|].
  destruct (split_slash r); discriminate.
Qed.
Lemma rooted_true p : starts_with_slash p = true -> exists r, p = 47 :: r.
Proof. destruct p as [|a r]; [discriminate|]. cbn. destruct (N.eqb_spec a 47) as [->|]; [eauto|discriminate]. Qed.
Lemma ok_split p : ends_in_slash p = false -> repeats_slash p = false -> starts_with_slash p = false -> ok_parts None 0 (split_slash p).
Proof.
  intros H1 H2 H3. split; [apply split_nonempty|]. split; [apply split_plain_all|]. split; [reflexivity|].
  split; [|apply split_segs; assumption].
  destruct (split_slash p) as [|[|? ?] [|y l]] eqn:E; auto.
  apply split_head_empty in E as [r ->]. discriminate.
Qed.

(** * The top level *)
Lemma loop_top wrap fp f parts own ns ctr : parts <> [] ->
  modify_loop wrap fp f 0 parts own ns ctr =
  match parts with
  | [] :: _ :: _ => (ns, ctr, Err (RootedPath fp))
  | _ =>
      if negb wrap && match ns with [] => false | _ => true end then
        match parts with
        | x :: _ :: _ =>
            match bt_get x ns with
            | None => (ns, ctr, Err TooManyRootLevelEntries)
            | Some _ => modify_loop true fp f 0 parts own ns ctr
            end
        | _ => (ns, ctr, Err TooManyRootLevelEntries)
        end
      else modify_loop true fp f 0 parts own ns ctr
  end.
Proof.
  intros Hn. destruct parts as [|x parts]; [congruence|].
  cbn [modify_loop Nat.eqb]. destruct wrap; cbn [negb andb].
  { destruct x; destruct parts; reflexivity. }
  destruct parts as [|y parts].
  - destruct x; cbn [is_empty]; destruct ns; reflexivity.
  - destruct x as [|a x]; [reflexivity|]. cbn [is_empty].
    destruct (bt_get (a :: x) ns) as [[|]|] eqn:E; destruct ns; try reflexivity; rewrite ?loop_wrap; reflexivity.
Qed.

(** * Histories *)
Definition says (h : list call) (q : list bytes) : option content :=
  match link_at h q with Some x => Some (inl x) | None => if dir_at h q then Some (inr (meta_at h q)) else None end.
Definition sane (h : list call) : Prop := forall q, link_at h q <> None -> dir_at h q = false.

Lemma leaf_says h q : is_leafb (says h q) = is_link h q.
Proof. unfold says, is_link. destruct (link_at h q); [reflexivity|]. destruct (dir_at h q); reflexivity. Qed.
Lemma taken_says h q : taken h q = match says h q with Some _ => true | None => false end.
Proof. unfold says, taken, is_link. destruct (link_at h q); [reflexivity|]. destruct (dir_at h q); reflexivity. Qed.
Lemma no_dir_no_meta h q : dir_at h q = false -> meta_at h q = meta0.
Proof.
  unfold meta_at. intros H. replace (first_some (sets_meta q) h) with (@None metadata); [reflexivity|].
  induction h as [|c h IH]; [reflexivity|]. cbn [dir_at existsb first_some] in *. apply orb_false_iff in H as [H1 H2].
  destruct c as [p c s|p md]; cbn in *; [auto|]. destruct (seg_eqb_spec q (split_slash p)) as [->|]; [|auto].
  rewrite seg_prefix_refl in H1. discriminate.
Qed.

Definition grown (h : list call) (c : call) (v : content) (q : list bytes) : option content :=
  if seg_eqb q (split_slash (call_path c)) then Some v
  else if seg_prefix q (split_slash (call_path c)) then match says h q with None => Some (inr meta0) | s => s end
  else says h q.

Lemma says_put h p c s q : sane h -> (forall a, In a (ancestors (split_slash p)) -> is_link h a = false) -> says h (split_slash p) = None ->
  q <> [] -> says (PutLink p c s :: h) q = grown h (PutLink p c s) (inl (c, s)) q.
Proof.
  intros Hs Ha Hn Hq. unfold grown. cbn [call_path]. unfold says at 1. unfold link_at, dir_at, meta_at. cbn [first_some existsb puts makes_dir sets_meta].
  destruct (seg_eqb_spec q (split_slash p)) as [->|Hne]; [reflexivity|]. fold (link_at h q) (dir_at h q) (meta_at h q).
  unfold proper_prefix. destruct (seg_prefix q (split_slash p)) eqn:Ep; cbn [andb orb].
  - destruct (seg_eqb_spec q (split_slash p)); [congruence|]. cbn [negb orb].
    assert (Hl : link_at h q = None).
    { apply seg_prefix_spec in Ep as [r Er]. assert (is_link h q = false); [|unfold is_link in *; destruct (link_at h q); congruence].
      apply Ha. apply ancestors_spec. split; [assumption|]. exists r. split; [|assumption]. intros ->. rewrite app_nil_r in Er. congruence. }
    unfold says. rewrite Hl. destruct (dir_at h q) eqn:Ed; [reflexivity|]. rewrite no_dir_no_meta by assumption. reflexivity.
  - reflexivity.
Qed.
Lemma says_meta h p md q : sane h -> (forall a, In a (ancestors (split_slash p)) -> is_link h a = false) -> is_link h (split_slash p) = false ->
  q <> [] -> says (SetMetadata p md :: h) q = grown h (SetMetadata p md) (inr md) q.
Proof.
  intros Hs Ha Hn Hq. unfold grown. cbn [call_path]. unfold says at 1. unfold link_at, dir_at, meta_at. cbn [first_some existsb puts makes_dir sets_meta].
  fold (link_at h q) (dir_at h q) (meta_at h q).
  destruct (seg_eqb_spec q (split_slash p)) as [->|Hne].
  { unfold is_link in Hn. rewrite seg_prefix_refl. destruct (link_at h (split_slash p)); [discriminate|]. reflexivity. }
  destruct (seg_prefix q (split_slash p)) eqn:Ep; cbn [andb orb].
  - assert (Hl : link_at h q = None).
    { apply seg_prefix_spec in Ep as [r Er]. assert (is_link h q = false); [|unfold is_link in *; destruct (link_at h q); congruence].
      apply Ha. apply ancestors_spec. split; [assumption|]. exists r. split; [|assumption]. intros ->. rewrite app_nil_r in Er. congruence. }
    unfold says. rewrite Hl. fold (meta_at h q). destruct (dir_at h q) eqn:Ed; [reflexivity|]. rewrite no_dir_no_meta by assumption. reflexivity.
  - reflexivity.
Qed.
Lemma no_root_link h : link_at h [] = None.
Proof.
  unfold link_at. induction h as [|[p c s|p md] h IH]; [reflexivity| |exact IH].
  cbn [first_some puts]. destruct (split_slash p) eqn:E; [exfalso; eapply split_nonempty; exact E|]. exact IH.
Qed.
Lemma sane_put h p c s : sane h -> (forall a, In a (ancestors (split_slash p)) -> is_link h a = false) -> says h (split_slash p) = None ->
  sane (PutLink p c s :: h).
Proof.
  intros Hs Ha Hn q. unfold link_at, dir_at. cbn [first_some existsb puts makes_dir]. fold (link_at h q) (dir_at h q).
  unfold proper_prefix. destruct (seg_eqb_spec q (split_slash p)) as [->|Hne].
  - intros _. rewrite andb_false_r. cbn [orb]. unfold says in Hn. destruct (link_at h (split_slash p)); [discriminate|].
    destruct (dir_at h (split_slash p)); [discriminate|reflexivity].
  - intros Hl. rewrite (Hs q Hl), orb_false_r, andb_true_r. destruct (seg_prefix q (split_slash p)) eqn:Ep; [|reflexivity].
    exfalso. apply seg_prefix_spec in Ep as [r Er]. destruct q as [|z q'] eqn:Eq.
    + apply Hl. apply no_root_link.
    + rewrite <- Eq in *. assert (is_link h q = false); [|unfold is_link in *; destruct (link_at h q); congruence].
      apply Ha. apply ancestors_spec. split; [congruence|]. exists r. split; [|assumption]. intros ->. rewrite app_nil_r in Er. congruence.
Qed.
Lemma sane_meta h p md : sane h -> (forall a, In a (ancestors (split_slash p)) -> is_link h a = false) -> is_link h (split_slash p) = false ->
  sane (SetMetadata p md :: h).
Proof.
  intros Hs Ha Hn q. unfold link_at, dir_at. cbn [first_some existsb puts makes_dir]. fold (link_at h q) (dir_at h q).
  intros Hl. rewrite (Hs q Hl), orb_false_r. destruct (seg_prefix q (split_slash p)) eqn:Ep; [|reflexivity].
  exfalso. apply seg_prefix_spec in Ep as [r Er]. destruct r as [|y r].
  - rewrite app_nil_r in Er. rewrite Er in Hn. unfold is_link in Hn. destruct (link_at h q); congruence.
  - destruct q as [|z q'] eqn:Eq.
    + apply Hl. apply no_root_link.
    + rewrite <- Eq in *. assert (is_link h q = false); [|unfold is_link in *; destruct (link_at h q); congruence].
      apply Ha. apply ancestors_spec. split; [congruence|]. exists (y :: r). split; [discriminate|assumption].
Qed.

(** * The invariant *)
Definition inv (wrap : bool) (limit : option N) (h : list call) (b : builder) : Prop :=
  exists ns, b = mk_builder (Dir meta0 None 0 ns) (b_counter b) wrap limit /\
    wfns None 0 ns /\ 0 < b_counter b /\ below_c (b_counter b) ns /\ NoDup (0 :: ids_in ns) /\
    (forall q, q <> [] -> view ns q = says h q) /\ sane h.

Lemma inv_new wrap limit : inv wrap limit [] (new_builder wrap limit).
Proof.
  exists []. split; [reflexivity|]. split; [split; [exact Logic.I|intros n t []]|]. split; [reflexivity|].
  split; [intros i []|]. split; [repeat constructor; intros []|]. split; [intros q Hq; apply view_nil_nodes; assumption|].
  intros q H. exfalso. apply H. reflexivity.
Qed.

Lemma inv_nonempty wrap limit h b ns : inv wrap limit h b -> b_root b = Dir meta0 None 0 ns ->
  match ns with [] => false | _ => true end = match h with [] => false | _ => true end.
Proof.
  intros (ns' & E & Hw & _ & _ & _ & Hv & _) Er. rewrite E in Er. cbn in Er. injection Er as <-.
  destruct ns' as [|[n t] r].
  - destruct h as [|c h]; [reflexivity|]. exfalso.
    set (p := split_slash (call_path c)). assert (Hp : p <> []) by apply split_nonempty.
    specialize (Hv p Hp). rewrite view_nil_nodes in Hv by assumption. symmetry in Hv.
    unfold says in Hv. destruct c as [fp c s|fp md]; subst p; cbn [call_path] in *.
    + unfold link_at in Hv. cbn [first_some puts] in Hv. rewrite seg_eqb_refl in Hv. discriminate.
    + destruct (link_at _ _); [discriminate|]. unfold dir_at in Hv. cbn [existsb makes_dir] in Hv. rewrite seg_prefix_refl in Hv. discriminate.
  - destruct h as [|c h]; [|reflexivity]. exfalso. specialize (Hv [n] ltac:(discriminate)).
    rewrite view_cons in Hv. cbn [bt_get] in Hv. rewrite beq_refl in Hv. discriminate.
Qed.

Lemma call_act b c : do_call b c = modify_with b (call_path c) (act c).
Proof. destruct c; reflexivity. Qed.

Lemma call_step wrap limit h b c : inv wrap limit h b ->
  let (b', r) := do_call b c in
  r = verdict wrap h c /\
  match r with Ok _ => inv wrap limit (c :: h) b' | Err _ => b' = b | Panic => False end.
Proof.
  intros HI. pose proof HI as (ns & Eb & Hw & Hpos & Hbel & Hnd & Hv & Hs).
  pose proof (inv_nonempty wrap limit h b ns HI ltac:(rewrite Eb; reflexivity)) as Hne.
  rewrite call_act. unfold modify_with, verdict.
  set (p := call_path c). destruct (ends_in_slash p) eqn:E1; [auto|]. destruct (repeats_slash p) eqn:E2; [auto|].
  rewrite Eb. cbn [b_root b_wrap b_limit b_counter].
  rewrite loop_top by apply split_nonempty.
  assert (Hsame : mk_builder (Dir meta0 None 0 ns) (b_counter b) wrap limit = b) by (rewrite Eb at 2; reflexivity).
  rewrite Hsame.
  destruct (starts_with_slash p) eqn:E3.
  { apply rooted_true in E3 as [r E3]. rewrite E3, split_rooted. pose proof (split_nonempty r) as Hr.
    destruct (split_slash r) eqn:E; [congruence|]. rewrite <- E3. auto. }
  pose proof (ok_split p E1 E2 E3) as Hok.
  assert (Hroot : match split_slash p with [] :: _ :: _ => False | _ => True end) by apply Hok.
  rewrite <- Hne.
  assert (Hlift : forall X Y : list (bytes * tree) * N * outcome unit building_failed,
            match split_slash p with [] :: _ :: _ => X | _ => Y end = Y).
  { intros. destruct (split_slash p) as [|[|] [|]]; try reflexivity. contradiction. }
  rewrite Hlift. clear Hlift.
  set (full := negb wrap && match ns with [] => false | _ => true end).
  pose proof (loop_spec c (split_slash p) None 0%nat 0 ns (b_counter b) Hok Hw Hpos Hbel) as HL. fold p in HL.
  (* the loop without the limit on the root *)
  assert (Hmain : let '(ns', ctr', r) := modify_loop true p (act c) 0 (split_slash p) 0 ns (b_counter b) in
    r = (if existsb (is_link h) (ancestors (split_slash p)) then Err (LeafAsDirectory p)
         else match c with
              | PutLink _ _ _ => if taken h (split_slash p) then Err (DuplicatePath p) else Ok tt
              | SetMetadata _ _ => if is_link h (split_slash p) then Err (LeafAsDirectory p) else Ok tt
              end) /\
    match r with
    | Ok _ => inv wrap limit (c :: h) (mk_builder (Dir meta0 None 0 ns') ctr' wrap limit)
    | Err _ => mk_builder (Dir meta0 None 0 ns') ctr' wrap limit = b
    | Panic => False
    end).
  { destruct (modify_loop true p (act c) 0 (split_slash p) 0 ns (b_counter b)) as [[ns' ctr'] r]. destruct HL as (L1 & L2 & L3).
    assert (Eex : existsb (fun a => is_leafb (view ns a)) (ancestors (split_slash p)) = existsb (is_link h) (ancestors (split_slash p))).
    { assert (H : forall a, In a (ancestors (split_slash p)) -> a <> []) by (intros a Ha; apply ancestors_spec in Ha; tauto).
      clear - H Hv. induction (ancestors (split_slash p)) as [|a l IH]; [reflexivity|]. cbn [existsb].
      rewrite Hv by (apply H; left; reflexivity). rewrite leaf_says, IH; [reflexivity|]. intros x Hx. apply H. right. exact Hx. }
    rewrite Eex in L3. destruct (existsb (is_link h) (ancestors (split_slash p))) eqn:Ex.
    { destruct L3 as (-> & -> & ->). auto. }
    assert (Hanc : forall a, In a (ancestors (split_slash p)) -> is_link h a = false).
    { intros a Ha. destruct (is_link h a) eqn:El; [|reflexivity]. exfalso. assert (existsb (is_link h) (ancestors (split_slash p)) = true); [|congruence].
      apply existsb_exists. eauto. }
    rewrite Hv in L3 by apply split_nonempty.
    assert (Hnew : r = Ok tt -> below_c ctr' ns' /\ 0 < ctr' /\ NoDup (0 :: ids_in ns')).
    { intros _. split; [eapply fresh_below; eassumption|]. destruct L2 as (Hle & new & Hp & Hn1 & Hn2). split; [lia|].
      inversion Hnd as [|? ? N1 N2]; subst. constructor.
      - intros H. apply (Permutation_in _ Hp) in H. apply in_app_or in H as [H|H]; [apply Hn2 in H; lia|contradiction].
      - apply (Permutation_NoDup (Permutation_sym Hp)). clear - Hn1 N2 Hn2 Hbel. induction new as [|x new IH]; [exact N2|].
        inversion Hn1; subst. cbn [app]. constructor.
        + intros H. apply in_app_or in H as [H|H]; [contradiction|]. apply Hbel in H. specialize (Hn2 x (or_introl eq_refl)). lia.
        + apply IH; [assumption|]. intros i Hi. apply Hn2. right. exact Hi. }
    destruct c as [fp c s|fp md]; cbn [final call_path] in L3; subst p; cbn [call_path] in *.
    - rewrite taken_says. destruct (says h (split_slash fp)) as [x|] eqn:Esay.
      + destruct L3 as (-> & -> & ->). auto.
      + destruct L3 as [-> L3]. split; [reflexivity|]. destruct (Hnew eq_refl) as (N1 & N2 & N3).
        exists ns'. cbn [b_counter]. split; [reflexivity|]. split; [assumption|]. split; [assumption|]. split; [assumption|]. split; [assumption|].
        split; [|apply sane_put; assumption].
        intros q Hq. rewrite says_put by assumption. unfold grown. cbn [call_path]. rewrite L3 by assumption. rewrite Hv by assumption. reflexivity.
    - rewrite <- leaf_says. destruct (says h (split_slash fp)) as [[x|x]|] eqn:Esay; cbn [is_leafb].
      + destruct L3 as (-> & -> & ->). auto.
      + destruct L3 as [-> L3]. split; [reflexivity|]. destruct (Hnew eq_refl) as (N1 & N2 & N3).
        assert (Hl : is_link h (split_slash fp) = false) by (rewrite <- leaf_says, Esay; reflexivity).
        exists ns'. cbn [b_counter]. split; [reflexivity|]. split; [assumption|]. split; [assumption|]. split; [assumption|]. split; [assumption|].
        split; [|apply sane_meta; assumption].
        intros q Hq. rewrite says_meta by assumption. unfold grown. cbn [call_path]. rewrite L3 by assumption. rewrite Hv by assumption. reflexivity.
      + destruct L3 as [-> L3]. split; [reflexivity|]. destruct (Hnew eq_refl) as (N1 & N2 & N3).
        assert (Hl : is_link h (split_slash fp) = false) by (rewrite <- leaf_says, Esay; reflexivity).
        exists ns'. cbn [b_counter]. split; [reflexivity|]. split; [assumption|]. split; [assumption|]. split; [assumption|]. split; [assumption|].
        split; [|apply sane_meta; assumption].
        intros q Hq. rewrite says_meta by assumption. unfold grown. cbn [call_path]. rewrite L3 by assumption. rewrite Hv by assumption. reflexivity. }
  destruct full eqn:Ef; cbn [andb].
  2:{ destruct (modify_loop true p (act c) 0 (split_slash p) 0 ns (b_counter b)) as [[ns' ctr'] r]. exact Hmain. }
  destruct (split_slash p) as [|x [|y l]] eqn:Esp; [auto|auto|].
  cbn [firstn]. rewrite taken_says, <- Hv by discriminate. rewrite view_cons.
  destruct (bt_get x ns) as [t|]; cbn [negb]; [|auto].
  destruct (modify_loop true p (act c) 0 (x :: y :: l) 0 ns (b_counter b)) as [[ns' ctr'] r]. exact Hmain.
Qed.

Lemma calls_inv wrap limit l : forall h b, inv wrap limit h b ->
  inv wrap limit (fst (accept wrap h l)) (fst (do_calls b l)) /\ snd (do_calls b l) = snd (accept wrap h l).
Proof.
  induction l as [|c l IH]; intros h b HI; [auto|]. cbn [do_calls accept].
  pose proof (call_step wrap limit h b c HI) as Hc. destruct (do_call b c) as [b' r]. destruct Hc as [<- Hc].
  destruct r as [u|e|]; [| |contradiction].
  - specialize (IH (c :: h) b' Hc). destruct (do_calls b' l), (accept wrap (c :: h) l). cbn [fst snd] in *. destruct IH. split; [assumption|congruence].
  - subst b'. specialize (IH h b HI). destruct (do_calls b l), (accept wrap h l). cbn [fst snd] in *. destruct IH. split; [assumption|congruence].
Qed.

Lemma inv_holds wrap limit h b : inv wrap limit h b -> holds h (b_root b).
Proof.
  intros (ns & -> & _ & _ & _ & _ & Hv & Hs) q Hq. cbn [b_root]. specialize (Hv q Hq).
  rewrite <- (view_dir meta0 None 0 ns q Hq) in Hv. unfold says in Hv.
  destruct (at_path (Dir meta0 None 0 ns) q) as [[c s|md p i sub]|]; cbn [option_map show] in Hv.
  - destruct (link_at h q) as [x|] eqn:E; [|destruct (dir_at h q); discriminate]. injection Hv as <-. split; [reflexivity|]. apply Hs. congruence.
  - destruct (link_at h q); [discriminate|]. destruct (dir_at h q); [|discriminate]. injection Hv as ->. auto.
  - destruct (link_at h q); [discriminate|]. destruct (dir_at h q); [discriminate|]. auto.
Qed.
