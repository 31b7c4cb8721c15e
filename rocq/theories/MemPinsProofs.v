(** The in-memory pin store: invariant and refinement to the specification. *)
From Verif Require Import Base Wire Cid CidProofs FMap BTree Text TextProofs FsPaths FsPathsProofs PinSpec PinSpecProofs BlockSpec MemPins.
Local Open Scope N_scope.

Definition unit_set (l : list bytes) : list (bytes * unit) := map (fun s => (s, tt)) l.
Definition by_sorted (l : list bytes) : Prop := bt_sorted (unit_set l).

Lemma fst_unit_set l : map fst (unit_set l) = l.
Proof. unfold unit_set. rewrite map_map. apply map_id. Qed.
Lemma unit_set_fst (s : list (bytes * unit)) : unit_set (map fst s) = s.
Proof. unfold unit_set. rewrite map_map. rewrite <- (map_id s) at 2. apply map_ext. intros [k []]. reflexivity. Qed.

Lemma set_of_sorted l : by_sorted l -> set_of l = unit_set l.
Proof.
  intros H. unfold set_of. apply bt_of_perm; [exact H| |tauto].
  apply bt_sorted_nodup in H. exact H.
Qed.
Lemma unit_get t l : is_some (bt_get t (unit_set l)) = true <-> In t l.
Proof.
  induction l as [|x l IH]; cbn; [split; [discriminate|contradiction]|].
  destruct (beq_spec t x) as [->|Hn]; cbn; [tauto|]. rewrite IH. split; [auto|]. intros [H|H]; [congruence|auto].
Qed.
Lemma in_bt_get {V} (m : list (bytes * V)) k : bt_sorted m -> In k (map fst m) <-> is_some (bt_get k m) = true.
Proof.
  intros H. apply bt_sorted_nodup in H. split.
  - intros Hi. apply in_map_iff in Hi as ([k' v] & <- & Hi). cbn [fst]. rewrite (nodup_get k' v m H Hi). reflexivity.
  - destruct (bt_get k m) as [v|] eqn:E; [|discriminate]. intros _. apply bt_get_in in E. apply in_map_iff. exists (k, v). auto.
Qed.

Definition text1 (root : cid) : bytes := cid_to_text (to_v1 root).

(** [update] for indirect pins. *)
Lemma update_add_by d root : by_sorted (d_by d) ->
  exists d' m, update d true (KIndirect root) = Ok (d', m) /\
    d_direct d' = d_direct d /\ d_rec d' = d_rec d /\ by_sorted (d_by d') /\
    (forall t, In t (d_by d') <-> t = text1 root \/ In t (d_by d)) /\ (m = false -> In (text1 root) (d_by d)).
Proof.
  intros Hs. unfold update. fold (text1 root). destruct (d_by d) as [|b by_] eqn:Eb.
  - do 2 eexists. split; [reflexivity|]. cbn. repeat split; auto; try discriminate; intuition.
  - rewrite <- Eb in *. rewrite set_of_sorted by exact Hs. cbn [set_insert].
    do 2 eexists. split; [reflexivity|]. cbn [d_direct d_rec d_by].
    split; [reflexivity|]. split; [reflexivity|]. split; [|split].
    + unfold by_sorted. rewrite unit_set_fst. apply bt_insert_sorted. exact Hs.
    + intros t. rewrite in_bt_get by (apply bt_insert_sorted; exact Hs). rewrite bt_get_insert by exact Hs.
      destruct (beq_spec t (text1 root)) as [->|Hn]; [cbn; tauto|]. rewrite unit_get. tauto.
    + intros H. apply negb_false_iff in H. apply unit_get in H. exact H.
Qed.
Lemma update_del_by d root : by_sorted (d_by d) ->
  exists d' m, update d false (KIndirect root) = Ok (d', m) /\
    d_direct d' = d_direct d /\ d_rec d' = d_rec d /\ by_sorted (d_by d') /\
    (forall t, In t (d_by d') <-> t <> text1 root /\ In t (d_by d)) /\
    (m = true <-> In (text1 root) (d_by d)).
Proof.
  intros Hs. unfold update. fold (text1 root). destruct (d_by d) as [|b by_] eqn:Eb.
  - do 2 eexists. split; [reflexivity|]. rewrite Eb. cbn. repeat split; auto; try discriminate; tauto.
  - rewrite <- Eb in *. rewrite set_of_sorted by exact Hs. cbn [set_remove].
    do 2 eexists. split; [reflexivity|]. cbn [d_direct d_rec d_by].
    split; [reflexivity|]. split; [reflexivity|]. split; [|split].
    + unfold by_sorted. rewrite unit_set_fst. apply bt_remove_sorted. exact Hs.
    + intros t. rewrite in_bt_get by (apply bt_remove_sorted; exact Hs). rewrite bt_get_remove.
      destruct (beq_spec t (text1 root)) as [->|Hn]; [cbn; split; [discriminate|tauto]|]. rewrite unit_get. tauto.
    + apply unit_get.
Qed.

(** The map: keys are cids, documents say something. *)
Definition pwf (g : pins) : Prop :=
  NoDup (mkeys g) /\
  forall k d, In (k, d) g -> (exists c, wf_cid c /\ k = cid_to_bytes c) /\ can_remove d = false /\ by_sorted (d_by d).
Definition look (g : pins) (c : cid) : doc := match pget c g with Some d => d | None => new_doc end.

Lemma pget_in c g d : pget c g = Some d -> In (cid_to_bytes c, d) g.
Proof. apply mget_in. exact beq_spec. Qed.

Lemma look_sorted g c : pwf g -> by_sorted (d_by (look g c)).
Proof.
  intros [_ H]. unfold look. destruct (pget c g) as [d|] eqn:E; [|exact I].
  apply pget_in in E. apply H in E. tauto.
Qed.

Lemma key_eqb c x : wf_cid c -> wf_cid x -> beq (cid_to_bytes x) (cid_to_bytes c) = cid_eqb x c.
Proof.
  intros Hc Hx. destruct (cid_eqb_spec x c) as [->|Hn]; [apply beq_refl|].
  destruct (beq_spec (cid_to_bytes x) (cid_to_bytes c)) as [E|]; [|reflexivity].
  exfalso. apply Hn. apply cid_to_bytes_inj; auto.
Qed.

Lemma look_set g c d x : wf_cid c -> wf_cid x -> look (mset beq (cid_to_bytes c) d g) x = if cid_eqb x c then d else look g x.
Proof.
  intros Hc Hx. unfold look, pget. rewrite mget_mset by exact beq_spec. rewrite key_eqb by assumption.
  destruct (cid_eqb x c); reflexivity.
Qed.
Lemma look_del g c x : wf_cid c -> wf_cid x -> look (mdel beq (cid_to_bytes c) g) x = if cid_eqb x c then new_doc else look g x.
Proof.
  intros Hc Hx. unfold look, pget. rewrite mget_mdel by exact beq_spec. rewrite key_eqb by assumption.
  destruct (cid_eqb x c); reflexivity.
Qed.

Lemma pwf_del g k : pwf g -> pwf (mdel beq k g).
Proof.
  intros [Hn H]. split; [apply mdel_nodup; exact Hn|].
  intros k' d Hi. unfold mdel in Hi. apply filter_In in Hi as [Hi _]. auto.
Qed.
Lemma pwf_set g c d : pwf g -> wf_cid c -> can_remove d = false -> by_sorted (d_by d) -> pwf (mset beq (cid_to_bytes c) d g).
Proof.
  intros Hg Hc Hr Hb. pose proof (pwf_del g (cid_to_bytes c) Hg) as [_ H]. destruct Hg as [Hn _].
  split; [apply mset_nodup; [exact beq_spec|exact Hn]|].
  intros k' d' [[= <- <-]|Hi]; [|apply H; exact Hi]. eauto.
Qed.

Lemma can_remove_new d : can_remove d = true -> d = new_doc.
Proof.
  destruct d as [b r l]. unfold can_remove, new_doc. cbn. destruct b, r, l; cbn; try discriminate. reflexivity.
Qed.

(** [insert_pin] in terms of lookups. *)
Lemma insert_ok g c k d' m : pwf g -> wf_cid c -> update (look g c) true k = Ok (d', m) ->
  can_remove d' = false -> by_sorted (d_by d') -> (m = false -> can_remove (look g c) = false) ->
  exists g' b, insert_pin g c k = (g', Ok b) /\ pwf g' /\
    (forall x, wf_cid x -> look g' x = if cid_eqb x c then (if m then d' else look g c) else look g x).
Proof.
  intros Hg Hc E Hr Hb Hm. unfold insert_pin. unfold look in E, Hm. destruct (pget c g) as [d|] eqn:Ep.
  - rewrite E. destruct m.
    + do 2 eexists. split; [reflexivity|]. split; [apply pwf_set; assumption|].
      intros x Hx. apply look_set; assumption.
    + do 2 eexists. split; [reflexivity|]. split; [exact Hg|]. intros x Hx.
      destruct (cid_eqb_spec x c) as [->|]; reflexivity.
  - rewrite E. do 2 eexists. split; [reflexivity|]. split; [apply pwf_set; assumption|].
    intros x Hx. rewrite look_set by assumption. destruct m; [reflexivity|]. specialize (Hm eq_refl). discriminate.
Qed.
Lemma insert_err g c k e : update (look g c) true k = Err e -> pget c g <> None -> insert_pin g c k = (g, Err e).
Proof. unfold insert_pin, look. destruct (pget c g); [|contradiction]. intros E _. rewrite E. reflexivity. Qed.

Lemma remove_ok g c k d' m : pwf g -> wf_cid c -> update (look g c) false k = Ok (d', m) -> pget c g <> None ->
  by_sorted (d_by d') ->
  exists g' b, remove_pin g c k = (g', Ok b) /\ pwf g' /\
    (forall x, wf_cid x -> look g' x = if cid_eqb x c then (if m then d' else look g c) else look g x).
Proof.
  intros Hg Hc E Hp Hb. unfold remove_pin. unfold look in E. destruct (pget c g) as [d|] eqn:Ep; [|contradiction].
  rewrite E. destruct m.
  - destruct (can_remove d') eqn:Er.
    + do 2 eexists. split; [reflexivity|]. split; [apply pwf_del; exact Hg|].
      intros x Hx. rewrite look_del by assumption. apply can_remove_new in Er. subst. reflexivity.
    + do 2 eexists. split; [reflexivity|]. split; [apply pwf_set; assumption|].
      intros x Hx. apply look_set; assumption.
  - do 2 eexists. split; [reflexivity|]. split; [exact Hg|]. intros x Hx.
    destruct (cid_eqb_spec x c) as [->|]; [|reflexivity]. unfold look. rewrite Ep. reflexivity.
Qed.
Lemma remove_err g c k e : update (look g c) false k = Err e -> pget c g <> None -> remove_pin g c k = (g, Err e).
Proof. unfold remove_pin, look. destruct (pget c g); [|contradiction]. intros E _. rewrite E. reflexivity. Qed.

Lemma present g c : pwf g -> (pget c g <> None <-> can_remove (look g c) = false).
Proof.
  intros [_ H]. unfold look. destruct (pget c g) as [d|] eqn:E.
  - apply pget_in in E. apply H in E. split; [tauto|discriminate].
  - split; [contradiction|discriminate].
Qed.

(** The loop of [insert_recursive_pin]. *)
Lemma each_insert root l : Forall wf_cid l -> forall g, pwf g ->
  exists g', each (fun g x => insert_pin g x (KIndirect root)) g l false = (g', Ok tt) /\ pwf g' /\
    (forall x, wf_cid x -> d_direct (look g' x) = d_direct (look g x) /\ d_rec (look g' x) = d_rec (look g x) /\
       forall t, In t (d_by (look g' x)) <-> (t = text1 root /\ In x l) \/ In t (d_by (look g x))).
Proof.
  induction 1 as [|c l Hc HF IH]; intros g Hg.
  - exists g. split; [reflexivity|]. split; [exact Hg|]. intros x Hx. repeat split; auto. intros [[_ []]|H]; exact H.
  - destruct (update_add_by (look g c) root (look_sorted g c Hg)) as (d' & m & E & Ed & Er & Hs & Hb & Hm).
    assert (Hne : can_remove d' = false).
    { unfold can_remove. destruct (d_by d') as [|b r] eqn:Eb; [|rewrite !andb_false_r; reflexivity].
      exfalso. apply (proj2 (Hb (text1 root))). auto. }
    assert (Hmr : m = false -> can_remove (look g c) = false).
    { intros H. apply Hm in H. unfold can_remove. destruct (d_by (look g c)); [contradiction|]. rewrite !andb_false_r. reflexivity. }
    destruct (insert_ok g c (KIndirect root) d' m Hg Hc E Hne Hs Hmr) as (g1 & b & E1 & Hg1 & L1).
    cbn [each]. rewrite E1. destruct (IH g1 Hg1) as (g2 & E2 & Hg2 & L2). exists g2. split; [exact E2|]. split; [exact Hg2|].
    intros x Hx. destruct (L2 x Hx) as (A & B & C). rewrite (L1 x Hx) in A, B, C.
    destruct (cid_eqb_spec x c) as [->|Hn].
    + destruct m.
      * rewrite A, B. split; [exact Ed|]. split; [exact Er|]. intros t. rewrite C, Hb. cbn [In]. tauto.
      * specialize (Hm eq_refl). split; [exact A|]. split; [exact B|]. intros t. rewrite C. cbn [In].
        split; [tauto|]. intros [[-> _]|H]; auto.
    + split; [exact A|]. split; [exact B|]. intros t. rewrite C. cbn [In]. split; [tauto|].
      intros [[-> [H|H]]|H]; [congruence| |]; auto.
Qed.

(** The loop of [remove_recursive_pin], when every reference has the root recorded. *)
Lemma each_remove root l : Forall wf_cid l -> NoDup l -> forall g, pwf g ->
  (forall x, In x l -> In (text1 root) (d_by (look g x))) ->
  exists g', each (fun g x => remove_pin g x (KIndirect root)) g l false = (g', Ok tt) /\ pwf g' /\
    (forall x, wf_cid x -> d_direct (look g' x) = d_direct (look g x) /\ d_rec (look g' x) = d_rec (look g x) /\
       forall t, In t (d_by (look g' x)) <-> ~ (t = text1 root /\ In x l) /\ In t (d_by (look g x))).
Proof.
  induction 1 as [|c l Hc HF IH]; intros Hnd g Hg Hin.
  - exists g. split; [reflexivity|]. split; [exact Hg|]. intros x Hx. repeat split; auto; try tauto.
  - inversion Hnd as [|? ? Hni Hnd']; subst.
    destruct (update_del_by (look g c) root (look_sorted g c Hg)) as (d' & m & E & Ed & Er & Hs & Hb & Hm).
    assert (Ht : In (text1 root) (d_by (look g c))) by (apply Hin; left; reflexivity).
    apply Hm in Ht as Em. subst m.
    assert (Hp : pget c g <> None).
    { apply present; [exact Hg|]. unfold can_remove. destruct (d_by (look g c)); [contradiction|]. rewrite !andb_false_r. reflexivity. }
    destruct (remove_ok g c (KIndirect root) d' true Hg Hc E Hp Hs) as (g1 & b & E1 & Hg1 & L1).
    cbn [each]. rewrite E1.
    destruct (IH Hnd' g1 Hg1) as (g2 & E2 & Hg2 & L2).
    { intros x Hx. rewrite L1 by (rewrite Forall_forall in HF; auto).
      destruct (cid_eqb_spec x c) as [->|]; [contradiction|]. apply Hin. right. exact Hx. }
    exists g2. split; [exact E2|]. split; [exact Hg2|].
    intros x Hx. destruct (L2 x Hx) as (A & B & C). rewrite (L1 x Hx) in A, B, C.
    destruct (cid_eqb_spec x c) as [->|Hn].
    + rewrite A, B. split; [exact Ed|]. split; [exact Er|]. intros t. rewrite C, Hb. cbn [In]. tauto.
    + split; [exact A|]. split; [exact B|]. intros t. rewrite C. cbn [In]. split.
      * intros [H1 H2]. split; [|exact H2]. intros [-> [H|H]]; [congruence|tauto].
      * intros [H1 H2]. split; [|exact H2]. tauto.
Qed.

(** * Refinement *)
Definition spec_doc (past : list pop) (c : cid) (d : doc) : Prop :=
  d_direct d = direct past c /\
  d_rec d = match recursive past c with Some rs => RCount (blen rs) | None => RNot end /\
  (forall t, In t (d_by d) <-> exists root, refers past root c = true /\ t = text1 root).
Definition mrep (past : list pop) (g : pins) : Prop :=
  pwf g /\ (forall c, wf_cid c -> spec_doc past c (look g c)) /\
  (forall c, recursive past c <> None -> direct past c = false) /\
  (forall c, In c (roots past) -> wf_cid c).

(** Which calls succeed. *)
Definition mem_accepts (past : list pop) (o : pop) : bool :=
  match o with
  | PinDirect c => negb (is_some (recursive past c))
  | PinRec c _ => negb (is_some (recursive past c))
  | UnpinDirect c => direct past c
  | UnpinRec c _ => is_some (recursive past c) || (direct past c && negb (indirect past c))
  end.

Section Refine.
  Variable refs_of : cid -> list cid.
  Hypothesis refs_nodup : forall c, NoDup (refs_of c).
  Local Notation from_dag := (PinSpec.from_dag refs_of).
  Variable known : list cid.
  Hypothesis one_version : forall a b, In a known -> In b known -> to_v1 a = to_v1 b -> a = b.
  Definition call_ok (o : pop) : Prop :=
    wf_op o /\ from_dag o /\ match o with PinRec c _ => In c known | _ => True end.

  Definition rep (past : list pop) (g : pins) : Prop :=
    mrep past g /\ incl (roots past) known /\
    (forall c rs, recursive past c = Some rs -> rs = refs_of c).

  Lemma by_empty past g c : mrep past g -> wf_cid c -> (d_by (look g c) = [] <-> indirect past c = false).
  Proof.
    intros (_ & H & _) Hc. destruct (H c Hc) as (_ & _ & Hb). rewrite <- not_true_iff_false, indirect_spec. split.
    - intros E (root & Hr). rewrite E in Hb. apply (proj2 (Hb (text1 root))). eauto.
    - intros Hn. destruct (d_by (look g c)) as [|t l]; [reflexivity|]. exfalso. apply Hn.
      destruct (proj1 (Hb t) (or_introl eq_refl)) as (root & Hr & _). eauto.
  Qed.
  Lemma text1_inj a b : wf_cid a -> wf_cid b -> text1 a = text1 b -> to_v1 a = to_v1 b.
  Proof. intros Ha Hb E. apply cid_text_inj; auto using wf_to_v1. Qed.

  Lemma refers_cons_pin past t r root c :
    refers (PinRec t r :: past) root c = if cid_eqb root t then existsb (cid_eqb c) (items r) else refers past root c.
  Proof. unfold refers. cbn [recursive]. destruct (cid_eqb root t); reflexivity. Qed.
  Lemma refers_cons_unpin past t r root c :
    refers (UnpinRec t r :: past) root c = if cid_eqb root t then false else refers past root c.
  Proof. unfold refers. cbn [recursive]. destruct (cid_eqb root t); reflexivity. Qed.

  Lemma rec_of past g c : mrep past g -> wf_cid c -> rec_set (d_rec (look g c)) = is_some (recursive past c).
  Proof. intros (_ & H & _) Hc. destruct (H c Hc) as (_ & -> & _). destruct (recursive past c); reflexivity. Qed.

  Lemma present_spec past g c : mrep past g -> wf_cid c -> (is_some (pget c g) = pinned past c).
  Proof.
    intros Hr Hc. pose proof Hr as (Hg & H & _). destruct (H c Hc) as (Hd & _ & _).
    assert (E : can_remove (look g c) = negb (pinned past c)).
    { unfold can_remove. rewrite Hd, (rec_of past g c Hr Hc). unfold pinned.
      pose proof (by_empty past g c Hr Hc) as Hb.
      destruct (d_by (look g c)) as [|t l] eqn:Eb.
      - rewrite (proj1 Hb eq_refl). destruct (is_some (recursive past c)), (direct past c); reflexivity.
      - destruct (indirect past c); [destruct (is_some (recursive past c)), (direct past c); reflexivity|].
        discriminate (proj2 Hb eq_refl). }
    pose proof (present g c Hg) as Hp. rewrite E in Hp. destruct (pget c g); cbn.
    - destruct (pinned past c); [reflexivity|]. cbn in Hp. exfalso. assert (true = false) by (apply Hp; discriminate). discriminate.
    - destruct (pinned past c); [|reflexivity]. cbn in Hp. exfalso. apply Hp; reflexivity.
  Qed.

  Lemma pget_pinned past g c : mrep past g -> wf_cid c -> pinned past c = true -> pget c g <> None.
  Proof. intros Hr Hc H. rewrite <- (present_spec past g c Hr Hc) in H. destruct (pget c g); [discriminate|discriminate]. Qed.

  Definition result (past : list pop) (g : pins) (o : pop) : Prop :=
    if mem_accepts past o then exists g', mem_pin_call g o = (g', Ok tt) /\ rep (o :: past) g'
    else exists e, mem_pin_call g o = (g, Err e).

  (** Calls which do not touch recursive pins change one document. *)
  Lemma rep_direct past g g' c b o : rep past g -> wf_cid c -> pwf g' ->
    (o = PinDirect c /\ b = true \/ o = UnpinDirect c /\ b = false) ->
    recursive past c = None ->
    (forall x, wf_cid x -> look g' x = if cid_eqb x c then mk_doc b (d_rec (look g c)) (d_by (look g c)) else look g x) ->
    rep (o :: past) g'.
  Proof.
    intros (Hr & Hk & Hd) Hc Hg' Ho Hrec L. pose proof Hr as (Hg & H & Hex & Hw).
    assert (Er : forall x, recursive (o :: past) x = recursive past x) by (intros x; destruct Ho as [[-> _]|[-> _]]; reflexivity).
    assert (Ed : forall x, direct (o :: past) x = if cid_eqb x c then b else direct past x)
      by (intros x; destruct Ho as [[-> ->]|[-> ->]]; reflexivity).
    assert (Ero : roots (o :: past) = roots past) by (destruct Ho as [[-> _]|[-> _]]; reflexivity).
    assert (Ef : forall a x, refers (o :: past) a x = refers past a x) by (intros; unfold refers; rewrite Er; reflexivity).
    split; [split; [exact Hg'|split; [|split]]|split].
    - intros x Hx. rewrite (L x Hx). destruct (H x Hx) as (A & B & C). unfold spec_doc. rewrite Er, Ed.
      destruct (cid_eqb_spec x c) as [->|].
      + cbn [d_direct d_rec d_by]. split; [reflexivity|]. split; [exact B|]. intros t. rewrite C. setoid_rewrite Ef. reflexivity.
      + split; [exact A|]. split; [exact B|]. intros t. rewrite C. setoid_rewrite Ef. reflexivity.
    - intros x. rewrite Er, Ed. destruct (cid_eqb_spec x c) as [->|]; [congruence|]. apply Hex.
    - rewrite Ero. exact Hw.
    - rewrite Ero. exact Hk.
    - intros x rs. rewrite Er. apply Hd.
  Qed.

  Lemma pin_direct_ok past g c : rep past g -> wf_cid c -> result past g (PinDirect c).
  Proof.
    intros Hrep Hc. pose proof Hrep as (Hr & _). pose proof Hr as (Hg & H & Hex & _). destruct (H c Hc) as (Hd & Hrec & _).
    unfold result, mem_accepts. cbn [mem_pin_call]. unfold mem_pin_direct.
    destruct (recursive past c) as [rs|] eqn:E; cbn [is_some negb].
    - assert (Eu : update (look g c) true KDirect = Err EAlreadyRecursive).
      { unfold update. rewrite Hrec, Hd, (Hex c) by congruence. reflexivity. }
      rewrite (insert_err g c KDirect _ Eu); [cbn; eauto|]. apply (pget_pinned past g c Hr Hc).
      unfold pinned. rewrite E. reflexivity.
    - assert (Eu : update (look g c) true KDirect
                   = Ok (mk_doc true (d_rec (look g c)) (d_by (look g c)), negb (direct past c))).
      { unfold update. rewrite Hrec, Hd. cbn. destruct (direct past c); reflexivity. }
      destruct (insert_ok g c KDirect _ _ Hg Hc Eu) as (g' & b & E1 & Hg' & L).
      + reflexivity.
      + cbn. apply look_sorted, Hg.
      + intros Hn. apply negb_false_iff in Hn. unfold can_remove. rewrite Hd, Hn. reflexivity.
      + rewrite E1. cbn [done]. exists g'. split; [reflexivity|].
        eapply rep_direct with (g := g) (b := true); eauto. intros x Hx. rewrite (L x Hx).
        destruct (cid_eqb x c); [|reflexivity]. destruct (direct past c) eqn:Ed; [|reflexivity].
        cbn [negb]. destruct (look g c) as [dd rr bb]. cbn in *. congruence.
  Qed.

  Lemma unpin_direct_ok past g c : rep past g -> wf_cid c -> result past g (UnpinDirect c).
  Proof.
    intros Hrep Hc. pose proof Hrep as (Hr & _). pose proof Hr as (Hg & H & Hex & _). destruct (H c Hc) as (Hd & Hrec & _).
    unfold result, mem_accepts. cbn [mem_pin_call]. unfold mem_unpin_direct.
    destruct (direct past c) eqn:Ed.
    - assert (En : recursive past c = None).
      { destruct (recursive past c) eqn:E; [|reflexivity]. rewrite (Hex c) in Ed by congruence. discriminate. }
      assert (Eu : update (look g c) false KDirect = Ok (mk_doc false (d_rec (look g c)) (d_by (look g c)), true)).
      { unfold update. rewrite Hd. rewrite !andb_false_r. cbn. reflexivity. }
      destruct (remove_ok g c KDirect _ _ Hg Hc Eu) as (g' & b & E1 & Hg' & L).
      + apply (pget_pinned past g c Hr Hc). unfold pinned. rewrite Ed, orb_true_r. reflexivity.
      + cbn. apply look_sorted, Hg.
      + rewrite E1. cbn [done]. exists g'. split; [reflexivity|].
        eapply rep_direct with (g := g) (b := false); eauto.
    - destruct (pget c g) as [d|] eqn:Ep.
      + assert (Eu : exists e, update (look g c) false KDirect = Err e).
        { unfold update. rewrite Hd. cbn [negb andb]. rewrite andb_false_r. destruct (rec_set (d_rec (look g c))); cbn; eauto. }
        destruct Eu as [e Eu]. rewrite (remove_err g c KDirect e Eu) by congruence. cbn. eauto.
      + unfold remove_pin. rewrite Ep. cbn. eauto.
  Qed.

  Lemma pin_rec_ok past g c r : rep past g -> wf_cid c -> Forall wf_cid (items r) -> items r = refs_of c ->
    broken r = false -> In c known -> result past g (PinRec c r).
  Proof.
    intros Hrep Hc Hwr Hi Hb Hkn. pose proof Hrep as (Hr & Hk & Hdag). pose proof Hr as (Hg & H & Hex & Hw).
    destruct (H c Hc) as (Hd & Hrec & _).
    unfold result, mem_accepts. cbn [mem_pin_call]. unfold mem_pin_rec.
    destruct (recursive past c) as [rs|] eqn:E; cbn [is_some negb].
    - assert (Eu : update (look g c) true KIntent = Err EAlreadyRecursive) by (unfold update; rewrite Hrec; reflexivity).
      rewrite (insert_err g c KIntent _ Eu); [cbn; eauto|]. apply (pget_pinned past g c Hr Hc).
      unfold pinned. rewrite E. reflexivity.
    - assert (Eu : update (look g c) true KIntent = Ok (mk_doc false RIntent (d_by (look g c)), true))
        by (unfold update; rewrite Hrec; reflexivity).
      destruct (insert_ok g c KIntent _ _ Hg Hc Eu) as (g1 & b1 & E1 & Hg1 & L1);
        [reflexivity|cbn; apply look_sorted, Hg|discriminate|].
      rewrite E1, Hb. destruct (each_insert (to_v1 c) (items r) Hwr g1 Hg1) as (g2 & E2 & Hg2 & L2).
      rewrite E2. destruct (L2 c Hc) as (A2 & B2 & C2). rewrite (L1 c Hc), cid_eqb_refl in A2, B2, C2. cbn in A2, B2, C2.
      assert (Eu3 : update (look g2 c) true (KRecursive (blen (items r)))
                    = Ok (mk_doc false (RCount (blen (items r))) (d_by (look g2 c)), true))
        by (unfold update; rewrite B2; reflexivity).
      destruct (insert_ok g2 c _ _ _ Hg2 Hc Eu3) as (g3 & b3 & E3 & Hg3 & L3);
        [reflexivity|cbn; apply look_sorted, Hg2|discriminate|].
      rewrite E3. cbn [done]. exists g3. split; [reflexivity|].
      assert (Et : text1 (to_v1 c) = text1 c) by (unfold text1; destruct c; reflexivity).
      split; [split; [exact Hg3|split; [|split]]|split].
      + intros x Hx. rewrite (L3 x Hx). destruct (H x Hx) as (A & B & C). destruct (L2 x Hx) as (A' & B' & C').
        rewrite (L1 x Hx) in A', B', C'. unfold spec_doc. cbn [direct recursive].
        assert (Hby : forall t, (t = text1 (to_v1 c) /\ In x (items r)) \/ In t (d_by (look g x)) <->
                        exists root, refers (PinRec c r :: past) root x = true /\ t = text1 root).
        { intros t. rewrite Et, C. split.
          - intros [[-> Hin]|(root & Hf & ->)].
            + exists c. rewrite refers_cons_pin, cid_eqb_refl, existsb_cid. auto.
            + exists root. rewrite refers_cons_pin. destruct (cid_eqb_spec root c) as [->|]; [|auto].
              unfold refers in Hf. rewrite E in Hf. discriminate.
          - intros (root & Hf & ->). rewrite refers_cons_pin in Hf. destruct (cid_eqb_spec root c) as [Er|Er]; [rewrite Er in *|].
            + apply existsb_cid in Hf. auto.
            + eauto. }
        destruct (cid_eqb_spec x c) as [->|Hn]; cbn [d_direct d_rec d_by] in *.
        * split; [reflexivity|]. split; [reflexivity|]. intros t. rewrite C'. apply Hby.
        * rewrite A', B'. split; [exact A|]. split; [exact B|]. intros t. rewrite C'. apply Hby.
      + intros x. cbn [recursive direct]. destruct (cid_eqb x c); [reflexivity|]. apply Hex.
      + cbn [roots]. intros x [<-|Hx]; auto.
      + cbn [roots]. intros x [<-|Hx]; auto.
      + intros x rs. cbn [recursive]. destruct (cid_eqb_spec x c) as [->|]; [intros [= <-]; exact Hi|]. apply Hdag.
  Qed.

  Lemma unpin_rec_ok past g c r : rep past g -> wf_cid c -> Forall wf_cid (items r) -> items r = refs_of c ->
    broken r = false -> result past g (UnpinRec c r).
  Proof.
    intros Hrep Hc Hwr Hi Hb. pose proof Hrep as (Hr & Hk & Hdag). pose proof Hr as (Hg & H & Hex & Hw).
    destruct (H c Hc) as (Hd & Hrec & Hby).
    unfold result, mem_accepts. cbn [mem_pin_call]. unfold mem_unpin_rec.
    destruct (recursive past c) as [rs|] eqn:E; cbn [is_some orb].
    - assert (Hp : pget c g <> None) by (apply (pget_pinned past g c Hr Hc); unfold pinned; rewrite E; reflexivity).
      assert (El : pget c g = Some (look g c)) by (unfold look; destruct (pget c g); [reflexivity|contradiction]).
      rewrite El. unfold doc_mode. rewrite Hrec. cbn [rec_set].
      assert (Eu : update (look g c) false (KRecursive (blen rs)) = Ok (mk_doc (d_direct (look g c)) RNot (d_by (look g c)), true))
        by (unfold update; rewrite Hrec, N.eqb_refl; reflexivity).
      destruct (remove_ok g c _ _ _ Hg Hc Eu Hp) as (g1 & b1 & E1 & Hg1 & L1); [cbn; apply look_sorted, Hg|].
      rewrite E1, Hb. assert (Ers : rs = items r) by (rewrite Hi; apply Hdag; exact E).
      destruct (each_remove (to_v1 c) (items r) Hwr ltac:(rewrite Hi; apply refs_nodup) g1 Hg1) as (g2 & E2 & Hg2 & L2).
      { intros x Hx. assert (Hwx : wf_cid x) by (rewrite Forall_forall in Hwr; auto).
        assert (Et : text1 (to_v1 c) = text1 c) by (unfold text1; destruct c; reflexivity).
        assert (Hin : In (text1 (to_v1 c)) (d_by (look g x))).
        { rewrite Et. destruct (H x Hwx) as (_ & _ & C). apply C. exists c. split; [|reflexivity].
          apply refers_spec. exists rs. rewrite Ers. rewrite <- Ers at 1. auto. }
        rewrite (L1 x Hwx). destruct (cid_eqb_spec x c) as [->|]; exact Hin. }
      rewrite E2. exists g2. split; [reflexivity|].
      assert (Et : text1 (to_v1 c) = text1 c) by (unfold text1; destruct c; reflexivity).
      assert (Hck : In c known) by (apply Hk; eapply recursive_roots; eauto).
      split; [split; [exact Hg2|split; [|split]]|split].
      + intros x Hx. destruct (H x Hx) as (A & B & C). destruct (L2 x Hx) as (A' & B' & C').
        rewrite (L1 x Hx) in A', B', C'. unfold spec_doc. cbn [direct recursive].
        assert (Hbx : forall t, ~ (t = text1 (to_v1 c) /\ In x (items r)) /\ In t (d_by (look g x)) <->
                        exists root, refers (UnpinRec c r :: past) root x = true /\ t = text1 root).
        { intros t. rewrite Et, C. split.
          - intros [Hn (root & Hf & ->)]. exists root. rewrite refers_cons_unpin.
            destruct (cid_eqb_spec root c) as [->|]; [|auto]. exfalso. apply Hn. split; [reflexivity|].
            apply refers_spec in Hf as (rs' & E' & Hin). rewrite E in E'. injection E' as <-. rewrite <- Ers. exact Hin.
          - intros (root & Hf & ->). rewrite refers_cons_unpin in Hf. destruct (cid_eqb_spec root c) as [Er|Hn]; [discriminate|].
            split; [|eauto]. intros [Ht _]. apply Hn.
            apply refers_spec in Hf as (rs' & E' & _). apply recursive_roots in E'.
            apply one_version; auto. apply text1_inj; auto. }
        destruct (cid_eqb_spec x c) as [->|Hn]; cbn [d_direct d_rec d_by] in *.
        * rewrite A', B'. split; [rewrite A; apply Hex; congruence|]. split; [reflexivity|]. intros t. rewrite C'. apply Hbx.
        * rewrite A', B'. split; [exact A|]. split; [exact B|]. intros t. rewrite C'. apply Hbx.
      + intros x. cbn [recursive direct]. destruct (cid_eqb x c); [reflexivity|]. apply Hex.
      + exact Hw.
      + exact Hk.
      + intros x rs'. cbn [recursive]. destruct (cid_eqb x c); [discriminate|]. apply Hdag.
    - pose proof (by_empty past g c Hr Hc) as Hbe.
      destruct (pget c g) as [d|] eqn:Ep.
      + assert (El : look g c = d) by (unfold look; rewrite Ep; reflexivity). rewrite El in *.
        unfold doc_mode. rewrite Hrec. cbn [rec_set].
        destruct (d_by d) as [|t l] eqn:Eb.
        * rewrite (proj1 Hbe eq_refl). cbn [negb]. rewrite andb_true_r. rewrite Hd. destruct (direct past c) eqn:Ed; [|eauto].
          assert (Eu : update (look g c) false KDirect = Ok (mk_doc false (d_rec (look g c)) (d_by (look g c)), true)).
          { rewrite El. unfold update. rewrite Hd. rewrite !andb_false_r. cbn. reflexivity. }
          destruct (remove_ok g c KDirect _ _ Hg Hc Eu) as (g' & b & E1 & Hg' & L); [congruence|cbn; apply look_sorted, Hg|].
          rewrite E1. cbn [done]. exists g'. split; [reflexivity|].
          assert (R : rep (UnpinDirect c :: past) g').
          { eapply rep_direct with (g := g) (b := false); eauto. }
          destruct R as ((R1 & R2 & R3 & R4) & R5 & R6).
          assert (Ex : forall x, recursive (UnpinRec c r :: past) x = recursive (UnpinDirect c :: past) x).
          { intros x. cbn [recursive]. destruct (cid_eqb_spec x c) as [->|]; congruence. }
          assert (Edx : forall x, direct (UnpinRec c r :: past) x = direct (UnpinDirect c :: past) x) by reflexivity.
          assert (Ef : forall a x, refers (UnpinRec c r :: past) a x = refers (UnpinDirect c :: past) a x)
            by (intros; unfold refers; rewrite Ex; reflexivity).
          split; [split; [exact R1|split; [|split]]|split].
          -- intros x Hx. destruct (R2 x Hx) as (A & B & C). unfold spec_doc. rewrite Ex, Edx.
             split; [exact A|]. split; [exact B|]. intros t. rewrite C. setoid_rewrite Ef. reflexivity.
          -- intros x. rewrite Ex, Edx. apply R3.
          -- exact R4.
          -- exact R5.
          -- intros x rs. rewrite Ex. apply R6.
        * destruct (indirect past c); [|discriminate (proj2 Hbe eq_refl)]. cbn [negb]. rewrite andb_false_r. eauto.
      + assert (El : look g c = new_doc) by (unfold look; rewrite Ep; reflexivity). rewrite El in *.
        rewrite <- Hd. cbn. eauto.
  Qed.

  Theorem call_ok_result past g o : rep past g -> call_ok o -> result past g o.
  Proof.
    intros Hr ([Hw Hwr] & Hf & Hk). destruct o as [c|c r|c|c r]; cbn [op_cid op_refs PinSpec.from_dag] in *.
    - apply pin_direct_ok; assumption.
    - destruct Hf. apply pin_rec_ok; assumption.
    - apply unpin_direct_ok; assumption.
    - destruct Hf. apply unpin_rec_ok; assumption.
  Qed.

  Lemma rep_nil : rep [] [].
  Proof.
    split; [split; [split; [constructor|intros k d []]|split; [|split]]|split].
    - intros c Hc. cbn. split; [reflexivity|]. split; [reflexivity|]. intros t. split; [contradiction|].
      intros (root & Hf & _). discriminate.
    - intros c H. contradiction.
    - intros c [].
    - intros c [].
    - intros c rs [=].
  Qed.

  Theorem history_rep h : Forall call_ok h -> let r := prun mem_pin_call [] [] h in rep (snd r) (fst r).
  Proof.
    intros HF r. apply (prun_ind mem_pin_call rep call_ok); [|exact HF|exact rep_nil].
    intros past s o Hr Ho. pose proof (call_ok_result past s o Hr Ho) as H. unfold result in H.
    destruct (mem_accepts past o).
    - destruct H as (g' & -> & H). exact H.
    - destruct H as (e & ->). exact Hr.
  Qed.
End Refine.
