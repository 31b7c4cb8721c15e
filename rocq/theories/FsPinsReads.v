(** The filesystem pin store: what [is_pinned], [list] and [query] answer. *)
From Verif Require Import Base Wire Cid CidProofs FMap BlockSpec Text TextProofs FsPaths FsPathsProofs FsBlocks PinSpec PinSpecProofs FsPins FsPinsProofs.
Local Open Scope N_scope.

Lemma once_in c l : In c (once l) <-> In c l.
Proof.
  induction l as [|x l IH]; [reflexivity|]. cbn [once In]. destruct (existsb (cid_eqb x) l) eqn:E.
  - apply existsb_cid in E. rewrite IH. split; [auto|]. intros [->|H]; auto.
  - cbn [In]. rewrite IH. reflexivity.
Qed.
Lemma once_nodup l : NoDup (once l).
Proof.
  induction l as [|x l IH]; [constructor|]. cbn [once]. destruct (existsb (cid_eqb x) l) eqn:E; [exact IH|].
  constructor; [|exact IH]. rewrite once_in, <- existsb_cid. congruence.
Qed.

Lemma fresh_in l : forall ret c, In c (fresh_ones l ret) <-> In c l /\ ~ In c ret.
Proof.
  induction l as [|x l IH]; intros ret c; cbn [fresh_ones In]; [tauto|].
  destruct (existsb (cid_eqb x) ret) eqn:E.
  - apply existsb_cid in E. rewrite IH. split; [tauto|]. intros [[->|H] Hn]; [contradiction|auto].
  - assert (Hx : ~ In x ret) by (rewrite <- existsb_cid; congruence). cbn [In]. rewrite IH. cbn [In].
    destruct (cid_eqb_spec x c) as [->|Hne]; [tauto|]. tauto.
Qed.
Lemma fresh_nodup l : forall ret, NoDup (fresh_ones l ret).
Proof.
  induction l as [|x l IH]; intros ret; cbn [fresh_ones]; [constructor|].
  destruct (existsb (cid_eqb x) ret); [apply IH|]. constructor; [|apply IH].
  rewrite fresh_in. cbn [In]. tauto.
Qed.
Lemma nodup_app {A} (a b : list A) : NoDup a -> NoDup b -> (forall x, In x a -> In x b -> False) -> NoDup (a ++ b).
Proof.
  intros Ha Hb H. induction Ha as [|x a Hx Ha IH]; [exact Hb|]. cbn. constructor.
  - rewrite in_app_iff. intros [Hi|Hi]; [contradiction|]. apply (H x); [left; reflexivity|exact Hi].
  - apply IH. intros y H1 H2. apply (H y); [right; exact H1|exact H2].
Qed.

Section Reads.
  Variable other_base : N -> bytes -> option bytes.
  Variables (past : list pop) (f : fs).
  Hypothesis Hrep : frep past f.

  Lemma all_cids_ok l : Forall wf_cid l -> all_cids other_base (map cid_to_text l) = Some l.
  Proof.
    induction 1 as [|c l Hc HF IH]; [reflexivity|]. cbn [map all_cids].
    rewrite cid_text_roundtrip by exact Hc. rewrite IH. reflexivity.
  Qed.
  Lemma read_refs_ok c : wf_cid c ->
    read_refs other_base f c = Some (match recursive past c with Some rs => once rs | None => [] end).
  Proof.
    intros Hc. destruct Hrep as (_ & Hr & _ & _ & Hw). unfold read_refs. rewrite pin_file_ok by exact Hc.
    fold rfile. rewrite Hr by exact Hc. destruct (recursive past c) as [rs|] eqn:E; [|reflexivity].
    cbn [option_map]. unfold recorded. destruct (Hw c rs E) as [_ HF].
    assert (HF' : Forall wf_cid (once rs)) by (rewrite Forall_forall in *; intros x Hx; apply HF, once_in, Hx).
    rewrite read_json_ok; [apply all_cids_ok; exact HF'|].
    apply Forall_map. rewrite Forall_forall in *. intros x Hx. apply cid_text_alnum.
  Qed.
  Lemma read_refs_refers c root : wf_cid root ->
    exists l, read_refs other_base f root = Some l /\ existsb (cid_eqb c) l = refers past root c /\
      (forall x, In x l <-> refers past root x = true).
  Proof.
    intros Hc. rewrite read_refs_ok by exact Hc. eexists. split; [reflexivity|].
    assert (H : forall x, In x (match recursive past root with Some rs => once rs | None => [] end) <-> refers past root x = true).
    { intros x. unfold refers. destruct (recursive past root) as [rs|]; [rewrite once_in, existsb_cid; reflexivity|].
      split; [contradiction|discriminate]. }
    split; [|exact H]. apply eq_true_iff_eq. rewrite existsb_cid. apply H.
  Qed.

  Lemma read_mode_ok c : wf_cid c ->
    read_mode f c = if is_some (recursive past c) then Some Recursive else if direct past c then Some Direct else None.
  Proof.
    intros Hc. destruct Hrep as (_ & Hr & Hd & _). unfold read_mode. rewrite !pin_file_ok by exact Hc.
    cbn [file_exists]. fold rfile dfile. rewrite Hr by exact Hc.
    destruct (recursive past c) eqn:E; cbn [option_map is_some]; [reflexivity|].
    rewrite Hd by assumption. reflexivity.
  Qed.

  (** The files. *)
  Lemma pin_names_in l x : In x (pin_names l) <-> exists p, In p l /\ listed_pin (snd p) = Some x.
  Proof.
    induction l as [|p l IH]; cbn [pin_names In]; [split; [contradiction|intros (p & [] & _)]|].
    destruct (listed_pin (snd p)) as [y|] eqn:E; cbn [In]; rewrite IH; split.
    - intros [->|(q & Hq & Eq)]; eauto.
    - intros (q & [->|Hq] & Eq); [left; congruence|eauto].
    - intros (q & Hq & Eq); eauto.
    - intros (q & [->|Hq] & Eq); [congruence|eauto].
  Qed.
  Lemma pin_names_nodup l : NoDup l -> Forall good l -> NoDup (pin_names l).
  Proof.
    intros Hn HF. induction Hn as [|p l Hp Hn IH]; cbn [pin_names]; [constructor|].
    inversion HF as [|? ? Hg HF']; subst.
    destruct (listed_pin (snd p)) as [[c r]|] eqn:E; [|auto]. constructor; [|auto].
    rewrite pin_names_in. intros (q & Hq & Eq). rewrite Forall_forall in HF'.
    apply (HF' q Hq) in Eq as [_ Eq]. apply Hg in E as [_ E]. congruence.
  Qed.
  Lemma get_keys p : is_some (fs_get p f) = true <-> In p (mkeys f).
  Proof.
    unfold fs_get. rewrite (in_mkeys path_eqb path_eqb_spec). destruct (mget path_eqb p f) as [v|]; cbn.
    - split; eauto.
    - split; [discriminate|]. intros (v & [=]).
  Qed.
  Lemma pinfiles_in c r : In (c, r) (pinfiles f) <-> wf_cid c /\ is_some (fs_get (pin_at c r) f) = true.
  Proof.
    destruct Hrep as ([_ HF] & _). unfold pinfiles. rewrite pin_names_in, get_keys. rewrite Forall_forall in HF. split.
    - intros (p & Hp & E). apply (HF p Hp) in E as [Hc ->]. auto.
    - intros [Hc Hi]. exists (pin_at c r). split; [exact Hi|]. destruct r; [exact (listed_pin_file c true Hc)|exact (listed_pin_file c false Hc)].
  Qed.
  Lemma pinfiles_nodup : NoDup (pinfiles f).
  Proof. destruct Hrep as ([Hn HF] & _). apply pin_names_nodup; assumption. Qed.

  Lemma nodup_map_pair {A B} (l : list (A * B)) b : NoDup l -> Forall (fun x => snd x = b) l -> NoDup (map fst l).
  Proof.
    intros Hn HF. induction Hn as [|[a b'] l Hx Hn IH]; [constructor|]. inversion HF; subst. cbn [map fst snd] in *.
    constructor; [|auto]. intros Hi. apply in_map_iff in Hi as ([a' b''] & E & Hi). cbn in E. subst.
    rewrite Forall_forall in H2. specialize (H2 _ Hi). cbn in H2. subst. contradiction.
  Qed.
  Lemma recursive_pinfiles_in c : In c (recursive_pinfiles f) <-> recursive past c <> None.
  Proof.
    unfold recursive_pinfiles. rewrite in_map_iff. split.
    - intros ([c' r] & <- & Hi). apply filter_In in Hi as [Hi E]. cbn in E. subst r. apply pinfiles_in in Hi as [Hc Hi].
      cbn [pin_at] in Hi. destruct Hrep as (_ & Hr & _). rewrite Hr in Hi by exact Hc. cbn [fst].
      destruct (recursive past c'); [discriminate|discriminate].
    - intros H. destruct Hrep as (_ & Hr & _ & _ & Hw). destruct (recursive past c) as [rs|] eqn:E; [|contradiction].
      destruct (Hw c rs E) as [Hc _]. exists (c, true). split; [reflexivity|]. apply filter_In. split; [|reflexivity].
      apply pinfiles_in. split; [exact Hc|]. cbn [pin_at]. rewrite Hr, E by exact Hc. reflexivity.
  Qed.
  Lemma recursive_pinfiles_nodup : NoDup (recursive_pinfiles f).
  Proof.
    unfold recursive_pinfiles. apply nodup_map_pair with (b := true).
    - apply NoDup_filter, pinfiles_nodup.
    - rewrite Forall_forall. intros x Hx. apply filter_In in Hx. tauto.
  Qed.
  Lemma rec_wf c : recursive past c <> None -> wf_cid c.
  Proof. intros H. destruct Hrep as (_ & _ & _ & _ & Hw). destruct (recursive past c) eqn:E; [|contradiction]. apply (Hw c l E). Qed.
  Lemma recursive_pinfiles_wf : Forall wf_cid (recursive_pinfiles f).
  Proof. rewrite Forall_forall. intros c H. apply rec_wf. apply recursive_pinfiles_in. exact H. Qed.

  (** * [is_pinned] *)
  Lemma any_refers_ok c rs : Forall wf_cid rs -> any_refers other_base f c rs = Some (existsb (fun r => refers past r c) rs).
  Proof.
    induction 1 as [|r rs Hr HF IH]; [reflexivity|]. cbn [any_refers existsb].
    destruct (read_refs_refers c r Hr) as (l & -> & -> & _). destruct (refers past r c); [reflexivity|exact IH].
  Qed.
  Lemma refers_rec root c : refers past root c = true -> recursive past root <> None.
  Proof. unfold refers. destruct (recursive past root); [discriminate|discriminate]. Qed.
  Lemma indirect_files c : existsb (fun r => refers past r c) (recursive_pinfiles f) = indirect past c.
  Proof.
    apply eq_true_iff_eq. rewrite indirect_spec, existsb_exists. split.
    - intros (x & _ & H). eauto.
    - intros (x & H). exists x. split; [|exact H]. apply recursive_pinfiles_in. eapply refers_rec; eauto.
  Qed.
  Lemma is_pinned_ok c : wf_cid c -> fs_is_pinned other_base f c = Some (pinned past c).
  Proof.
    intros Hc. unfold fs_is_pinned. rewrite read_mode_ok by exact Hc. unfold pinned.
    destruct (is_some (recursive past c)); [reflexivity|]. destruct (direct past c); [reflexivity|].
    rewrite any_refers_ok by apply recursive_pinfiles_wf. rewrite indirect_files. reflexivity.
  Qed.

  (** * [list] *)
  Lemma list_files_ok req fl : forall ret, NoDup (filter snd fl) -> (forall c, In c ret -> ~ In (c, true) fl) ->
    list_files req fl ret =
      (if req_matches req Recursive then map fst (filter snd fl) else [],
       if req_matches req Direct then map fst (filter (fun x => negb (snd x)) fl) else [],
       map fst (filter snd fl)).
  Proof.
    induction fl as [|[c r] fl IH]; intros ret Hn Hret; cbn [list_files filter snd negb map].
    - destruct (req_matches req Recursive), (req_matches req Direct); reflexivity.
    - destruct r; cbn [map fst filter snd negb] in *.
      + inversion Hn as [|? ? Hni Hn']; subst.
        assert (Hc : existsb (cid_eqb c) ret = false).
        { apply not_true_iff_false. rewrite existsb_cid. intros Hi. apply (Hret c Hi). left. reflexivity. }
        rewrite Hc, andb_true_r. rewrite IH; [|exact Hn'|].
        * destruct (req_matches req Recursive); reflexivity.
        * intros x Hx Hi. destruct (req_matches req Recursive).
          -- destruct Hx as [<-|Hx]; [|apply (Hret x Hx); right; exact Hi].
             apply Hni. apply filter_In. auto.
          -- apply (Hret x Hx). right. exact Hi.
      + rewrite IH; [|exact Hn|].
        * destruct (req_matches req Direct); reflexivity.
        * intros x Hx Hi. apply (Hret x Hx). right. exact Hi.
  Qed.

  Lemma list_indirect_ok rs : Forall wf_cid rs -> forall ret,
    exists l, list_indirect other_base f rs ret = (l, true) /\ NoDup l /\
      (forall c, In c l <-> existsb (fun r => refers past r c) rs = true /\ ~ In c ret).
  Proof.
    induction 1 as [|r rs Hr HF IH]; intros ret.
    - exists []. split; [reflexivity|]. split; [constructor|]. intros c. cbn. split; [contradiction|intros [[=] _]].
    - cbn [list_indirect]. destruct (read_refs_refers r r Hr) as (l & -> & _ & Hl).
      destruct (IH (fresh_ones l ret ++ ret)) as (l' & -> & Hn & Hin). eexists. split; [reflexivity|]. split.
      + apply nodup_app; [apply fresh_nodup|exact Hn|]. intros x H1 H2. apply Hin in H2 as [_ H2].
        apply H2, in_or_app. auto.
      + intros c. rewrite in_app_iff, Hin, in_app_iff, fresh_in, Hl. cbn [existsb].
        rewrite orb_true_iff. destruct (refers past r c) eqn:E; [|clear; intuition congruence].
        assert (Hdec : In c ret \/ ~ In c ret) by (rewrite <- existsb_cid; destruct (existsb (cid_eqb c) ret); auto).
        tauto.
  Qed.

  Definition direct_files : list cid := map fst (filter (fun x => negb (snd x)) (pinfiles f)).
  Lemma direct_files_in c : In c direct_files <-> wf_cid c /\ is_some (fs_get (dfile c) f) = true.
  Proof.
    unfold direct_files. rewrite in_map_iff. split.
    - intros ([c' r] & <- & Hi). apply filter_In in Hi as [Hi E]. destruct r; [discriminate|].
      apply pinfiles_in in Hi. exact Hi.
    - intros H. exists (c, false). split; [reflexivity|]. apply filter_In. split; [|reflexivity]. apply pinfiles_in. exact H.
  Qed.

  (** What a listing shows for a cid. *)
  Definition listed_as (req : option mode) (c : cid) (m : mode) : bool :=
    match req with
    | None => match shown [Recursive; Direct; Indirect] past c with Some m' => mode_eqb m m' | None => false end
    | Some one => mode_eqb m one && pinned_as past c one
    end.

  Lemma list_shape req : exists items, fs_pin_list other_base f req = (items, true) /\ NoDup (map fst items) /\
    (forall c m, wf_cid c -> (req = Some Direct -> recursive past c <> None -> fs_get (dfile c) f = None) ->
      (In (c, m) items <-> listed_as req c m = true)) /\
    (req = Some Direct -> forall c m, In (c, m) items -> m = Direct).
  Proof.
    unfold fs_pin_list. rewrite list_files_ok; [|apply NoDup_filter, pinfiles_nodup|intros c []].
    fold (recursive_pinfiles f) direct_files.
    set (ys := if req_matches req Recursive then recursive_pinfiles f else []).
    set (ds := fresh_ones (if req_matches req Direct then direct_files else []) ys).
    assert (Hy : NoDup ys) by (unfold ys; destruct (req_matches req Recursive); [apply recursive_pinfiles_nodup|constructor]).
    assert (Hyin : forall c, In c ys <-> req_matches req Recursive = true /\ recursive past c <> None).
    { intros c. unfold ys. destruct (req_matches req Recursive); [rewrite recursive_pinfiles_in; tauto|].
      cbn. split; [contradiction|intros [[=] _]]. }
    assert (Hdin : forall c, In c ds <-> (req_matches req Direct = true /\ wf_cid c /\ is_some (fs_get (dfile c) f) = true) /\ ~ In c ys).
    { intros c. unfold ds. rewrite fresh_in. destruct (req_matches req Direct); [rewrite direct_files_in; tauto|].
      cbn. split; [tauto|intros [[[=] _] _]]. }
    assert (Hds : NoDup ds) by apply fresh_nodup.
    set (front := map (fun c => (c, Recursive)) ys ++ map (fun c => (c, Direct)) ds).
    assert (Hfront : map fst front = ys ++ ds).
    { unfold front. rewrite map_app, !map_map. cbn [fst]. rewrite !map_id. reflexivity. }
    assert (Hfn : NoDup (ys ++ ds)).
    { apply nodup_app; [exact Hy|exact Hds|]. intros x H1 H2. apply Hdin in H2. tauto. }
    assert (Hfin : forall c m, In (c, m) front <-> (m = Recursive /\ In c ys) \/ (m = Direct /\ In c ds)).
    { intros c m. unfold front. rewrite in_app_iff, !in_map_iff. split.
      - intros [(x & [= <- <-] & H)|(x & [= <- <-] & H)]; auto.
      - intros [[-> H]|[-> H]]; [left|right]; exists c; auto. }
    assert (Hind : exists is, list_indirect other_base f (recursive_pinfiles f) (ds ++ ys) = (is, true) /\ NoDup is /\
              forall c, In c is <-> indirect past c = true /\ ~ In c (ds ++ ys)).
    { destruct (list_indirect_ok (recursive_pinfiles f) recursive_pinfiles_wf (ds ++ ys)) as (is & E & Hn & Hi).
      exists is. split; [exact E|]. split; [exact Hn|]. intros c. rewrite Hi, indirect_files. reflexivity. }
    destruct Hind as (is & -> & Hisn & Hisin).
    destruct Hrep as (_ & _ & Hd & Hx & _).
    destruct (req_matches req Indirect) eqn:Ei.
    - eexists. split; [reflexivity|]. split.
      { rewrite map_app, Hfront, map_map. cbn [fst]. rewrite map_id. apply nodup_app; [exact Hfn|exact Hisn|].
        intros x H1 H2. apply Hisin in H2 as [_ H2]. apply H2. rewrite in_app_iff in *. tauto. }
      split; [|intros ->; discriminate]. intros c m Hc Hu. rewrite in_app_iff, Hfin.
      assert (Hm : In (c, m) (map (fun c => (c, Indirect)) is) <-> m = Indirect /\ In c is).
      { rewrite in_map_iff. split; [intros (x & [= <- <-] & H); auto|]. intros [-> H]. exists c. auto. }
      rewrite Hm, Hisin, in_app_iff, !Hdin, !Hyin. clear Hm Hisin Hdin Hyin Hfin Hfront.
      destruct req as [[| |]|]; cbn [req_matches mode_eqb] in *; try discriminate.
      + cbn [listed_as pinned_as]. destruct m; cbn; intuition congruence.
      + cbn [listed_as]. unfold shown. cbn [find pinned_as].
        destruct (recursive past c) as [rs|] eqn:E; cbn [is_some].
        * destruct m; cbn; intuition congruence.
        * rewrite (Hd c Hc E). destruct (direct past c) eqn:Ed; [destruct m; cbn; intuition congruence|].
          destruct (indirect past c) eqn:Eii; destruct m; cbn; intuition congruence.
    - eexists. split; [reflexivity|]. split; [rewrite Hfront; exact Hfn|].
      split.
      2:{ intros -> c m Hi. apply Hfin in Hi as [[_ Hi]|[-> _]]; [|reflexivity]. apply Hyin in Hi as [[=] _]. }
      intros c m Hc Hu. rewrite Hfin, !Hdin, !Hyin. clear Hisin Hdin Hyin Hfin Hfront.
      destruct req as [[| |]|]; cbn [req_matches mode_eqb] in *; try discriminate.
      + cbn [listed_as pinned_as]. specialize (Hu eq_refl).
        destruct (recursive past c) as [rs|] eqn:E.
        * rewrite (Hx c) by congruence. rewrite Hu by congruence. destruct m; cbn; intuition congruence.
        * rewrite (Hd c Hc E). destruct m, (direct past c); cbn; intuition congruence.
      + cbn [listed_as pinned_as]. destruct (recursive past c) as [rs|] eqn:E; destruct m; cbn; intuition congruence.
  Qed.

  (** * [query] *)
  Definition slot_cid (s : slot) : cid := match s with Found c _ | Open c | Dup c => c end.
  (** The mode asked for is one the cid is pinned in. *)
  Definition asked (req : option mode) (c : cid) : bool :=
    match req with Some m => pinned_as past c m | None => pinned past c end.
  Definition slot_ok (req : option mode) (s : slot) : Prop :=
    match s with
    | Found c k => kind_true (fun r => r) past c k /\ req_matches req (kind_mode k) = true
    | Open c | Dup c => req_matches req Indirect = true /\ (req = None -> recursive past c = None /\ direct past c = false)
    end.

  Lemma query_files_ok req ids : Forall wf_cid ids -> forall seen,
    match query_files f req ids seen with
    | Some slots =>
        map slot_cid slots = ids /\ Forall (slot_ok req) slots /\
        (forall c, In (Dup c) slots -> In c seen \/ In (Open c) slots) /\
        (forall c, In (Dup c) slots -> NoDup ids -> In c seen)
    | None => exists c, In c ids /\ asked req c = false
    end.
  Proof.
    induction 1 as [|c ids Hc HF IH]; intros seen; cbn [query_files].
    { repeat split; [constructor|intros c []|intros c []]. }
    rewrite read_mode_ok by exact Hc.
    set (check := match req with Some Indirect => false | _ => true end).
    set (gather := match req with Some Indirect | None => true | _ => false end).
    set (hit := if check then _ else None).
    assert (Hgather : gather = req_matches req Indirect) by (destruct req as [[| |]|]; reflexivity).
    assert (Hmiss : hit = None -> (gather = false -> asked req c = false) /\
              (req = None -> recursive past c = None /\ direct past c = false)).
    { unfold hit, check, gather, asked. destruct req as [[| |]|]; cbn [req_matches mode_eqb pinned_as];
        destruct (recursive past c) as [rs|] eqn:E; cbn [is_some];
        try (rewrite (proj1 (proj2 (proj2 (proj2 Hrep))) c) by congruence);
        try destruct (direct past c); cbn; intros; split; intros; try discriminate; try reflexivity; auto. }
    assert (Hfound : forall m, hit = Some m ->
              slot_ok req (Found c (match m with Recursive => KRecursive 0 | _ => KDirect end))).
    { intros m. unfold hit, check. destruct req as [[| |]|]; cbn [req_matches mode_eqb]; try discriminate;
        destruct (recursive past c) as [rs|] eqn:E; cbn [is_some]; try discriminate;
        try destruct (direct past c) eqn:Ed; cbn; intros H; try discriminate; injection H as <-; cbn; split;
        try reflexivity; congruence. }
    destruct hit as [m|].
    - specialize (IH seen). destruct (query_files f req ids seen) as [slots|]; cbn [option_map].
      + destruct IH as (A & B & C & D). split; [cbn; rewrite A; reflexivity|]. split; [constructor; [apply Hfound; reflexivity|exact B]|].
        split.
        * intros x [[=]|Hx]. destruct (C x Hx); [left|right; right]; assumption.
        * intros x [[=]|Hx] Hn. inversion Hn; subst. apply D; auto.
      + destruct IH as (x & Hx & E). exists x. split; [right; exact Hx|exact E].
    - specialize (Hmiss eq_refl) as [M1 M2]. destruct gather eqn:Eg; cbn [negb].
      + destruct (existsb (cid_eqb c) seen) eqn:Es.
        * apply existsb_cid in Es. specialize (IH seen). destruct (query_files f req ids seen) as [slots|]; cbn [option_map].
          -- destruct IH as (A & B & C & D). split; [cbn; rewrite A; reflexivity|].
             split; [constructor; [cbn; auto|exact B]|]. split.
             ++ intros x [[= <-]|Hx]; [left; exact Es|]. destruct (C x Hx); [left|right; right]; assumption.
             ++ intros x [[= <-]|Hx] Hn; [exact Es|]. inversion Hn; subst. apply D; auto.
          -- destruct IH as (x & Hx & E). exists x. split; [right; exact Hx|exact E].
        * specialize (IH (c :: seen)). destruct (query_files f req ids (c :: seen)) as [slots|]; cbn [option_map].
          -- destruct IH as (A & B & C & D). split; [cbn; rewrite A; reflexivity|].
             split; [constructor; [cbn; auto|exact B]|]. split.
             ++ intros x [[=]|Hx]. destruct (C x Hx) as [[->|H]|H]; [right; left; reflexivity|left; exact H|right; right; exact H].
             ++ intros x [[=]|Hx] Hn. inversion Hn as [|? ? Hni Hn']; subst. destruct (D x Hx Hn') as [->|H]; [|exact H].
                exfalso. apply Hni. apply in_map_iff. exists (Dup x). auto.
          -- destruct IH as (x & Hx & E). exists x. split; [right; exact Hx|exact E].
      + exists c. split; [left; reflexivity|]. apply M1. reflexivity.
  Qed.

  Definition filled (rs : list cid) (s : slot) : slot :=
    match s with
    | Open c => match find (fun r => refers past r c) rs with Some r => Found c (KIndirect r) | None => Open c end
    | s => s
    end.
  Lemma query_roots_ok rs : Forall wf_cid rs -> forall slots,
    query_roots other_base f rs slots = Some (map (filled rs) slots).
  Proof.
    assert (Hno : forall slots rs, existsb is_open slots = false -> map (filled rs) slots = slots).
    { intros slots rs'. induction slots as [|s slots IH]; [reflexivity|]. cbn. destruct s; cbn; try discriminate; intros H; rewrite IH; auto. }
    induction 1 as [|r rs Hr HF IH]; intros slots.
    - cbn [query_roots]. replace (map (filled []) slots) with slots; [destruct (negb _); reflexivity|].
      rewrite <- (map_id slots) at 1. apply map_ext. intros []; reflexivity.
    - cbn [query_roots]. destruct (existsb is_open slots) eqn:E; cbn [negb].
      + destruct (read_refs_refers r r Hr) as (l & -> & _ & Hl). rewrite IH. f_equal. rewrite map_map. apply map_ext.
        intros [c k|c|c]; cbn [fill filled find]; [reflexivity| |reflexivity].
        assert (El : existsb (cid_eqb c) l = refers past r c) by (apply eq_true_iff_eq; rewrite existsb_cid; apply Hl).
        rewrite El. destruct (refers past r c); reflexivity.
      + rewrite Hno by exact E. reflexivity.
  Qed.

  Lemma answers_in slots c k : In (c, k) (answers slots) <-> In (Found c k) slots.
  Proof.
    induction slots as [|s slots IH]; [reflexivity|]. destruct s as [c' k'|c'|c']; cbn [answers In]; rewrite IH.
    - split; (intros [E|H]; [left; congruence|right; exact H]).
    - split; [auto|]. intros [[=]|H]; exact H.
    - split; [auto|]. intros [[=]|H]; exact H.
  Qed.

  Lemma query_ok req ids : Forall wf_cid ids ->
    match fs_query other_base f ids req with
    | Some ans =>
        (forall c k, In (c, k) ans -> kind_true (fun r => r) past c k /\ req_matches req (kind_mode k) = true) /\
        (forall c, In c ids <-> In c (map fst ans)) /\ (NoDup ids -> map fst ans = ids)
    | None => exists c, In c ids /\ asked req c = false
    end.
  Proof.
    intros HF. unfold fs_query. pose proof (query_files_ok req ids HF []) as Hq.
    destruct (query_files f req ids []) as [slots|]; [|exact Hq].
    destruct Hq as (A & B & C & D). rewrite query_roots_ok by apply recursive_pinfiles_wf.
    set (rs := recursive_pinfiles f).
    assert (Hrs : forall c, find (fun r => refers past r c) rs = None -> indirect past c = false).
    { intros c E. rewrite <- indirect_files. apply not_true_iff_false. rewrite existsb_exists. intros (x & Hx & Hr).
      apply (find_none _ _ E) in Hx. congruence. }
    assert (Hopen : forall c, In (Open c) (map (filled rs) slots) <-> In (Open c) slots /\ find (fun r => refers past r c) rs = None).
    { intros c. rewrite in_map_iff. split.
      - intros ([x k|x|x] & E & Hi); cbn in E; try discriminate.
        destruct (find (fun r => refers past r x) rs) eqn:Ef; [discriminate|]. injection E as ->. auto.
      - intros [Hi E]. exists (Open c). split; [|exact Hi]. cbn. rewrite E. reflexivity. }
    destruct (existsb is_open (map (filled rs) slots)) eqn:Eo.
    - apply existsb_exists in Eo as ([x k|x|x] & Hi & E); try discriminate. apply Hopen in Hi as [Hi Ef].
      exists x. split; [rewrite <- A; apply in_map_iff; exists (Open x); auto|].
      rewrite Forall_forall in B. specialize (B _ Hi) as [B1 B2]. apply Hrs in Ef.
      destruct req as [[| |]|]; try discriminate; [exact Ef|]. unfold asked, pinned.
      destruct (B2 eq_refl) as [-> ->]. rewrite Ef. reflexivity.
    - assert (Hclosed : forall c, In (Open c) slots -> exists r, find (fun r => refers past r c) rs = Some r).
      { intros c Hi. destruct (find (fun r => refers past r c) rs) eqn:E; [eauto|].
        assert (Hx : In (Open c) (map (filled rs) slots)) by (apply Hopen; auto).
        assert (existsb is_open (map (filled rs) slots) = true) by (apply existsb_exists; exists (Open c); auto). congruence. }
      split; [|split].
      + intros c k Hi. apply answers_in in Hi. apply in_map_iff in Hi as (s & E & Hi).
        rewrite Forall_forall in B. specialize (B _ Hi). destruct s as [x k'|x|x]; cbn in E; try discriminate.
        * injection E as -> ->. exact B.
        * destruct (find (fun r => refers past r x) rs) as [r|] eqn:Ef; [|discriminate]. injection E as -> <-.
          apply find_some in Ef as [_ Ef]. destruct B as [B1 _]. split; [cbn; eauto|exact B1].
      + intros c. rewrite <- A. rewrite !in_map_iff. split.
        * assert (Hf : forall x, In (Open x) slots -> exists ck, fst ck = x /\ In ck (answers (map (filled rs) slots))).
          { intros x Hi. destruct (Hclosed x Hi) as [r Er]. exists (x, KIndirect r). split; [reflexivity|].
            apply answers_in, in_map_iff. exists (Open x). split; [|exact Hi]. cbn. rewrite Er. reflexivity. }
          intros ([x k|x|x] & <- & Hi); cbn [slot_cid].
          -- exists (x, k). split; [reflexivity|]. apply answers_in, in_map_iff. exists (Found x k). auto.
          -- apply Hf. exact Hi.
          -- destruct (C x Hi) as [[]|Ho]. apply Hf. exact Ho.
        * intros ([x k] & <- & Hi). cbn [fst]. apply answers_in, in_map_iff in Hi as (s & E & Hi).
          exists s. split; [|exact Hi]. destruct s as [y k'|y|y]; cbn in E; try discriminate; cbn; [congruence|].
          destruct (find (fun r => refers past r y) rs); [congruence|discriminate].
      + intros Hn.
        assert (Hnd : forall x, ~ In (Dup x) slots) by (intros x Hx; apply (D x Hx Hn)).
        rewrite <- A. clear A B C D Eo Hopen. induction slots as [|s slots IH]; [reflexivity|].
        assert (IH' : map fst (answers (map (filled rs) slots)) = map slot_cid slots).
        { apply IH; intros x Hx.
          - apply Hclosed. right. exact Hx.
          - apply (Hnd x). right. exact Hx. }
        destruct s as [x k|x|x]; cbn [map filled answers slot_cid fst].
        * rewrite IH'. reflexivity.
        * destruct (Hclosed x (or_introl eq_refl)) as [r ->]. cbn. rewrite IH'. reflexivity.
        * exfalso. apply (Hnd x). left. reflexivity.
  Qed.

  (** Conversely, an answer means every cid is pinned as asked. *)
  Lemma kind_asked req c k : kind_true (fun r => r) past c k -> req_matches req (kind_mode k) = true -> asked req c = true.
  Proof.
    assert (Hp : forall c k, kind_true (fun r => r) past c k -> pinned_as past c (kind_mode k) = true).
    { intros c' k'. destruct k' as [r| |n|]; cbn.
      - intros (root & H & _). apply indirect_spec. eauto.
      - auto.
      - destruct (recursive past c'); [reflexivity|contradiction].
      - destruct (recursive past c'); [reflexivity|contradiction]. }
    intros H E. apply Hp in H. destruct req as [m|]; cbn in *.
    - destruct (kind_mode k), m; try discriminate; exact H.
    - unfold pinned. destruct (kind_mode k); cbn in H; rewrite H, ?orb_true_r; reflexivity.
  Qed.
End Reads.
