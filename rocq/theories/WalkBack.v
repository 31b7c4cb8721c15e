From Verif Require Import Base Wire Cid Pb FileVisit DirLookup IpfsPath PathSpec IpfsPathProofs StdPath Walk WalkSpec WalkBackSpec WalkProofs.
Local Open Scope N_scope.

Section Back.
Variable dbg : bool.
Variable get : cid -> option bytes.
Variable R : list bytes.
Hypothesis HN : no_dot_names get.

(** The items that wait, each with the path of its directory, and what is shown for them. *)
Inductive pends : list (list bytes * item) -> list walked -> Prop :=
| pends_nil : pends [] []
| pends_entry : forall T c name r o o', step_name name -> entry_at get false (T ++ [name]) c o -> pends r o' ->
    pends ((T, (c, name, S (S (length T)))) :: r) (o ++ o')
| pends_bucket : forall T c r blk f o o',
    get c = Some blk -> flat_parse blk = inl f -> u_type (f_data f) = THAMTShard ->
    check_supported (f_data f) = true -> shard_at get T (f_links f) o -> pends r o' ->
    pends ((T, (c, [], S (length T))) :: r) ((OBucket c (join T) :: o) ++ o').

Definition fits (T : list bytes) (i : item) : Prop :=
  let '(c, name, d) := i in
  match name with
  | [] => d = S (length T) /\ forall b f, get c = Some b -> flat_parse b = inl f -> u_type (f_data f) = THAMTShard
  | _ => d = S (S (length T)) /\ step_name name
  end.
Fixpoint chain (ns : list bytes) (todo : list (list bytes * item)) : Prop :=
  match todo with
  | [] => True
  | (T, i) :: r => (exists extra, ns = T ++ extra) /\ below R T /\ fits T i /\ chain T r
  end.

Lemma chain_more T x r : chain T r -> chain (T ++ x) r.
Proof.
  destruct r as [|[T' i] r]; [trivial|]. cbn [chain]. intros ((e & ->) & H). split; [|exact H].
  exists (e ++ x). rewrite app_assoc. reflexivity.
Qed.
Lemma chain_items P items rest : below R P -> Forall (fits P) items -> chain P rest -> chain P (map (pair P) items ++ rest).
Proof.
  intros HB. induction 1 as [|i l Hi _ IH]; intros H; [exact H|]. cbn [map app chain].
  split; [exists []; rewrite app_nil_r; reflexivity|]. split; [exact HB|]. split; [exact Hi|]. apply IH, H.
Qed.

Lemma no_slash_plain n : has_slash n = false -> plain n.
Proof.
  unfold has_slash, plain. intros H HI. assert (E : existsb (fun c => c =? 47) n = true).
  { apply existsb_exists. exists 47. split; [exact HI|reflexivity]. } congruence.
Qed.

Lemma links_back P : forall ls i items, Forall (fun l => link_name l <> [46]) ls ->
  convert_all (convert_link (S (S (length P)))) i ls = Ok items ->
  Forall (fits P) items /\
  forall rest os, pends (map (pair P) items ++ rest) os ->
    exists o1 o2, os = o1 ++ o2 /\ links_at get P ls o1 /\ pends rest o2.
Proof.
  induction ls as [|l ls IH]; intros i items HF H.
  - injection H as <-. split; [constructor|]. intros rest os Hp. exists [], os. split; [reflexivity|]. split; [constructor|exact Hp].
  - inversion HF as [|? ? Hl HF']; subst. cbn [convert_all] in H.
    destruct (convert_all (convert_link (S (S (length P)))) (S i) ls) as [its|e|] eqn:E; try discriminate.
    destruct (IH (S i) its HF' E) as (HA & HB).
    unfold convert_link in H. destruct (link_cid l) as [c|] eqn:Ec; [|discriminate].
    destruct (link_name l) as [|x n] eqn:En; [discriminate|]. destruct (has_slash (x :: n)) eqn:Es; [discriminate|].
    injection H as <-.
    assert (HS : step_name (x :: n)) by (split; [discriminate|split; [apply no_slash_plain, Es|exact Hl]]).
    split; [constructor; [split; [reflexivity|exact HS]|exact HA]|].
    intros rest os Hp. cbn [map app] in Hp. inversion Hp; subst.
    match goal with H : pends (map _ its ++ rest) _ |- _ => destruct (HB _ _ H) as (o1 & o2 & -> & HL & HR) end.
    exists (o ++ o1), o2. split; [apply app_assoc|]. split; [|exact HR].
    eapply link_entry; [exact Ec| | |exact HL]; rewrite En; [exact HS|eassumption].
Qed.

Lemma shards_back P : forall ls i items, Forall (dotless_shard get) ls ->
  convert_all (convert_sharded_link (S (S (length P))) (S (length P))) i ls = Ok items ->
  Forall (fits P) items /\
  forall rest os, pends (map (pair P) items ++ rest) os ->
    exists o1 o2, os = o1 ++ o2 /\ shard_at get P ls o1 /\ pends rest o2.
Proof.
  induction ls as [|l ls IH]; intros i items HF H.
  - injection H as <-. split; [constructor|]. intros rest os Hp. exists [], os. split; [reflexivity|]. split; [constructor|exact Hp].
  - inversion HF as [|? ? Hl HF']; subst. cbn [convert_all] in H.
    destruct (convert_all (convert_sharded_link (S (S (length P))) (S (length P))) (S i) ls) as [its|e|] eqn:E; try discriminate.
    destruct (IH (S i) its HF' E) as (HA & HB). destruct Hl as (Hd & Hb).
    unfold convert_sharded_link in H. destruct (link_cid l) as [c|] eqn:Ec; [|discriminate].
    destruct (link_name l) as [|x [|y [|z n]]] eqn:En; try discriminate.
    + injection H as <-. split.
      { constructor; [|exact HA]. split; [reflexivity|]. intros b f Hg Hf. exact (Hb x y c b f eq_refl eq_refl Hg Hf). }
      intros rest os Hp. cbn [map app] in Hp. inversion Hp; subst.
      { match goal with H : step_name [] |- _ => destruct H; congruence end. }
      match goal with H : pends (map _ its ++ rest) _ |- _ => destruct (HB _ _ H) as (o1 & o2 & -> & HL & HR) end.
      exists ((OBucket c (join P) :: o) ++ o1), o2. split; [cbn [app]; rewrite <- app_assoc; reflexivity|]. split; [|exact HR].
      eapply shard_bucket; eassumption.
    + destruct (cont z) eqn:Ez; [discriminate|]. destruct (has_slash (z :: n)) eqn:Es; [discriminate|].
      injection H as <-.
      assert (HS : step_name (z :: n)).
      { split; [discriminate|split; [apply no_slash_plain, Es|]]. intros E0. rewrite E0 in Hd. apply (Hd x y). reflexivity. }
      split; [constructor; [split; [reflexivity|exact HS]|exact HA]|].
      intros rest os Hp. cbn [map app] in Hp. inversion Hp; subst.
      match goal with H : pends (map _ its ++ rest) _ |- _ => destruct (HB _ _ H) as (o1 & o2 & -> & HL & HR) end.
      exists (o ++ o1), o2. split; [apply app_assoc|]. split; [|exact HR].
      eapply shard_entry; [exact Ec|exact En|exact HS| |eassumption|exact HL]. intros ? ? [= <- <-]. exact Ez.
Qed.

Lemma later_back k : forall v c p m sz d rest os,
  walk dbg k get (mk_walker (Some (mk_inner c (KFile (Some v) sz) p m d)) (hd_error rest) (tl rest) true) = (os, Done) ->
  exists k' segs os2, (k' < k)%nat /\ segments get v segs /\ os = later_segments c p m sz segs ++ os2
    /\ walk dbg k' get (st (mk_inner c (KFile None sz) p m d) rest) = (os2, Done).
Proof.
  induction k as [|k IH]; intros v c p m sz d rest os H; [discriminate|].
  cbn [walk w_continue first_pending w_current] in H.
  destruct (next_link v) as [c'|] eqn:En; [|discriminate]. destruct (get c') as [b|] eqn:Eg; [|discriminate].
  unfold walk_next in H. cbn [w_current] in H. destruct (visit_continue v b) as [[bs step]|e|] eqn:Ev.
  2:{ destruct e; cbn in H; discriminate. }
  2:{ discriminate. }
  cbn [w_next w_pending negb orb] in H. destruct step as [v'|].
  - cbn [orb negb] in H.
    destruct (walk dbg k get _) as [o e] eqn:Ew in H. injection H as <- ->.
    destruct (IH _ _ _ _ _ _ _ _ Ew) as (k' & segs & os2 & Hk & Hs & -> & Hw).
    exists k', (bs :: segs), os2. split; [lia|]. split; [eapply seg_more; eassumption|]. split; [|exact Hw].
    destruct segs; [inversion Hs|reflexivity].
  - cbn [orb negb] in H. destruct (walk dbg k get _) as [o e] eqn:Ew in H. injection H as <- ->.
    exists k, [bs], o. split; [lia|]. split; [eapply seg_last; eassumption|]. split; [reflexivity|].
    unfold st. destruct rest; exact Ew.
Qed.

Lemma walk_missing ie i todo k : (forall v sz, e_kind ie <> KFile (Some v) sz) -> get (fst (fst i)) = None ->
  snd (walk dbg (S k) get (st ie (i :: todo))) <> Done.
Proof.
  intros Hk Hg. cbn [walk]. change (w_continue (st ie (i :: todo))) with true. cbn [walk].
  replace (first_pending (st ie (i :: todo))) with (Some (fst (fst i))); [rewrite Hg; discriminate|].
  unfold first_pending, st; cbn [w_current w_next hd_error option_map].
  destruct ie as [ec ek ep em ed]. cbn [e_kind] in Hk. destruct ek as [| | | | |[v|] sz|]; try reflexivity. exfalso. eapply Hk; reflexivity.
Qed.

Lemma walk_back : forall k l ie ns todo os, inv R ie ns l -> chain ns todo ->
  walk dbg k get (st ie (map snd todo)) = (os, Done) ->
  exists os', pends todo os' /\ reported l os' = (os, false).
Proof.
  induction k as [k IH] using lt_wf_ind. intros l ie ns todo os Hi Hc H.
  destruct todo as [|[T [[c name] d]] rest].
  { exists []. split; [constructor|]. destruct k; cbn in H; injection H as <-; reflexivity. }
  destruct k as [|k]; [discriminate|].
  assert (Hv := kind_no_visit R _ _ _ (proj2 (proj2 (proj2 Hi)))).
  cbn [map snd] in H. cbn [chain] in Hc. destruct Hc as ((extra & ->) & HB & Hfit & Hrest).
  destruct (get c) as [b|] eqn:Eg.
  2:{ exfalso. apply (walk_missing ie (c, name, d) (map snd rest) k Hv Eg). exact (f_equal snd H). }
  assert (H0 := eq_trans (eq_sym (walk_st dbg get ie (c, name, d) (map snd rest) k b Hv Eg)) H). clear H; rename H0 into H.
  destruct (flat_parse b) as [f|e] eqn:Ef.
  2:{ exfalso. revert H. unfold walk_next, st. cbn [w_current].
      destruct ie as [ec ek ep em ed]. cbn [e_kind] in Hv.
      destruct ek as [| | | | |[v|] sz|]; try (exfalso; eapply Hv; reflexivity); rewrite Ef; discriminate. }
  rewrite (next_other dbg ie c name d (map snd rest) b f Hv Ef) in H.
  assert (HBn : forall n, below R (T ++ [n])).
  { intros n. destruct HB as [q ->]. exists (q ++ [n]). rewrite app_assoc. reflexivity. }
  assert (Hmap : forall P its, its ++ map snd rest = map snd (map (pair P) its ++ rest)).
  { intros P its. rewrite map_app, map_map. cbn. rewrite map_id. reflexivity. }
  destruct name as [|x n].
  - (* a bucket *)
    destruct Hfit as (-> & Hsh). specialize (Hsh b f Eg Ef). rewrite Hsh in H.
    destruct (check_supported (f_data f)) eqn:Ek; [|discriminate].
    destruct (convert_all _ 0 (f_links f)) as [items|e|] eqn:Ec; try discriminate.
    destruct (shards_back T _ _ _ (proj2 HN c b f Eg Ef Hsh) Ec) as (HA & HP).
    destruct (as_bucket ie c [] (S (length T))) as [ie'|] eqn:Eb; [|discriminate].
    destruct (walk dbg k get (st ie' (items ++ map snd rest))) as [o e] eqn:Ew. injection H as <- ->.
    rewrite (Hmap T) in Ew.
    assert (HC := chain_items T items rest HB HA Hrest).
    pose proof Hi as (Hp & Hd & Hs & Hk). destruct l as [rc| |]; cbn [kind_ok] in Hk.
    + destruct Hk as (Ek' & Erc & ER).
      assert (extra = []).
      { destruct HB as [q ->]. rewrite <- app_assoc in ER. rewrite <- (app_nil_r R) in ER at 2.
        apply app_inv_head in ER. apply app_eq_nil in ER as [_ ER]. exact ER. }
      subst extra. rewrite app_nil_r in *.
      assert (ie' = ie).
      { unfold as_bucket in Eb. rewrite Ek', Hd, Nat.eqb_refl in Eb. congruence. }
      subst ie'. destruct (IH k (Nat.lt_succ_diag_r k) _ _ _ _ _ Hi HC Ew) as (os' & Hpe & Hrep).
      destruct (HP _ _ Hpe) as (o1 & o2 & -> & HL & HR).
      exists ((OBucket c (join T) :: o1) ++ o2). split; [eapply pends_bucket; eassumption|].
      cbn [app reported]. rewrite Hrep, Erc, Hp. reflexivity.
    + exfalso. unfold as_bucket in Eb. destruct Hk as [Hk|Hk]; rewrite Hk in Eb; discriminate.
    + assert (EB : ie' = mk_inner c KBucket (join T) (e_meta ie) (S (length T))).
      { unfold as_bucket in Eb. rewrite Hp, Hd, (pop_above_join T extra Hs), Nat.eqb_refl in Eb.
        destruct Hk as [Hk|[Hk|[Hk|[sz Hk]]]]; rewrite Hk in Eb; congruence. }
      subst ie'. assert (Hi' : inv R (mk_inner c KBucket (join T) (e_meta ie) (S (length T))) T Elsewhere).
      { split; [reflexivity|]. split; [reflexivity|]. split; [apply Forall_app in Hs as [Hs _]; exact Hs|right; left; reflexivity]. }
      destruct (IH k (Nat.lt_succ_diag_r k) _ _ _ _ _ Hi' HC Ew) as (os' & Hpe & Hrep).
      destruct (HP _ _ Hpe) as (o1 & o2 & -> & HL & HR).
      exists ((OBucket c (join T) :: o1) ++ o2). split; [eapply pends_bucket; eassumption|].
      cbn [app reported]. rewrite Hrep. reflexivity.
  - (* an entry *)
    destruct Hfit as (-> & Hn). set (name := x :: n) in *. set (P := T ++ [name]).
    assert (EL : S (S (length T)) = S (length P)) by (unfold P; rewrite app_length, Nat.add_1_r; reflexivity).
    assert (HBe : forall k m, become dbg k ie c name (S (S (length T))) m = Some (mk_inner c k (join P) m (S (length P)))).
    { intros k0 m. rewrite EL. unfold P. exact (become_ok dbg R k0 l ie T extra c name m Hi Hn). }
    assert (Hin : forall k0 m l', kind_ok R l' (mk_inner c k0 (join P) m (S (length P))) P ->
                    inv R (mk_inner c k0 (join P) m (S (length P))) P l').
    { intros k0 m l' Hk0. rewrite <- (app_nil_r P) at 3. eapply inv_new; [exact Hi|exact Hn|reflexivity|exact Hk0]. }
    assert (Hcr : chain P rest) by (apply chain_more, Hrest).
    assert (Hfile : u_type (f_data f) = TFile \/ u_type (f_data f) = TRaw ->
      match (match visit_start None b with
             | Ok (bs, size, fm, step) =>
                 match become dbg (KFile step size) ie c name (S (S (length T))) fm with
                 | None => Panic
                 | Some ie =>
                     let continues := match step with Some _ => true | None => false end in
                     Ok (mk_walker (Some ie) (hd_error (map snd rest)) (tl (map snd rest))
                           (continues || match map snd rest with [] => false | _ => true end),
                         OFile bs true (negb continues) (e_cid ie) (e_path ie) (e_meta ie) size)
                 end
             | Err e => file_err e
             | Panic => Panic
             end) with
      | Err e => ([], Failed e)
      | Panic => ([], Panicked)
      | Ok (w', o) => let (os, e) := walk dbg k get w' in (o :: os, e)
      end = (os, Done) ->
      exists os', pends ((T, (c, name, S (S (length T)))) :: rest) os' /\ reported l os' = (os, false)).
    { intros Ht H'. destruct (visit_start None b) as [[[[bs size] fm] step]|e|] eqn:Ev.
      2:{ destruct e; cbn in H'; discriminate. }
      2:{ discriminate. }
      rewrite HBe in H'. cbn [e_cid e_path e_meta] in H'. destruct step as [v|].
      - cbn [orb negb] in H'. destruct (walk dbg k get _) as [o e] eqn:Ew in H'. injection H' as <- ->.
        destruct (later_back _ _ _ _ _ _ _ _ _ Ew) as (k' & segs & os2 & Hk' & Hs & -> & Hw).
        destruct (IH k' ltac:(lia) Elsewhere (mk_inner c (KFile None size) (join P) fm (S (length P))) P rest os2) as (os' & Hpe & Hrep).
        { apply Hin. right; right; right. exists size. reflexivity. }
        { exact Hcr. }
        { exact Hw. }
        exists ((OFile bs true false c (join P) fm size :: later_segments c (join P) fm size segs) ++ os').
        split; [eapply pends_entry; [exact Hn| |exact Hpe]; eapply at_file; eassumption|].
        cbn [app reported]. destruct (later_reported c (join P) fm size segs Elsewhere (or_introl eq_refl)) as [E1 E2].
        rewrite reported_app, E1, E2, Hrep. reflexivity.
      - cbn [orb negb] in H'. destruct (walk dbg k get _) as [o e] eqn:Ew in H'. injection H' as <- ->.
        destruct (IH k (Nat.lt_succ_diag_r k) Elsewhere (mk_inner c (KFile None size) (join P) fm (S (length P))) P rest o) as (os' & Hpe & Hrep).
        { apply Hin. right; right; right. exists size. reflexivity. }
        { exact Hcr. }
        { exact Ew. }
        exists ([OFile bs true true c (join P) fm size] ++ os').
        split; [eapply pends_entry; [exact Hn| |exact Hpe]; eapply at_small_file; eassumption|].
        cbn [app reported]. rewrite Hrep. reflexivity. }
    destruct (u_type (f_data f)) eqn:Et.
    + apply Hfile; [right; reflexivity|exact H].
    + destruct (check_directory_supported (f_data f)) eqn:Ek; [|discriminate].
      rewrite EL in H at 1. destruct (convert_all _ 0 (f_links f)) as [items|e|] eqn:Ec; try discriminate.
      rewrite HBe in H. cbn [e_cid e_path e_meta] in H.
      destruct (links_back P _ _ _ (proj1 HN c b f Eg Ef Et) Ec) as (HA & HP).
      destruct (walk dbg k get _) as [o e] eqn:Ew in H. injection H as <- ->.
      rewrite (Hmap P) in Ew.
      destruct (IH k (Nat.lt_succ_diag_r k) AfterDirectory _ P _ o (Hin _ _ AfterDirectory (or_intror eq_refl)) (chain_items P items rest (HBn _) HA Hcr) Ew) as (os' & Hpe & Hrep).
      destruct (HP _ _ Hpe) as (o1 & o2 & -> & HL & HR).
      exists ((ODirectory c (join P) (meta_of (f_data f)) :: o1) ++ o2).
      split; [eapply pends_entry; [exact Hn| |exact HR]; exact (at_directory get false P c b f o1 Eg Ef Et Ek HL)|].
      cbn [app reported]. rewrite Hrep. reflexivity.
    + apply Hfile; [left; reflexivity|exact H].
    + discriminate.
    + rewrite HBe in H. cbn [e_cid e_path e_meta] in H. destruct (walk dbg k get _) as [o e] eqn:Ew in H. injection H as <- ->.
      destruct (IH k (Nat.lt_succ_diag_r k) Elsewhere _ P rest o (Hin _ _ Elsewhere (or_intror (or_intror (or_introl eq_refl)))) Hcr Ew) as (os' & Hpe & Hrep).
      exists ([OSymlink match u_data (f_data f) with Some d => d | None => [] end c (join P) (meta_of (f_data f))] ++ os').
      split; [eapply pends_entry; [exact Hn| |exact Hpe]; eapply at_symlink; eassumption|].
      cbn [app reported]. rewrite Hrep. reflexivity.
    + destruct (check_supported (f_data f)) eqn:Ek; [|discriminate].
      rewrite EL in H at 1 2. destruct (convert_all _ 0 (f_links f)) as [items|e|] eqn:Ec; try discriminate.
      unfold name in H at 1. rewrite HBe in H. cbn [e_cid e_path e_meta] in H.
      destruct (shards_back P _ _ _ (proj2 HN c b f Eg Ef Et) Ec) as (HA & HP).
      destruct (walk dbg k get _) as [o e] eqn:Ew in H. injection H as <- ->.
      rewrite (Hmap P) in Ew.
      destruct (IH k (Nat.lt_succ_diag_r k) Elsewhere _ P _ o (Hin _ _ Elsewhere (or_introl eq_refl)) (chain_items P items rest (HBn _) HA Hcr) Ew) as (os' & Hpe & Hrep).
      destruct (HP _ _ Hpe) as (o1 & o2 & -> & HL & HR).
      exists ((ORootDirectory c (join P) (meta_of (f_data f)) :: o1) ++ o2).
      split; [eapply pends_entry; [exact Hn| |exact HR]; exact (at_shard get false P c b f o1 Eg Ef Et Ek HL)|].
      cbn [app reported]. rewrite Hrep. reflexivity.
Qed.
End Back.

Lemma walk_top_back dbg get c name k os : no_dot_names get -> name = [] \/ step_name name ->
  walk dbg k get (walker_new c name) = (os, Done) ->
  exists os', entry_at get true (root_path name) c os' /\ walk_report os' = (os, false).
Proof.
  intros HN Hn H. set (R := root_path name) in *.
  assert (HR : below R R) by (exists []; rewrite app_nil_r; reflexivity).
  assert (HS := root_steps name Hn). fold R in HS.
  assert (HP := push_root name Hn). fold R in HP.
  assert (HD : (match name with [] => 1 | _ => 2 end)%nat = S (length R)) by (destruct name; reflexivity).
  destruct k as [|k]; [discriminate|].
  cbn [walk walker_new w_continue first_pending w_current w_next option_map fst] in H.
  destruct (get c) as [b|] eqn:Eg; [|discriminate].
  unfold walk_next in H. cbn [w_current w_next w_pending walker_new] in H.
  destruct (flat_parse b) as [f|e] eqn:Ef; [|discriminate]. rewrite HD in H.
  unfold enter, new_root in H. cbn [e_cid e_path e_meta hd_error tl] in H. rewrite HP in H.
  assert (Hfile : u_type (f_data f) = TFile \/ u_type (f_data f) = TRaw ->
    match
      match visit_start None b with
      | Ok (bs, size, fm, step) =>
          Ok (mk_walker (Some (mk_inner c (KFile step size) (join R) fm (S (length R)))) None []
                (match step with Some _ => true | None => false end || false),
              OFile bs true (negb (match step with Some _ => true | None => false end)) c (join R) fm size)
      | Err e => file_err e
      | Panic => Panic
      end with
    | Err e => ([], Failed e)
    | Panic => ([], Panicked)
    | Ok (w', o) => let (os, e) := walk dbg k get w' in (o :: os, e)
    end = (os, Done) ->
    exists os', entry_at get true R c os' /\ walk_report os' = (os, false)).
  { intros Ht H'. destruct (visit_start None b) as [[[[bs size] fm] step]|e|] eqn:Ev.
    2:{ destruct e; cbn in H'; discriminate. }
    2:{ discriminate. }
    destruct step as [v|]; cbn [orb negb] in H'.
    - destruct (walk dbg k get _) as [o e] eqn:Ew in H'. injection H' as <- ->.
      destruct (later_back dbg get _ _ _ _ _ _ _ [] _ Ew) as (k' & segs & os2 & Hk' & Hs & -> & Hw).
      assert (os2 = []) by (destruct k'; cbn in Hw; congruence). subst os2. rewrite app_nil_r.
      eexists. split; [eapply at_file; eassumption|].
      cbn [walk_report reported]. destruct (later_reported c (join R) fm size segs Elsewhere (or_introl eq_refl)) as [E1 _].
      rewrite E1. reflexivity.
    - assert (E : walk dbg k get (mk_walker (Some (mk_inner c (KFile None size) (join R) fm (S (length R)))) None [] false) = ([], Done))
        by (destruct k; reflexivity).
      rewrite E in H'. injection H' as <-. eexists. split; [eapply at_small_file; eassumption|]. reflexivity. }
  destruct (u_type (f_data f)) eqn:Et.
  - apply Hfile; [right; reflexivity|exact H].
  - destruct (check_directory_supported (f_data f)) eqn:Ek; [|discriminate].
    destruct (convert_all _ 0 (f_links f)) as [items|e|] eqn:Ec; try discriminate.
    destruct (links_back get R _ _ _ (proj1 HN c b f Eg Ef Et) Ec) as (HA & HPe).
    set (ie := mk_inner c KRootDirectory (join R) (meta_of (f_data f)) (S (length R))) in *.
    assert (Hi : inv R ie R AfterDirectory).
    { split; [reflexivity|]. split; [reflexivity|]. split; [exact HS|]. left. reflexivity. }
    assert (Hch := chain_items get R R items [] HR HA Logic.I).
    rewrite app_nil_r in H.
    destruct (walk dbg k get _) as [o e] eqn:Ew in H. injection H as <- ->.
    destruct (walk_back dbg get R HN k AfterDirectory ie R (map (pair R) items ++ []) o Hi Hch) as (os' & Hpe & Hrep).
    { rewrite app_nil_r, map_map. cbn [snd]. rewrite map_id. exact Ew. }
    destruct (HPe _ _ Hpe) as (o1 & o2 & -> & HL & HE). inversion HE; subst. rewrite app_nil_r in Hrep.
    eexists. split; [eapply at_directory; eassumption|]. cbn [walk_report].
    rewrite (reported_no_bucket (AtRoot c) AfterDirectory o1) by (eapply links_head; exact HL). rewrite Hrep. reflexivity.
  - apply Hfile; [left; reflexivity|exact H].
  - discriminate.
  - cbn [e_cid e_path e_meta] in H.
    assert (E : walk dbg k get (mk_walker (Some (mk_inner c KSymlink (join R) (meta_of (f_data f)) (S (length R)))) None [] false) = ([], Done))
        by (destruct k; reflexivity).
    rewrite E in H. injection H as <-. eexists. split; [eapply at_symlink; eassumption|]. reflexivity.
  - destruct (check_supported (f_data f)) eqn:Ek; [|discriminate].
    destruct (convert_all _ 0 (f_links f)) as [items|e|] eqn:Ec; try discriminate.
    destruct (shards_back get R _ _ _ (proj2 HN c b f Eg Ef Et) Ec) as (HA & HPe).
    set (ie := mk_inner c KBucketAtRoot (join R) (meta_of (f_data f)) (S (length R))) in *.
    assert (Hi : inv R ie R (AtRoot c)).
    { split; [reflexivity|]. split; [reflexivity|]. split; [exact HS|]. repeat split. }
    assert (Hch := chain_items get R R items [] HR HA Logic.I).
    rewrite app_nil_r in H.
    destruct (walk dbg k get _) as [o e] eqn:Ew in H. injection H as <- ->.
    destruct (walk_back dbg get R HN k (AtRoot c) ie R (map (pair R) items ++ []) o Hi Hch) as (os' & Hpe & Hrep).
    { rewrite app_nil_r, map_map. cbn [snd]. rewrite map_id. exact Ew. }
    destruct (HPe _ _ Hpe) as (o1 & o2 & -> & HL & HE). inversion HE; subst. rewrite app_nil_r in Hrep.
    eexists. split; [eapply at_shard; eassumption|]. cbn [walk_report]. rewrite Hrep. reflexivity.
Qed.
