From Verif Require Import Base Wire Cid Pb FileVisit DirLookup IpfsPath PathSpec IpfsPathProofs StdPath Walk WalkSpec WalkProofs.
Local Open Scope N_scope.

Section Safe.
Variable dbg : bool.
Variable get : cid -> option bytes.
Variable R : list bytes.
Hypothesis HS : safe_store get.

Definition req (i : item) : nat := match i with (_, [], d) => d | (_, _, d) => pred d end.
Definition item_ok (i : item) : Prop :=
  let '(c, n, d) := i in
  match n with
  | [] => forall b f, get c = Some b -> flat_parse b = inl f -> u_type (f_data f) = THAMTShard
  | _ => step_name n
  end /\ (S (length R) <= req i)%nat.
Fixpoint desc (bound : nat) (todo : list item) : Prop :=
  match todo with [] => True | i :: r => (req i <= bound)%nat /\ item_ok i /\ desc (req i) r end.

Lemma desc_le a b todo : (a <= b)%nat -> desc a todo -> desc b todo.
Proof. intros H. destruct todo as [|i r]; [auto|]. cbn. intros (H1 & H2). split; [lia|exact H2]. Qed.
Lemma desc_app b xs todo : Forall (fun i => req i = b /\ item_ok i) xs -> desc b todo -> desc b (xs ++ todo).
Proof.
  induction 1 as [|x xs (H1 & H2) _ IH]; intros H; [exact H|]. cbn. split; [lia|]. split; [exact H2|].
  rewrite H1. apply IH, H.
Qed.

Definition good_kind (ie : inner) (ns : list bytes) (todo : list item) : Prop :=
  match e_kind ie with
  | KRootDirectory => match todo with (_, [], _) :: _ => False | _ => True end
  | KBucketAtRoot => ns = R
  | KFile (Some v) _ => visits get v
  | _ => True
  end.
Definition ongoing (ie : inner) : bool := match e_kind ie with KFile (Some _) _ => true | _ => false end.
Definition good (w : walker) : Prop :=
  exists ie ns todo, w = mk_walker (Some ie) (hd_error todo) (tl todo)
                           (ongoing ie || match todo with [] => false | _ => true end)
    /\ e_path ie = join ns /\ e_depth ie = S (length ns) /\ Forall step_name ns
    /\ good_kind ie ns todo /\ desc (e_depth ie) todo.

Definition last_dir (w : walker) : Prop := exists ie, w_current w = Some ie /\ e_kind ie = KDirectory.

Lemma convert_links_good d : forall ls i items,
  (S (length R) <= d)%nat -> Forall (fun l => step_name (link_name l)) ls ->
  convert_all (convert_link (S d)) i ls <> Panic /\
  (convert_all (convert_link (S d)) i ls = Ok items ->
   Forall (fun i => req i = d /\ item_ok i) items /\ Forall (fun i => snd (fst i) <> []) items).
Proof.
  induction ls as [|l ls IH]; intros i items Hd HF.
  - cbn. split; [discriminate|]. intros [= <-]. split; constructor.
  - inversion HF as [|? ? Hl HF']; subst. cbn [convert_all].
    destruct (convert_all (convert_link (S d)) (S i) ls) as [its|e|] eqn:E.
    2:{ split; discriminate. }
    2:{ destruct (IH (S i) [] Hd HF') as [H _]. rewrite E in H. congruence. }
    destruct (IH (S i) its Hd HF') as [_ H]. specialize (H E).
    unfold convert_link. destruct (link_cid l) as [c|]; [|split; discriminate].
    destruct (link_name l) as [|x n] eqn:En; [destruct Hl; congruence|].
    pose proof Hl as (_ & Hp & _). rewrite (has_slash_plain _ Hp). split; [discriminate|]. intros [= <-].
    destruct H as [H1 H2]. split; constructor; auto; [|cbn; discriminate].
    split; [reflexivity|]. cbn. split; [exact Hl|lia].
Qed.

Lemma convert_shard_good d : forall ls i items,
  (S (length R) <= d)%nat ->
  Forall (fun l => exists x y n, link_name l = x :: y :: n /\
      match n with
      | [] => forall c' b' f', link_cid l = Some c' -> get c' = Some b' -> flat_parse b' = inl f' ->
              u_type (f_data f') = THAMTShard
      | z :: _ => step_name n /\ cont z = false
      end) ls ->
  convert_all (convert_sharded_link (S d) d) i ls <> Panic /\
  (convert_all (convert_sharded_link (S d) d) i ls = Ok items -> Forall (fun i => req i = d /\ item_ok i) items).
Proof.
  induction ls as [|l ls IH]; intros i items Hd HF.
  - cbn. split; [discriminate|]. intros [= <-]. constructor.
  - inversion HF as [|? ? Hl HF']; subst. cbn [convert_all].
    destruct (convert_all (convert_sharded_link (S d) d) (S i) ls) as [its|e|] eqn:E.
    2:{ split; discriminate. }
    2:{ destruct (IH (S i) [] Hd HF') as [H _]. rewrite E in H. congruence. }
    destruct (IH (S i) its Hd HF') as [_ H]. specialize (H E).
    unfold convert_sharded_link. destruct (link_cid l) as [c|] eqn:Ec; [|split; discriminate].
    destruct Hl as (x & y & n & En & Hn). rewrite En. destruct n as [|z n].
    + split; [discriminate|]. intros [= <-]. constructor; [|exact H]. split; [reflexivity|]. cbn. split; [|lia].
      intros b f Hg Hf. exact (Hn c b f eq_refl Hg Hf).
    + destruct Hn as [Hn Hz]. rewrite Hz. pose proof Hn as (_ & Hp & _). rewrite (has_slash_plain _ Hp).
      split; [discriminate|]. intros [= <-]. constructor; [|exact H]. split; [reflexivity|]. cbn. split; [exact Hn|lia].
Qed.

Lemma set_path_good ns name d : Forall step_name ns -> step_name name ->
  (S (length R) <= pred d)%nat -> (pred d <= S (length ns))%nat ->
  exists T, set_path dbg (S (length ns)) (join ns) name d = Some (join (T ++ [name]))
    /\ d = S (length (T ++ [name])) /\ Forall step_name (T ++ [name]).
Proof.
  intros Hns Hn H1 H2. exists (firstn (d - 2) ns).
  assert (HT : length (firstn (d - 2) ns) = (d - 2)%nat) by (rewrite firstn_length; lia).
  assert (Ed : d = S (length (firstn (d - 2) ns ++ [name]))) by (rewrite app_length, HT; cbn; lia).
  assert (Hs : Forall step_name (firstn (d - 2) ns)).
  { rewrite <- (firstn_skipn (d - 2) ns) in Hns. apply Forall_app in Hns as [Hns _]. exact Hns. }
  split; [|split; [exact Ed|apply Forall_app; auto]].
  pose proof (set_path_join dbg (firstn (d - 2) ns) (skipn (d - 2) ns) name) as HH.
  rewrite firstn_skipn in HH. rewrite <- Ed in HH. apply HH; assumption.
Qed.

Lemma become_good k ie ns todo c name d m :
  e_path ie = join ns -> e_depth ie = S (length ns) -> Forall step_name ns -> ongoing ie = false ->
  desc (e_depth ie) ((c, name, d) :: todo) -> name <> [] ->
  exists T, become dbg k ie c name d m = Some (mk_inner c k (join (T ++ [name])) m d)
    /\ d = S (length (T ++ [name])) /\ Forall step_name (T ++ [name]).
Proof.
  intros Hp Hd Hs Ho Hdesc Hne. cbn [desc] in Hdesc. destruct Hdesc as (Hreq & (Hn & HR) & _).
  destruct name as [|x n]; [congruence|]. cbn [req] in *. rewrite Hd in Hreq.
  destruct (set_path_good ns (x :: n) d Hs Hn HR Hreq) as (T & ET & Ed & HT).
  exists T. split; [|split; assumption]. unfold become. rewrite Hp, Hd, ET.
  unfold ongoing in Ho. destruct (e_kind ie) as [| | | | |[v|] sz|]; try reflexivity. discriminate.
Qed.

(** After a step that entered a named entry. *)
Lemma good_after k T name c m items todo ie0 d :
  d = S (length (T ++ [name])) -> Forall step_name (T ++ [name]) ->
  desc (e_depth ie0) ((c, name, d) :: todo) -> name <> [] ->
  Forall (fun i => req i = d /\ item_ok i) items ->
  match k with KRootDirectory | KBucketAtRoot => False | KFile (Some v) _ => visits get v | _ => True end ->
  good (mk_walker (Some (mk_inner c k (join (T ++ [name])) m d)) (hd_error (items ++ todo)) (tl (items ++ todo))
          (ongoing (mk_inner c k (join (T ++ [name])) m d) || match items ++ todo with [] => false | _ => true end)).
Proof.
  intros Ed HT Hdesc Hne Hi Hk. exists (mk_inner c k (join (T ++ [name])) m d), (T ++ [name]), (items ++ todo).
  split; [reflexivity|]. split; [reflexivity|]. split; [exact Ed|]. split; [exact HT|]. split.
  - unfold good_kind. cbn [e_kind]. destruct k; try exact Logic.I; try contradiction. destruct v; [exact Hk|exact Logic.I].
  - cbn [e_depth]. apply desc_app; [exact Hi|]. cbn [desc] in Hdesc. destruct Hdesc as (_ & _ & Hdesc).
    eapply desc_le; [|exact Hdesc]. cbn [req]. destruct name; [congruence|]. lia.
Qed.

Lemma file_err_no_panic {A} e : e <> ReadFailed -> @file_err A e <> Panic.
Proof. destruct e; cbn; congruence. Qed.

Lemma start_no_read b f e : flat_parse b = inl f -> visit_start None b = Err e -> e <> ReadFailed.
Proof.
  unfold visit_start, from_block. intros -> H ->. cbn [maybe_slice] in H.
  assert (HP : forall n base ls szs t, to_pending n base ls szs t <> Err ReadFailed).
  { clear. intros n base ls. revert n base. induction ls as [|l ls IH]; intros n base szs t; cbn [to_pending]; [destruct szs; discriminate|].
    destruct szs as [|sz szs]; [discriminate|]. destruct (add64 base sz); [|discriminate].
    destruct (in_target _ _); [|apply IH]. destruct (cid_from_bytes _); [|discriminate].
    specialize (IH (S n) n0 szs t). destruct (to_pending _ _ _ _ _); try discriminate. congruence. }
  unfold from_parts in H.
  repeat match type of H with
         | context [match ?x with _ => _ end] =>
             lazymatch x with
             | to_pending _ _ _ _ _ => fail
             | context [match _ with _ => _ end] => fail
             | _ => destruct x; try discriminate H
             end
         end; cbn [fr_links fr_data fr_size fr_meta fr_offset fr_blocksizes] in H; try discriminate H;
  repeat match type of H with
         | context [match ?x with _ => _ end] =>
             lazymatch x with
             | context [match _ with _ => _ end] => fail
             | to_pending _ _ _ _ _ => destruct x eqn:EP; try discriminate H
             | _ => destruct x; try discriminate H
             end
         end; try (injection H as ->; eapply HP; eassumption).
Qed.

Lemma not_ongoing ie : ongoing ie = false -> forall v sz, e_kind ie <> KFile (Some v) sz.
Proof. unfold ongoing. intros H v sz E. rewrite E in H. discriminate. Qed.

Definition has_shard : Prop := exists c b f, get c = Some b /\ flat_parse b = inl f /\ u_type (f_data f) = THAMTShard.
Definition step_result (r : outcome (walker * walked) walk_err) (w : walker) : Prop :=
  match r with
  | Panic => has_shard /\ last_dir w
  | Err _ => True
  | Ok (w', o) => good w' /\ (last_dir w' -> exists c p m, o = ODirectory c p m)
  end.

Lemma named_or_bucket (i : item) b f : item_ok i -> get (fst (fst i)) = Some b -> flat_parse b = inl f ->
  snd (fst i) <> [] \/ (snd (fst i) = [] /\ u_type (f_data f) = THAMTShard).
Proof.
  destruct i as [[c n] d]. cbn [fst snd]. intros (H & _) Hg Hf. destruct n as [|x n]; [right|left; discriminate].
  split; [reflexivity|]. eapply H; eassumption.
Qed.

Lemma step_good w c b : good w -> w_continue w = true -> first_pending w = Some c -> get c = Some b ->
  step_result (walk_next dbg w b) w.
Proof.
  intros (ie & ns & todo & -> & Hp & Hd & Hs & Hk & Hdesc) Hc Hf Hg.
  destruct (ongoing ie) eqn:Ho.
  { (* a file goes on *)
    destruct ie as [ec ek ep em ed]. unfold ongoing in Ho. cbn [e_kind] in Ho.
    destruct ek as [| | | | |[v|] sz|]; try discriminate. cbn [first_pending w_current] in Hf.
    unfold good_kind in Hk. cbn [e_kind] in Hk.
    destruct (safe_visits _ HS v c b Hk Hf Hg) as [N1 N2].
    unfold walk_next. cbn [w_current w_next w_pending]. destruct (visit_continue v b) as [[bs step]|e|] eqn:Ev.
    - split.
      + exists (mk_inner ec (KFile step sz) ep em ed), ns, todo. split.
        { f_equal. unfold ongoing. cbn [e_kind]. destruct todo; reflexivity. }
        split; [exact Hp|]. split; [exact Hd|]. split; [exact Hs|]. split; [|exact Hdesc].
        unfold good_kind. cbn [e_kind]. destruct step as [v'|]; [|exact Logic.I].
        eapply visit_goes_on; eassumption.
      + intros (ie' & E & Ek). cbn in E. injection E as <-. cbn in Ek. discriminate.
    - unfold step_result. destruct (@file_err (walker * walked) e) eqn:E; [|exact Logic.I|].
      + destruct e; discriminate.
      + exfalso. eapply (file_err_no_panic e); [|exact E]. congruence.
    - congruence. }
  destruct todo as [|[[c0 name] d] rest]; [discriminate|].
  assert (c0 = c).
  { revert Hf. unfold first_pending. cbn [w_current w_next hd_error option_map].
    destruct ie as [ec ek ep em ed]. unfold ongoing in Ho. cbn [e_kind] in Ho.
    destruct ek as [| | | | |[v|] sz|]; try discriminate; intros [= ->]; reflexivity. }
  subst c0. cbn [orb].
  change (mk_walker (Some ie) (hd_error ((c, name, d) :: rest)) (tl ((c, name, d) :: rest)) true)
    with (st ie ((c, name, d) :: rest)).
  destruct (flat_parse b) as [f|e] eqn:Ef.
  2:{ unfold step_result, walk_next, st. cbn [w_current].
      destruct ie as [ec ek ep em ed]. unfold ongoing in Ho. cbn [e_kind] in Ho.
      destruct ek as [| | | | |[v|] sz|]; try discriminate; rewrite Ef; exact Logic.I. }
  rewrite (next_other dbg ie c name d rest b f (not_ongoing ie Ho) Ef).
  assert (HD := Hdesc). cbn [desc] in HD. destruct HD as (Hreq & Hok & Hrest).
  assert (HN := named_or_bucket _ b f Hok Hg Ef). cbn [fst snd] in HN.
  assert (HR : (S (length R) <= d)%nat).
  { destruct Hok as (_ & Hok). cbn [req] in Hok. destruct name; lia. }
  assert (HB := fun k m => become_good k ie ns rest c name d m Hp Hd Hs Ho Hdesc).
  destruct (u_type (f_data f)) eqn:Et.
  - (* raw *)
    destruct HN as [Hne|[_ HN]]; [|discriminate].
    destruct (visit_start None b) as [[[[bs size] fm] step]|e|] eqn:Ev.
    + destruct (HB (KFile step size) fm Hne) as (T & -> & Ed & HT). split.
      * assert (G := good_after (KFile step size) T name c fm [] rest ie d Ed HT Hdesc Hne (Forall_nil _)).
        cbn [app] in G. unfold ongoing in G. cbn [e_kind] in G.
        assert (match step with Some v => visits get v | None => True end) as HV
          by (destruct step; [eapply visit_begun; eassumption|exact Logic.I]).
        specialize (G HV). destruct step; exact G.
      * intros (ie' & E & Ek). cbn in E. injection E as <-. cbn in Ek. discriminate.
    + unfold step_result. destruct (@file_err (walker * walked) e) eqn:E; [|exact Logic.I|].
      * destruct e; discriminate.
      * exfalso. eapply (file_err_no_panic e); [|exact E]. eapply start_no_read; eassumption.
    + exfalso. eapply (safe_starts _ HS); eassumption.
  - (* directory *)
    destruct HN as [Hne|[_ HN]]; [|discriminate].
    destruct (check_directory_supported (f_data f)); [|exact Logic.I].
    destruct (convert_all (convert_link (S d)) 0 (f_links f)) as [items|e|] eqn:Ec; [|exact Logic.I|].
    + destruct (convert_links_good d (f_links f) 0%nat items HR (safe_dirs _ HS _ _ _ Hg Ef Et)) as [_ H].
      destruct (H Ec) as [Hi _].
      destruct (HB KDirectory (meta_of (f_data f)) Hne) as (T & -> & Ed & HT). split.
      * exact (good_after KDirectory T name c (meta_of (f_data f)) items rest ie d Ed HT Hdesc Hne Hi Logic.I).
      * intros _. eexists; eexists; eexists; reflexivity.
    + destruct (convert_links_good d (f_links f) 0%nat [] HR (safe_dirs _ HS _ _ _ Hg Ef Et)) as [H _]. congruence.
  - (* file *)
    destruct HN as [Hne|[_ HN]]; [|discriminate].
    destruct (visit_start None b) as [[[[bs size] fm] step]|e|] eqn:Ev.
    + destruct (HB (KFile step size) fm Hne) as (T & -> & Ed & HT). split.
      * assert (G := good_after (KFile step size) T name c fm [] rest ie d Ed HT Hdesc Hne (Forall_nil _)).
        cbn [app] in G. unfold ongoing in G. cbn [e_kind] in G.
        assert (match step with Some v => visits get v | None => True end) as HV
          by (destruct step; [eapply visit_begun; eassumption|exact Logic.I]).
        specialize (G HV). destruct step; exact G.
      * intros (ie' & E & Ek). cbn in E. injection E as <-. cbn in Ek. discriminate.
    + unfold step_result. destruct (@file_err (walker * walked) e) eqn:E; [|exact Logic.I|].
      * destruct e; discriminate.
      * exfalso. eapply (file_err_no_panic e); [|exact E]. eapply start_no_read; eassumption.
    + exfalso. eapply (safe_starts _ HS); eassumption.
  - exact Logic.I.
  - (* symlink *)
    destruct HN as [Hne|[_ HN]]; [|discriminate].
    destruct (HB KSymlink (meta_of (f_data f)) Hne) as (T & -> & Ed & HT). split.
    + exact (good_after KSymlink T name c (meta_of (f_data f)) [] rest ie d Ed HT Hdesc Hne (Forall_nil _) Logic.I).
    + intros (ie' & E & Ek). cbn in E. injection E as <-. cbn in Ek. discriminate.
  - (* shard *)
    destruct (check_supported (f_data f)); [|exact Logic.I].
    destruct (convert_all (convert_sharded_link (S d) d) 0 (f_links f)) as [items|e|] eqn:Ec; [|exact Logic.I|].
    2:{ destruct (convert_shard_good d (f_links f) 0%nat [] HR (safe_shards _ HS _ _ _ Hg Ef Et)) as [H _]. congruence. }
    destruct (convert_shard_good d (f_links f) 0%nat items HR (safe_shards _ HS _ _ _ Hg Ef Et)) as [_ H].
    specialize (H Ec). destruct name as [|x n].
    + (* a bucket *)
      clear HB HN. cbn [req] in Hreq, Hrest, Hok. destruct Hok as [_ HRd].
      unfold as_bucket. destruct ie as [ec ek ep em ed]. cbn [e_kind e_path e_depth e_meta] in *.
      unfold good_kind in Hk. cbn [e_kind] in Hk.
      assert (HX : exists p, pop_above ed d ep = Some (d, p) /\ exists T, p = join T /\ d = S (length T) /\ Forall step_name T).
      { exists (join (firstn (d - 1) ns)).
        assert (HL : length (firstn (d - 1) ns) = (d - 1)%nat) by (rewrite firstn_length; lia).
        assert (Ed : d = S (length (firstn (d - 1) ns))) by lia.
        split.
        - pose proof (pop_above_join (firstn (d - 1) ns) (skipn (d - 1) ns)) as HH. rewrite firstn_skipn in HH.
          rewrite <- Ed in HH. rewrite Hp, Hd. apply HH. exact Hs.
        - exists (firstn (d - 1) ns). split; [reflexivity|]. split; [exact Ed|].
          rewrite <- (firstn_skipn (d - 1) ns) in Hs. apply Forall_app in Hs as [Hs _]. exact Hs. }
      destruct HX as (p & EP & T & -> & Ed & HT).
      assert (GB : good (st (mk_inner c KBucket (join T) em d) (items ++ rest))).
      { exists (mk_inner c KBucket (join T) em d), T, (items ++ rest). split; [reflexivity|]. split; [reflexivity|].
        split; [exact Ed|]. split; [exact HT|]. split; [exact Logic.I|]. cbn [e_depth]. apply desc_app; assumption. }
      assert (GD : last_dir (st (mk_inner c KBucket (join T) em d) (items ++ rest)) -> forall o : walked, exists c p m, o = ODirectory c p m).
      { intros (ie' & E & Ek). cbn in E. injection E as <-. cbn in Ek. discriminate. }
      destruct ek as [| | | | |[v|] sz|]; try discriminate.
      * cbn in Hk. contradiction.
      * (* at the root *)
        subst ns. assert (EE : (ed =? d)%nat = true) by (apply Nat.eqb_eq; lia). rewrite EE. split.
        -- exists (mk_inner ec KBucketAtRoot ep em ed), R, (items ++ rest). split; [reflexivity|]. split; [exact Hp|].
           split; [exact Hd|]. split; [exact Hs|]. split; [reflexivity|]. cbn [e_depth].
           apply desc_le with (a := d); [exact Hreq|]. apply desc_app; assumption.
        -- intros (ie' & E & Ek). cbn in E. injection E as <-. cbn in Ek. discriminate.
      * rewrite EP, Nat.eqb_refl. split; [exact GB|]. intros HL. apply GD, HL.
      * rewrite EP, Nat.eqb_refl. split; [exact GB|]. intros HL. apply GD, HL.
      * unfold step_result, last_dir. split; [exists c, b, f; auto|]. eexists. split; [reflexivity|]. reflexivity.
      * rewrite EP, Nat.eqb_refl. split; [exact GB|]. intros HL. apply GD, HL.
      * rewrite EP, Nat.eqb_refl. split; [exact GB|]. intros HL. apply GD, HL.
    + destruct (HB KRootBucket (meta_of (f_data f)) ltac:(discriminate)) as (T & -> & Ed & HT). split.
      * exact (good_after KRootBucket T (x :: n) c (meta_of (f_data f)) items rest ie d Ed HT Hdesc ltac:(discriminate) H Logic.I).
      * intros (ie' & E & Ek). cbn in E. injection E as <-. cbn in Ek. discriminate.
Qed.

Lemma first_good w : good w -> w_continue w = true -> first_pending w <> None.
Proof.
  intros (ie & ns & todo & -> & _ & _ & _ & Hk & _) Hc. unfold first_pending, good_kind in *. cbn [w_current w_next w_continue] in *.
  destruct ie as [ec ek ep em ed]. cbn [e_kind ongoing] in *.
  destruct ek as [| | | | |[v|] sz|]; cbn [ongoing e_kind orb] in Hc; destruct todo; try discriminate;
    eapply safe_pending; eassumption.
Qed.

Lemma walk_good k : forall w os, good w -> walk dbg k get w = (os, Panicked) ->
  has_shard /\ ((os = [] /\ last_dir w) \/ exists front c p m, os = front ++ [ODirectory c p m]).
Proof.
  induction k as [|k IH]; intros w os Hg Hw.
  - cbn [walk] in Hw. destruct (w_continue w); discriminate.
  - cbn [walk] in Hw. destruct (w_continue w) eqn:Ec; [|discriminate].
    destruct (first_pending w) as [c|] eqn:Ef; [|exfalso; eapply first_good; eassumption].
    destruct (get c) as [b|] eqn:Eg; [|discriminate].
    pose proof (step_good w c b Hg Ec Ef Eg) as HSt.
    destruct (walk_next dbg w b) as [[w' o]|e|] eqn:En; [|discriminate|].
    + destruct HSt as [Hg' Hl]. destruct (walk dbg k get w') as [os' e'] eqn:Ew. injection Hw as <- ->.
      destruct (IH w' os' Hg' Ew) as [Hsh HX]. split; [exact Hsh|]. right. destruct HX as [(-> & HL)|(front & c' & p & m & ->)].
      * destruct (Hl HL) as (c' & p & m & ->). exists [], c', p, m. reflexivity.
      * exists (o :: front), c', p, m. reflexivity.
    + injection Hw as <-. destruct HSt as [Hsh HSt]. split; [exact Hsh|]. left. split; [reflexivity|exact HSt].
Qed.
End Safe.

Lemma walk_safe dbg get c name k os : safe_store get -> (name = [] \/ step_name name) ->
  walk dbg k get (walker_new c name) = (os, Panicked) -> has_shard get /\ exists front c p m, os = front ++ [ODirectory c p m].
Proof.
  intros HS Hn Hw. destruct k as [|k]; [discriminate|].
  set (R := root_path name) in *.
  assert (HSt := root_steps name Hn). fold R in HSt.
  assert (HP := push_root name Hn). fold R in HP.
  assert (HD : (match name with [] => 1 | _ => 2 end)%nat = S (length R)) by (destruct name; reflexivity).
  cbn [walk walker_new w_continue first_pending w_current w_next option_map fst] in Hw.
  destruct (get c) as [b|] eqn:Eg; [|discriminate].
  assert (HG : forall ie todo, e_path ie = join R -> e_depth ie = S (length R) -> good_kind get R ie R todo ->
     desc get R (S (length R)) todo ->
     good get R (mk_walker (Some ie) (hd_error todo) (tl todo) (ongoing ie || match todo with [] => false | _ => true end))).
  { intros ie todo H1 H2 H3 H4. exists ie, R, todo. split; [reflexivity|]. split; [exact H1|]. split; [exact H2|].
    split; [exact HSt|]. split; [exact H3|]. rewrite H2. exact H4. }
  assert (FIN : forall w o, good get R w -> ~ last_dir w ->
     (let (os, e) := walk dbg k get w in (o :: os, e)) = (os, Panicked) ->
     has_shard get /\ exists front c p m, os = front ++ [ODirectory c p m]).
  { intros w o Hg Hnl E. destruct (walk dbg k get w) as [os' e'] eqn:Ew. injection E as <- ->.
    destruct (walk_good dbg get R HS k w os' Hg Ew) as [Hsh [(_ & HL)|(front & c' & p & m & ->)]]; [contradiction|].
    split; [exact Hsh|]. exists (o :: front), c', p, m. reflexivity. }
  unfold walk_next in Hw. cbn [w_current w_next w_pending walker_new] in Hw.
  destruct (flat_parse b) as [f|e] eqn:Ef; [|discriminate].
  rewrite HD in Hw. destruct (u_type (f_data f)) eqn:Et.
  - destruct (visit_start None b) as [[[[bs size] fm] step]|e|] eqn:Ev; [| |exfalso; eapply (safe_starts _ HS); eassumption].
    + unfold enter, new_root in Hw. cbn [hd_error tl] in Hw. rewrite HP in Hw. eapply FIN; [| |exact Hw].
      * pose proof (HG (mk_inner c (KFile step size) (join R) fm (S (length R))) []) as G. unfold ongoing in G. cbn [e_kind] in G.
        destruct step as [v|]; apply G; try reflexivity. unfold good_kind. cbn [e_kind]. eapply visit_begun; eassumption.
      * intros (ie' & E & Ek). cbn in E. injection E as <-. cbn in Ek. discriminate.
    + pose proof (start_no_read b f e Ef Ev) as Hne. destruct e; try discriminate; congruence.
  - destruct (check_directory_supported (f_data f)); [|discriminate].
    destruct (convert_links_good get R (S (length R)) (f_links f) 0%nat [] (le_n _) (safe_dirs _ HS _ _ _ Eg Ef Et)) as [NP _].
    destruct (convert_all (convert_link (S (S (length R)))) 0 (f_links f)) as [items|e|] eqn:Ec; [|discriminate|congruence].
    destruct (convert_links_good get R (S (length R)) (f_links f) 0%nat items (le_n _) (safe_dirs _ HS _ _ _ Eg Ef Et)) as [_ H].
    destruct (H Ec) as [Hi Hnm]. unfold enter, new_root in Hw. cbn [e_cid e_path e_meta] in Hw. rewrite app_nil_r, HP in Hw.
    eapply FIN; [| |exact Hw].
    + apply (HG (mk_inner c KRootDirectory (join R) (meta_of (f_data f)) (S (length R))) items); try reflexivity.
      * unfold good_kind. cbn [e_kind]. destruct items as [|[[? [|]] ?] ?]; try exact Logic.I. inversion Hnm; subst. cbn in *. congruence.
      * rewrite <- (app_nil_r items). apply desc_app; [exact Hi|exact Logic.I].
    + intros (ie' & E & Ek). cbn in E. injection E as <-. cbn in Ek. discriminate.
  - destruct (visit_start None b) as [[[[bs size] fm] step]|e|] eqn:Ev; [| |exfalso; eapply (safe_starts _ HS); eassumption].
    + unfold enter, new_root in Hw. cbn [hd_error tl] in Hw. rewrite HP in Hw. eapply FIN; [| |exact Hw].
      * pose proof (HG (mk_inner c (KFile step size) (join R) fm (S (length R))) []) as G. unfold ongoing in G. cbn [e_kind] in G.
        destruct step as [v|]; apply G; try reflexivity. unfold good_kind. cbn [e_kind]. eapply visit_begun; eassumption.
      * intros (ie' & E & Ek). cbn in E. injection E as <-. cbn in Ek. discriminate.
    + pose proof (start_no_read b f e Ef Ev) as Hne. destruct e; try discriminate; congruence.
  - discriminate.
  - unfold enter, new_root in Hw. cbn [hd_error tl e_cid e_path e_meta] in Hw. rewrite HP in Hw. eapply FIN; [| |exact Hw].
    + apply (HG (mk_inner c KSymlink (join R) (meta_of (f_data f)) (S (length R))) []); try reflexivity.
    + intros (ie' & E & Ek). cbn in E. injection E as <-. cbn in Ek. discriminate.
  - destruct (check_supported (f_data f)); [|discriminate].
    destruct (convert_shard_good get R (S (length R)) (f_links f) 0%nat [] (le_n _) (safe_shards _ HS _ _ _ Eg Ef Et)) as [NP _].
    destruct (convert_all (convert_sharded_link (S (S (length R))) (S (length R))) 0 (f_links f)) as [items|e|] eqn:Ec; [|discriminate|congruence].
    destruct (convert_shard_good get R (S (length R)) (f_links f) 0%nat items (le_n _) (safe_shards _ HS _ _ _ Eg Ef Et)) as [_ H].
    specialize (H Ec). unfold enter, new_root in Hw. cbn [e_cid e_path e_meta] in Hw. rewrite app_nil_r, HP in Hw.
    eapply FIN; [| |exact Hw].
    + apply (HG (mk_inner c KBucketAtRoot (join R) (meta_of (f_data f)) (S (length R))) items); try reflexivity.
      rewrite <- (app_nil_r items). apply desc_app; [exact H|exact Logic.I].
    + intros (ie' & E & Ek). cbn in E. injection E as <-. cbn in Ek. discriminate.
Qed.
