From Verif Require Import Base Wire Cid Pb FileVisit DirLookup IpfsPath PathSpec IpfsPathProofs StdPath Walk WalkSpec.
Local Open Scope N_scope.

(** ** Paths made of proper names *)
Lemma step_not_dropped n : step_name n -> dropped n = false.
Proof.
  intros (H1 & _ & H3). unfold dropped. destruct (beq_spec n []), (beq_spec n [46]); try contradiction; reflexivity.
Qed.
Lemma steps_plain ns : Forall step_name ns -> Forall plain ns.
Proof. apply Forall_impl. intros a (_ & H & _). exact H. Qed.
Lemma join_slashed x l : join (x :: l) = x ++ slashed l.
Proof.
  revert x. induction l as [|y l IH]; intros x; [cbn; rewrite app_nil_r; reflexivity|].
  cbn [join]. change (match l with [] => y | _ :: _ => y ++ 47 :: join l end) with (join (y :: l)).
  rewrite IH, slashed_cons. reflexivity.
Qed.
Lemma split_join_list x l : Forall plain (x :: l) -> split_slash (join (x :: l)) = x :: l.
Proof. intros H. rewrite join_slashed. apply split_slashed; [exact (Forall_inv H)|exact (Forall_inv_tail H)]. Qed.
Lemma join_snoc ns x : ns <> [] -> join (ns ++ [x]) = join ns ++ 47 :: x.
Proof.
  destruct ns as [|y l]; [congruence|]. intros _. cbn [app]. rewrite !join_slashed, slashed_app.
  unfold slashed at 2. cbn [map concat]. rewrite app_nil_r, app_assoc. reflexivity.
Qed.
Lemma abs_join x l : step_name x -> is_absolute (join (x :: l)) = false.
Proof.
  intros (H1 & H2 & _). rewrite join_slashed. destruct x as [|c x]; [congruence|].
  cbn [app is_absolute]. destruct (N.eqb_spec c 47) as [->|]; [exfalso; apply H2; left; reflexivity|reflexivity].
Qed.
Lemma filter_steps ns : Forall step_name ns -> filter (fun s => negb (dropped s)) ns = ns.
Proof.
  induction 1 as [|x l Hx _ IH]; [reflexivity|]. cbn [filter]. rewrite (step_not_dropped x Hx). cbn. rewrite IH. reflexivity.
Qed.
Lemma comps_join ns : Forall step_name ns -> comps (join ns) = ns.
Proof.
  intros H. destruct ns as [|x l]; [reflexivity|]. unfold comps.
  rewrite (split_join_list x l (steps_plain _ H)), (abs_join x l (Forall_inv H)).
  destruct (beq_spec x []) as [->|_]; [destruct (Forall_inv H) as [? _]; congruence|].
  rewrite (filter_steps l (Forall_inv_tail H)). reflexivity.
Qed.
Lemma ancestors_join ns : Forall step_name ns -> ancestors (join ns) = S (length ns).
Proof. intros H. unfold ancestors. rewrite (comps_join ns H). reflexivity. Qed.
Lemma trim_steps ns : Forall step_name ns -> trim ns = ns.
Proof. intros H. destruct H as [|x l Hx _]; [reflexivity|]. cbn [trim]. rewrite (step_not_dropped x Hx). reflexivity. Qed.
Lemma parent_join ns x : Forall step_name (ns ++ [x]) -> parent (join (ns ++ [x])) = Some (join ns).
Proof.
  intros H. unfold parent. destruct ns as [|y l].
  - cbn [app] in *. rewrite (split_join_list x [] (steps_plain _ H)), (abs_join x [] (Forall_inv H)).
    cbn [rev trim]. destruct (beq_spec x []) as [->|_]; [destruct (Forall_inv H) as [? _]; congruence|]. reflexivity.
  - cbn [app] in *. rewrite (split_join_list y (l ++ [x]) (steps_plain _ H)), (abs_join y _ (Forall_inv H)).
    assert (Hl : Forall step_name l) by (apply Forall_inv_tail, Forall_app in H as [H _]; exact H).
    assert (Hx : step_name x) by (apply Forall_inv_tail, Forall_app in H as [_ H]; exact (Forall_inv H)).
    rewrite rev_app_distr. cbn [rev app trim]. rewrite (step_not_dropped x Hx).
    rewrite (trim_steps (rev l)) by (apply Forall_rev; exact Hl). rewrite rev_involutive.
    destruct l; reflexivity.
Qed.
Lemma push_join ns x : Forall step_name ns -> step_name x -> push (join ns) x = join (ns ++ [x]).
Proof.
  intros H Hx. unfold push. rewrite <- (app_nil_r x) at 1.
  change (x ++ []) with (x ++ slashed []). rewrite <- join_slashed, (abs_join x [] Hx).
  destruct ns as [|y l]; [reflexivity|]. rewrite join_snoc by discriminate.
  (* the last byte of the path is not '/' *)
  assert (HL : exists front z, y :: l = front ++ [z]) by (exists (removelast (y :: l)), (last (y :: l) []);
    apply app_removelast_last; discriminate).
  destruct HL as (front & z & EL). rewrite EL in *.
  assert (Hz : step_name z) by (apply Forall_app in H as [_ H]; exact (Forall_inv H)).
  assert (ET : exists pre c, join (front ++ [z]) = pre ++ [c] /\ c <> 47).
  { destruct Hz as (Hz1 & Hz2 & _). destruct (exists_last Hz1) as (z0 & c & Ez).
    assert (c <> 47) by (intros ->; apply Hz2; rewrite Ez; apply in_or_app; right; left; reflexivity).
    destruct front as [|w front].
    - exists z0, c. cbn. auto.
    - exists (join (w :: front) ++ 47 :: z0), c. rewrite join_snoc by discriminate. rewrite Ez, <- app_assoc. auto. }
  destruct ET as (pre & c & -> & Hc). rewrite rev_app_distr. cbn [rev app].
  destruct (N.eqb_spec c 47); [contradiction|reflexivity].
Qed.

(** Popping down to a prefix. *)
Lemma pop_to_join T : forall extra, Forall step_name (T ++ extra) ->
  pop_to (S (length (T ++ extra))) (S (S (length T))) (join (T ++ extra)) = Some (join T).
Proof.
  intros extra. induction extra as [|x extra IH] using rev_ind; intros H.
  - rewrite app_nil_r in *. cbn [pop_to]. rewrite (proj2 (Nat.leb_gt _ _)) by lia. reflexivity.
  - rewrite app_assoc in *. rewrite app_length. cbn [length]. rewrite Nat.add_1_r. cbn [pop_to].
    rewrite (proj2 (Nat.leb_le _ _)) by (rewrite app_length; lia).
    rewrite (parent_join _ _ H). apply IH. apply Forall_app in H as [H _]. exact H.
Qed.
Lemma pop_above_join T : forall extra, Forall step_name (T ++ extra) ->
  pop_above (S (length (T ++ extra))) (S (length T)) (join (T ++ extra)) = Some (S (length T), join T).
Proof.
  intros extra. induction extra as [|x extra IH] using rev_ind; intros H.
  - rewrite app_nil_r in *. cbn [pop_above]. rewrite Nat.ltb_irrefl. reflexivity.
  - rewrite app_assoc in *. rewrite app_length. cbn [length]. rewrite Nat.add_1_r. cbn [pop_above].
    rewrite (proj2 (Nat.ltb_lt _ _)) by (rewrite app_length; lia).
    rewrite (parent_join _ _ H). apply IH. apply Forall_app in H as [H _]. exact H.
Qed.
Lemma set_path_join dbg T extra name : Forall step_name (T ++ extra) -> step_name name ->
  set_path dbg (S (length (T ++ extra))) (join (T ++ extra)) name (S (length (T ++ [name]))) = Some (join (T ++ [name])).
Proof.
  intros H Hn. unfold set_path. rewrite (ancestors_join _ H), Nat.eqb_refl, andb_false_r.
  rewrite (app_length T [name]), Nat.add_1_r, (pop_to_join T extra H).
  assert (HT : Forall step_name T) by (apply Forall_app in H as [H _]; exact H).
  assert (HTn : Forall step_name (T ++ [name])) by (apply Forall_app; auto).
  rewrite (push_join T name HT Hn), (ancestors_join _ HTn), app_length, Nat.add_1_r, Nat.eqb_refl, andb_false_r.
  reflexivity.
Qed.

(** ** Converting links *)
Lemma has_slash_plain n : plain n -> has_slash n = false.
Proof.
  intros H. unfold has_slash. destruct (existsb _ n) eqn:E; [|reflexivity].
  apply existsb_exists in E as (c & Hin & Hc). apply N.eqb_eq in Hc. subst c. contradiction.
Qed.

(** ** The report *)
Fixpoint after (l : last_seen) (os : list walked) : last_seen :=
  match os with
  | [] => l
  | OBucket _ _ :: r => after match l with AtRoot c => AtRoot c | _ => Elsewhere end r
  | ODirectory _ _ _ :: r => after AfterDirectory r
  | _ :: r => after Elsewhere r
  end.
Lemma after_app os os' : forall l, after l (os ++ os') = after (after l os) os'.
Proof. induction os as [|o os IH]; intros l; [reflexivity|]. destruct o; cbn [app after]; apply IH. Qed.
Lemma reported_app os os' : forall l,
  reported l (os ++ os')
  = let (o, x) := reported l os in
    if x then (o, true) else let (o2, x2) := reported (after l os) os' in (o ++ o2, x2).
Proof.
  induction os as [|o os IH]; intros l; [cbn [app reported after]; destruct (reported l os'); reflexivity|].
  destruct o; cbn [app reported after]; [destruct l; [| |]|..];
    try reflexivity; rewrite IH;
    match goal with |- context [reported ?a os] => destruct (reported a os) as [u [|]] end;
    try reflexivity;
    match goal with |- context [reported ?a os'] => destruct (reported a os') as [u2 x2] end; reflexivity.
Qed.

Section Run.
Variable dbg : bool.
Variable get : cid -> option bytes.
Variable R : list bytes.

Definition st (ie : inner) (todo : list item) : walker :=
  mk_walker (Some ie) (hd_error todo) (tl todo) (match todo with [] => false | _ => true end).

Definition kind_ok (l : last_seen) (ie : inner) (ns : list bytes) : Prop :=
  match l with
  | AtRoot c => e_kind ie = KBucketAtRoot /\ e_cid ie = c /\ ns = R
  | AfterDirectory => e_kind ie = KRootDirectory \/ e_kind ie = KDirectory
  | Elsewhere => e_kind ie = KRootBucket \/ e_kind ie = KBucket \/ e_kind ie = KSymlink
                 \/ exists sz, e_kind ie = KFile None sz
  end.
Definition inv (ie : inner) (ns : list bytes) (l : last_seen) : Prop :=
  e_path ie = join ns /\ e_depth ie = S (length ns) /\ Forall step_name ns /\ kind_ok l ie ns.

Definition runs (path : list bytes) (l : last_seen) (ie : inner) (todo rest : list item) (os : list walked) : Prop :=
  match reported l os with
  | (o, true) => forall k, walk dbg (length os + k) get (st ie todo) = (o, Panicked)
  | (o, false) =>
      exists ie' extra, inv ie' (path ++ extra) (after l os)
        /\ forall k, walk dbg (length os + k) get (st ie todo)
                     = let (o2, e) := walk dbg k get (st ie' rest) in (o ++ o2, e)
  end.

Lemma runs_nil path l ie extra rest : inv ie (path ++ extra) l -> runs path l ie rest rest [].
Proof.
  intros H. unfold runs. cbn [reported]. exists ie, extra. split; [exact H|]. intros k. cbn [length plus].
  destruct (walk dbg k get (st ie rest)). reflexivity.
Qed.
Lemma runs_app path l ie a b c os os' :
  runs path l ie a b os ->
  (forall ie' extra, inv ie' (path ++ extra) (after l os) -> runs path (after l os) ie' b c os') ->
  runs path l ie a c (os ++ os').
Proof.
  unfold runs at 1 3. intros H1 H2. rewrite reported_app, app_length.
  destruct (reported l os) as [o [|]].
  - intros k. rewrite <- Nat.add_assoc. apply H1.
  - destruct H1 as (ie' & extra & Hinv & Hw). specialize (H2 ie' extra Hinv). unfold runs in H2.
    destruct (reported (after l os) os') as [o2 [|]].
    + intros k. rewrite <- Nat.add_assoc, Hw, H2. reflexivity.
    + destruct H2 as (ie2 & extra2 & Hinv2 & Hw2). exists ie2, extra2. rewrite after_app. split; [exact Hinv2|].
      intros k. rewrite <- Nat.add_assoc, Hw, Hw2. destruct (walk dbg k get (st ie2 c)). rewrite app_assoc. reflexivity.
Qed.
Lemma runs_up path x l ie a b os : runs (path ++ x) l ie a b os -> runs path l ie a b os.
Proof.
  unfold runs. destruct (reported l os) as [o [|]]; [auto|]. intros (ie' & extra & Hinv & Hw).
  exists ie', (x ++ extra). rewrite app_assoc. auto.
Qed.

(** One step: the walker says [o] where the tree shows [o0]. *)
Lemma runs_step path l ie i todo rest b ie' todo' o0 o os :
  get (fst (fst i)) = Some b ->
  (forall v sz, e_kind ie <> KFile (Some v) sz) ->
  walk_next dbg (st ie (i :: todo)) b = Ok (st ie' todo', o) ->
  reported l [o0] = ([o], false) ->
  (runs path (after l [o0]) ie' todo' rest os) ->
  runs path l ie (i :: todo) rest (o0 :: os).
Proof.
  intros Hg Hk Hn Hr H. change (o0 :: os) with ([o0] ++ os). unfold runs in *. rewrite reported_app, Hr.
  assert (W : forall k, walk dbg (S k) get (st ie (i :: todo))
              = let (os, e) := walk dbg k get (st ie' todo') in (o :: os, e)).
  { intros k. cbn [walk st w_continue]. change (w_continue (st ie (i :: todo))) with true. cbn [walk].
    replace (first_pending (st ie (i :: todo))) with (Some (fst (fst i))).
    - rewrite Hg, Hn. reflexivity.
    - unfold first_pending, st; cbn [w_current w_next hd_error option_map].
      destruct ie as [ec ek ep em ed]. cbn [e_kind] in Hk. destruct ek as [| | | | |[v|] sz|]; try reflexivity. exfalso. eapply Hk; reflexivity. }
  destruct (reported (after l [o0]) os) as [o2 [|]].
  - intros k. cbn [app length plus]. rewrite W, H. reflexivity.
  - destruct H as (ie2 & extra & Hinv & Hw). exists ie2, extra. rewrite after_app. split; [exact Hinv|].
    intros k. cbn [app length plus]. rewrite W, Hw. destruct (walk dbg k get (st ie2 rest)). reflexivity.
Qed.

Lemma kind_no_visit l ie ns : kind_ok l ie ns -> forall v sz, e_kind ie <> KFile (Some v) sz.
Proof.
  unfold kind_ok. intros H v sz E. rewrite E in H. destruct l.
  - destruct H as [H _]. discriminate.
  - destruct H; discriminate.
  - destruct H as [H|[H|[H|[s H]]]]; discriminate.
Qed.

(** The blocks of a file after the first. *)
Lemma later_walk v segs c p m sz d rest : segments get v segs -> forall k,
  walk dbg (length (later_segments c p m sz segs) + k) get
    (mk_walker (Some (mk_inner c (KFile (Some v) sz) p m d)) (hd_error rest) (tl rest) true)
  = let (o2, e) := walk dbg k get (st (mk_inner c (KFile None sz) p m d) rest) in
    (later_segments c p m sz segs ++ o2, e).
Proof.
  induction 1 as [v c' b content Hn Hg Hv|v c' b content v' r Hn Hg Hv Hs IH]; intros k.
  - cbn [later_segments length plus walk w_continue first_pending w_current]. rewrite Hn, Hg.
    unfold walk_next. cbn [w_current]. rewrite Hv. cbn [w_next w_pending negb orb].
    unfold st. destruct rest; cbn [hd_error tl]; destruct (walk dbg k get _); reflexivity.
  - assert (EL : later_segments c p m sz (content :: r) = OFile content false false c p m sz :: later_segments c p m sz r).
    { destruct r; [exfalso|reflexivity]. inversion Hs. }
    rewrite EL. cbn [length plus walk w_continue first_pending w_current]. rewrite Hn, Hg.
    unfold walk_next. cbn [w_current]. rewrite Hv. cbn [w_next w_pending negb orb]. rewrite IH.
    destruct (walk dbg k get _). reflexivity.
Qed.

Lemma later_reported c p m sz segs : forall l, l = Elsewhere \/ segs <> [] ->
  reported l (later_segments c p m sz segs) = (later_segments c p m sz segs, false)
  /\ after l (later_segments c p m sz segs) = Elsewhere.
Proof.
  induction segs as [|s segs IH]; intros l H.
  - destruct H as [->|]; [split; reflexivity|congruence].
  - destruct segs as [|s2 segs].
    + split; reflexivity.
    + destruct (IH Elsewhere (or_introl eq_refl)) as [E1 E2].
      change (later_segments c p m sz (s :: s2 :: segs))
        with (OFile s false false c p m sz :: later_segments c p m sz (s2 :: segs)).
      cbn [reported after]. rewrite E1, E2. split; reflexivity.
Qed.

Lemma become_ok k l ie T extra c name m : inv ie (T ++ extra) l -> step_name name ->
  become dbg k ie c name (S (length (T ++ [name]))) m
  = Some (mk_inner c k (join (T ++ [name])) m (S (length (T ++ [name])))).
Proof.
  intros (Hp & Hd & Hs & Hk) Hn. unfold become. rewrite Hp, Hd, (set_path_join dbg T extra name Hs Hn).
  pose proof (kind_no_visit _ _ _ Hk) as Hv.
  destruct (e_kind ie) as [| | | | |[v|] sz|]; try reflexivity. exfalso. eapply Hv; reflexivity.
Qed.

Definition below (path : list bytes) : Prop := exists q, path = R ++ q.

Definition P_entry (top : bool) (path : list bytes) (c : cid) (os : list walked) : Prop :=
  top = false -> forall T name, path = T ++ [name] -> below T -> step_name name ->
  forall l ie extra rest, inv ie (T ++ extra) l ->
  runs path l ie ((c, name, S (length path)) :: rest) rest os.
Definition P_links (path : list bytes) (ls : list pblink) (os : list walked) : Prop :=
  below path -> forall i, exists items,
  convert_all (convert_link (S (S (length path)))) i ls = Ok items /\
  forall l ie extra rest, inv ie (path ++ extra) l -> runs path l ie (items ++ rest) rest os.
Definition P_shard (path : list bytes) (ls : list pblink) (os : list walked) : Prop :=
  below path -> forall i, exists items,
  convert_all (convert_sharded_link (S (S (length path))) (S (length path))) i ls = Ok items /\
  forall l ie extra rest, inv ie (path ++ extra) l -> runs path l ie (items ++ rest) rest os.

Lemma inv_new c k p m l T name extra ie l0 :
  inv ie (T ++ extra) l0 -> step_name name -> p = T ++ [name] ->
  kind_ok l (mk_inner c k (join p) m (S (length p))) p ->
  inv (mk_inner c k (join p) m (S (length p))) (p ++ []) l.
Proof.
  intros (_ & _ & Hs & _) Hn -> Hk. rewrite app_nil_r. split; [reflexivity|]. split; [reflexivity|].
  split; [|exact Hk]. apply Forall_app in Hs as [Hs _]. apply Forall_app. auto.
Qed.

Lemma next_other ie c name d rest blk f : (forall v sz, e_kind ie <> KFile (Some v) sz) ->
  flat_parse blk = inl f ->
  walk_next dbg (st ie ((c, name, d) :: rest)) blk
  = match u_type (f_data f) with
    | TDirectory =>
        if check_directory_supported (f_data f) then
          match convert_all (convert_link (S d)) 0 (f_links f) with
          | Err e => Err e
          | Panic => Panic
          | Ok items =>
              match become dbg KDirectory ie c name d (meta_of (f_data f)) with
              | None => Panic
              | Some ie => Ok (st ie (items ++ rest), ODirectory (e_cid ie) (e_path ie) (e_meta ie))
              end
          end
        else Err WUnsupportedDirectory
    | THAMTShard =>
        if check_supported (f_data f) then
          match convert_all (convert_sharded_link (S d) d) 0 (f_links f) with
          | Err e => Err e
          | Panic => Panic
          | Ok items =>
              match name with
              | [] => match as_bucket ie c [] d with
                      | None => Panic
                      | Some ie => Ok (st ie (items ++ rest), OBucket (e_cid ie) (e_path ie))
                      end
              | _ => match become dbg KRootBucket ie c name d (meta_of (f_data f)) with
                     | None => Panic
                     | Some ie => Ok (st ie (items ++ rest), ORootDirectory (e_cid ie) (e_path ie) (e_meta ie))
                     end
              end
          end
        else Err WUnsupportedShard
    | TRaw | TFile =>
        match visit_start None blk with
        | Err e => file_err e
        | Panic => Panic
        | Ok (bs, size, fm, step) =>
            match become dbg (KFile step size) ie c name d fm with
            | None => Panic
            | Some ie =>
                let continues := match step with Some _ => true | None => false end in
                Ok (mk_walker (Some ie) (hd_error rest) (tl rest)
                      (continues || match rest with [] => false | _ => true end),
                    OFile bs true (negb continues) (e_cid ie) (e_path ie) (e_meta ie) size)
            end
        end
    | TMetadata => Err (WUnsupportedType TMetadata)
    | TSymlink =>
        match become dbg KSymlink ie c name d (meta_of (f_data f)) with
        | None => Panic
        | Some ie => Ok (st ie rest, OSymlink (match u_data (f_data f) with Some x => x | None => [] end)
                                       (e_cid ie) (e_path ie) (e_meta ie))
        end
    end.
Proof.
  intros Hk Hf. unfold walk_next, st at 1. cbn [w_current w_next w_pending hd_error tl].
  destruct ie as [ec ek ep em ed]. cbn [e_kind] in Hk.
  destruct ek as [| | | | |[v|] sz|]; try (exfalso; eapply Hk; reflexivity);
    rewrite Hf; destruct (u_type (f_data f)); try reflexivity;
    destruct name; reflexivity.
Qed.

Lemma walk_st ie i todo k b : (forall v sz, e_kind ie <> KFile (Some v) sz) -> get (fst (fst i)) = Some b ->
  walk dbg (S k) get (st ie (i :: todo))
  = match walk_next dbg (st ie (i :: todo)) b with
    | Err e => ([], Failed e)
    | Panic => ([], Panicked)
    | Ok (w', o) => let (os, e) := walk dbg k get w' in (o :: os, e)
    end.
Proof.
  intros Hk Hg. cbn [walk]. change (w_continue (st ie (i :: todo))) with true. cbn [walk].
  replace (first_pending (st ie (i :: todo))) with (Some (fst (fst i))); [rewrite Hg; reflexivity|].
  unfold first_pending, st; cbn [w_current w_next hd_error option_map].
  destruct ie as [ec ek ep em ed]. cbn [e_kind] in Hk. destruct ek as [| | | | |[v|] sz|]; try reflexivity. exfalso. eapply Hk; reflexivity.
Qed.

Lemma walk_tree_ok :
  (forall top path c os, entry_at get top path c os -> P_entry top path c os)
  /\ (forall path ls os, links_at get path ls os -> P_links path ls os)
  /\ (forall path ls os, shard_at get path ls os -> P_shard path ls os).
Proof.
  apply walk_ind.
  - (* directory *)
    intros top path c b f os Hg Hf Ht Hc _ IH -> T name -> HT Hn l ie extra rest Hi.
    assert (HP : below (T ++ [name])) by (destruct HT as [q ->]; exists (q ++ [name]); rewrite app_assoc; reflexivity).
    destruct (IH HP 0%nat) as (items & Ei & Hr).
    eapply runs_step with (todo' := items ++ rest); [exact Hg|eapply kind_no_visit; apply Hi| |reflexivity|].
    + rewrite (next_other _ _ _ _ _ b f) by (try eapply kind_no_visit; try apply Hi; exact Hf).
      rewrite Ht, Hc, Ei, (become_ok _ _ _ _ _ _ _ _ Hi Hn). reflexivity.
    + cbn [after]. eapply Hr. eapply inv_new; [exact Hi|exact Hn|reflexivity|]. right. reflexivity.
  - (* sharded directory *)
    intros top path c b f os Hg Hf Ht Hc _ IH -> T name -> HT Hn l ie extra rest Hi.
    assert (HP : below (T ++ [name])) by (destruct HT as [q ->]; exists (q ++ [name]); rewrite app_assoc; reflexivity).
    destruct (IH HP 0%nat) as (items & Ei & Hr).
    eapply runs_step with (todo' := items ++ rest); [exact Hg|eapply kind_no_visit; apply Hi| |reflexivity|].
    + rewrite (next_other _ _ _ _ _ b f) by (try eapply kind_no_visit; try apply Hi; exact Hf).
      rewrite Ht, Hc, Ei. destruct name as [|x n]; [destruct Hn; congruence|].
      rewrite (become_ok _ _ _ _ _ _ _ _ Hi Hn). reflexivity.
    + cbn [after]. eapply Hr. eapply inv_new; [exact Hi|exact Hn|reflexivity|]. left. reflexivity.
  - (* file of one block *)
    intros top path c b f content size m Hg Hf Ht Hv -> T name -> HT Hn l ie extra rest Hi.
    eapply runs_step with (todo' := rest); [exact Hg|eapply kind_no_visit; apply Hi| |reflexivity|].
    + rewrite (next_other _ _ _ _ _ b f) by (try eapply kind_no_visit; try apply Hi; exact Hf).
      rewrite Hv, (become_ok _ _ _ _ _ _ _ _ Hi Hn). destruct Ht as [-> | ->]; reflexivity.
    + cbn [after]. eapply runs_nil. eapply inv_new; [exact Hi|exact Hn|reflexivity|]. right; right; right. exists size. reflexivity.
  - (* file of several blocks *)
    intros top path c b f content size m v segs Hg Hf Ht Hv Hs -> T name -> HT Hn l ie extra rest Hi.
    set (path := T ++ [name]). unfold runs. cbn [reported after].
    destruct (later_reported c (join path) m size segs Elsewhere (or_introl eq_refl)) as [E1 E2]. rewrite E1, E2.
    exists (mk_inner c (KFile None size) (join path) m (S (length path))), []. split.
    + eapply inv_new; [exact Hi|exact Hn|reflexivity|]. right; right; right. exists size. reflexivity.
    + intros k. cbn [length plus walk]. change (w_continue (st ie ((c, name, S (length path)) :: rest))) with true. cbn [walk].
      replace (first_pending (st ie ((c, name, S (length path)) :: rest))) with (Some c).
      * rewrite Hg. rewrite (next_other _ _ _ _ _ b f) by (try eapply kind_no_visit; try apply Hi; exact Hf).
        pose proof (become_ok (KFile (Some v) size) _ _ _ _ c _ m Hi Hn) as EB. fold path in EB. rewrite Hv.
        assert (W := later_walk v segs c (join path) m size (S (length path)) rest Hs k).
        destruct Ht as [-> | ->]; rewrite EB; cbn [orb negb e_cid e_path e_meta];
          (etransitivity; [exact (f_equal (fun x : list walked * walk_end => let (os, e) := x in
             (OFile content true false c (join path) m size :: os, e)) W)|]);
          cbn beta; destruct (walk dbg k get _); reflexivity.
      * unfold first_pending, st; cbn [w_current w_next hd_error option_map].
        destruct Hi as (_ & _ & _ & Hk). pose proof (kind_no_visit _ _ _ Hk) as Hv'.
        destruct ie as [ec ek ep em ed]. cbn [e_kind] in Hv'.
        destruct ek as [| | | | |[v'|] sz|]; try reflexivity. exfalso. eapply Hv'; reflexivity.
  - (* symlink *)
    intros top path c b f Hg Hf Ht -> T name -> HT Hn l ie extra rest Hi.
    eapply runs_step with (todo' := rest); [exact Hg|eapply kind_no_visit; apply Hi| |reflexivity|].
    + rewrite (next_other _ _ _ _ _ b f) by (try eapply kind_no_visit; try apply Hi; exact Hf).
      rewrite Ht, (become_ok _ _ _ _ _ _ _ _ Hi Hn). reflexivity.
    + cbn [after]. eapply runs_nil. eapply inv_new; [exact Hi|exact Hn|reflexivity|]. right; right; left. reflexivity.
  - (* no links *)
    intros path HB i. exists []. split; [reflexivity|]. intros l ie extra rest Hi. eapply runs_nil. exact Hi.
  - (* a link *)
    intros path l ls c os os' Hc Hn _ IHe _ IHl HB i.
    destruct (IHl HB (S i)) as (items & Ei & Hr).
    exists ((c, link_name l, S (S (length path))) :: items). split.
    + cbn [convert_all]. rewrite Ei. unfold convert_link. rewrite Hc. destruct Hn as (H1 & H2 & _).
      destruct (link_name l) as [|x n] eqn:En; [congruence|]. rewrite (has_slash_plain _ H2). reflexivity.
    + intros l0 ie extra rest Hi. cbn [app].
      assert (EL : S (S (length path)) = S (length (path ++ [link_name l]))) by (rewrite app_length, Nat.add_1_r; reflexivity).
      rewrite EL. eapply runs_app with (b := items ++ rest).
      * apply runs_up with (x := [link_name l]). eapply IHe; [reflexivity|reflexivity|exact HB|exact Hn|exact Hi].
      * intros ie' extra' Hi'. eapply Hr. exact Hi'.
  - (* no shard links *)
    intros path HB i. exists []. split; [reflexivity|]. intros l ie extra rest Hi. eapply runs_nil. exact Hi.
  - (* a shard entry *)
    intros path l ls c a b n os os' Hc En Hn Hco _ IHe _ IHl HB i.
    destruct (IHl HB (S i)) as (items & Ei & Hr).
    exists ((c, n, S (S (length path))) :: items). split.
    + cbn [convert_all]. rewrite Ei. unfold convert_sharded_link. rewrite Hc, En. pose proof Hn as (H1 & H2 & _).
      destruct n as [|x n]; [congruence|]. rewrite (Hco x n eq_refl), (has_slash_plain _ H2). reflexivity.
    + intros l0 ie extra rest Hi. cbn [app].
      assert (EL : S (S (length path)) = S (length (path ++ [n]))) by (rewrite app_length, Nat.add_1_r; reflexivity).
      rewrite EL. eapply runs_app with (b := items ++ rest).
      * apply runs_up with (x := [n]). eapply IHe; [reflexivity|reflexivity|exact HB|exact Hn|exact Hi].
      * intros ie' extra' Hi'. eapply Hr. exact Hi'.
  - (* a bucket *)
    intros path l ls c a b blk f os os' Hc En Hg Hf Ht Hsup _ IHb _ IHl HB i.
    destruct (IHl HB (S i)) as (items & Ei & Hr).
    destruct (IHb HB 0%nat) as (bitems & Ebi & Hbr).
    exists ((c, [], S (length path)) :: items). split.
    + cbn [convert_all]. rewrite Ei. unfold convert_sharded_link. rewrite Hc, En. reflexivity.
    + intros l0 ie extra rest Hi. cbn [app]. change (OBucket c (join path) :: os ++ os') with ((OBucket c (join path) :: os) ++ os').
      eapply runs_app with (b := items ++ rest).
      * assert (Hnx : walk_next dbg (st ie ((c, [], S (length path)) :: items ++ rest)) blk
                   = match as_bucket ie c [] (S (length path)) with
                     | None => Panic
                     | Some ie => Ok (st ie (bitems ++ items ++ rest), OBucket (e_cid ie) (e_path ie))
                     end).
        { rewrite (next_other _ _ _ _ _ blk f) by (try eapply kind_no_visit; try apply Hi; exact Hf).
          rewrite Ht, Hsup, Ebi. reflexivity. }
        pose proof Hi as (Hp & Hd & Hs & Hk). destruct l0 as [rc| |]; cbn [kind_ok] in Hk.
        -- (* at the root *)
           destruct Hk as (Ek & Erc & ER).
           assert (extra = []).
           { destruct HB as [q ->]. rewrite <- app_assoc in ER. rewrite <- (app_nil_r R) in ER at 2.
             apply app_inv_head in ER. apply app_eq_nil in ER as [_ ER]. exact ER. }
           subst extra. rewrite app_nil_r in *.
           assert (EB : as_bucket ie c [] (S (length path)) = Some ie).
           { unfold as_bucket. rewrite Ek, Hd, Nat.eqb_refl. reflexivity. }
           rewrite EB in Hnx. eapply runs_step with (todo' := bitems ++ items ++ rest); [exact Hg|eapply kind_no_visit; apply Hi|exact Hnx| |].
           ++ cbn [reported]. rewrite Erc, Hp. reflexivity.
           ++ cbn [after]. eapply (Hbr _ _ []). rewrite app_nil_r. exact Hi.
        -- (* after a directory *)
           unfold runs. cbn [reported]. intros k. cbn [length plus].
           rewrite (walk_st ie _ _ _ blk); [|eapply kind_no_visit; apply Hi|exact Hg].
           match goal with |- context [walk_next dbg ?w ?x] => replace (walk_next dbg w x) with (@Panic (walker * walked) walk_err) end; [reflexivity|]. symmetry. etransitivity; [exact Hnx|]. unfold as_bucket. destruct Hk as [-> | ->]; reflexivity.
        -- assert (EB : as_bucket ie c [] (S (length path)) = Some (mk_inner c KBucket (join path) (e_meta ie) (S (length path)))).
           { unfold as_bucket. rewrite Hp, Hd, (pop_above_join path extra Hs), Nat.eqb_refl.
             destruct Hk as [->|[->|[->|[sz ->]]]]; reflexivity. }
           rewrite EB in Hnx. eapply runs_step with (todo' := bitems ++ items ++ rest); [exact Hg|eapply kind_no_visit; apply Hi|exact Hnx|reflexivity|].
           cbn [after]. eapply (Hbr _ _ []). rewrite app_nil_r. split; [reflexivity|]. split; [reflexivity|]. split.
           ++ apply Forall_app in Hs as [Hs _]. exact Hs.
           ++ right; left. reflexivity.
      * intros ie' extra' Hi'. eapply Hr. exact Hi'.
Qed.
End Run.

(** ** The whole walk *)
Lemma entry_head get top path c os : entry_at get top path c os -> exists o r, os = o :: r /\ ~ starts_with_bucket os.
Proof. destruct 1; eexists; eexists; (split; [reflexivity|]); cbn; auto. destruct top; auto. Qed.
Lemma links_head get path ls os : links_at get path ls os -> ~ starts_with_bucket os.
Proof.
  destruct 1 as [path|path l ls c os os' _ _ He _]; [cbn; auto|].
  destruct (entry_head _ _ _ _ _ He) as (o & r & -> & Hs). exact Hs.
Qed.
Lemma reported_no_bucket l l' os : ~ starts_with_bucket os -> reported l os = reported l' os.
Proof. destruct os as [|o os]; [reflexivity|]. destruct o; cbn; tauto || reflexivity. Qed.

Lemma join_root n : join (root_path n) = n.
Proof. destruct n; reflexivity. Qed.
Lemma push_root n : (n = [] \/ step_name n) -> push [] n = join (root_path n).
Proof.
  intros [->|H]; [reflexivity|]. rewrite join_root. change [] with (join []) at 1. rewrite push_join; [reflexivity|constructor|exact H].
Qed.
Lemma root_steps n : (n = [] \/ step_name n) -> Forall step_name (root_path n).
Proof. intros [->|H]; [constructor|]. destruct n; [constructor|]. cbn. constructor; [exact H|constructor]. Qed.

Lemma walk_cons (o : walked) (x y : list walked * walk_end) :
  x = y -> (let (os, e) := x in (o :: os, e)) = (let (os, e) := y in (o :: os, e)).
Proof. intros ->. reflexivity. Qed.

Lemma walk_top dbg get c name os k :
  name = [] \/ step_name name -> entry_at get true (root_path name) c os ->
  walk dbg (length os + k) get (walker_new c name)
  = (fst (walk_report os), if snd (walk_report os) then Panicked else Done).
Proof.
  intros Hn He. set (R := root_path name) in *.
  assert (HR : below R R) by (exists []; rewrite app_nil_r; reflexivity).
  assert (HS := root_steps name Hn). fold R in HS.
  assert (HP := push_root name Hn). fold R in HP.
  assert (HD : (match name with [] => 1 | _ => 2 end)%nat = S (length R)) by (destruct name; reflexivity).
  destruct (walk_tree_ok dbg get R) as (_ & HL & HSh).
  inversion He; subst.
  - (* directory *)
    destruct (HL _ _ _ H3 HR 0%nat) as (items & Ei & Hr).
    cbn [length plus walk walker_new w_continue first_pending w_current w_next option_map fst]. rewrite H.
    unfold walk_next. cbn [w_current w_next w_pending walker_new]. rewrite H0, H1, H2, HD, Ei, app_nil_r.
    unfold enter, new_root; cbn [e_cid e_path e_meta]. rewrite HP.
    set (ie := mk_inner c KRootDirectory (join R) (meta_of (f_data f)) (S (length R))).
    assert (Hi : inv R ie (R ++ []) AfterDirectory).
    { rewrite app_nil_r. split; [reflexivity|]. split; [reflexivity|]. split; [exact HS|]. left. reflexivity. }
    specialize (Hr AfterDirectory ie [] [] Hi). rewrite app_nil_r in Hr.
    change (mk_walker (Some ie) (hd_error items) (tl items) match items with [] => false | _ => true end) with (st ie items).
    cbn [walk_report]. rewrite (reported_no_bucket (AtRoot c) AfterDirectory os0) by (eapply links_head; exact H3).
    unfold runs in Hr. destruct (reported AfterDirectory os0) as [o [|]]; cbn [fst snd].
    + etransitivity; [apply walk_cons; exact (Hr _)|]. reflexivity.
    + destruct Hr as (ie' & extra & _ & Hw). etransitivity; [apply walk_cons; exact (Hw _)|].
      destruct k; cbn [walk st w_continue]; rewrite app_nil_r; reflexivity.
  - (* sharded directory *)
    destruct (HSh _ _ _ H3 HR 0%nat) as (items & Ei & Hr).
    cbn [length plus walk walker_new w_continue first_pending w_current w_next option_map fst]. rewrite H.
    unfold walk_next. cbn [w_current w_next w_pending walker_new]. rewrite H0, H1, H2, HD, Ei, app_nil_r.
    unfold enter, new_root; cbn [e_cid e_path e_meta]. rewrite HP.
    set (ie := mk_inner c KBucketAtRoot (join R) (meta_of (f_data f)) (S (length R))).
    assert (Hi : inv R ie (R ++ []) (AtRoot c)).
    { rewrite app_nil_r. split; [reflexivity|]. split; [reflexivity|]. split; [exact HS|]. repeat split. }
    specialize (Hr (AtRoot c) ie [] [] Hi). rewrite app_nil_r in Hr.
    change (mk_walker (Some ie) (hd_error items) (tl items) match items with [] => false | _ => true end) with (st ie items).
    cbn [walk_report]. unfold runs in Hr. destruct (reported (AtRoot c) os0) as [o [|]]; cbn [fst snd].
    + etransitivity; [apply walk_cons; exact (Hr _)|]. reflexivity.
    + destruct Hr as (ie' & extra & _ & Hw). etransitivity; [apply walk_cons; exact (Hw _)|].
      destruct k; cbn [walk st w_continue]; rewrite app_nil_r; reflexivity.
  - cbn [length plus walk walker_new w_continue first_pending w_current w_next option_map fst]. rewrite H.
    unfold walk_next. cbn [w_current w_next w_pending walker_new]. rewrite H0.
    destruct H1 as [-> | ->]; rewrite H2; unfold enter, new_root; cbn [e_cid e_path e_meta hd_error tl negb orb]; rewrite HP;
      destruct k; reflexivity.
  - cbn [length plus walk walker_new w_continue first_pending w_current w_next option_map fst]. rewrite H.
    unfold walk_next. cbn [w_current w_next w_pending walker_new]. rewrite H0, HD.
    assert (W := later_walk dbg get v segs c (join R) m size (S (length R)) [] H3 k).
    destruct (later_reported c (join R) m size segs Elsewhere (or_introl eq_refl)) as [E1 E2].
    cbn [walk_report reported]. rewrite E1. cbn [fst snd].
    destruct H1 as [-> | ->]; rewrite H2; unfold enter, new_root; cbn [e_cid e_path e_meta hd_error tl negb orb]; rewrite HP;
      (etransitivity; [exact (f_equal (fun x : list walked * walk_end => let (os, e) := x in
             (OFile content true false c (join R) m size :: os, e)) W)|]);
      cbn beta; destruct k; cbn [walk st w_continue]; rewrite app_nil_r; reflexivity.
  - cbn [length plus walk walker_new w_continue first_pending w_current w_next option_map fst]. rewrite H.
    unfold walk_next. cbn [w_current w_next w_pending walker_new]. rewrite H0, H1.
    unfold enter, new_root; cbn [e_cid e_path e_meta hd_error tl]. rewrite HP. destruct k; reflexivity.
Qed.
