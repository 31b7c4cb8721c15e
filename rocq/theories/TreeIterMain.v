(** The iterator builds the expected list of nodes. *)
From Coq Require Import Permutation.
From Verif Require Import Base Wire WireProofs Cid CidProofs Pb PbProofs FileVisit BTree FMap IpfsPath PathSpec IpfsPathProofs
  TreeBuilder TreeSpec TreeBuilderProofs TreeIter TreeIterSpec TreeIterProofs.
Local Open Scope N_scope.

Section Main.
Variable sha : bytes -> bytes.
Hypothesis sha_wf : forall b, wf_cid (CidV0 (sha b)).
Variable wrap : bool.
Variable limit : option N.
Notation visit := (visit sha wrap limit).

Inductive reach : iter -> list out -> iter -> Prop :=
| reach_refl it : reach it [] it
| reach_cont it v p it' l it'' : it_pending it = v :: p -> visit v p it = Continue it' -> reach it' l it'' -> reach it l it''
| reach_ret it v p o it' l it'' : it_pending it = v :: p -> visit v p it = Return o it' -> reach it' l it'' -> reach it (o :: l) it''.

Lemma reach_trans a l b l' c : reach a l b -> reach b l' c -> reach a (l ++ l') c.
Proof.
  intros H. induction H; intros Hc; [exact Hc| |].
  - eapply reach_cont; eauto.
  - cbn [app]. eapply reach_ret; eauto.
Qed.
Lemma reach_run it l it' : reach it l it' -> exists n, forall k, run sha (n + k) wrap limit it = (l ++ fst (run sha k wrap limit it'), snd (run sha k wrap limit it')).
Proof.
  intros H. induction H as [it|it v p it' l it'' E1 E2 H [n IH]|it v p o it' l it'' E1 E2 H [n IH]].
  - exists 0%nat. intros k. cbn. destruct (run sha k wrap limit it); reflexivity.
  - exists (S n). intros k. cbn [Nat.add run]. rewrite E1, E2. apply IH.
  - exists (S n). intros k. cbn [Nat.add run]. rewrite E1, E2, IH. reflexivity.
Qed.

(** * Limits *)
Definition fit1 (o : out) : bool :=
  match o with Node _ _ _ b => match limit with Some m => negb (m <? blen b) | None => true end | Failed _ => false end.
Definition fits (l : list out) : bool := forallb fit1 l.
Lemma cut_fits l : fits l = true -> cut limit l = l.
Proof.
  induction l as [|o l IH]; intros H; [reflexivity|]. cbn [fits forallb] in H. apply andb_true_iff in H as [H1 H2].
  destruct o as [p c s b|e]; [|discriminate]. cbn [cut fit1] in *. destruct limit as [m|]; [|rewrite IH by exact H2; reflexivity].
  destruct (m <? blen b); [discriminate|]. rewrite IH by exact H2. reflexivity.
Qed.
Lemma cut_app l1 l2 : cut limit (l1 ++ l2) = if fits l1 then l1 ++ cut limit l2 else cut limit l1.
Proof.
  induction l1 as [|o l IH]; [reflexivity|]. cbn [app fits forallb]. destruct o as [p c s b|e]; [|reflexivity].
  cbn [cut fit1]. destruct limit as [m|].
  - destruct (m <? blen b); cbn [negb andb]; [reflexivity|]. rewrite IH. fold (fits l). destruct (fits l); reflexivity.
  - cbn [andb]. rewrite IH. fold (fits l). destruct (fits l); reflexivity.
Qed.
Lemma fits_app l1 l2 : fits (l1 ++ l2) = fits l1 && fits l2.
Proof. unfold fits. apply forallb_app. Qed.

(** * Splitting the entries *)
Definition hole (e : bytes * tree) : option named_leaf :=
  match snd e with Leaf c s => Some (mk_named (fst e) c s) | Dir _ _ _ _ => None end.
Lemma part_leaves d i ns : snd (partition_children d i ns) = map hole ns.
Proof.
  revert i. induction ns as [|[k v] ns IH]; intros i; [reflexivity|]. cbn [partition_children].
  specialize (IH (S i)). destruct (partition_children d (S i) ns). destruct v; cbn [snd map] in *; rewrite IH; reflexivity.
Qed.
Definition kidsof (d i : nat) (ns : list (bytes * tree)) : list visited := fst (partition_children d i ns).
Lemma kids_cons d i k v ns : kidsof d i ((k, v) :: ns) =
  match v with Leaf _ _ => [] | Dir _ _ _ _ => [Descent v k (d + 1) i] end ++ kidsof d (S i) ns.
Proof. unfold kidsof. cbn [partition_children]. destruct (partition_children d (S i) ns). destruct v; reflexivity. Qed.
Lemma kids_app d i a b : kidsof d i (a ++ b) = kidsof d i a ++ kidsof d (i + length a) b.
Proof.
  revert i. induction a as [|[k v] a IH]; intros i; [cbn [app length]; rewrite Nat.add_0_r; reflexivity|].
  cbn [app]. rewrite !kids_cons, IH, <- app_assoc. cbn [length]. do 3 f_equal. lia.
Qed.
Lemma kids_none d i ns : kidsof d i ns = [] -> forall e, In e ns -> exists c s, snd e = Leaf c s.
Proof.
  revert i. induction ns as [|[k v] ns IH]; intros i H e; [intros []|]. rewrite kids_cons in H.
  destruct v as [c s|]; [|discriminate]. intros [<-|Hin]; [exists c, s; reflexivity|]. eapply IH; [exact H|exact Hin].
Qed.

Definition full (ns : list (bytes * tree)) : list named_leaf := map nl_of (entries sha ns).
Lemma full_app a b : full (a ++ b) = full a ++ full b.
Proof. unfold full, entries. rewrite !map_app. reflexivity. Qed.
Lemma hole_leaves ns : (forall e, In e ns -> exists c s, snd e = Leaf c s) -> map hole ns = map Some (full ns).
Proof.
  intros H. induction ns as [|[k v] ns IH]; [reflexivity|]. cbn [map full entries].
  destruct (H (k, v) (or_introl eq_refl)) as (c & s & E). cbn [snd] in E. subst v.
  rewrite IH by (intros e He; apply H; right; exact He). reflexivity.
Qed.

(** * Expected lists *)
Lemma post_dir Q m p i ns : post sha Q (Dir m p i ns) = post_entries sha Q ns ++ [node_at sha Q ns].
Proof.
  cbn [post]. f_equal. unfold post_entries. induction ns as [|[n t] ns IH]; [reflexivity|].
  cbn [map rev]. rewrite concat_app. cbn [concat]. rewrite app_nil_r, <- IH. reflexivity.
Qed.
Lemma post_entries_snoc Q ns k v : post_entries sha Q (ns ++ [(k, v)]) = post sha (Q ++ [k]) v ++ post_entries sha Q ns.
Proof. unfold post_entries. rewrite map_app, rev_app_distr. reflexivity. Qed.
Lemma post_entries_leaves Q ns : (forall e, In e ns -> exists c s, snd e = Leaf c s) -> post_entries sha Q ns = [].
Proof.
  intros H. induction ns as [|[k v] ns IH] using rev_ind; [reflexivity|]. rewrite post_entries_snoc.
  destruct (H (k, v)) as (c & s & E); [apply in_or_app; right; left; reflexivity|]. cbn [snd] in E. subst v. cbn [post app].
  apply IH. intros e He. apply H. apply in_or_app. left. exact He.
Qed.

Lemma links_wf_dir m p i ns : links_wf (Dir m p i ns) <-> forall e, In e ns -> links_wf (snd e).
Proof.
  cbn [links_wf]. induction ns as [|[n t] ns IH]; [split; [intros _ e []|auto]|]. rewrite IH. split.
  - intros [H1 H2] e [<-|He]; auto.
  - intros H. split; [apply (H (n, t)); left; reflexivity|]. intros e He. apply H. right. exact He.
Qed.
Lemma linked_wf t : links_wf t -> wf_cid (fst (linked sha t)).
Proof. destruct t as [c s|m p i ns]; cbn [linked fst]; [auto|]. intros _. apply sha_wf. Qed.
Lemma entries_wf ns : (forall e, In e ns -> links_wf (snd e)) -> Forall (fun e => wf_cid (fst (snd e))) (entries sha ns).
Proof.
  intros H. apply Forall_forall. intros e He. unfold entries in He. apply in_map_iff in He as (x & <- & Hx). cbn [fst snd].
  apply linked_wf. apply H. exact Hx.
Qed.

Lemma fill_ok a b x : fill (length a) x (a ++ None :: b) = Some (a ++ Some x :: b).
Proof. induction a as [|y a IH]; [reflexivity|]. cbn [length app fill]. rewrite IH. reflexivity. Qed.

(** * Paths below a directory *)
Definition okdir (Q : list bytes) (ns : list (bytes * tree)) : Prop := good Q /\ (ns = [] \/ Forall (fun x => x <> []) Q).
Lemma okdir_child Q k : Forall plain Q -> Forall (fun x => x <> []) Q -> plain k -> k <> [] -> good (Q ++ [k]) /\ Forall (fun x => x <> []) (Q ++ [k]).
Proof.
  intros H1 H2 H3 H4. assert (Forall (fun x => x <> []) (Q ++ [k])) by (apply Forall_app; auto). split; [|assumption].
  split; [apply Forall_app; auto|]. destruct (Q ++ [k]) as [|? [|? ?]]; auto.
Qed.

Definition above (Q P : list bytes) : Prop := (length Q <= length P)%nat /\ firstn (length Q) P = Q.
Lemma above_refl Q : above Q Q.
Proof. split; [lia|]. apply firstn_all. Qed.
Lemma above_snoc Q k : above Q (Q ++ [k]).
Proof. split; [rewrite app_length; lia|]. rewrite firstn_app, Nat.sub_diag, firstn_all, app_nil_r. reflexivity. Qed.
Lemma above_parent T x P : above (T ++ [x]) P -> above T P.
Proof.
  intros [H1 H2]. rewrite app_length in *. cbn [length] in *. split; [lia|].
  rewrite <- (firstn_all T) at 2. assert (E : firstn (length T) (T ++ [x]) = T) by (rewrite firstn_app, Nat.sub_diag, firstn_all, app_nil_r; reflexivity).
  rewrite firstn_all. rewrite <- E at 2. rewrite <- H2. rewrite firstn_firstn. f_equal. lia.
Qed.

Definition eqN := N.eqb_spec.

(** What building the directory at [T ++ [name]] does. *)
Definition descends (t : tree) : Prop := match t with Leaf _ _ => True | Dir m par id ns =>
  forall parent T name pending P buf M a b,
  par = Some parent -> wft (Some parent) t -> NoDup (ids t) -> ~ In parent (ids t) ->
  okdir (T ++ [name]) ns -> good P -> (length T = 0%nat \/ above T P) ->
  mget N.eqb parent M = Some (a ++ None :: b) -> links_wf t -> sizes_fit (post sha (T ++ [name]) t) ->
  let it := mk_iter (join P) (length P) buf (Descent t name (S (length T)) (length a) :: pending) M in
  let l := post sha (T ++ [name]) t in
  (fits l = true -> exists buf' M',
     reach it l (mk_iter (join (T ++ [name])) (S (length T)) buf' pending M') /\
     mget N.eqb parent M' = Some (a ++ Some (nl_of (name, linked sha t)) :: b) /\
     forall k, k <> parent -> ~ In k (ids t) -> mget N.eqb k M' = mget N.eqb k M) /\
  (fits l = false -> exists it', reach it (cut limit l) it') end.

(** The sub directories of [pre], from the last one. *)
Lemma kids_ok Q id : forall pre suf pending P buf M,
  (forall n t, In (n, t) pre -> descends t) ->
  (forall n t, In (n, t) pre -> wft (Some id) t /\ plain n /\ good (Q ++ [n]) /\ (nodes_of t = [] \/ Forall (fun x => x <> []) (Q ++ [n]))) ->
  NoDup (ids_in pre) -> ~ In id (ids_in pre) -> good P -> above Q P ->
  mget N.eqb id M = Some (map hole pre ++ map Some (full suf)) ->
  (forall e, In e pre -> links_wf (snd e)) -> sizes_fit (post_entries sha Q pre) ->
  let it := mk_iter (join P) (length P) buf (rev (kidsof (length Q) 0 pre) ++ pending) M in
  let l := post_entries sha Q pre in
  (fits l = true -> exists buf' P' M',
     reach it l (mk_iter (join P') (length P') buf' pending M') /\ good P' /\ above Q P' /\
     mget N.eqb id M' = Some (map Some (full pre ++ full suf)) /\
     (forall k, k <> id -> ~ In k (ids_in pre) -> mget N.eqb k M' = mget N.eqb k M)) /\
  (fits l = false -> exists it', reach it (cut limit l) it').
Proof.
  induction pre as [|[k v] pre IH] using rev_ind; intros suf pending P buf M Hd Hw Hnd Hid Hg Ha Hm Hl Hs it l.
  { subst it l. cbn. split; [|discriminate]. intros _. exists buf, P, M. split; [constructor|]. split; [exact Hg|]. split; [exact Ha|]. split; [exact Hm|auto]. }
  subst it l. rewrite post_entries_snoc in *.
  assert (Hd' : forall n t, In (n, t) pre -> descends t) by (intros n t H; eapply Hd; apply in_or_app; left; exact H).
  assert (Hw' := fun n t (H : In (n, t) pre) => Hw n t (in_or_app _ _ _ (or_introl H))).
  assert (Hl' := fun e (H : In e pre) => Hl e (in_or_app _ _ _ (or_introl H))).
  assert (Hids : ids_in (pre ++ [(k, v)]) = ids_in pre ++ ids v).
  { unfold ids_in. rewrite flat_map_app. cbn [flat_map snd]. rewrite app_nil_r. reflexivity. }
  rewrite Hids in *.
  assert (Hs1 : sizes_fit (post sha (Q ++ [k]) v)) by (intros p c s b Hin; apply (Hs p c s b); apply in_or_app; left; exact Hin).
  assert (Hs2 : sizes_fit (post_entries sha Q pre)) by (intros p c s b Hin; apply (Hs p c s b); apply in_or_app; right; exact Hin).
  assert (Hnd1 : NoDup (ids_in pre)) by (clear - Hnd; induction (ids_in pre); [constructor|]; inversion Hnd; subst; constructor; [intros X; apply H1; apply in_or_app; left; exact X|auto]).
  assert (Hnd2 : NoDup (ids v)) by (clear - Hnd; induction (ids_in pre); [exact Hnd|]; inversion Hnd; auto).
  assert (Hdis : forall x, In x (ids v) -> ~ In x (ids_in pre)).
  { clear - Hnd. intros x Hx Hp. induction (ids_in pre) as [|y r IH]; [destruct Hp|]. inversion Hnd; subst. destruct Hp as [->|Hp]; [|auto].
    apply H1. apply in_or_app. right. exact Hx. }
  assert (Hid1 : ~ In id (ids_in pre)) by (intros X; apply Hid; apply in_or_app; left; exact X).
  assert (Hid2 : ~ In id (ids v)) by (intros X; apply Hid; apply in_or_app; right; exact X).
  rewrite kids_app. cbn [Nat.add]. rewrite kids_cons. change (kidsof (length Q) (S (length pre)) []) with (@nil visited). rewrite app_nil_r.
  destruct v as [c s|m par i sub].
  - (* a link *)
    rewrite app_nil_r. cbn [post app].
    assert (Hm1 : mget N.eqb id M = Some (map hole pre ++ map Some (full ((k, Leaf c s) :: suf)))).
    { rewrite Hm, map_app, <- app_assoc. reflexivity. }
    specialize (IH ((k, Leaf c s) :: suf) pending P buf M Hd' Hw' Hnd1 Hid1 Hg Ha Hm1 Hl' Hs2).
    destruct IH as [IH1 IH2]. split; [|exact IH2]. intros Hf. destruct (IH1 Hf) as (buf' & P' & M' & R1 & R2 & R3 & R4 & R5).
    exists buf', P', M'. split; [exact R1|]. split; [exact R2|]. split; [exact R3|]. split.
    + rewrite R4. do 2 f_equal. rewrite full_app, <- app_assoc. reflexivity.
    + intros j Hj1 Hj2. apply R5; [exact Hj1|]. intros X. apply Hj2. apply in_or_app. left. exact X.
  - (* a directory *)
    rewrite rev_app_distr. cbn [rev app].
    assert (Hin : In (k, Dir m par i sub) (pre ++ [(k, Dir m par i sub)])) by (apply in_or_app; right; left; reflexivity).
    specialize (Hd _ _ Hin). destruct (Hw _ _ Hin) as (W1 & W2 & W3 & W4).
    assert (Hpar : par = Some id) by (inversion W1; reflexivity). subst par.
    assert (Hmv : mget N.eqb id M = Some (map hole pre ++ None :: map Some (full suf))).
    { rewrite Hm, map_app, <- app_assoc. reflexivity. }
    specialize (Hd id Q k (rev (kidsof (length Q) 0 pre) ++ pending) P buf M (map hole pre) (map Some (full suf)) eq_refl W1 Hnd2 Hid2
                   (conj W3 W4) Hg (or_intror Ha) Hmv (Hl _ Hin) Hs1).
    cbv zeta in Hd. rewrite map_length in Hd. rewrite Nat.add_1_r. destruct Hd as [D1 D2].
    rewrite cut_app, fits_app. destruct (fits (post sha (Q ++ [k]) (Dir m (Some id) i sub))) eqn:Ef; cbn [andb].
    + destruct (D1 eq_refl) as (buf1 & M1 & R1 & R2 & R3).
      assert (Hm1 : mget N.eqb id M1 = Some (map hole pre ++ map Some (full ((k, Dir m (Some id) i sub) :: suf)))).
      { rewrite R2. reflexivity. }
      specialize (IH ((k, Dir m (Some id) i sub) :: suf) pending (Q ++ [k]) buf1 M1 Hd' Hw' Hnd1 Hid1 W3 (above_snoc Q k) Hm1 Hl' Hs2).
      cbv zeta in IH. assert (El : length (Q ++ [k]) = S (length Q)) by (rewrite app_length; cbn; lia). rewrite El in IH.
      destruct IH as [IH1 IH2]. split.
      * intros Hf. destruct (IH1 Hf) as (buf' & P' & M' & S1 & S2 & S3 & S4 & S5).
        exists buf', P', M'. split; [eapply reach_trans; [exact R1|exact S1]|]. split; [exact S2|]. split; [exact S3|]. split.
        -- rewrite S4, full_app, <- app_assoc. reflexivity.
        -- intros j Hj1 Hj2. rewrite S5; [apply R3|..]; auto; intros X; apply Hj2; apply in_or_app; auto.
      * intros Hf. destruct (IH2 Hf) as [it' S1]. exists it'. eapply reach_trans; [exact R1|exact S1].
    + split; [discriminate|]. intros _. exact (D2 eq_refl).
Qed.

Lemma node_fit Q ns : fit1 (node_at sha Q ns) = match limit with Some m => negb (m <? blen (dir_block (entries sha ns))) | None => true end.
Proof. reflexivity. Qed.

Lemma post_step parent T name ns a b s P buf pending M stash :
  okdir (T ++ [name]) ns -> good P -> (length T = 0%nat \/ above T P) ->
  into_inner s M = Some (map Some (full ns), stash) -> mget N.eqb parent stash = Some (a ++ None :: b) ->
  (forall e, In e ns -> links_wf (snd e)) -> dir_total (entries sha ns) < u64_max1 ->
  visit (Post parent (S (length T)) name (length a) s) pending (mk_iter (join P) (length P) buf (Post parent (S (length T)) name (length a) s :: pending) M) =
  if fit1 (node_at sha (T ++ [name]) ns) then
    Return (node_at sha (T ++ [name]) ns)
           (mk_iter (join (T ++ [name])) (S (length T)) (dir_block (entries sha ns)) pending
                    (mset N.eqb parent (a ++ Some (nl_of (name, (dir_cid sha (entries sha ns), dir_total (entries sha ns)))) :: b) stash))
  else Return (Failed (TooLargeBlock (blen (dir_block (entries sha ns))))) (mk_iter (join (T ++ [name])) (S (length T)) buf pending stash).
Proof.
  intros [Hg _] HP Ha Hi Hm Hl Ht. unfold TreeIter.visit. cbn [it_path it_depth it_persisted it_buffer].
  rewrite update_ok by assumption. rewrite Hi. unfold full. rewrite render_ok by (try assumption; apply entries_wf; assumption).
  rewrite node_fit. destruct limit as [m|].
  - destruct (m <? blen (dir_block (entries sha ns))); cbn [negb]; [reflexivity|]. rewrite Hm, fill_ok. reflexivity.
  - rewrite Hm, fill_ok. reflexivity.
Qed.

Lemma dir_total_fit Q m p i ns : sizes_fit (post sha Q (Dir m p i ns)) -> dir_total (entries sha ns) < u64_max1.
Proof.
  intros H. rewrite post_dir in H. unfold node_at in H. eapply H. apply in_or_app. right. left. reflexivity.
Qed.

Lemma all_descend : forall t, descends t.
Proof.
  apply tree_ind2; [intros c s; exact Logic.I|].
  intros m par id ns IH parent T name pending P buf M a b Hpar Hw Hnd Hnp Hok Hg Ha Hm Hl Hs it l. subst par.
  assert (Hlens : length (T ++ [name]) = S (length T)) by (rewrite app_length; cbn; lia).
  pose proof (dir_total_fit _ _ _ _ _ Hs) as Htot.
  pose proof (proj1 (links_wf_dir m (Some parent) id ns) Hl) as Hl'.
  pose proof (wft_wfns _ _ _ _ _ Hw) as [_ [Hsort Hchild]].
  assert (Hv : visit (Descent (Dir m (Some parent) id ns) name (S (length T)) (length a)) pending it =
    match kidsof (S (length T)) 0 ns with
    | [] => Continue (mk_iter (join (T ++ [name])) (S (length T)) buf (Post parent (S (length T)) name (length a) (Direct (map hole ns)) :: pending) M)
    | _ => Continue (mk_iter (join (T ++ [name])) (S (length T)) buf (rev (kidsof (S (length T)) 0 ns) ++ Post parent (S (length T)) name (length a) (Stashed id) :: pending) (mset N.eqb id (map hole ns) M))
    end).
  { subst it. unfold TreeIter.visit. cbn [it_path it_depth it_persisted it_buffer]. rewrite update_ok by (try assumption; apply Hok).
    unfold kidsof. rewrite <- (part_leaves (S (length T)) 0 ns). destruct (partition_children (S (length T)) 0 ns) as [ch ls]. reflexivity. }
  assert (Hpe : l = post_entries sha (T ++ [name]) ns ++ [node_at sha (T ++ [name]) ns]) by (subst l; apply post_dir).
  assert (Habove : length T = 0%nat \/ above T (T ++ [name])) by (right; apply above_snoc).
  destruct (kidsof (S (length T)) 0 ns) as [|k0 kr] eqn:Ek.
  - (* only links *)
    pose proof (kids_none _ _ _ Ek) as Hleaf. rewrite (post_entries_leaves _ _ Hleaf) in Hpe. cbn [app] in Hpe.
    pose proof (post_step parent T name ns a b (Direct (map hole ns)) (T ++ [name]) buf pending M M Hok (proj1 Hok) Habove
                  ltac:(cbn [into_inner]; rewrite (hole_leaves ns Hleaf); reflexivity) Hm Hl' Htot) as Hp.
    rewrite Hlens in Hp. rewrite Hpe. cbn [fits forallb]. rewrite andb_true_r.
    destruct (fit1 (node_at sha (T ++ [name]) ns)) eqn:Ef.
    + split; [|discriminate]. intros _. eexists _, _. split; [|split].
      * eapply reach_cont; [reflexivity|exact Hv|]. eapply reach_ret; [reflexivity|exact Hp|constructor].
      * rewrite (mget_mset N.eqb eqN). rewrite N.eqb_refl. reflexivity.
      * intros k Hk _. rewrite (mget_mset N.eqb eqN). destruct (eqN k parent); [congruence|reflexivity].
    + split; [discriminate|]. intros _. eexists.
      eapply reach_cont; [reflexivity|exact Hv|].
      replace (cut limit [node_at sha (T ++ [name]) ns]) with [Failed (TooLargeBlock (blen (dir_block (entries sha ns))))].
      * eapply reach_ret; [reflexivity|exact Hp|constructor].
      * clear - Ef. rewrite node_fit in Ef. unfold node_at. cbn [cut]. destruct limit as [m|]; [|discriminate].
        destruct (m <? blen (dir_block (entries sha ns))); [reflexivity|discriminate].
  - (* sub directories *)
    assert (Hne : ns <> []) by (intros ->; discriminate).
    assert (Hall : Forall (fun x => x <> []) (T ++ [name])) by (destruct Hok as [_ [?|?]]; [congruence|assumption]).
    assert (Hpl : Forall plain (T ++ [name])) by apply Hok.
    assert (HW : forall n t, In (n, t) ns -> wft (Some id) t /\ plain n /\ good ((T ++ [name]) ++ [n]) /\ (nodes_of t = [] \/ Forall (fun x => x <> []) ((T ++ [name]) ++ [n]))).
    { intros n t Hin. destruct (Hchild n t Hin) as (C1 & C2 & C3). assert (n <> []) by (intros ->; destruct (C3 eq_refl); discriminate).
      destruct (okdir_child (T ++ [name]) n Hpl Hall C2 H). auto. }
    cbn [ids] in Hnd, Hnp. fold (ids_in ns) in Hnd, Hnp. inversion Hnd as [|? ? Hid Hnds]; subst.
    assert (Hsp : sizes_fit (post_entries sha (T ++ [name]) ns)).
    { intros p c s bb Hin. apply (Hs p c s bb). fold l. rewrite Hpe. apply in_or_app. left. exact Hin. }
    pose proof (kids_ok (T ++ [name]) id ns [] (Post parent (S (length T)) name (length a) (Stashed id) :: pending) (T ++ [name]) buf (mset N.eqb id (map hole ns) M)
                  IH HW Hnds Hid (proj1 Hok) (above_refl _)
                  ltac:(rewrite (mget_mset N.eqb eqN), N.eqb_refl; cbn; rewrite app_nil_r; reflexivity) Hl' Hsp) as HK.
    cbv zeta in HK. rewrite Hlens, Ek in HK. rewrite Hpe, fits_app, cut_app. destruct HK as [K1 K2].
    destruct (fits (post_entries sha (T ++ [name]) ns)) eqn:Ef1; cbn [andb].
    + destruct (K1 eq_refl) as (buf' & P' & M' & R1 & R2 & R3 & R4 & R5). cbn [full entries map] in R4. rewrite app_nil_r in R4.
      assert (Hinner : into_inner (Stashed id) M' = Some (map Some (full ns), mdel N.eqb id M')) by (cbn [into_inner]; rewrite R4; reflexivity).
      assert (Hpm : mget N.eqb parent (mdel N.eqb id M') = Some (a ++ None :: b)).
      { rewrite (mget_mdel N.eqb eqN). destruct (eqN parent id) as [E|_]; [exfalso; apply Hnp; left; congruence|].
        rewrite R5; [rewrite (mget_mset N.eqb eqN); destruct (eqN parent id) as [E|_]; [exfalso; apply Hnp; left; congruence|exact Hm]|..].
        - intros E. apply Hnp. left. congruence.
        - intros X. apply Hnp. right. exact X. }
      pose proof (post_step parent T name ns a b (Stashed id) P' buf' pending M' _ Hok R2 (or_intror (above_parent _ _ _ R3)) Hinner Hpm Hl' Htot) as Hp.
      cbn [fits forallb]. rewrite andb_true_r. destruct (fit1 (node_at sha (T ++ [name]) ns)) eqn:Ef.
      * split; [|discriminate]. intros _. eexists _, _. split; [|split].
        -- eapply reach_cont; [reflexivity|exact Hv|]. eapply reach_trans; [exact R1|]. eapply reach_ret; [reflexivity|exact Hp|constructor].
        -- rewrite (mget_mset N.eqb eqN). rewrite N.eqb_refl. reflexivity.
        -- intros k Hk1 Hk2. cbn [ids] in Hk2. fold (ids_in ns) in Hk2. rewrite (mget_mset N.eqb eqN). destruct (eqN k parent); [congruence|].
           rewrite (mget_mdel N.eqb eqN). destruct (eqN k id) as [E|E]; [exfalso; apply Hk2; left; congruence|].
           rewrite R5; [|assumption|intros X; apply Hk2; right; exact X]. rewrite (mget_mset N.eqb eqN). destruct (eqN k id); [congruence|reflexivity].
      * split; [discriminate|]. intros _. eexists.
        eapply reach_cont; [reflexivity|exact Hv|]. eapply reach_trans; [exact R1|].
        replace (cut limit [node_at sha (T ++ [name]) ns]) with [Failed (TooLargeBlock (blen (dir_block (entries sha ns))))].
        -- eapply reach_ret; [reflexivity|exact Hp|constructor].
        -- clear - Ef. rewrite node_fit in Ef. unfold node_at. cbn [cut]. destruct limit as [m|]; [|discriminate].
           destruct (m <? blen (dir_block (entries sha ns))); [reflexivity|discriminate].
    + split; [discriminate|]. intros _. destruct (K2 eq_refl) as [it' R]. exists it'. eapply reach_cont; [reflexivity|exact Hv|exact R].
Qed.

(** * The root *)
Lemma root_post_step m p i ns s P buf M stash :
  into_inner s M = Some (map Some (full ns), stash) ->
  (forall e, In e ns -> links_wf (snd e)) -> (wrap = true -> dir_total (entries sha ns) < u64_max1) ->
  links_wf (Dir m p i ns) ->
  exists it', it_pending it' = [] /\
  let r := visit (PostRoot s) [] (mk_iter (join P) (length P) buf [PostRoot s] M) in
  (wrap = true -> r = if fit1 (node_at sha [] ns) then Return (node_at sha [] ns) it' else Return (Failed (TooLargeBlock (blen (dir_block (entries sha ns))))) it') /\
  (wrap = false -> r = Break it').
Proof.
  intros Hi Hl Ht _. cbv zeta. unfold TreeIter.visit. cbn [it_path it_depth it_persisted it_buffer]. rewrite update_root, Hi.
  destruct wrap; cbn [negb]; [|eexists; split; [|split; [discriminate|reflexivity]]; reflexivity].
  unfold full. rewrite render_ok by (try (apply Ht; reflexivity); apply entries_wf; assumption).
  rewrite node_fit. destruct limit as [k|].
  - destruct (k <? blen (dir_block (entries sha ns))); cbn [negb]; eexists; (split; [|split; [intros _; reflexivity|discriminate]]); reflexivity.
  - eexists; split; [|split; [intros _; reflexivity|discriminate]]; reflexivity.
Qed.

Lemma root_reach m ns : wfns None 0 ns -> NoDup (0 :: ids_in ns) -> links_wf (Dir m None 0 ns) -> sizes_fit (all_nodes sha wrap (Dir m None 0 ns)) ->
  let it := new_iter (Dir m None 0 ns) in let l := all_nodes sha wrap (Dir m None 0 ns) in
  (fits l = true -> exists n, forall k, run sha (n + k) wrap limit it = (l, Some Finished)) /\
  (fits l = false -> exists it', reach it (cut limit l) it').
Proof.
  intros [Hsort Hchild] Hnd Hl Hs it l. subst it l. unfold all_nodes in *. cbn [nodes_of] in *.
  pose proof (proj1 (links_wf_dir m None 0 ns) Hl) as Hl'.
  assert (Htot : wrap = true -> dir_total (entries sha ns) < u64_max1).
  { intros Ew. apply (Hs [] (dir_cid sha (entries sha ns)) _ (dir_block (entries sha ns))). apply in_or_app. right. rewrite Ew. left. reflexivity. }
  assert (Hv : visit (DescentRoot (Dir m None 0 ns)) [] (new_iter (Dir m None 0 ns)) =
    match kidsof 0 0 ns with
    | [] => Continue (mk_iter [] 0 [] [PostRoot (Direct (map hole ns))] [])
    | _ => Continue (mk_iter [] 0 [] (rev (kidsof 0 0 ns) ++ [PostRoot (Stashed 0)]) (mset N.eqb 0 (map hole ns) []))
    end).
  { unfold TreeIter.visit. cbn [it_path it_depth it_persisted it_buffer new_iter]. change (update_full_path [] 0 None 0) with (Some (@nil N, 0%nat)).
    unfold kidsof. rewrite <- (part_leaves 0 0 ns). destruct (partition_children 0 0 ns) as [ch ls]. reflexivity. }
  (* what the last turn makes of it *)
  assert (Hend : forall s P buf M stash, into_inner s M = Some (map Some (full ns), stash) -> forall it1 l1,
     reach it1 l1 (mk_iter (join P) (length P) buf [PostRoot s] M) -> fits l1 = true ->
     (fits (l1 ++ (if wrap then [node_at sha [] ns] else [])) = true -> exists n, forall k, run sha (n + k) wrap limit it1 = (l1 ++ (if wrap then [node_at sha [] ns] else []), Some Finished)) /\
     (fits (l1 ++ (if wrap then [node_at sha [] ns] else [])) = false -> exists it', reach it1 (cut limit (l1 ++ (if wrap then [node_at sha [] ns] else []))) it')).
  { intros s P buf M stash Hi it1 l1 Hr Hf. destruct (root_post_step m None 0 ns s P buf M stash Hi Hl' Htot Hl) as (it2 & Hp2 & Hv2 & Hv3). cbv zeta in Hv2, Hv3.
    rewrite fits_app, cut_app, Hf. cbn [andb]. set (tail := if wrap then [node_at sha [] ns] else []).
    assert (Ew : (wrap = true /\ tail = [node_at sha [] ns]) \/ (wrap = false /\ tail = [])) by (subst tail; destruct wrap; auto).
    destruct Ew as [[Ew ->]|[Ew ->]].
    - specialize (Hv2 Ew). cbn [fits forallb]. rewrite andb_true_r. destruct (fit1 (node_at sha [] ns)) eqn:Ef.
      + split; [|discriminate]. intros _. assert (Hr2 : reach it1 (l1 ++ [node_at sha [] ns]) it2).
        { eapply reach_trans; [exact Hr|]. eapply reach_ret; [reflexivity|exact Hv2|constructor]. }
        destruct (reach_run _ _ _ Hr2) as [n Hn]. exists (n + 1)%nat. intros k. rewrite <- Nat.add_assoc, Hn. cbn [Nat.add run]. rewrite Hp2. cbn [fst snd]. rewrite app_nil_r. reflexivity.
      + split; [discriminate|]. intros _. exists it2. eapply reach_trans; [exact Hr|].
        replace (cut limit [node_at sha [] ns]) with [Failed (TooLargeBlock (blen (dir_block (entries sha ns))))].
        * eapply reach_ret; [reflexivity|exact Hv2|constructor].
        * clear - Ef. rewrite node_fit in Ef. unfold node_at. cbn [cut]. destruct limit as [k|]; [|discriminate].
          destruct (k <? blen (dir_block (entries sha ns))); [reflexivity|discriminate].
    - specialize (Hv3 Ew). cbn [fits forallb]. split; [|discriminate]. intros _. destruct (reach_run _ _ _ Hr) as [n Hn]. exists (n + 1)%nat. intros k.
      rewrite <- Nat.add_assoc, Hn. cbn [Nat.add run it_pending]. rewrite Hv3. cbn [fst snd]. rewrite app_nil_r. reflexivity. }
  assert (Hstep : forall it2, visit (DescentRoot (Dir m None 0 ns)) [] (new_iter (Dir m None 0 ns)) = Continue it2 -> forall l2 it3, reach it2 l2 it3 -> reach (new_iter (Dir m None 0 ns)) l2 it3).
  { intros it2 E l2 it3 H. eapply reach_cont; [reflexivity|exact E|exact H]. }
  destruct (kidsof 0 0 ns) as [|k0 kr] eqn:Ek.
  - pose proof (kids_none _ _ _ Ek) as Hleaf. rewrite (post_entries_leaves _ _ Hleaf).
    apply (Hend (Direct (map hole ns)) [] [] [] []); [cbn [into_inner]; rewrite (hole_leaves ns Hleaf); reflexivity| |reflexivity].
    eapply Hstep; [exact Hv|]. constructor.
  - inversion Hnd as [|? ? Hid Hnds]; subst.
    assert (HW : forall n t, In (n, t) ns -> wft (Some 0) t /\ plain n /\ good ([] ++ [n]) /\ (nodes_of t = [] \/ Forall (fun x => x <> []) ([] ++ [n]))).
    { intros n t Hin. destruct (Hchild n t Hin) as (C1 & C2 & C3). split; [exact C1|]. split; [exact C2|]. cbn [app].
      split; [split; [constructor; [exact C2|constructor]|exact Logic.I]|].
      destruct n as [|n0 nr]; [destruct (C3 eq_refl); left; assumption|right; repeat constructor; discriminate]. }
    assert (Hsp : sizes_fit (post_entries sha [] ns)) by (intros p c s bb Hin; apply (Hs p c s bb); apply in_or_app; left; exact Hin).
    assert (Hg0 : good []) by (split; [constructor|exact Logic.I]).
    pose proof (kids_ok [] 0 ns [] [PostRoot (Stashed 0)] [] [] (mset N.eqb 0 (map hole ns) []) (fun n t _ => all_descend t) HW Hnds Hid Hg0 (above_refl _)
                  ltac:(rewrite (mget_mset N.eqb eqN), N.eqb_refl; cbn; rewrite app_nil_r; reflexivity) Hl' Hsp) as HK.
    cbv zeta in HK. cbn [length] in HK. rewrite Ek in HK. destruct HK as [K1 K2].
    destruct (fits (post_entries sha [] ns)) eqn:Ef1.
    + destruct (K1 eq_refl) as (buf' & P' & M' & R1 & R2 & R3 & R4 & R5). cbn [full entries map] in R4. rewrite app_nil_r in R4.
      apply (Hend (Stashed 0) P' buf' M' (mdel N.eqb 0 M')); [cbn [into_inner]; rewrite R4; reflexivity| |exact Ef1].
      eapply Hstep; [exact Hv|exact R1].
    + rewrite fits_app, cut_app, Ef1. cbn [andb]. split; [discriminate|]. intros _. destruct (K2 eq_refl) as [it' R]. exists it'.
      eapply Hstep; [exact Hv|exact R].
Qed.
End Main.

Lemma fits_all limit l : (forall o, In o l -> exists p c s b, o = Node p c s b) -> fits limit l = true <-> all_fit limit l.
Proof.
  intros H. unfold fits. rewrite forallb_forall. unfold all_fit, fit1. destruct limit as [m|].
  - split.
    + intros F p c s b Hin. specialize (F _ Hin). cbn in F. destruct (N.ltb_spec m (blen b)); [discriminate|assumption].
    + intros F o Hin. destruct (H o Hin) as (p & c & s & b & ->). specialize (F p c s b Hin). destruct (N.ltb_spec m (blen b)); [lia|reflexivity].
  - split; [intros; exact Logic.I|]. intros _ o Hin. destruct (H o Hin) as (p & c & s & b & ->). reflexivity.
Qed.

Lemma post_nodes sha : forall t Q o, In o (post sha Q t) -> exists p c s b, o = Node p c s b.
Proof.
  apply (tree_ind2 (fun t => forall Q o, In o (post sha Q t) -> exists p c s b, o = Node p c s b)).
  - intros c s Q o [].
  - intros m p i ns IH Q o Hin. rewrite post_dir in Hin. apply in_app_or in Hin as [Hin|[<-|[]]]; [|unfold node_at; eauto].
    unfold post_entries in Hin. apply in_concat in Hin as (l & Hl & Ho). apply in_rev, in_map_iff in Hl as ([n t] & <- & He). eapply IH; eauto.
Qed.
Lemma all_nodes_nodes sha wrap t o : In o (all_nodes sha wrap t) -> exists p c s b, o = Node p c s b.
Proof.
  unfold all_nodes. intros Hin. apply in_app_or in Hin as [Hin|Hin].
  - unfold post_entries in Hin. apply in_concat in Hin as (l & Hl & Ho). apply in_rev, in_map_iff in Hl as ([n t'] & <- & He). eapply post_nodes; eauto.
  - destruct wrap; [|destruct Hin]. destruct Hin as [<-|[]]. unfold node_at. eauto.
Qed.

Lemma build_ok sha wrap limit h b : (forall x, wf_cid (CidV0 (sha x))) -> inv wrap limit h b -> links_wf (b_root b) ->
  sizes_fit (all_nodes sha wrap (b_root b)) ->
  (all_fit limit (all_nodes sha wrap (b_root b)) ->
     exists n, forall k, build sha (n + k) b = (all_nodes sha wrap (b_root b), Some Finished)) /\
  (~ all_fit limit (all_nodes sha wrap (b_root b)) ->
     exists n, forall k, exists rest, fst (build sha (n + k) b) = cut limit (all_nodes sha wrap (b_root b)) ++ rest).
Proof.
  intros Hsha (ns & Hb & Hw & _ & _ & Hnd & _) Hl Hs. rewrite Hb in *. cbn [b_root] in *. unfold build. cbn [b_wrap b_limit b_root].
  destruct (root_reach sha Hsha wrap limit meta0 ns Hw Hnd Hl Hs) as [R1 R2]. cbv zeta in R1, R2.
  pose proof (fits_all limit (all_nodes sha wrap (Dir meta0 None 0 ns)) (all_nodes_nodes _ _ _)) as Hf. split.
  - intros F. apply R1. apply Hf. exact F.
  - intros F. destruct (fits limit (all_nodes sha wrap (Dir meta0 None 0 ns))) eqn:E; [exfalso; apply F, Hf; reflexivity|].
    destruct (R2 eq_refl) as [it' R]. destruct (reach_run _ _ _ _ _ _ R) as [n Hn]. exists n. intros k. rewrite Hn. cbn [fst]. eauto.
Qed.
