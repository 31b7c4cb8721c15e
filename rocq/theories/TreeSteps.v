(** Every node an iterator gives out, however the iteration ends: its block is that of a directory
    whose entries are links of the tree or nodes given out before. *)
From Verif Require Import Base Wire WireProofs Cid CidProofs Pb PbProofs FileVisit BTree FMap IpfsPath PathSpec IpfsPathProofs
  TreeBuilder TreeSpec TreeBuilderProofs TreeIter TreeIterSpec TreeIterProofs TreeIterMain TreeOutSpec TreeSizes TreeOut.
Local Open Scope N_scope.

Section Steps.
Variable sha : bytes -> bytes.
Hypothesis sha_wf : forall b, wf_cid (CidV0 (sha b)).
Variable wrap : bool.
Variable limit : option N.
Variable ok : cid -> N -> Prop.
Hypothesis ok_wf : forall c s, ok c s -> wf_cid c.

(** All links of a tree are known. *)
Fixpoint leaves_ok (t : tree) : Prop :=
  match t with
  | Leaf c s => ok c s
  | Dir _ _ _ ns => (fix all (l : list (bytes * tree)) : Prop := match l with [] => True | (_, t) :: r => leaves_ok t /\ all r end) ns
  end.
Lemma leaves_ok_dir m p i ns : leaves_ok (Dir m p i ns) <-> forall e, In e ns -> leaves_ok (snd e).
Proof.
  cbn [leaves_ok]. induction ns as [|[n t] ns IH]; [split; [intros _ e []|auto]|]. rewrite IH. split.
  - intros [H1 H2] e [<-|He]; auto.
  - intros H. split; [apply (H (n, t)); left; reflexivity|]. intros e He. apply H. right. exact He.
Qed.

Definition known (em : list out) (c : cid) (s : N) : Prop := ok c s \/ exists p b, In (Node p c s b) em.
Definition cells_ok (em : list out) (ls : leaves) : Prop := forall x, In (Some x) ls -> wf_cid (nl_cid x) /\ known em (nl_cid x) (nl_size x).
Definition storage_ok (em : list out) (s : storage) : Prop := match s with Direct ls => cells_ok em ls | Stashed _ => True end.
Definition visited_ok (em : list out) (v : visited) : Prop :=
  match v with
  | DescentRoot t => leaves_ok t
  | Descent t _ _ _ => leaves_ok t
  | Post _ _ _ _ s => storage_ok em s
  | PostRoot s => storage_ok em s
  end.
Definition stash_ok (em : list out) (m : list (N * leaves)) : Prop := forall k ls, mget N.eqb k m = Some ls -> cells_ok em ls.
Definition iter_ok (em : list out) (it : iter) : Prop := (forall v, In v (it_pending it) -> visited_ok em v) /\ stash_ok em (it_persisted it).

Lemma known_more em o c s : known em c s -> known (em ++ [o]) c s.
Proof. intros [H|(p & b & H)]; [left; exact H|right; exists p, b; apply in_or_app; left; exact H]. Qed.
Lemma cells_more em o ls : cells_ok em ls -> cells_ok (em ++ [o]) ls.
Proof. intros H x Hx. destruct (H x Hx). split; [assumption|]. apply known_more. assumption. Qed.
Lemma visited_more em o v : visited_ok em v -> visited_ok (em ++ [o]) v.
Proof. destruct v as [t|t n d i|p d n i [ls|id]|[ls|id]]; cbn; auto; apply cells_more. Qed.
Lemma stash_more em o m : stash_ok em m -> stash_ok (em ++ [o]) m.
Proof. intros H k ls E. apply cells_more. exact (H k ls E). Qed.

Lemma part_ok em d ns : (forall e, In e ns -> leaves_ok (snd e)) -> forall i,
  (forall v, In v (fst (partition_children d i ns)) -> visited_ok em v) /\ cells_ok em (snd (partition_children d i ns)).
Proof.
  induction ns as [|[k v] ns IH]; intros H i; cbn [partition_children]; [split; [intros v []|intros x []]|].
  destruct (IH (fun e He => H e (or_intror He)) (S i)) as [I1 I2]. pose proof (H (k, v) (or_introl eq_refl)) as Hv. cbn [snd] in Hv.
  destruct (partition_children d (S i) ns) as [ch ls]. cbn [fst snd] in *. destruct v as [c s|m p j sub]; cbn [fst snd]; split; auto.
  - intros x [[= <-]|Hx]; [cbn [nl_cid nl_size]; split; [eapply ok_wf; exact Hv|left; exact Hv]|auto].
  - intros v [<-|Hi]; [exact Hv|auto].
  - intros x [[=]|Hx]; auto.
Qed.
Lemma mdel_ok em k m : stash_ok em m -> stash_ok em (mdel N.eqb k m).
Proof. intros H j ls E. rewrite (mget_mdel N.eqb N.eqb_spec) in E. destruct (j =? k); [discriminate|]. exact (H j ls E). Qed.
Lemma mset_ok em k ls m : cells_ok em ls -> stash_ok em m -> stash_ok em (mset N.eqb k ls m).
Proof. intros Hl H j ls' E. rewrite (mget_mset N.eqb N.eqb_spec) in E. destruct (j =? k); [injection E as <-; exact Hl|exact (H j ls' E)]. Qed.
Lemma inner_ok em s m ls m' : storage_ok em s -> stash_ok em m -> into_inner s m = Some (ls, m') -> cells_ok em ls /\ stash_ok em m'.
Proof.
  destruct s as [ls0|id]; cbn; intros H1 H2 E; [injection E as <- <-; auto|]. destruct (mget N.eqb id m) as [l|] eqn:Em; [|discriminate].
  injection E as <- <-. split; [exact (H2 _ _ Em)|apply mdel_ok; exact H2].
Qed.
Lemma fill_in i x : forall ls ls', fill i x ls = Some ls' -> forall y, In (Some y) ls' -> y = x \/ In (Some y) ls.
Proof.
  induction i as [|i IH]; intros [|[z|] ls] ls' E y Hy; cbn in E; try discriminate.
  - injection E as <-. destruct Hy as [[= <-]|Hy]; [left; reflexivity|right; right; exact Hy].
  - destruct (fill i x ls) as [r|] eqn:Ef; [|discriminate]. injection E as <-. destruct Hy as [Hy|Hy]; [right; left; exact Hy|].
    destruct (IH _ _ Ef y Hy); auto. right. right. assumption.
  - destruct (fill i x ls) as [r|] eqn:Ef; [|discriminate]. injection E as <-. destruct Hy as [Hy|Hy]; [discriminate|].
    destruct (IH _ _ Ef y Hy); auto. right. right. assumption.
Qed.

(** What a node given out after [em] is. *)
Definition node_ok (em : list out) (o : out) : Prop :=
  match o with
  | Failed _ => True
  | Node _ c s b => exists es, c = dir_cid sha es /\ s = dir_total es /\ b = dir_block es /\ dir_total es < 2 ^ 64 /\
      (forall m, limit = Some m -> blen b <= m) /\
      forall n c' s', In (n, (c', s')) es -> wf_cid c' /\ known em c' s'
  end.

Lemma unwrap_inv ls l : unwrap_all ls = Some l -> ls = map Some l.
Proof.
  revert l. induction ls as [|[x|] ls IH]; intros l E; cbn in E; [injection E as <-; reflexivity| |discriminate].
  destruct (unwrap_all ls) as [r|]; [|discriminate]. injection E as <-. rewrite (IH r eq_refl). reflexivity.
Qed.
Definition of_nl (x : named_leaf) : bytes * (cid * N) := (nl_name x, (nl_cid x, nl_size x)).
Lemma render_node em p ls buffer c t b : cells_ok em ls -> render_directory sha ls buffer limit = (Ok (c, t), b) -> node_ok em (Node p c t b).
Proof.
  intros Hc Hr. assert (E : exists l, unwrap_all ls = Some l) by (unfold render_directory in Hr; destruct (unwrap_all ls); [eauto|discriminate]).
  destruct E as [l El]. apply unwrap_inv in El. subst ls. set (es := map of_nl l).
  assert (Ee : map Some l = map Some (map nl_of es)) by (unfold es; rewrite !map_map; apply map_ext; intros [n c0 s0]; reflexivity).
  assert (Hw : Forall (fun e => wf_cid (fst (snd e))) es).
  { apply Forall_forall. intros e He. apply in_map_iff in He as (x & <- & Hx). apply (Hc x). apply in_map. exact Hx. }
  rewrite Ee in Hr. pose proof (render_fits sha sha_wf limit es buffer c t b Hw Hr) as Ht. rewrite (render_ok sha es buffer limit Hw Ht) in Hr.
  destruct (match limit with Some m => m <? blen (dir_block es) | None => false end) eqn:El; [discriminate|]. injection Hr as <- <- <-.
  exists es. split; [reflexivity|]. split; [reflexivity|]. split; [reflexivity|]. split; [exact Ht|]. split.
  - intros m ->. apply N.ltb_ge in El. exact El.
  - intros n c' s' Hin. apply in_map_iff in Hin as (x & [= <- <- <-] & Hx). apply (Hc x). apply in_map. exact Hx.
Qed.

Lemma visit_ok em v pending it : iter_ok em it -> it_pending it = v :: pending ->
  match visit sha wrap limit v pending it with
  | Continue it' => iter_ok em it'
  | Return o it' => node_ok em o /\ iter_ok (em ++ [o]) it'
  | Break _ | Panicked => True
  end.
Proof.
  intros [Hp Hs] E. rewrite E in Hp. pose proof (Hp v (or_introl eq_refl)) as Hv. assert (Hr : forall w, In w pending -> visited_ok em w) by (intros w Hw; apply Hp; right; exact Hw).
  clear Hp. unfold visit. set (nd := match v with DescentRoot _ => _ | _ => _ end). destruct nd as [name depth].
  destruct (update_full_path _ _ _ _) as [[path od]|]; [|exact Logic.I].
  destruct v as [[?|m p i ns]|[?|m [p|] i ns] n d ix|parent d n ix s|s]; try exact Logic.I.
  - pose proof (part_ok em depth ns (proj1 (leaves_ok_dir m p i ns) Hv) 0) as [P1 P2]. destruct (partition_children depth 0 ns) as [ch ls]. cbn [fst snd] in *.
    destruct ch as [|c0 ch]; split; cbn [it_pending it_persisted].
    + intros w [<-|Hw]; [exact P2|auto].
    + exact Hs.
    + intros w Hw. apply in_app_or in Hw as [Hw|[<-|Hw]]; [apply P1, in_rev; exact Hw|exact Logic.I|auto].
    + apply mset_ok; assumption.
  - pose proof (part_ok em d ns (proj1 (leaves_ok_dir m (Some p) i ns) Hv) 0) as [P1 P2]. destruct (partition_children d 0 ns) as [ch ls]. cbn [fst snd] in *.
    destruct ch as [|c0 ch]; split; cbn [it_pending it_persisted].
    + intros w [<-|Hw]; [exact P2|auto].
    + exact Hs.
    + intros w Hw. apply in_app_or in Hw as [Hw|[<-|Hw]]; [apply P1, in_rev; exact Hw|exact Logic.I|auto].
    + apply mset_ok; assumption.
  - destruct (into_inner s (it_persisted it)) as [[ls stash]|] eqn:Ei; [|exact Logic.I]. destruct (inner_ok _ _ _ _ _ Hv Hs Ei) as [Hl Hst].
    destruct (render_directory sha ls (it_buffer it) limit) as [[[c t]|e|] b] eqn:Er; [| |exact Logic.I].
    + pose proof (render_node em path ls _ c t b Hl Er) as Hn.
      destruct (mget N.eqb parent stash) as [above|] eqn:Ea; [|exact Logic.I]. destruct (fill ix _ above) as [above'|] eqn:Ef; [|exact Logic.I].
      split; [exact Hn|]. split; cbn [it_pending it_persisted]; [intros w Hw; apply visited_more; auto|].
      apply mset_ok; [|apply stash_more; exact Hst]. intros x Hx. destruct (fill_in _ _ _ _ Ef x Hx) as [->|Hx'].
      * cbn [nl_cid nl_size]. destruct Hn as (es & -> & -> & -> & _). split; [apply sha_wf|]. right. exists path, (dir_block es). apply in_or_app. right. left. reflexivity.
      * apply cells_more with (1 := Hst _ _ Ea). exact Hx'.
    + split; [exact Logic.I|]. split; cbn [it_pending it_persisted]; [intros w Hw; apply visited_more; auto|apply stash_more; exact Hst].
  - destruct (into_inner s (it_persisted it)) as [[ls stash]|] eqn:Ei; [|exact Logic.I]. destruct (inner_ok _ _ _ _ _ Hv Hs Ei) as [Hl Hst].
    destruct (negb wrap); [exact Logic.I|]. destruct (render_directory sha ls (it_buffer it) limit) as [[[c t]|e|] b] eqn:Er; [| |exact Logic.I].
    + split; [exact (render_node em path ls _ c t b Hl Er)|]. split; cbn [it_pending it_persisted]; [intros w Hw; apply visited_more; auto|apply stash_more; exact Hst].
    + split; [exact Logic.I|]. split; cbn [it_pending it_persisted]; [intros w Hw; apply visited_more; auto|apply stash_more; exact Hst].
Qed.

Lemma run_nodes fuel : forall em it l e, iter_ok em it -> run sha fuel wrap limit it = (l, e) ->
  forall l1 o l2, l = l1 ++ o :: l2 -> node_ok (em ++ l1) o.
Proof.
  induction fuel as [|fuel IH]; intros em it l e Hi E l1 o l2 El; cbn [run] in E; [injection E as <- _; destruct l1; discriminate|].
  destruct (it_pending it) as [|v p] eqn:Ep; [injection E as <- _; destruct l1; discriminate|].
  pose proof (visit_ok em v p it Hi Ep) as Hv. destruct (visit sha wrap limit v p it) as [it'|o' it'|it'|].
  - eapply IH; eassumption.
  - destruct Hv as [H1 H2]. destruct (run sha fuel wrap limit it') as [m x] eqn:Er. injection E as <- <-. destruct l1 as [|a l1]; cbn [app] in El; injection El as E1 E2; subst.
    + rewrite app_nil_r. exact H1.
    + replace (em ++ a :: l1) with ((em ++ [a]) ++ l1) by (rewrite <- app_assoc; reflexivity). eapply IH; eauto.
  - injection E as <- _; destruct l1; discriminate.
  - injection E as <- _; destruct l1; discriminate.
Qed.

Lemma build_nodes b fuel l e : leaves_ok (b_root b) -> b_wrap b = wrap -> b_limit b = limit -> build sha fuel b = (l, e) ->
  forall l1 o l2, l = l1 ++ o :: l2 -> node_ok l1 o.
Proof.
  intros Hl Ew Em Hb l1 o l2 El. unfold build in Hb. rewrite Ew, Em in Hb. apply (run_nodes fuel [] (new_iter (b_root b)) l e) with (l2 := l2); auto.
  split; cbn [new_iter it_pending it_persisted]; [intros v [<-|[]]; exact Hl|intros k ls; discriminate].
Qed.
End Steps.

(** The links of the tree are those of the accepted calls. *)
Lemma leaves_ok_calls (ok : cid -> N -> Prop) wrap limit h b : inv wrap limit h b -> (forall p c s, In (PutLink p c s) h -> ok c s) -> leaves_ok ok (b_root b).
Proof.
  intros HI Hc. pose proof (inv_holds _ _ _ _ HI) as Hh. destruct HI as (ns & Hb & Hw & _). rewrite Hb in *. cbn [b_root] in *.
  assert (G : forall t p, wft p t -> (forall q c s, at_path t q = Some (Leaf c s) -> ok c s) -> leaves_ok ok t).
  { intros t. pattern t. revert t. apply tree_ind2; [intros c s p _ H; apply (H [] c s); reflexivity|].
    intros m p' i sub IH p W H. apply wft_wfns in W as [-> [Ws Wc]]. apply leaves_ok_dir. intros [n t] He. cbn [snd]. destruct (Wc n t He) as [W _].
    apply (IH n t He _ W). intros q c s E. apply (H (n :: q) c s). cbn [at_path nodes_of]. rewrite (nodup_get n t sub (bt_sorted_nodup _ Ws) He). exact E. }
  apply (G _ None (wfns_wft None meta0 0 ns Hw)). intros q c s E. destruct q as [|x q]; [discriminate|].
  specialize (Hh (x :: q) ltac:(discriminate)). rewrite E in Hh. destruct Hh as [Hl _]. apply link_at_in in Hl. unfold puts_of in Hl.
  apply in_flat_map in Hl as (k & Hk & Hin). destruct k as [p2 c2 s2|]; [|destruct Hin].
  destruct Hin as [[= _ -> ->]|[]]. exact (Hc _ _ _ Hk).
Qed.
