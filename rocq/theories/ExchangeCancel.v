(** Lemmas about the want of a call of get_block that was dropped. *)
From Verif Require Import Base Wire Cid CidProofs FMap BlockSpec MemBlocks SubsSpec Subs SubsProofs GetPut GetPutProofs BitswapMsg BitswapMsgSpec Bitswap BitswapSpec BitswapProofs Exchange ExchangeSpec ExchangeProofs.
Local Open Scope N_scope.

(** The background task has been told, after any want, that the cid is not wanted any more, or has done so. *)
Definition told_off (c : cid) (x : node) : Prop :=
  (exists l r, n_chan x = l ++ EUnwant c :: r /\ ~ In (EWant c) r) \/
  (~ In (EWant c) (n_chan x) /\ mget cid_eqb c (b_wanted (n_bs x)) = None).

Lemma told_more c x y l : told_off c x -> n_chan y = n_chan x ++ l -> ~ In (EWant c) l ->
  (mget cid_eqb c (b_wanted (n_bs x)) = None -> mget cid_eqb c (b_wanted (n_bs y)) = None) -> told_off c y.
Proof.
  intros [(a & r & E & N)|[N W]] Ey Nl HW.
  - left. exists a, (r ++ l). split; [rewrite Ey, E, <- app_assoc; reflexivity|]. intros X. apply in_app_or in X. tauto.
  - right. split; [|exact (HW W)]. rewrite Ey. intros X. apply in_app_or in X. tauto.
Qed.
Lemma told_same c x y : told_off c x -> n_chan y = n_chan x -> (mget cid_eqb c (b_wanted (n_bs x)) = None -> mget cid_eqb c (b_wanted (n_bs y)) = None) -> told_off c y.
Proof. intros T E W. apply (told_more c x y [] T); [rewrite app_nil_r; exact E|intros []|exact W]. Qed.
Lemma told_back c x : told_off c x -> told_off c (node_back x).
Proof.
  intros T. unfold node_back. destruct (n_chan x) as [|e r] eqn:E; [exact T|].
  assert (D : forall d y, n_chan y = r -> b_wanted (n_bs y) = mdel cid_eqb d (b_wanted (n_bs x)) -> (e = EUnwant c -> d = c) -> e <> EWant c -> told_off c y).
  { intros d y Ey Ew Ed Ne. destruct T as [(l & q & E' & N)|[N W]].
    - rewrite E in E'. destruct l as [|e' l]; cbn [app] in E'; injection E' as -> ->.
      + right. split; [rewrite Ey; exact N|]. rewrite Ew, (mget_mdel _ cid_eqb_spec), (Ed eq_refl). destruct (cid_eqb_spec c c); congruence.
      + left. exists l, q. auto.
    - rewrite E in N. right. split; [rewrite Ey; intros X; apply N; right; exact X|]. rewrite Ew, (mget_mdel _ cid_eqb_spec), W. destruct (cid_eqb c d); reflexivity. }
  destruct e as [d|d|d].
  - destruct T as [(l & q & E' & N)|[N W]].
    + rewrite E in E'. destruct l as [|e' l]; cbn [app] in E'; [discriminate|]. injection E' as E1 E2; subst. left. exists l, q. auto.
    + rewrite E in N. right. split; [intros X; apply N; right; exact X|]. cbn [n_bs with_chan with_bs want_block b_wanted with_wanted]. rewrite (mget_mset _ cid_eqb_spec). destruct (cid_eqb_spec c d) as [->|]; [|exact W]. exfalso. apply N. left. reflexivity.
  - apply (D d); [reflexivity|reflexivity|congruence|discriminate].
  - apply (D d); [reflexivity|reflexivity|congruence|discriminate].
Qed.
Lemma hear_wanted hasher x p s c : mget cid_eqb c (b_wanted (n_bs x)) = None -> mget cid_eqb c (b_wanted (n_bs (node_hear hasher x p s))) = None.
Proof.
  intros W. unfold node_hear. destruct (upgrade_inbound hasher s) as [m|]; [|exact W]. destruct (received p m (n_bs x)) as [b|] eqn:E; [|exact W]. cbn [n_bs with_bs].
  apply received_shape in E as (l & f & e & _ & -> & _). rewrite receive_blocks_wanted. destruct (existsb _ _); [reflexivity|exact W].
Qed.
Lemma hear_chan hasher x p s : n_chan (node_hear hasher x p s) = n_chan x.
Proof. unfold node_hear. destruct (upgrade_inbound hasher s) as [m|]; [|reflexivity]. destruct (received p m (n_bs x)); reflexivity. Qed.

Section Told.
  Variable hasher : N -> option (bytes -> bytes).
  Variable debug : bool.
  Notation wstep := (wstep hasher debug).
  Notation wrun := (wrun hasher debug).
  Lemma told_step n c w o : no_ask n c w o -> told_off c (w_node w n) -> told_off c (w_node (fst (wstep w o)) n).
  Proof.
    assert (SN : forall m x w, w_node (set_node m x w) n = if n =? m then x else w_node w n) by reflexivity.
    intros A T. destruct o as [m a|m g|m|m i|m order|m p|m p|i|i|m p bs]; cbn [Exchange.wstep].
    - destruct (node_repo debug (w_node w m) a) as [x o] eqn:E. cbn [fst]. rewrite SN. destruct (N.eqb_spec n m) as [<-|]; [|exact T]. unfold node_repo in E.
      destruct (match a with PollG g _ => _ | _ => false end); [injection E as <- _; exact T|]. destruct (gstep debug (n_repo (w_node w n)) a) as [r o']. injection E as <- _.
      apply (told_more c _ _ (map EUnwant (notices debug (n_repo (w_node w n)) a)) T); [reflexivity| |exact (fun H => H)]. intros X. apply in_map_iff in X as (d & [=] & _).
    - cbn [fst]. rewrite SN. destruct (N.eqb_spec n m) as [<-|]; [|exact T]. unfold node_ask. cbn [no_ask] in A. specialize (A eq_refl). unfold call in A. destruct (nth_error (gets (n_repo (w_node w n))) g) as [[d|d i|d i|r|i]|]; try exact T.
      destruct (existsb (Nat.eqb g) (n_asked (w_node w n))); [exact T|]. apply (told_more c _ _ [EWant d] T); [reflexivity| |exact (fun H => H)]. intros [X|[]]. injection X as ->. exact (A i eq_refl).
    - cbn [fst]. rewrite SN. destruct (N.eqb_spec n m) as [<-|]; [|exact T]. apply told_back, T.
    - cbn [fst]. rewrite SN. destruct (N.eqb_spec n m) as [<-|]; [|exact T]. unfold node_task. destruct (nth_error (n_tasks (w_node w n)) i) as [[b|p d|d]|]; [| | |exact T].
      + apply (told_same c _ _ T); [reflexivity|exact (fun H => H)].
      + cbn zeta. destruct (mem_get d _) as [| | | |]; try match goal with |- context [match ?b with Some _ => _ | None => _ end] => destruct b end; apply (told_same c _ _ T); try reflexivity; exact (fun H => H).
      + apply (told_more c _ _ [ENew d] T); [reflexivity| |exact (fun H => H)]. intros [X|[]]. discriminate.
    - destruct (node_poll m (w_node w m) order) as [x l] eqn:E. cbn [fst]. rewrite SN. destruct (N.eqb_spec n m) as [<-|]; [|exact T]. unfold node_poll in E. destruct (poll order (n_bs (w_node w n))) as [b a] eqn:P. apply poll_wanted in P.
      destruct a as [a|]; [destruct a as [| |ev]; [| |destruct ev]|]; injection E as <- _; (apply (told_same c _ _ T); [reflexivity|]; cbn [n_bs with_bs with_tasks]; rewrite P; exact (fun H => H)).
    - cbn [fst]. rewrite SN. destruct (N.eqb_spec n m) as [<-|]; [|exact T]. apply (told_same c _ _ T); [reflexivity|]. cbn [n_bs with_bs]. unfold established, send_want_list. cbn [b_wanted with_peers with_stats]. destruct (is_empty (b_wanted (n_bs (w_node w n)))); exact (fun H => H).
    - cbn [fst]. rewrite SN. destruct (N.eqb_spec n m) as [<-|]; [|exact T]. apply (told_same c _ _ T); [reflexivity|exact (fun H => H)].
    - destruct (nth_error (w_net w) i) as [[[p m] s]|]; [|exact T]. destruct (is_up w m p); [|exact T]. cbn [fst]. rewrite SN. destruct (N.eqb_spec n m) as [<-|]; [|exact T]. apply (told_same c _ _ T); [apply hear_chan|apply hear_wanted].
    - exact T.
    - destruct (is_up w m p); [|exact T]. cbn [fst]. rewrite SN. destruct (N.eqb_spec n m) as [<-|]; [|exact T]. apply (told_same c _ _ T); [apply hear_chan|apply hear_wanted].
  Qed.
  Lemma told_run n c h q : told_off c (w_node (wrun h) n) ->
    (forall q1 o q2, q = q1 ++ o :: q2 -> no_ask n c (wrun (h ++ q1)) o) -> told_off c (w_node (wrun (h ++ q)) n).
  Proof.
    intros T. induction q as [|o q IH] using rev_ind; intros A; [rewrite app_nil_r; exact T|]. rewrite app_assoc, wrun_snoc. apply told_step; [apply (A q o []); reflexivity|]. apply IH.
    intros q1 o1 q2 E. apply (A q1 o1 (q2 ++ [o])). rewrite E, <- app_assoc. reflexivity.
  Qed.
  Lemma told_notify n c w g i wk : call w n g = Some (Gone i) -> lives (past (n_repo (w_node w n))) i = Dropping c true wk true ->
    told_off c (w_node (fst (wstep w (WRepo n (NotifyG g)))) n).
  Proof.
    intros G L. cbn [Exchange.wstep]. unfold node_repo. destruct (gstep debug (n_repo (w_node w n)) (NotifyG g)) as [r o]. cbn [fst set_node w_node]. rewrite N.eqb_refl.
    left. exists (n_chan (w_node w n)), []. split; [|intros []]. cbn [n_chan notices]. unfold call in G. rewrite G, (eff_notify cid_eqb cid_eqb_spec debug), L. reflexivity.
  Qed.
  Lemma cancelled n c h g i wk q : call (wrun h) n g = Some (Gone i) -> lives (past (n_repo (w_node (wrun h) n))) i = Dropping c true wk true ->
    (forall q1 o q2, q = q1 ++ o :: q2 -> no_ask n c (wrun (h ++ WRepo n (NotifyG g) :: q1)) o) ->
    n_chan (w_node (wrun (h ++ WRepo n (NotifyG g) :: q)) n) = [] -> mget cid_eqb c (local_wantlist (n_bs (w_node (wrun (h ++ WRepo n (NotifyG g) :: q)) n))) = None.
  Proof.
    intros G L A E. change (WRepo n (NotifyG g) :: q) with ([WRepo n (NotifyG g)] ++ q) in *. rewrite app_assoc in *.
    assert (T : told_off c (w_node (wrun ((h ++ [WRepo n (NotifyG g)]) ++ q)) n)).
    { apply told_run; [rewrite wrun_snoc; exact (told_notify n c _ g i wk G L)|]. intros q1 o q2 X. rewrite <- app_assoc. exact (A q1 o q2 X). }
    destruct T as [(l & r & E' & _)|[_ W]]; [|exact W]. rewrite E in E'. destruct l; discriminate.
  Qed.
End Told.
