(** C50: the list of bootstrappers. *)
From Verif Require Import Base Wire Cid CidProofs Text FMap Addr AddrProofs PropsAddr Bootstrap BootstrapSpec BootstrapProofs.
From Coq Require Import Permutation.
Local Open Scope N_scope.

(** The default node is the one of the text in src/config.rs: its peer id is
    QmaCpDMGvV2BGHeYERUEnRQAwe3N8SzbUtfsmvsqQLuvuJ. *)
Example ex_default : peer_from_text [81;109;97;67;112;68;77;71;118;86;50;66;71;72;101;89;69;82;85;69;110;82;81;65;119;101;51;78;56;83;122;98;85;116;102;115;109;118;115;113;81;76;117;118;117;74] = Some default_peer /\
  forall debug w, In w bootstrap_nodes -> split_peer debug (join_peer w) = AOk w.
Proof.
  split; [vm_compute; reflexivity|]. intros debug w [<-|[]]. apply c48_join_split; [|intros H|reflexivity].
  - intros h H. repeat (destruct H as [H|H]; [discriminate|]). destruct H.
  - repeat (destruct H as [H|H]; [discriminate|]). destruct H.
Qed.

Section Theorems.
  Context {kad : Type}.
  Variable kadd : multihash -> multiaddr -> kad -> kad.
  Variable kremove : multihash -> multiaddr -> kad -> kad * bool.

  (** After any calls the list has, each once, exactly the bootstrappers which were configured with
      their peer, added or restored, and not removed or cleared since; whatever kademlia does. *)
  Theorem c50_list debug options empty s l pick : start kadd debug options empty = Some s ->
    NoDup (get pick (run kadd kremove s l)) /\
    (forall a, In a (get pick (run kadd kremove s l)) <-> exists w, a = join_peer w /\
       in_list w (listed s) (rev l)) /\
    (forall w, In w (listed s) <-> exists a p, In (a, p) options /\ split_peer debug a = AOk w).
  Proof.
    intros H. unfold start in H. destruct (start_list debug options []) as [f|] eqn:E; [|discriminate]. injection H as <-.
    destruct (start_list_spec debug options [] f E) as [H1 H2]. cbn [listed].
    destruct (run_listed kadd kremove f l (mk_state f (start_table kadd options empty)) (H2 (NoDup_nil _))) as [H3 H4]; [reflexivity|].
    split; [|split].
    - unfold get. apply FinFun.Injective_map_NoDup; [intros w w'; apply join_inj|]. eapply Permutation_NoDup; [|exact H3]. symmetry. apply in_order_perm.
    - intros a. unfold get. rewrite in_map_iff. split.
      + intros (w & <- & Hw). exists w. split; [reflexivity|]. apply H4. eapply Permutation_in; [apply in_order_perm|exact Hw].
      + intros (w & -> & Hw). exists w. split; [reflexivity|]. eapply Permutation_in; [symmetry; apply in_order_perm|]. apply H4. exact Hw.
    - intros w. rewrite H1. split; [intros [[]|H]; exact H|auto].
  Qed.

  (** A configured address which ends in its only peer id is listed as it is; starting panics exactly
      when a configured address makes the conversion panic (never in release builds). *)
  Theorem c50_configured debug options empty :
    (start kadd debug options empty = None <-> exists a p, In (a, p) options /\ split_peer debug a = APanic) /\
    (forall s a p w pick, start kadd debug options empty = Some s -> In (a, p) options -> option_names a w -> In a (get pick s)) /\
    start kadd false options empty <> None.
  Proof.
    split; [|split].
    - unfold start. destruct (start_list debug options []) as [f|] eqn:E.
      + split; [discriminate|]. intros H. apply (start_list_panic debug options []) in H. congruence.
      + split; [|reflexivity]. intros _. apply (start_list_panic debug options []). exact E.
    - intros s a p w pick H Hin (-> & N1 & N2 & V). destruct (c50_list debug options empty s [] pick H) as (_ & H2 & H3). apply H2. exists w.
      split; [reflexivity|]. cbn [rev in_list]. apply H3. exists (wp_addr w ++ [PP2p (wp_peer w)]), p. split; [exact Hin|]. apply (c48_join_split debug w N1 N2 V).
    - unfold start. destruct (start_list false options []) as [f|] eqn:E; [discriminate|]. exfalso.
      apply start_list_panic in E. destruct E as (a & p & _ & E). unfold split_peer in E. destruct (find is_p2p a) as [[]|]; cbn [andb] in E; try discriminate.
      destruct (valid_peer h); discriminate.
  Qed.

  (** Adding and removing answer the address, and give it to or take it from kademlia exactly when the
      list changes. *)
  Theorem c50_add_remove s w : NoDup (listed s) ->
    snd (step kadd kremove s (Add w)) = [join_peer w] /\ snd (step kadd kremove s (Remove w)) = [join_peer w] /\
    (In w (listed s) -> fst (step kadd kremove s (Add w)) = s /\
       table (fst (step kadd kremove s (Remove w))) = fst (kremove (wp_peer w) (wp_addr w) (table s))) /\
    (~ In w (listed s) -> fst (step kadd kremove s (Remove w)) = s /\
       table (fst (step kadd kremove s (Add w))) = kadd (wp_peer w) (wp_addr w) (table s)).
  Proof.
    intros N. cbn [step add remove fst snd]. split; [reflexivity|]. split; [reflexivity|]. split; intros H.
    - apply mem_in in H. rewrite H. auto.
    - apply mem_not_in in H. rewrite H. auto.
  Qed.

  (** Restoring answers exactly the default nodes which were not listed, in order; afterwards all are
      listed and nothing listed is lost. *)
  Theorem c50_restore s pick :
    snd (step kadd kremove s Restore) = map join_peer (filter (fun w => negb (mem w (listed s))) bootstrap_nodes) /\
    (forall w, In w bootstrap_nodes -> In (join_peer w) (get pick (fst (step kadd kremove s Restore)))) /\
    (forall a, In a (get pick s) -> In a (get pick (fst (step kadd kremove s Restore)))) /\
    (forall a, In a (snd (step kadd kremove s Restore)) -> ~ In a (get pick s)).
  Proof.
    destruct (restore_all_spec kadd bootstrap_nodes s nodes_nodup) as (H1 & _ & H3). cbn [step]. unfold restore.
    assert (G : forall (t : state (kad := kad)) w, In (join_peer w) (get pick t) <-> In w (listed t)).
    { intros t w. unfold get. rewrite in_map_iff. split.
      - intros (x & E & Hx). apply join_inj in E. subst. eapply Permutation_in; [apply in_order_perm|exact Hx].
      - intros Hw. exists w. split; [reflexivity|]. eapply Permutation_in; [symmetry; apply in_order_perm|exact Hw]. }
    split; [exact H3|]. split; [|split].
    - intros w Hw. apply G. apply H1. auto.
    - intros a Ha. pose proof Ha as Ha'. unfold get in Ha'. apply in_map_iff in Ha' as (w & <- & _). apply G in Ha. apply G. apply H1. auto.
    - intros a Ha. rewrite H3 in Ha. apply in_map_iff in Ha as (w & <- & Hw). apply filter_In in Hw as [_ Hw]. rewrite G. apply mem_not_in.
      destruct (mem w (listed s)); [discriminate|reflexivity].
  Qed.

  (** Clearing leaves nothing; what it answers was listed, each once, and is everything when kademlia
      answers every removal. *)
  Theorem c50_clear s pick pick' : NoDup (listed s) ->
    get pick' (fst (step kadd kremove s (Clear pick))) = [] /\
    NoDup (snd (step kadd kremove s (Clear pick))) /\
    (forall a, In a (snd (step kadd kremove s (Clear pick))) -> In a (get pick' s)) /\
    ((forall p a k, snd (kremove p a k) = true) -> forall a, In a (get pick' s) -> In a (snd (step kadd kremove s (Clear pick)))).
  Proof.
    intros N. cbn [step]. unfold clear.
    assert (No : NoDup (in_order pick (listed s))). { eapply Permutation_NoDup; [symmetry; apply in_order_perm|exact N]. }
    pose proof (clear_all_in kremove (in_order pick (listed s)) (table s)) as H1. pose proof (clear_all_nodup kremove _ (table s) No) as H2.
    assert (H3 : (forall p a k, snd (kremove p a k) = true) -> forall l k, snd (clear_all kremove l k) = map join_peer l).
    { intros K. induction l as [|x l IH]; intros k; cbn [clear_all map]; [reflexivity|]. specialize (K (wp_peer x) (wp_addr x) k).
      destruct (kremove _ _ _) as [k1 known]. cbn [snd] in K. subst. specialize (IH k1). destruct (clear_all kremove l k1) as [k2 r]. cbn [snd] in *. congruence. }
    specialize (fun K => H3 K (in_order pick (listed s)) (table s)).
    destruct (clear_all kremove _ _) as [k r]. cbn [fst snd] in *. split; [reflexivity|]. split; [exact H2|]. split.
    - intros a Ha. destruct (H1 _ Ha) as (w & -> & Hw). unfold get. apply in_map. eapply Permutation_in; [symmetry; apply in_order_perm|].
      eapply Permutation_in; [apply in_order_perm|exact Hw].
    - intros K a Ha. rewrite (H3 K). unfold get in Ha. apply in_map_iff in Ha as (w & <- & Hw). apply in_map. eapply Permutation_in; [symmetry; apply in_order_perm|].
      eapply Permutation_in; [apply in_order_perm|exact Hw].
  Qed.

  (** The http endpoints change the list as the calls do; add and rm without argument and flag are
      rejected and change nothing; add?default=true and restore answer all default nodes. *)
  Theorem c50_http s w pick :
    http kadd kremove s (QList pick) = (s, Some (get pick s)) /\
    (forall d, http kadd kremove s (QAdd (Some w) d) = (fst (step kadd kremove s (Add w)), Some [join_peer w])) /\
    (forall d, http kadd kremove s (QRm (Some w) d pick) = (fst (step kadd kremove s (Remove w)), Some [join_peer w])) /\
    http kadd kremove s (QClear pick) = (fst (step kadd kremove s (Clear pick)), Some (snd (step kadd kremove s (Clear pick)))) /\
    http kadd kremove s (QRm None (Some true) pick) = http kadd kremove s (QClear pick) /\
    http kadd kremove s QRestore = (fst (step kadd kremove s Restore), Some (map join_peer bootstrap_nodes)) /\
    http kadd kremove s (QAdd None (Some true)) = http kadd kremove s QRestore /\
    (forall d, d <> Some true -> http kadd kremove s (QAdd None d) = (s, None) /\ http kadd kremove s (QRm None d pick) = (s, None)).
  Proof.
    cbn [http step add remove fst snd is_true]. split; [reflexivity|]. split; [reflexivity|]. split; [reflexivity|]. split; [destruct (clear kremove pick s); reflexivity|].
    split; [reflexivity|]. split; [reflexivity|]. split; [reflexivity|]. intros [[|]|] H; try (split; reflexivity). congruence.
  Qed.
End Theorems.
Print Assumptions c50_list.
Print Assumptions c50_configured.
Print Assumptions c50_add_remove.
Print Assumptions c50_restore.
Print Assumptions c50_clear.
Print Assumptions c50_http.

Lemma kad_remove_keeps any p a k p' : p' <> p -> mget mh_eqb p' (fst (kad_remove any p a k)) = mget mh_eqb p' k.
Proof.
  intros N. assert (E : mh_eqb p' p = false) by (destruct (mh_eqb_spec p' p); congruence).
  unfold kad_remove. destruct (mget mh_eqb p k) as [[|b [|c l]]|]; cbn [fst]; try reflexivity; try (rewrite (mget_mset _ mh_eqb_spec), E; reflexivity).
  destruct (any || addr_eqb a b); cbn [fst]; [|reflexivity]. rewrite (mget_mdel _ mh_eqb_spec), E. reflexivity.
Qed.
Lemma kad_remove_only any p a k : mget mh_eqb p k = Some [a] -> snd (kad_remove any p a k) = true.
Proof. intros H. unfold kad_remove. rewrite H. destruct (addr_eqb_spec a a); [|congruence]. rewrite orb_true_r. reflexivity. Qed.

(** With the routing table of libp2p, clearing answers the whole list when kademlia knows each
    bootstrapper's peer at this address only. *)
Theorem c50_clear_all any (s : state (kad := kad_table)) pick pick' : NoDup (listed s) ->
  (forall w, In w (listed s) -> mget mh_eqb (wp_peer w) (table s) = Some [wp_addr w]) ->
  Permutation (snd (step kad_add (kad_remove any) s (Clear pick))) (get pick' s).
Proof.
  intros N H. cbn [step]. unfold clear.
  assert (G : forall l k, NoDup l -> (forall w, In w l -> mget mh_eqb (wp_peer w) k = Some [wp_addr w]) -> snd (clear_all (kad_remove any) l k) = map join_peer l).
  { induction l as [|x l IH]; intros k Nl Hl; cbn [clear_all map]; [reflexivity|]. inversion Nl as [|? ? Nx Nl']; subst.
    pose proof (Hl x (or_introl eq_refl)) as Hx. pose proof (kad_remove_only any _ _ _ Hx) as Hk.
    assert (Hrest : forall w, In w l -> mget mh_eqb (wp_peer w) (fst (kad_remove any (wp_peer x) (wp_addr x) k)) = Some [wp_addr w]).
    { intros w Hw. rewrite kad_remove_keeps; [apply Hl; right; exact Hw|]. intros E. pose proof (Hl w (or_intror Hw)) as Hw'. rewrite E, Hx in Hw'. injection Hw' as Ea.
      apply Nx. replace x with w; [exact Hw|]. destruct w, x; cbn in *; congruence. }
    destruct (kad_remove any (wp_peer x) (wp_addr x) k) as [k1 known]. cbn [fst snd] in *. subst. specialize (IH k1 Nl' Hrest).
    destruct (clear_all (kad_remove any) l k1) as [k2 r]. cbn [snd] in *. congruence. }
  assert (No : NoDup (in_order pick (listed s))). { eapply Permutation_NoDup; [symmetry; apply in_order_perm|exact N]. }
  assert (Ho : forall w, In w (in_order pick (listed s)) -> mget mh_eqb (wp_peer w) (table s) = Some [wp_addr w]).
  { intros w Hw. apply H. eapply Permutation_in; [apply in_order_perm|exact Hw]. }
  specialize (G _ _ No Ho). destruct (clear_all _ _ _) as [k r]. cbn [snd] in *. rewrite G. unfold get. apply Permutation_map.
  rewrite in_order_perm. symmetry. apply in_order_perm.
Qed.
Print Assumptions c50_clear_all.

Definition addr2 : multiaddr := [PIp4 167772161; PTcp 4002].
Definition node_a := mk_wp plain_addr peer_a.
Definition node_a2 := mk_wp addr2 peer_a.
Definition node_b := mk_wp addr2 peer_b.
Definition id_pick (n : nat) : nat := 0.
Definition ex_start : state (kad := kad_table) := mk_state [] [].
Definition ex_calls : list (op kad_table) := [Add node_a; Restore; Add node_b; Add node_a; Remove node_b].
Example ex_list : start kad_add true [] [] = Some ex_start /\
  get id_pick (run kad_add (kad_remove false) ex_start ex_calls) = map join_peer (bootstrap_nodes ++ [node_a]) /\
  in_list node_a [] (rev ex_calls) /\ ~ in_list node_b [] (rev ex_calls).
Proof. split; [reflexivity|]. split; [vm_compute; reflexivity|]. cbn. split; [|intros [H _]; congruence]. split; [discriminate|]. auto. Qed.
Example ex_configured : option_names (plain_addr ++ [PP2p peer_a]) node_a /\
  exists s, start kad_add true [(plain_addr ++ [PP2p peer_a], peer_a)] [] = Some s /\ get id_pick s = [plain_addr ++ [PP2p peer_a]] /\
    snd (step kad_add (kad_remove true) s Restore) = map join_peer bootstrap_nodes.
Proof.
  split.
  - split; [reflexivity|]. split; [intros h [H|[H|[]]]; discriminate|]. split; [intros [H|[H|[]]]; discriminate|reflexivity].
  - eexists. split; [vm_compute; reflexivity|]. split; vm_compute; reflexivity.
Qed.
Example ex_clear : let s := run kad_add (kad_remove false) ex_start ex_calls in
  NoDup (listed s) /\ (forall w, In w (listed s) -> mget mh_eqb (wp_peer w) (table s) = Some [wp_addr w]) /\
  snd (step kad_add (kad_remove false) s (Clear id_pick)) = map join_peer (bootstrap_nodes ++ [node_a]).
Proof.
  split; [|split].
  - vm_compute. repeat constructor; cbn; intros H; repeat (destruct H as [H|H]; [discriminate|]); exact H.
  - intros w H. assert (E : listed (run kad_add (kad_remove false) ex_start ex_calls) = bootstrap_nodes ++ [node_a]) by (vm_compute; reflexivity).
    rewrite E in H. cbn [bootstrap_nodes app] in H. destruct H as [<-|[<-|[]]]; vm_compute; reflexivity.
  - vm_compute. reflexivity.
Qed.

(** False: clearing does not report a bootstrapper when kademlia knows its peer at another address too
    (both readings of the removal of a last address). *)
Theorem c50_clear_refuted : forall any, exists l a,
  In a (get id_pick (run kad_add (kad_remove any) ex_start l)) /\
  ~ In a (snd (step kad_add (kad_remove any) (run kad_add (kad_remove any) ex_start l) (Clear id_pick))).
Proof.
  intros any. exists [Add node_a2; Add node_a], (join_peer node_a). split; [destruct any; vm_compute; auto|].
  destruct any; vm_compute; intros [H|[]]; discriminate.
Qed.
Print Assumptions c50_clear_refuted.

(** False: a configured bootstrapper whose address does not repeat its peer id is used by kademlia and
    never listed, so it cannot be removed. *)
Theorem c50_configured_unlisted_refuted : exists options s, start kad_add true options [] = Some s /\
  options = [(plain_addr, peer_a)] /\ get id_pick s = [] /\ mget mh_eqb peer_a (table s) = Some [plain_addr] /\
  forall any w l, Forall (fun o => exists x, o = Remove x) l -> table (run kad_add (kad_remove any) s (l ++ [Remove w])) = table s.
Proof.
  exists [(plain_addr, peer_a)]. eexists. split; [vm_compute; reflexivity|]. split; [reflexivity|]. split; [reflexivity|]. split; [vm_compute; reflexivity|].
  intros any w l H. assert (H' : Forall (fun o => exists x, o = Remove (kad := kad_table) x) (l ++ [Remove w])). { apply Forall_app. split; [exact H|]. repeat constructor. eauto. }
  remember (l ++ [Remove w]) as m. clear - H'. set (s := mk_state [] _). assert (E : run kad_add (kad_remove any) s m = s); [|rewrite E; reflexivity].
  unfold s. clear s. induction H' as [|o m (x & ->) _ IH]; [reflexivity|]. exact IH.
Qed.
Print Assumptions c50_configured_unlisted_refuted.

(** False: kademlia is given a configured address whole, and asked to remove it without the peer id:
    after clearing it still knows both addresses of the peer, and reports nothing as cleared. *)
Theorem c50_clear_configured_refuted : forall any, exists options s,
  start kad_add true options [] = Some s /\ get id_pick s <> [] /\
  snd (step kad_add (kad_remove any) s (Clear id_pick)) = [] /\
  exists known, mget mh_eqb peer_a (table (fst (step kad_add (kad_remove any) s (Clear id_pick)))) = Some known /\
    forall a p, In (a, p) options -> p = peer_a /\ In a known.
Proof.
  intros any. exists [(plain_addr ++ [PP2p peer_a], peer_a); (addr2 ++ [PP2p peer_a], peer_a)]. eexists. split; [vm_compute; reflexivity|]. split; [discriminate|].
  split; [destruct any; vm_compute; reflexivity|]. exists [plain_addr ++ [PP2p peer_a]; addr2 ++ [PP2p peer_a]].
  split; [destruct any; vm_compute; reflexivity|]. intros a p [[= <- <-]|[[= <- <-]|[]]]; (split; [reflexivity|]); [left|right; left]; reflexivity.
Qed.
Print Assumptions c50_clear_configured_refuted.

(** False: restoring does not bring back what was configured, but the built-in list. *)
Theorem c50_restore_configured_refuted : forall any, exists options s a p, start kad_add true options [] = Some s /\
  In (a, p) options /\ In a (get id_pick s) /\
  ~ In a (get id_pick (run kad_add (kad_remove any) s [Clear id_pick; Restore])) /\
  ~ In a (snd (step kad_add (kad_remove any) (fst (step kad_add (kad_remove any) s (Clear id_pick))) Restore)).
Proof.
  intros any. exists [(plain_addr ++ [PP2p peer_a], peer_a)]. eexists. exists (plain_addr ++ [PP2p peer_a]), peer_a. split; [vm_compute; reflexivity|].
  split; [left; reflexivity|]. split; [vm_compute; auto|]. split; destruct any; vm_compute; intros [H|[]]; discriminate.
Qed.
Print Assumptions c50_restore_configured_refuted.

(** False: the http restore answers nodes which were not added. *)
Theorem c50_http_restore_refuted : exists s : state (kad := kad_table),
  snd (http kad_add (kad_remove true) s QRestore) = Some (map join_peer bootstrap_nodes) /\
  snd (step kad_add (kad_remove true) s Restore) = [] /\ bootstrap_nodes <> [].
Proof. exists (fst (step kad_add (kad_remove true) ex_start Restore)). split; [reflexivity|]. split; [vm_compute; reflexivity|discriminate]. Qed.
Print Assumptions c50_http_restore_refuted.
