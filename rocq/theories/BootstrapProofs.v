(** Lemmas about [Bootstrap]. *)
From Verif Require Import Base Wire Cid CidProofs FMap Addr AddrProofs Bootstrap BootstrapSpec.
From Coq Require Import Permutation.
Local Open Scope N_scope.

Lemma mem_in w l : mem w l = true <-> In w l.
Proof.
  unfold mem. rewrite existsb_exists. split.
  - intros (x & H & E). destruct (wp_eqb_spec w x) as [->|]; [exact H|discriminate].
  - intros H. exists w. split; [exact H|]. destruct (wp_eqb_spec w w); congruence.
Qed.
Lemma mem_not_in w l : mem w l = false <-> ~ In w l.
Proof. rewrite <- not_true_iff_false, mem_in. reflexivity. Qed.
Lemma set_add_in w x l : In w (set_add x l) <-> w = x \/ In w l.
Proof.
  unfold set_add. destruct (mem x l) eqn:E.
  - apply mem_in in E. split; [auto|]. intros [->|]; auto.
  - cbn [In]. split; intros [<-|]; auto.
Qed.
Lemma set_add_nodup x l : NoDup l -> NoDup (set_add x l).
Proof. intros H. unfold set_add. destruct (mem x l) eqn:E; [exact H|]. apply mem_not_in in E. constructor; assumption. Qed.
Lemma set_del_in w x l : In w (set_del x l) <-> w <> x /\ In w l.
Proof.
  unfold set_del. rewrite filter_In. split.
  - intros [H E]. split; [|exact H]. intros ->. destruct (wp_eqb_spec x x); [discriminate|congruence].
  - intros [E H]. split; [exact H|]. destruct (wp_eqb_spec x w); [congruence|reflexivity].
Qed.

Lemma shuffle_perm {A} pick n : forall l : list A, Permutation (shuffle pick n l) l.
Proof.
  induction n as [|n IH]; intros l; cbn [shuffle]; [reflexivity|].
  destruct (skipn (pick n) l) as [|x r] eqn:E; [reflexivity|]. rewrite IH.
  rewrite <- (firstn_skipn (pick n) l) at 2. rewrite E. apply Permutation_middle.
Qed.
Lemma in_order_perm {A} pick (l : list A) : Permutation (in_order pick l) l.
Proof. apply shuffle_perm. Qed.

Lemma join_inj w w' : join_peer w = join_peer w' -> w = w'.
Proof. unfold join_peer. intros H. apply app_inj_tail in H as [H1 H2]. injection H2 as H2. destruct w, w'; cbn in *; congruence. Qed.

Section Lemmas.
  Context {kad : Type}.
  Variable kadd : multihash -> multiaddr -> kad -> kad.
  Variable kremove : multihash -> multiaddr -> kad -> kad * bool.
  Notation step := (step kadd kremove).
  Notation run := (run kadd kremove).

  Lemma start_list_spec debug options : forall s r, start_list debug options s = Some r ->
    (forall w, In w r <-> In w s \/ exists a p, In (a, p) options /\ split_peer debug a = AOk w) /\ (NoDup s -> NoDup r).
  Proof.
    induction options as [|[a p] l IH]; intros s r H; cbn [start_list] in H.
    - injection H as <-. split; [|auto]. intros w. split; [auto|]. intros [H|(a & p & [] & _)]. exact H.
    - destruct (split_peer debug a) as [w0|e|] eqn:E; [| |discriminate].
      + destruct (IH _ _ H) as [IH1 IH2]. split; [|intros N; apply IH2, set_add_nodup, N]. intros w. rewrite IH1, set_add_in. split.
        * intros [[->|Hin]|(a' & p' & H1 & H2)]; [right; exists a, p; split; [left; reflexivity|exact E]|left; exact Hin|right; exists a', p'; split; [right; exact H1|exact H2]].
        * intros [Hin|(a' & p' & [H1|H1] & H2)]; [auto| |right; exists a', p'; auto]. injection H1 as -> ->. rewrite E in H2. injection H2 as ->. auto.
      + destruct (IH _ _ H) as [IH1 IH2]. split; [|exact IH2]. intros w. rewrite IH1. split.
        * intros [Hin|(a' & p' & H1 & H2)]; [auto|right; exists a', p'; split; [right; exact H1|exact H2]].
        * intros [Hin|(a' & p' & [H1|H1] & H2)]; [auto| |right; exists a', p'; auto]. injection H1 as -> ->. congruence.
  Qed.
  Lemma start_list_panic debug options : forall s, start_list debug options s = None <-> exists a p, In (a, p) options /\ split_peer debug a = APanic.
  Proof.
    induction options as [|[a p] l IH]; intros s; cbn [start_list].
    - split; [discriminate|]. intros (a & p & [] & _).
    - destruct (split_peer debug a) as [w0|e|] eqn:E; [rewrite IH|rewrite IH|]; split.
      1, 3: intros (a' & p' & H1 & H2); exists a', p'; split; [right; exact H1|exact H2].
      1, 2: intros (a' & p' & [H1|H1] & H2); [injection H1 as -> ->; congruence|exists a', p'; auto].
      + intros _. exists a, p. split; [left; reflexivity|exact E].
      + reflexivity.
  Qed.

  Lemma restore_all_spec l : forall s, NoDup l -> 
    (forall w, In w (listed (fst (restore_all kadd l s))) <-> In w l \/ In w (listed s)) /\
    (NoDup (listed s) -> NoDup (listed (fst (restore_all kadd l s)))) /\
    snd (restore_all kadd l s) = map join_peer (filter (fun w => negb (mem w (listed s))) l).
  Proof.
    induction l as [|x l IH]; intros s N; cbn [restore_all filter map fst snd In].
    - split; [|split; [auto|reflexivity]]. intros w. split; [auto|]. intros [[]|H]; exact H.
    - inversion N as [|? ? Nx Nl]; subst. destruct (mem x (listed s)) eqn:E; cbn [negb].
      + destruct (IH s Nl) as (H1 & H2 & H3). split; [|split; [exact H2|exact H3]]. intros w. rewrite H1. apply mem_in in E. split; [intros [|]; auto|]. intros [[<-|]|]; auto.
      + set (s' := mk_state (set_add x (listed s)) (kadd (wp_peer x) (wp_addr x) (table s))). destruct (IH s' Nl) as (H1 & H2 & H3).
        destruct (restore_all kadd l s') as [s2 r] eqn:R. cbn [fst snd] in *. split; [|split].
        * intros w. rewrite H1. cbn [s' listed]. rewrite set_add_in. split; [intros [|[->|]]; auto|]. intros [[<-|]|]; auto.
        * intros Nd. apply H2. apply set_add_nodup. exact Nd.
        * rewrite H3. cbn [map]. f_equal. f_equal. apply filter_ext_in. intros w Hw. f_equal. cbn [s' listed].
          destruct (mem w (listed s)) eqn:Ew.
          -- apply mem_in. apply set_add_in. right. apply mem_in. exact Ew.
          -- apply mem_not_in. rewrite set_add_in. apply mem_not_in in Ew. intros [->|]; [exact (Nx Hw)|exact (Ew H)].
  Qed.
  Lemma nodes_nodup : NoDup bootstrap_nodes.
  Proof. repeat constructor; cbn; tauto. Qed.

  Lemma clear_all_in l : forall k a, In a (snd (clear_all kremove l k)) -> exists w, a = join_peer w /\ In w l.
  Proof.
    induction l as [|x l IH]; intros k a H; cbn [clear_all] in H; [destruct H|].
    destruct (kremove (wp_peer x) (wp_addr x) k) as [k1 known]. specialize (IH k1). destruct (clear_all kremove l k1) as [k2 r]. cbn [snd] in *.
    destruct known.
    - destruct H as [<-|H]; [exists x; split; [reflexivity|left; reflexivity]|]. destruct (IH _ H) as (w & -> & Hw). exists w. split; [reflexivity|right; exact Hw].
    - destruct (IH _ H) as (w & -> & Hw). exists w. split; [reflexivity|right; exact Hw].
  Qed.
  Lemma clear_all_nodup l : forall k, NoDup l -> NoDup (snd (clear_all kremove l k)).
  Proof.
    induction l as [|x l IH]; intros k N; cbn [clear_all]; [constructor|]. inversion N as [|? ? Nx Nl]; subst.
    destruct (kremove (wp_peer x) (wp_addr x) k) as [k1 known]. specialize (IH k1 Nl). pose proof (clear_all_in l k1) as H. destruct (clear_all kremove l k1) as [k2 r].
    cbn [snd] in *. destruct known; [|exact IH]. constructor; [|exact IH]. intros Hin. destruct (H _ Hin) as (w & E & Hw). apply join_inj in E. subst. contradiction.
  Qed.

  Lemma step_listed s o : NoDup (listed s) -> NoDup (listed (fst (step s o))) /\
    forall w, In w (listed (fst (step s o))) <->
      match o with
      | Add x => w = x \/ In w (listed s)
      | Remove x => w <> x /\ In w (listed s)
      | Clear _ => False
      | Restore => In w bootstrap_nodes \/ In w (listed s)
      | _ => In w (listed s)
      end.
  Proof.
    intros N. destruct o as [pick|x|x|pick| |k]; cbn [step].
    - cbn [fst]. split; [exact N|reflexivity].
    - unfold add. cbn [fst]. destruct (mem x (listed s)) eqn:E.
      + split; [exact N|]. intros w. apply mem_in in E. split; [auto|]. intros [->|]; auto.
      + cbn [listed]. split; [apply set_add_nodup, N|]. intros w. apply set_add_in.
    - unfold remove. cbn [fst]. destruct (mem x (listed s)) eqn:E.
      + cbn [listed]. split; [apply NoDup_filter, N|]. intros w. apply set_del_in.
      + split; [exact N|]. intros w. apply mem_not_in in E. split; [|intros [_ H]; exact H]. intros H. split; [intros ->; contradiction|exact H].
    - unfold clear. destruct (clear_all kremove _ _) as [k r]. cbn [fst listed]. split; [constructor|]. intros w. cbn [In]. reflexivity.
    - destruct (restore_all_spec bootstrap_nodes s nodes_nodup) as (H1 & H2 & _). split; [apply H2, N|exact H1].
    - cbn [fst listed]. split; [exact N|reflexivity].
  Qed.
  Lemma run_snoc s l o : run s (l ++ [o]) = fst (step (run s l) o).
  Proof. unfold Bootstrap.run. rewrite fold_left_app. reflexivity. Qed.
  Lemma run_listed first l : forall s, NoDup (listed s) -> (forall w, In w (listed s) <-> In w first) ->
    NoDup (listed (run s l)) /\ forall w, In w (listed (run s l)) <-> in_list w first (rev l).
  Proof.
    intros s N H. induction l as [|o l [IH1 IH2]] using rev_ind; [split; [exact N|exact H]|].
    rewrite run_snoc, rev_unit. destruct (step_listed (run s l) o IH1) as [S1 S2]. split; [exact S1|]. intros w. rewrite S2.
    destruct o; cbn [in_list]; rewrite ?IH2; reflexivity.
  Qed.
End Lemmas.
