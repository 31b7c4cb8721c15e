(** C38, the other direction: a walk which ends well has shown a whole tree. *)
From Verif Require Import Base Wire Cid Pb FMap FileVisit DirLookup IpfsPath PathSpec Walk WalkSpec WalkBackSpec WalkProofs WalkBack PropsWalk.
Local Open Scope N_scope.

(** What a walk that ends without an error reported is what the stored tree says (as the walker
    words it, [walk_report]); and every tree whose report has no bucket that the walker cannot take
    is walked to the end.  In particular a walk does not end well while a block of the tree is
    missing, damaged or of an unsupported type. *)
Theorem c38_complete dbg get c name os : no_dot_names get -> name = [] \/ step_name name ->
  (exists k, walk dbg k get (walker_new c name) = (os, Done)) <->
  (exists os', entry_at get true (root_path name) c os' /\ walk_report os' = (os, false)).
Proof.
  intros HN Hn. split.
  - intros [k H]. exact (walk_top_back dbg get c name k os HN Hn H).
  - intros (os' & He & Hr). exists (length os' + 0)%nat. rewrite (c38_walk dbg get c name os' 0 Hn He), Hr. reflexivity.
Qed.
Print Assumptions c38_complete.

(** Stores without the blocks that make the walker panic (C39) meet the condition on names. *)
Theorem c38_complete_safe dbg get c name k os : safe_store get -> name = [] \/ step_name name ->
  walk dbg k get (walker_new c name) = (os, Done) ->
  exists os', entry_at get true (root_path name) c os' /\ walk_report os' = (os, false).
Proof.
  intros HS Hn H. apply (proj1 (c38_complete dbg get c name os
    ltac:(split; intros c0 b f Hg Hf Ht;
      [eapply Forall_impl; [|exact (safe_dirs _ HS c0 b f Hg Hf Ht)]; intros l (_ & _ & E); exact E
      |eapply Forall_impl; [|exact (safe_shards _ HS c0 b f Hg Hf Ht)]; intros l (x & y & n & E & Hn');
       split; [intros x' y' E'; rewrite E in E'; injection E' as -> -> ->; destruct Hn' as ((_ & _ & Hd) & _); congruence
              |intros x' y' c' b' f' E' Hc Hg' Hf'; rewrite E in E'; injection E' as -> -> ->; exact (Hn' c' b' f' Hc Hg' Hf')]]) Hn)).
  exists k. exact H.
Qed.
Print Assumptions c38_complete_safe.

(** A walk of the example tree, of which one leaf is gone, does not end well, whatever the fuel. *)
Definition ex_gap (c : cid) : option bytes := if cid_eqb c (cid_of 9) then None else ex_tree c.
Lemma ex_no_dots : no_dot_names ex_tree.
Proof.
  split; intros c b f H P T; apply store_in in H; cbn [map snd In] in H;
    destruct H as [<-|[<-|[<-|[<-|[<-|[<-|[<-|[<-|[<-|[]]]]]]]]]]; vm_compute in P; injection P as <-; try discriminate T; cbn [f_links].
  - repeat constructor; discriminate.
  - repeat constructor; discriminate.
  - constructor; [|constructor; [|constructor]].
    + split; [intros x y E; discriminate E|intros x y c' b' f' E; discriminate E].
    + split; [intros x y E; discriminate E|]. intros x y c' b' f' _ Hc Hg Hf.
      assert (c' = cid_of 9) by (vm_compute in Hc; injection Hc as <-; reflexivity). subst c'.
      vm_compute in Hg. injection Hg as <-. vm_compute in Hf. injection Hf as <-. reflexivity.
  - constructor; [|constructor]. split; [intros x y E; discriminate E|intros x y c' b' f' E; discriminate E].
Qed.
Example c38_complete_case : no_dot_names ex_tree /\ step_name [114] /\
  walk true 20 ex_tree (walker_new (cid_of 1) [114]) = (ex_report, Done) /\
  walk_report ex_report = (ex_report, false) /\
  snd (walk true 20 ex_gap (walker_new (cid_of 1) [114])) = Missing (cid_of 9).
Proof. split; [exact ex_no_dots|]. split; [a_step|]. repeat split; vm_compute; reflexivity. Qed.
