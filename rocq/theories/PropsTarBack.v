(** C53, the other direction: a download which ends well has the whole tree. *)
From Verif Require Import Base Wire Cid Pb FMap FileVisit IpfsPath PathSpec Walk WalkSpec WalkBackSpec WalkProofs WalkBack WalkTree
  Tar TarSpec TarFields TarPaths TarProofs TarWalk PropsWalk PropsWalkBack PropsTar.
Local Open Scope N_scope.

(** If /get ends without an error there is a whole tree stored below the cid, and when its names and sizes
    are such that an archive can hold them the archive has all its entries with their content, and no
    others. *)
Theorem c53_whole dbg k get c name l : no_dot_names get -> step_name name -> get_stream dbg k get c name = (l, Walked Done) ->
  exists os, entry_at get true (root_path name) c os /\ snd (walk_report os) = false /\
    (honest get -> Forall good_walked os ->
     exists es es', shows os es /\ unpack (concat l) = Some es' /\ Forall2 same_entry es es').
Proof.
  intros HN Hn H. unfold get_stream in H. destruct (walk dbg k get (walker_new c name)) as [os0 e] eqn:W. destruct (tar helper_new os0) as [l0 te] eqn:T.
  destruct te; try discriminate H. injection H as -> ->.
  destruct (proj1 (c38_complete dbg get c name os0 HN (or_intror Hn)) (ex_intro _ k W)) as (os & He & Hr).
  exists os. split; [exact He|]. split; [rewrite Hr; reflexivity|]. intros Hh Hg.
  assert (R : snd (walk_report os) = false) by (rewrite Hr; reflexivity).
  destruct (proj1 (tree_shown get Hh) _ _ _ _ He Hg) as (es & S). specialize (S [] [] shows_nil). rewrite !app_nil_r in S.
  destruct (c53_archive os es S) as (l2 & es2 & E & U & F). exists es, es2. split; [exact S|]. split; [|exact F].
  pose proof (tar_report helper_new os R) as X. rewrite Hr in X. cbn [fst] in X. rewrite T, E in X. injection X as ->. exact U.
Qed.
Print Assumptions c53_whole.

(** So a download with a block missing does not end well: here one leaf of a file is gone. *)
Example ex_gap_get : no_dot_names ex_tree /\ step_name [114] /\
  snd (get_stream true 20 ex_tree (cid_of 1) [114]) = Walked Done /\ snd (get_stream true 20 ex_gap (cid_of 1) [114]) = Walked (Missing (cid_of 9)).
Proof. split; [exact ex_no_dots|]. split; [a_step|]. split; vm_compute; reflexivity. Qed.
