(** C78: requests with a timeout. *)
From Coq Require Import Sorting.Sorted.
From Verif Require Import Base Wire Cid Pb FMap Ipld IpfsPath DirLookup FileVisit Resolve Cat Walk Timeouts TimeoutsSpec TimeoutsProofs.
From Verif Require PropsWalk PropsResolve ResolveSpec.
Local Open Scope N_scope.

(** An answer is the one which the blocks of the store say, whatever the timeout, the times at which
    the request is looked at, and the order in which the blocks come and go. *)
Theorem c78_answer {A} all deadline looks (t : task A) now a : parts_of all looks ->
  serve deadline looks t = Answered now (Answer a) -> follow all t = Got a.
Proof. apply serve_answer. Qed.
Print Assumptions c78_answer.

(** So with a timeout, with another one or with none, looked at at other times: if there is an answer,
    it is the same. *)
Theorem c78_same {A} all d1 d2 looks1 looks2 (t : task A) now1 now2 a1 a2 : parts_of all looks1 -> parts_of all looks2 ->
  serve d1 looks1 t = Answered now1 (Answer a1) -> serve d2 looks2 t = Answered now2 (Answer a2) -> a1 = a2.
Proof.
  intros H1 H2 E1 E2. apply (serve_answer all) in E1; [|exact H1]. apply (serve_answer all) in E2; [|exact H2]. congruence.
Qed.
Print Assumptions c78_same.

(** What the answers of the endpoints are: those of the calls, on the whole store. *)
Theorem c78_block all deadline looks c now b : parts_of all looks ->
  serve deadline looks (block_task c) = Answered now (Answer b) -> all c = Some b.
Proof.
  intros HP H. apply (serve_answer all) in H; [|exact HP]. cbn in H. destruct (all c); [injection H as ->; reflexivity|discriminate].
Qed.
Print Assumptions c78_block.
Theorem c78_resolve all decode fuel hfuel root path follow_links deadline looks now a : parts_of all looks ->
  serve deadline looks (dag_task decode fuel hfuel root path follow_links) = Answered now (Answer a) ->
  dag_resolve all decode fuel hfuel root path follow_links = Some a.
Proof. intros HP H. apply dag_follow. eapply serve_answer; eassumption. Qed.
Print Assumptions c78_resolve.
(** For /cat: the head, and the pieces of the body when it ends without trouble. *)
Theorem c78_cat all decode fuel hfuel root path range deadline looks now b v : parts_of all looks ->
  serve deadline looks (cat_task decode fuel hfuel root path range) = Answered now (Answer (Ok (b, v))) ->
  exists items e, cat all decode fuel hfuel root path range = Some (Ok (items, e)) /\
  forall v', v = Some v' -> forall looks' now' rest, parts_of all looks' ->
    serve None looks' (cat_body fuel v') = Answered now' (Answer (Ok rest)) ->
    e = Some Ended /\ concat (map (fun i => match i with Piece x => x | Trouble _ => [] end) items) = b ++ rest
    /\ forall x, ~ In (Trouble x) items.
Proof.
  intros HP H. apply (serve_answer all) in H; [|exact HP]. apply cat_follow in H. destruct v as [v|].
  - destruct (cat_loop all fuel v) as [l e] eqn:E. exists (piece b ++ l), e. split; [exact H|].
    intros v' [= <-] looks' now' rest HP' H'. apply (serve_answer all) in H'; [|exact HP'].
    destruct (cat_body_follow _ _ _ _ H') as (items & E1 & E2 & E3). rewrite E in E1. injection E1 as -> ->.
    split; [reflexivity|]. rewrite map_app, concat_app, <- E2. split.
    + f_equal. destruct b; [reflexivity|]. cbn. rewrite app_nil_r. reflexivity.
    + intros x Hx. apply in_app_iff in Hx as [Hx|Hx]; [|exact (E3 x Hx)]. destruct b; [destruct Hx|]. destruct Hx as [Hx|[]]. discriminate.
  - exists (piece b), (Some Ended). split; [exact H|]. discriminate.
Qed.
Print Assumptions c78_cat.

(** For /get: the root block, and how the walk of the body ends. *)
Theorem c78_get all decode fuel hfuel root path deadline looks now c b : parts_of all looks ->
  serve deadline looks (get_task decode fuel hfuel root path) = Answered now (Answer (Ok (c, b))) ->
  (exists n rest, dag_resolve all decode fuel hfuel root path true = Some (Ok (n, rest)) /\ into_unixfs_block n = Ok (c, b)) /\ all c = Some b /\
  forall dbg k name looks' now' e, parts_of all looks' ->
    serve None looks' (get_body dbg k (Some b) (walker_new c name)) = Answered now' (Answer e) ->
    snd (walk dbg k all (walker_new c name)) = e.
Proof.
  intros HP H. apply (serve_answer all) in H; [|exact HP]. unfold get_task in H. rewrite follow_bind in H.
  destruct (follow all (dag_task decode fuel hfuel root path true)) as [o|c'|] eqn:E; try discriminate. cbn [follow] in H.
  apply dag_follow in E. destruct o as [[n rest]|e|]; try discriminate. destruct (into_unixfs_block n) as [x|u|] eqn:En; try discriminate. injection H as ->.
  assert (Hb : all c = Some b).
  { apply PropsResolve.c30_resolve_partial in E as (h & d & q & p1 & p2 & _ & X & _). revert En. unfold into_unixfs_block. destruct (_ =? _); [|discriminate].
    destruct n; try discriminate. intros [= -> ->]. inversion X. assumption. }
  split; [eauto|]. split; [exact Hb|]. intros dbg k name looks' now' e HP' H'. apply (serve_answer all) in H'; [|exact HP'].
  apply get_body_follow. rewrite <- H'. destruct k as [|k]; [reflexivity|].
  cbn [get_body walker_new w_continue first_pending w_current w_next option_map fst follow]. rewrite Hb. reflexivity.
Qed.
Print Assumptions c78_get.
(** For /refs: what each path leads to. *)
Theorem c78_refs all decode fuel hfuel paths deadline looks now ns : parts_of all looks ->
  serve deadline looks (refs_task decode fuel hfuel paths) = Answered now (Answer (Ok ns)) ->
  Forall2 (fun p n => exists rest, dag_resolve all decode fuel hfuel (fst p) (snd p) true = Some (Ok (n, rest))) paths ns.
Proof.
  intros HP H. apply (serve_answer all) in H; [|exact HP]. clear -H. revert ns H.
  induction paths as [|[root path] r IH]; intros ns H; cbn [refs_task] in H; [injection H as <-; constructor|].
  rewrite follow_bind in H. destruct (follow all (dag_task decode fuel hfuel root path true)) as [o|c|] eqn:E; try discriminate.
  destruct o as [[n rest]|e|]; try discriminate. rewrite follow_bind in H.
  destruct (follow all (refs_task decode fuel hfuel r)) as [[l|e|]|c|] eqn:Er; try discriminate. injection H as <-.
  constructor; [exists rest; apply dag_follow; exact E|]. apply IH. reflexivity.
Qed.
Print Assumptions c78_refs.

(** A request is given up only at or after its deadline, and only if at that very look a block it asks
    for is not there. *)
Theorem c78_elapsed {A} all deadline looks (t : task A) now : parts_of all looks ->
  serve deadline looks t = Answered now Elapsed ->
  exists d get c, deadline = Some d /\ d <= now /\ In (now, get) looks /\ needs all t c /\ get c = None.
Proof. apply serve_elapsed. Qed.
Print Assumptions c78_elapsed.

(** If all the blocks it asks for are there at a look, and no earlier look was at or after the
    deadline, it is answered: even if this look itself is late. *)
Theorem c78_complete {A} all deadline before at_ get after (t : task A) : parts_of all (before ++ (at_, get) :: after) ->
  match deadline with Some d => Forall (fun l => fst l < d) before | None => True end ->
  (forall c, needs all t c -> get c <> None) -> follow all t <> NoEnd ->
  exists now a, serve deadline (before ++ (at_, get) :: after) t = Answered now (Answer a) /\ follow all t = Got a.
Proof.
  intros HP HD HN HE. destruct (serve_complete all deadline at_ get after before t HP HD HN HE) as (now & a & H).
  exists now, a. split; [exact H|]. eapply serve_answer; eassumption.
Qed.
Print Assumptions c78_complete.

(** With a timeout there is an answer, or the error, not later than the first look at or after the
    deadline. *)
Theorem c78_in_time {A} all d looks (t : task A) at_ get : parts_of all looks -> StronglySorted N.le (map fst looks) ->
  follow all t <> NoEnd -> In (at_, get) looks -> d <= at_ ->
  exists now r, serve (Some d) looks t = Answered now r /\ now <= at_.
Proof. apply serve_in_time. Qed.
Print Assumptions c78_in_time.

(** Without a timeout a request is never given up, and it waits as long as a block it asks for does not
    come. *)
Theorem c78_without {A} looks (t : task A) :
  (forall now, serve None looks t <> Answered now Elapsed) /\
  (forall all c, parts_of all looks -> needs all t c -> Forall (fun l => snd l c = None) looks ->
    exists t', serve None looks t = Waiting t').
Proof.
  split; [intros now; apply serve_no_timeout|]. intros all c HP HN HF.
  destruct (serve None looks t) as [now [a|]|t'|now] eqn:E; [| |eauto|].
  - exfalso. exact (proj1 (serve_waits all None looks t c now a HP HN HF) E).
  - exfalso. exact (serve_no_timeout looks t now E).
  - exfalso. clear -HP HN HF E. revert t HP HN HF E. induction looks as [|[n g] r IH]; intros t HP HN HF E; [discriminate|].
    inversion HP as [|? ? Hp HP']; subst. inversion HF as [|? ? Hg HF']; subst. cbn [snd] in *. cbn [serve] in E. unfold poll in E.
    pose proof (advance_lacks all g t c Hp HN Hg) as HL. destruct (advance g t) as [x|c0 k|]; try contradiction. eapply IH; eassumption.
Qed.
Print Assumptions c78_without.

(** * What a timeout does not do *)

(** The file 2 of the example tree: two leaves, 3 and 4; leaf 4 never comes. *)
Definition cut (c : cid) : option bytes := if cid_eqb c (PropsWalk.cid_of 4) then None else PropsWalk.ex_tree c.
Definition no_decode (c : cid) (b : bytes) : outcome ipld unit := Err tt.

(** /cat with a timeout: the head of the response comes at once and says that all is well, and the
    body never ends, however long and often it is looked at. *)
Theorem c78_cat_body_refuted : exists root b v,
  serve (Some 5) [(0, cut)] (cat_task no_decode 5 5 root [] None) = Answered 0 (Answer (Ok (b, Some v))) /\
  forall looks, parts_of cut looks -> forall fuel, exists t, serve None looks (cat_body (S (S fuel)) v) = Waiting t.
Proof.
  exists (PropsWalk.cid_of 2). eexists. eexists. split; [vm_compute; reflexivity|].
  intros looks HP fuel. apply (proj2 (c78_without looks _) cut (PropsWalk.cid_of 4) HP).
  - cbn [cat_body]. set (v := mk_visit _ _ _). assert (En : next_link v = Some (PropsWalk.cid_of 3)) by (vm_compute; reflexivity). rewrite En.
    eapply (needs_later cut _ _ (PropsWalk.file [1; 2])); [vm_compute; reflexivity|].
    destruct (visit_continue v (PropsWalk.file [1; 2])) as [[b [v'|]]|x|] eqn:Ev; [|exfalso; vm_compute in Ev; discriminate..].
    assert (En' : next_link v' = Some (PropsWalk.cid_of 4)).
    { vm_compute in Ev. injection Ev as <- <-. vm_compute. reflexivity. }
    cbn [bind]. rewrite En'. cbn [bind]. apply needs_now.
  - unfold parts_of in HP. rewrite Forall_forall in HP |- *. intros l Hl. destruct (snd l (PropsWalk.cid_of 4)) as [x|] eqn:E; [|reflexivity].
    apply (HP l Hl) in E. vm_compute in E. discriminate.
Qed.
Print Assumptions c78_cat_body_refuted.

(** /get with a timeout: the same. *)
Theorem c78_get_body_refuted : exists root c b,
  serve (Some 5) [(0, cut)] (get_task no_decode 5 5 root []) = Answered 0 (Answer (Ok (c, b))) /\
  forall looks, parts_of cut looks -> forall dbg fuel,
    exists t, serve None looks (get_body dbg (S (S (S fuel))) (Some b) (walker_new c [114])) = Waiting t.
Proof.
  exists (PropsWalk.cid_of 2). eexists. eexists. split; [vm_compute; reflexivity|].
  intros looks HP dbg fuel. apply (proj2 (c78_without looks _) cut (PropsWalk.cid_of 4) HP).
  - cbn [get_body walker_new w_continue].
    match goal with |- needs _ (match walk_next dbg ?w ?b with _ => _ end) _ =>
      let x := eval vm_compute in (walk_next true w b) in
      assert (E1 : walk_next dbg w b = x) by (destruct dbg; vm_compute; reflexivity); rewrite E1 end.
    cbn [get_body w_continue first_pending w_current].
    match goal with |- context [next_link ?v] =>
      let x := eval vm_compute in (next_link v) in assert (E2 : next_link v = x) by (vm_compute; reflexivity); rewrite E2 end.
    eapply needs_later; [vm_compute; reflexivity|].
    match goal with |- context [walk_next dbg ?w ?b] =>
      let x := eval vm_compute in (walk_next true w b) in
      assert (E3 : walk_next dbg w b = x) by (destruct dbg; vm_compute; reflexivity); rewrite E3 end.
    cbn [get_body w_continue first_pending w_current].
    match goal with |- context [next_link ?v] =>
      let x := eval vm_compute in (next_link v) in assert (E4 : next_link v = x) by (vm_compute; reflexivity); rewrite E4 end.
    apply needs_now.
  - unfold parts_of in HP. rewrite Forall_forall in HP |- *. intros l Hl. destruct (snd l (PropsWalk.cid_of 4)) as [x|] eqn:E; [|reflexivity].
    apply (HP l Hl) in E. vm_compute in E. discriminate.
Qed.
Print Assumptions c78_get_body_refuted.

(** A request for a file below a directory, which is looked at five times: its blocks come one after
    the other.  With a timeout until 30 it is answered at the late look at 31; with one until 20 it is given up. *)
Definition ex_path : list bytes := [[100]; [120]].   (* d/x *)
Definition only (l : list N) (c : cid) : option bytes := if existsb (fun n => cid_eqb c (PropsWalk.cid_of n)) l then PropsWalk.ex_tree c else None.
Definition ex_looks : list (N * store) := [(0, only []); (10, only [1]); (20, only [5]); (31, only [6]); (40, only [])].
Definition ex_task := cat_task no_decode 5 5 (PropsWalk.cid_of 1) ex_path None.
Example c78_case : parts_of PropsWalk.ex_tree ex_looks /\ StronglySorted N.le (map fst ex_looks) /\
  serve (Some 30) ex_looks ex_task = Answered 31 (Answer (Ok ([7; 7], None))) /\
  serve None ex_looks ex_task = Answered 31 (Answer (Ok ([7; 7], None))) /\
  serve (Some 20) ex_looks ex_task = Answered 20 Elapsed /\
  follow PropsWalk.ex_tree ex_task = Got (Ok ([7; 7], None)) /\
  needs PropsWalk.ex_tree ex_task (PropsWalk.cid_of 1) /\
  (forall c, needs PropsWalk.ex_tree (block_task (PropsWalk.cid_of 6)) c -> only [6] c <> None).
Proof.
  split.
  { repeat constructor; intros c b; cbn [snd]; unfold only; destruct (existsb _ _); try discriminate; auto. }
  split; [repeat constructor; vm_compute; discriminate|].
  split; [vm_compute; reflexivity|]. split; [vm_compute; reflexivity|]. split; [vm_compute; reflexivity|]. split; [vm_compute; reflexivity|].
  split; [apply needs_now|]. intros c H. inversion H; subst; [vm_compute; discriminate|].
  match goal with H : needs _ (Done _) _ |- _ => inversion H end.
Qed.
