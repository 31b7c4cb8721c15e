From Coq Require Import Sorting.Sorted.
From Verif Require Import Base Wire Cid Pb Ipld IpfsPath DirLookup FileVisit Resolve Cat Walk Timeouts TimeoutsSpec.
Local Open Scope N_scope.

Section Tasks.
Context {A : Type}.
Variable all : store.
Definition part (get : store) : Prop := forall c b, get c = Some b -> all c = Some b.

Lemma advance_follow get (t : task A) : part get -> follow all (advance get t) = follow all t.
Proof.
  intros HP. induction t as [a|c k IH|]; [reflexivity| |reflexivity]. cbn [advance].
  destruct (get c) as [b|] eqn:E; [|reflexivity]. rewrite IH. cbn [follow]. rewrite (HP _ _ E). reflexivity.
Qed.
Lemma advance_shape get (t : task A) : match advance get t with Load c _ => get c = None | _ => True end.
Proof.
  induction t as [a|c k IH|]; [exact Logic.I| |exact Logic.I]. cbn [advance].
  destruct (get c) as [b|] eqn:E; [apply IH|exact E].
Qed.
Lemma advance_needs get (t : task A) c : part get -> needs all (advance get t) c -> needs all t c.
Proof.
  intros HP. induction t as [a|c' k IH|]; [auto| |auto]. cbn [advance].
  destruct (get c') as [b|] eqn:E; [|auto]. intros H. eapply needs_later; [exact (HP _ _ E)|]. apply IH, H.
Qed.
Lemma advance_lacks get (t : task A) c : part get -> needs all t c -> get c = None ->
  match advance get t with Load _ _ => needs all (advance get t) c | _ => False end.
Proof.
  intros HP. induction 1 as [c k|c k b c' Hb Hn IH]; intros Hg; cbn [advance].
  - rewrite Hg. constructor.
  - destruct (get c) as [b'|] eqn:E.
    + rewrite (HP _ _ E) in Hb. injection Hb as ->. apply IH, Hg.
    + eapply needs_later; eassumption.
Qed.

Lemma serve_answer deadline looks : forall (t : task A) now a, parts_of all looks ->
  serve deadline looks t = Answered now (Answer a) -> follow all t = Got a.
Proof.
  induction looks as [|[n get] r IH]; intros t now a HP H; [discriminate|].
  inversion HP as [|? ? Hp HP']; subst. cbn [serve] in H. unfold poll in H. rewrite <- (advance_follow get t Hp).
  destruct (advance get t) as [x|c k|] eqn:E; [injection H as _ ->; reflexivity| |discriminate].
  destruct deadline as [d|]; [destruct (d <=? n); [discriminate|]|]; eapply IH; eassumption.
Qed.
Lemma serve_elapsed deadline looks : forall (t : task A) now, parts_of all looks ->
  serve deadline looks t = Answered now Elapsed ->
  exists d get c, deadline = Some d /\ d <= now /\ In (now, get) looks /\ needs all t c /\ get c = None.
Proof.
  induction looks as [|[n get] r IH]; intros t now HP H; [discriminate|].
  inversion HP as [|? ? Hp HP']; subst. cbn [serve] in H. unfold poll in H. pose proof (advance_shape get t) as HS.
  pose proof (fun c => advance_needs get t c Hp) as HA.
  destruct (advance get t) as [x|c k|] eqn:E; [discriminate| |discriminate].
  assert (K : serve deadline r (Load c k) = Answered now Elapsed -> exists d get' c, deadline = Some d /\ d <= now /\ In (now, get') ((n, get) :: r) /\ needs all t c /\ get' c = None).
  { intros H'. destruct (IH _ _ HP' H') as (d & g & c0 & E1 & E2 & E3 & E4 & E5).
    exists d, g, c0. repeat split; try assumption; [right; exact E3|]. apply HA, E4. }
  destruct deadline as [d|]; [|apply K, H]. destruct (N.leb_spec d n); [|apply K, H].
  injection H as <-. exists d, get, c. repeat split; try assumption; [left; reflexivity|]. apply HA. constructor.
Qed.
Lemma serve_in_time d looks : forall (t : task A) at_ get, parts_of all looks -> StronglySorted N.le (map fst looks) ->
  follow all t <> NoEnd -> In (at_, get) looks -> d <= at_ ->
  exists now r, serve (Some d) looks t = Answered now r /\ now <= at_.
Proof.
  induction looks as [|[n g] r IH]; intros t at_ get HP HS HE HI Hd; [destruct HI|].
  inversion HP as [|? ? Hp HP']; subst. cbn [map fst] in HS. inversion HS as [|? ? HS' HF]; subst.
  assert (Hn : n <= at_).
  { destruct HI as [HI|HI]; [injection HI as -> _; lia|]. rewrite Forall_forall in HF. apply HF.
    change at_ with (fst (at_, get)). apply in_map, HI. }
  cbn [serve]. unfold poll. pose proof (advance_follow g t Hp) as HF'.
  destruct (advance g t) as [x|c k|] eqn:E; [eauto| |cbn in HF'; congruence].
  destruct (N.leb_spec d n) as [Hl|Hl]; [eauto|].
  destruct HI as [HI|HI]; [injection HI as -> _; lia|].
  apply (IH _ at_ get HP' HS'); [congruence|exact HI|exact Hd].
Qed.
Lemma serve_complete deadline at_ get after : forall before (t : task A), parts_of all (before ++ (at_, get) :: after) ->
  match deadline with Some d => Forall (fun l => fst l < d) before | None => True end ->
  (forall c, needs all t c -> get c <> None) -> follow all t <> NoEnd ->
  exists now a, serve deadline (before ++ (at_, get) :: after) t = Answered now (Answer a).
Proof.
  induction before as [|[n g] before IH]; intros t HP HD HN HE.
  - cbn [app] in *. inversion HP as [|? ? Hp HP']; subst. cbn [serve]. unfold poll.
    pose proof (advance_shape get t) as HS. pose proof (fun c => advance_needs get t c Hp) as HA.
    pose proof (advance_follow get t Hp) as HF.
    destruct (advance get t) as [x|c k|]; [eauto| |cbn in HF; congruence]. exfalso. eapply HN; [apply HA; constructor|exact HS].
  - cbn [app] in *. inversion HP as [|? ? Hp HP']; subst. cbn [serve]. unfold poll.
    pose proof (fun c => advance_needs g t c Hp) as HA. pose proof (advance_follow g t Hp) as HF. cbn [snd] in *.
    destruct (advance g t) as [x|c k|]; [eauto| |cbn in HF; congruence].
    assert (K : match deadline with Some d => if d <=? n then false else true | None => true end = true).
    { destruct deadline as [d|]; [|reflexivity]. inversion HD; subst. cbn [fst] in *. destruct (N.leb_spec d n); [lia|reflexivity]. }
    assert (HD' : match deadline with Some d => Forall (fun l => fst l < d) before | None => True end).
    { destruct deadline as [d|]; [|exact Logic.I]. inversion HD; assumption. }
    destruct (IH (Load c k) HP' HD') as (now & a & Hs).
    { intros c0 Hc. apply HN, HA, Hc. }
    { congruence. }
    exists now, a. destruct deadline as [d|]; [destruct (d <=? n); [discriminate|]|]; exact Hs.
Qed.
Lemma serve_waits deadline looks : forall (t : task A) c now a, parts_of all looks -> needs all t c ->
  Forall (fun l => snd l c = None) looks -> serve deadline looks t <> Answered now (Answer a) /\ serve deadline looks t <> Hung now.
Proof.
  induction looks as [|[n g] r IH]; intros t c now a HP HN HF; [split; discriminate|].
  inversion HP as [|? ? Hp HP']; subst. inversion HF as [|? ? Hg HF']; subst. cbn [snd] in *. cbn [serve]. unfold poll.
  pose proof (advance_lacks g t c Hp HN Hg) as HL. destruct (advance g t) as [x|c0 k|]; try contradiction.
  destruct deadline as [d|]; [destruct (d <=? n); [split; discriminate|]|]; eapply IH; eassumption.
Qed.
Lemma serve_no_timeout looks : forall (t : task A) now, serve None looks t <> Answered now Elapsed.
Proof.
  induction looks as [|[n g] r IH]; intros t now; [discriminate|]. cbn [serve]. unfold poll.
  destruct (advance g t); [discriminate|apply IH|discriminate].
Qed.
End Tasks.

Lemma follow_bind {A B} all (t : task A) (f : A -> task B) :
  follow all (bind t f) = match follow all t with Got a => follow all (f a) | Lacks c => Lacks c | NoEnd => NoEnd end.
Proof.
  induction t as [a|c k IH|]; [reflexivity| |reflexivity]. cbn [bind follow]. destruct (all c) as [b|]; [apply IH|reflexivity].
Qed.

(** * The tasks do what the models of the calls say *)
Section Model.
Variable get : store.
Variable decode : cid -> bytes -> outcome ipld unit.
Definition there (l : list cid) : bool := forallb (fun c => match get c with Some _ => true | None => false end) l.
Lemma there_app a b : there (a ++ b) = there a && there b.
Proof. apply forallb_app. Qed.

Lemma shards_follow fuel : forall q needle ca,
  match walk_shards get fuel q needle ca with
  | None => follow get (shards_task fuel q needle ca) = NoEnd
  | Some (l, o) => if there l then follow get (shards_task fuel q needle ca) = Got o
                   else exists c, follow get (shards_task fuel q needle ca) = Lacks c
  end.
Proof.
  induction fuel as [|fuel IH]; intros q needle ca; destruct q as [|next q]; try reflexivity.
  cbn [walk_shards shards_task follow]. destruct (get next) as [b|] eqn:E.
  2:{ cbn [there forallb]. rewrite E. cbn. eauto. }
  destruct (continue_walk (next :: q) needle b ca) as [[[c|q'|] ca']|x|];
    try (cbn [there forallb follow]; rewrite E; reflexivity).
  specialize (IH q' needle ca'). destruct (walk_shards get fuel q' needle ca') as [[l o]|]; cbn [option_map]; [|exact IH].
  cbn [there forallb]. rewrite E. cbn [andb]. exact IH.
Qed.
Lemma resolve_follow fuel hfuel : forall c segs follow_links total ca,
  match resolve0 get decode fuel hfuel c segs follow_links total ca with
  | None => follow get (resolve_task decode fuel hfuel c segs follow_links total ca) = NoEnd
            \/ exists c', follow get (resolve_task decode fuel hfuel c segs follow_links total ca) = Lacks c'
  | Some (docs, shs, o) =>
      if there (docs ++ shs) then follow get (resolve_task decode fuel hfuel c segs follow_links total ca) = Got o
      else exists c', follow get (resolve_task decode fuel hfuel c segs follow_links total ca) = Lacks c'
  end.
Proof.
  induction fuel as [|fuel IH]; intros c segs fl total ca; [left; reflexivity|].
  cbn [resolve0 resolve_task follow]. destruct (get c) as [data|] eqn:E.
  2:{ cbn [app there forallb]. rewrite E. cbn. eauto. }
  assert (Hone : forall l, there ([c] ++ l) = there l) by (intros l; cbn [app there forallb]; rewrite E; reflexivity).
  assert (Hnil : there ([c] ++ []) = true) by (rewrite Hone; reflexivity).
  assert (Hnext : forall src dest rest k ca' shs, there shs = true ->
    match (if fl then option_map (fun '(docs, shs', o) => (c :: docs, shs ++ shs', o)) (resolve0 get decode fuel hfuel dest rest fl k ca')
           else Some ([c], shs, Ok (NLink src dest, k))) with
    | None => follow get (if fl then resolve_task decode fuel hfuel dest rest fl k ca' else Done (Ok (NLink src dest, k))) = NoEnd
              \/ exists c', follow get (if fl then resolve_task decode fuel hfuel dest rest fl k ca' else Done (Ok (NLink src dest, k))) = Lacks c'
    | Some (docs, shs', o) =>
        if there (docs ++ shs') then follow get (if fl then resolve_task decode fuel hfuel dest rest fl k ca' else Done (Ok (NLink src dest, k))) = Got o
        else exists c', follow get (if fl then resolve_task decode fuel hfuel dest rest fl k ca' else Done (Ok (NLink src dest, k))) = Lacks c'
    end).
  { intros src dest rest k ca' shs Hs. destruct fl.
    - specialize (IH dest rest true k ca'). destruct (resolve0 get decode fuel hfuel dest rest true k ca') as [[[d s] o]|]; cbn [option_map]; [|exact IH].
      assert (Ht : there ((c :: d) ++ shs ++ s) = there (d ++ s)).
      { change ((c :: d) ++ shs ++ s) with ([c] ++ d ++ shs ++ s). rewrite Hone, !there_app, Hs. reflexivity. }
      rewrite Ht. exact IH.
    - rewrite Hone, Hs. reflexivity. }
  destruct (resolve_local decode c data segs ca) as [[[[[n|src q needle] m] rest] ca']|x|]; try (rewrite Hnil; reflexivity).
  - destruct n; try (rewrite Hnil; reflexivity). apply Hnext. reflexivity.
  - rewrite follow_bind. pose proof (shards_follow hfuel q needle ca') as HS.
    destruct (walk_shards get hfuel q needle ca') as [[t o]|]; [|rewrite HS; left; reflexivity].
    destruct (there t) eqn:Et.
    + rewrite HS. destruct o as [[dest ca'']|x|]; [apply Hnext; exact Et|rewrite Hone, Et; reflexivity|rewrite Hone, Et; reflexivity].
    + destruct HS as [c' HS]. rewrite HS.
      assert (G : forall (r : option (list cid * list cid * outcome (node * nat) raw_err)),
        (forall d s x, r = Some (d, s, x) -> there (d ++ s) = false) ->
        match r with None => @Lacks (outcome (node * nat) raw_err) c' = NoEnd \/ (exists c'0, @Lacks (outcome (node * nat) raw_err) c' = Lacks c'0)
        | Some (docs, shs, o0) => if there (docs ++ shs) then Lacks c' = Got o0 else exists c'0, @Lacks (outcome (node * nat) raw_err) c' = Lacks c'0 end).
      { intros [[[d s] x]|] Hr; [rewrite (Hr d s x eq_refl)|right]; eauto. }
      apply G. intros d s x Hx.
      destruct o as [[dest ca'']|e|].
      * destruct fl.
        -- destruct (resolve0 get decode fuel hfuel dest rest true (total + m)%nat ca'') as [[[d1 s1] o1]|]; [|discriminate].
           injection Hx as <- <- <-. change ((c :: d1) ++ t ++ s1) with ([c] ++ d1 ++ t ++ s1). rewrite Hone, !there_app, Et. cbn. apply andb_false_r.
        -- injection Hx as <- <- <-. rewrite Hone. exact Et.
      * injection Hx as <- <- <-. rewrite Hone. exact Et.
      * injection Hx as <- <- <-. rewrite Hone. exact Et.
Qed.
Lemma dag_follow fuel hfuel root path fl a :
  follow get (dag_task decode fuel hfuel root path fl) = Got a -> dag_resolve get decode fuel hfuel root path fl = Some a.
Proof.
  unfold dag_task. rewrite follow_bind. pose proof (resolve_follow fuel hfuel root path fl 0 None) as H. unfold dag_resolve.
  destruct (resolve0 get decode fuel hfuel root path fl 0 None) as [[[docs shs] o]|].
  - destruct (there (docs ++ shs)).
    + rewrite H. cbn [follow]. intros [= <-]. destruct o as [[n k]|e|]; reflexivity.
    + destruct H as [c' H]. rewrite H. discriminate.
  - destruct H as [H|[c' H]]; rewrite H; discriminate.
Qed.
Lemma cat_body_follow fuel : forall v o, follow get (cat_body fuel v) = Got (Ok o) ->
  exists items, cat_loop get fuel v = (items, Some Ended) /\ o = concat (map (fun i => match i with Piece b => b | Trouble _ => [] end) items)
    /\ forall e, ~ In (Trouble e) items.
Proof.
  induction fuel as [|fuel IH]; intros v o; cbn [cat_body cat_loop follow]; [discriminate|].
  destruct (next_link v) as [c|]; [|discriminate]. cbn [follow]. destruct (get c) as [data|]; [|discriminate].
  destruct (visit_continue v data) as [[b [v'|]]|x|]; cbn [follow]; try discriminate.
  - rewrite follow_bind. destruct (follow get (cat_body fuel v')) as [[l|e|]|c'|] eqn:E; cbn [follow]; try discriminate.
    intros [= <-]. destruct (IH _ _ E) as (items & -> & -> & Hn). exists (piece b ++ items). split; [reflexivity|].
    destruct b as [|x b]; [split; [reflexivity|exact Hn]|]. split; [reflexivity|]. intros e [He|He]; [discriminate|exact (Hn e He)].
  - intros [= <-]. exists (piece b). split; [reflexivity|]. destruct b as [|x b]; cbn.
    + split; [reflexivity|auto].
    + rewrite app_nil_r. split; [reflexivity|]. intros e [He|[]]. discriminate.
Qed.
Lemma cat_follow fuel hfuel root path range b v :
  follow get (cat_task decode fuel hfuel root path range) = Got (Ok (b, v)) ->
  cat get decode fuel hfuel root path range
  = Some (Ok (match v with
              | None => (piece b, Some Ended)
              | Some v => let (l, e) := cat_loop get fuel v in (piece b ++ l, e)
              end)).
Proof.
  unfold cat_task. rewrite follow_bind. destruct (follow get (dag_task decode fuel hfuel root path true)) as [o|c|] eqn:E; try discriminate.
  cbn [follow]. unfold cat. rewrite (dag_follow _ _ _ _ _ _ E). destruct o as [[n rest]|e|]; try discriminate.
  destruct (into_unixfs_block n) as [[c data]|u|]; try discriminate. unfold cat_block.
  destruct (visit_start range data) as [[[[b' size] md] [v'|]]|x|]; try discriminate; intros [= <- <-]; [|reflexivity].
  destruct (cat_loop get fuel v') as [l e]. reflexivity.
Qed.
Lemma get_body_follow dbg fuel : forall w e, follow get (get_body dbg fuel None w) = Got e -> snd (walk dbg fuel get w) = e.
Proof.
  induction fuel as [|fuel IH]; intros w e; cbn [get_body walk]; destruct (w_continue w); cbn [follow]; try discriminate; try (intros [= <-]; reflexivity).
  destruct (first_pending w) as [c|]; cbn [follow]; [|intros [= <-]; reflexivity].
  destruct (get c) as [b|]; [|discriminate].
  destruct (walk_next dbg w b) as [[w' o]|x|]; cbn [follow]; try (intros [= <-]; reflexivity).
  intros H. specialize (IH _ _ H). destruct (walk dbg fuel get w') as [os e']. exact IH.
Qed.
End Model.
