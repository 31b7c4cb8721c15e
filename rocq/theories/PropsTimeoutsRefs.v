(** C78: the body of /refs. *)
From Verif Require Import Base Wire Cid Pb FMap Ipld IpfsPath Resolve Timeouts TimeoutsSpec TimeoutsProofs TimeoutsRefs PropsTimeouts.
From Verif Require Refs PropsResolve PropsRefs.
Local Open Scope N_scope.

Definition fetch_of (all : store) (c : cid) : Refs.fetched := match all c with Some b => Refs.Data b | None => Refs.Absent end.
Lemma loop_follow checks all decode fuel : forall o work seen es e,
  follow all (refs_loop checks decode fuel o work seen) = Got (es, e) -> Refs.run checks (fetch_of all) decode fuel o work seen = (es, Some e).
Proof.
  induction fuel as [|fuel IH]; intros o work seen es e; cbn [refs_loop Refs.run follow]; [discriminate|].
  destruct work as [|i work]; [intros [= <- <-]; reflexivity|].
  assert (G : forall x, follow all (match x with
                  | (es, inl e) => Done (es, e)
                  | (es, inr (work, seen)) => bind (refs_loop checks decode fuel o work seen) (fun r => Done (es ++ fst r, snd r)) end) = Got (es, e) ->
                match x with (es, inl e) => (es, Some e) | (es, inr (work, seen)) => let (r, e) := Refs.run checks (fetch_of all) decode fuel o work seen in (es ++ r, e) end = (es, Some e)).
  { intros [es0 [e0|[w s]]]; cbn [follow]; [intros [= <- <-]; reflexivity|]. rewrite follow_bind.
    destruct (follow all (refs_loop checks decode fuel o w s)) as [[r e1]|c|] eqn:E; cbn [follow]; try discriminate. intros [= <- <-]. rewrite (IH _ _ _ _ _ E). reflexivity. }
  intros H. destruct (Refs.traverse checks (Refs.max_depth o) (Refs.i_depth i)) as [[t|]|] eqn:T.
  - cbn [follow] in H. destruct (all (Refs.i_dst i)) as [b|] eqn:B; [|discriminate]. apply G in H. rewrite <- H.
    assert (X : Refs.turn checks (fetch_of all) decode o i work seen = Refs.turn checks (fun _ => Refs.Data b) decode o i work seen) by (unfold Refs.turn, fetch_of; rewrite T, B; reflexivity).
    rewrite X. reflexivity.
  - apply G in H. rewrite <- H. unfold Refs.turn. rewrite T. reflexivity.
  - apply G in H. rewrite <- H. unfold Refs.turn. rewrite T. reflexivity.
Qed.
(** What the body lists when it ends is what C32 is about, on the whole store. *)
Theorem c78_refs_body checks all decode fuel o roots looks now es e : parts_of all looks ->
  serve None looks (refs_body checks decode fuel o roots) = Answered now (Answer (es, e)) ->
  Refs.refs checks (fetch_of all) decode fuel o roots = (es, Some e).
Proof.
  intros HP H. apply (serve_answer all) in H; [|exact HP]. unfold refs_body, Refs.refs in *.
  assert (G : follow all (match Refs.start o roots [] [] with None => Done ([], Refs.Panicked) | Some (work, seen) => refs_loop checks decode fuel o work seen end) = Got (es, e) ->
    match Refs.start o roots [] [] with None => ([], Some Refs.Panicked) | Some (work, seen) => Refs.run checks (fetch_of all) decode fuel o work seen end = (es, Some e)).
  { destruct (Refs.start o roots [] []) as [[w s]|]; [apply loop_follow|]. cbn [follow]. intros [= <- <-]. reflexivity. }
  destruct (Refs.max_depth o) as [[|d]|]; [|exact (G H)..]. cbn [follow] in H. injection H as <- <-. reflexivity.
Qed.
Print Assumptions c78_refs_body.

Lemma needs_bind {A B} all (t : task A) (f : A -> task B) c : needs all t c -> needs all (bind t f) c.
Proof. induction 1 as [c k|c k b c' E H IH]; cbn [bind]; [apply needs_now|exact (needs_later all c _ b c' E IH)]. Qed.
Lemma loop_now checks decode all fuel o i work seen t : Refs.traverse checks (Refs.max_depth o) (Refs.i_depth i) = Some (Some t) ->
  needs all (refs_loop checks decode (S fuel) o (i :: work) seen) (Refs.i_dst i).
Proof. intros T. cbn [refs_loop]. rewrite T. apply needs_now. Qed.
Lemma loop_later checks decode all fuel o i work seen t b es w s c : Refs.traverse checks (Refs.max_depth o) (Refs.i_depth i) = Some (Some t) ->
  all (Refs.i_dst i) = Some b -> Refs.turn checks (fun _ => Refs.Data b) decode o i work seen = (es, inr (w, s)) ->
  needs all (refs_loop checks decode fuel o w s) c -> needs all (refs_loop checks decode (S fuel) o (i :: work) seen) c.
Proof. intros T B E H. cbn [refs_loop]. rewrite T. apply (needs_later all _ _ b); [exact B|]. rewrite E. apply needs_bind, H. Qed.

(** Refuted: that a timeout bounds /refs.  The root of the example of C32 is there, one of its links never
    comes: the head of the response is sent at once and the body never ends. *)
Definition lacking (c : cid) : option bytes :=
  if cid_eqb c PropsRefs.dC then None else match PropsRefs.demo_fetch false c with Refs.Data b => Some b | _ => None end.
Definition first_links : list Refs.item := [Refs.mk_item 0 PropsRefs.dB PropsRefs.dA None; Refs.mk_item 0 PropsRefs.dC PropsRefs.dA None].
Lemma first_turn checks : Refs.turn checks (fun _ => Refs.Data (PropsResolve.cbor_block (IList [Link PropsRefs.dD]))) PropsResolve.real_decode
    (Refs.mk_opts None false true) (Refs.mk_item 0 PropsRefs.dB PropsRefs.dA None) [Refs.mk_item 0 PropsRefs.dC PropsRefs.dA None] [] =
  ([Refs.Edge PropsRefs.dA PropsRefs.dB None], inr ([Refs.mk_item 0 PropsRefs.dC PropsRefs.dA None; Refs.mk_item 1 PropsRefs.dD PropsRefs.dB None], [])).
Proof. vm_compute. reflexivity. Qed.
Theorem c78_refs_body_refuted : exists data,
  serve (Some 5) [(0, lacking)] (refs_task PropsResolve.real_decode 5 5 [(PropsRefs.dA, [])]) = Answered 0 (Answer (Ok [NBlock PropsRefs.dA data])) /\
  PropsResolve.real_decode PropsRefs.dA data = Ok PropsRefs.doc_A /\
  forall looks, parts_of lacking looks -> forall checks fuel, exists t,
    serve None looks (refs_body checks PropsResolve.real_decode (S (S fuel)) (Refs.mk_opts None false true) [(PropsRefs.dA, PropsRefs.doc_A)]) = Waiting t.
Proof.
  exists (PropsResolve.cbor_block PropsRefs.doc_A). split; [vm_compute; reflexivity|]. split; [vm_compute; reflexivity|].
  intros looks HP checks fuel. apply (proj2 (c78_without looks _) lacking PropsRefs.dC HP).
  - unfold refs_body. cbn [Refs.max_depth]. change (Refs.start (Refs.mk_opts None false true) [(PropsRefs.dA, PropsRefs.doc_A)] [] []) with (Some (first_links, @nil cid)).
    eapply (loop_later checks PropsResolve.real_decode lacking _ _ _ _ _ true (PropsResolve.cbor_block (IList [Link PropsRefs.dD])));
      [reflexivity|vm_compute; reflexivity|exact (first_turn checks)|]. apply (loop_now checks PropsResolve.real_decode lacking _ _ (Refs.mk_item 0 PropsRefs.dC PropsRefs.dA None) _ _ true). reflexivity.
  - unfold parts_of in HP. rewrite Forall_forall in HP |- *. intros l Hl. destruct (snd l PropsRefs.dC) as [x|] eqn:E; [|reflexivity].
    apply (HP l Hl) in E. vm_compute in E. discriminate.
Qed.
Print Assumptions c78_refs_body_refuted.

(** The hypotheses are met: all blocks there. *)
Definition present (c : cid) : option bytes := match PropsRefs.demo_fetch false c with Refs.Data b => Some b | _ => None end.
Example c78_refs_case : parts_of present [(0, lacking); (3, present)] /\
  serve None [(0, lacking); (3, present)] (refs_body true PropsResolve.real_decode 20 (Refs.mk_opts None true true) [(PropsRefs.dA, PropsRefs.doc_A)]) =
    Answered 3 (Answer ([Refs.Edge PropsRefs.dA PropsRefs.dB None; Refs.Edge PropsRefs.dA PropsRefs.dC None; Refs.Edge PropsRefs.dB PropsRefs.dD None], Refs.Closed)).
Proof.
  split.
  - constructor; [|constructor; [|constructor]]; intros c b; cbn [snd]; [|auto]. unfold lacking. destruct (cid_eqb c PropsRefs.dC); [discriminate|auto].
  - vm_compute. reflexivity.
Qed.
