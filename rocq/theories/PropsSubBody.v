(** C81, continued: bodies which go on. *)
From Verif Require Import Base Wire Cid Pubsub HttpSub HttpSubSpec HttpSubProofs HttpPubsub HttpPubsubSpec Bodies BodiesSpec BodiesProofs SubBody PropsBodies PropsHttpSub PropsHttpPubsub.
Local Open Scope N_scope.

(** What has been yielded can be taken from what was sent, without waiting for what comes after it. *)
Theorem c81_live before after e : so_far (on_wire (map Bytes before ++ after) e) (concat before).
Proof.
  unfold on_wire. assert (P : exists l o, Bodies.parts (map Bytes before ++ after) e = (before ++ l, o)).
  { induction before as [|b before (l & o & IH)]; cbn [map app Bodies.parts]; [destruct (Bodies.parts after e) as [l o]; eauto|]. rewrite IH. eauto. }
  destruct P as (l & o & ->). rewrite map_app, concat_app, <- app_assoc. generalize (concat (map chunk l) ++ (if o then [48] ++ crlf ++ crlf else [])). intros tail.
  induction before as [|b before IH]; [apply so_far_none|]. cbn [map concat]. destruct b as [|x b]; [exact IH|]. rewrite chunk_some by discriminate. rewrite <- !app_assoc.
  apply so_far_more; [apply hex_number|discriminate|exact IH].
Qed.
Print Assumptions c81_live.

Lemma never_closed r s s' : hinv s -> hstep s (HRead r) = Some (s', HttpSub.Closed) -> False.
Proof.
  intros V. cbn [hstep]. unfold read_response. destruct (response_of r s) as [x|] eqn:R; [|discriminate]. destruct (re_open x) eqn:O; cbn [negb]; [|discriminate].
  destruct (re_over x); [discriminate|]. cbv zeta. destruct (nth_error _ _) as [m|]; [destruct (Nat.ltb _ _); discriminate|].
  rewrite (has_tx_open r x s V R O). discriminate.
Qed.
(** A body of /pubsub/sub is never whole: in every history, as long as it is sent and also when the client
    was too slow, the client sees that it has not ended. *)
Theorem c81_sub line r h s tr w b fs : hrun http0 h = Some (s, tr) ->
  arrives w (on_wire (sub_items line r tr) (sub_left r tr)) -> ~ chunked w b fs.
Proof.
  intros H A C. destruct (c81_only _ _ _ _ _ A C) as (He & _). unfold sub_left in He. destruct (existsb _ tr) eqn:E; [|discriminate He].
  apply existsb_exists in E as ([o a] & X & E). destruct o; try discriminate E. destruct a; try discriminate E. apply N.eqb_eq in E. subst.
  destruct (hrun_in _ _ _ _ _ _ H X) as (h1 & h2 & s1 & tr1 & s2 & tr2 & _ & H1 & E & _). exact (never_closed _ _ _ (hrun_inv _ _ _ _ hinv0 H1) E).
Qed.
Print Assumptions c81_sub.

Lemma sub_items_front line r tr : forall before after, sub_items line r tr = map Bytes before ++ after ->
  exists ms rest, HttpSubSpec.lines r tr = ms ++ rest /\ before = map line ms.
Proof.
  induction tr as [|[o a] tr IH]; intros before after E; unfold sub_items, HttpSubSpec.lines in *; cbn [flat_map map concat] in *.
  { destruct before; [|discriminate E]. exists [], []. auto. }
  destruct before as [|b before]; [eexists [], _; split; reflexivity|].
  destruct o; try (exact (IH (b :: before) after E)). destruct a; try (exact (IH (b :: before) after E)).
  - destruct (r =? r0); [|exact (IH (b :: before) after E)]. cbn [app map] in E. injection E as <- E. destruct (IH before after E) as (ms & rest & F & ->).
    exists (m :: ms), rest. cbn [app map]. rewrite F. auto.
  - destruct (r =? r0); [|exact (IH (b :: before) after E)]. discriminate E.
Qed.
(** And what it takes from what has arrived is, but for a line which is not there in full, the first
    messages of those the response gave (which C67 is about). *)
Theorem c81_sub_lines source topic_text r h s tr w b : hrun http0 h = Some (s, tr) ->
  arrives w (on_wire (sub_items (line_of source topic_text) r tr) (sub_left r tr)) -> so_far w b ->
  exists ms rest tail, HttpSubSpec.lines r tr = ms ++ rest /\ sub_body source topic_text ms = b ++ tail.
Proof.
  intros _ A C. destruct (c81_first_bytes _ _ _ _ A C) as (before & after & tail & E & T). destruct (sub_items_front _ _ _ _ _ E) as (ms & rest & F & ->).
  exists ms, rest, tail. split; [exact F|exact T].
Qed.
Print Assumptions c81_sub_lines.
(** While the client is not too slow, all of them are there as soon as the response gave them. *)
Theorem c81_sub_live source topic_text r h s tr : hrun http0 h = Some (s, tr) -> ~ In (HRead r, TooSlow) tr ->
  so_far (on_wire (sub_items (line_of source topic_text) r tr) (sub_left r tr)) (sub_body source topic_text (HttpSubSpec.lines r tr)).
Proof.
  intros _ H. assert (E : sub_items (line_of source topic_text) r tr = map Bytes (map (line_of source topic_text) (HttpSubSpec.lines r tr)) ++ []).
  { rewrite app_nil_r. induction tr as [|[o a] tr IH]; [reflexivity|]. specialize (IH (fun X => H (or_intror X))). unfold sub_items, HttpSubSpec.lines in *. cbn [flat_map map concat].
    destruct o; try exact IH. destruct a; try exact IH.
    - destruct (r =? r0); [|exact IH]. cbn [app map]. rewrite IH. reflexivity.
    - destruct (N.eqb_spec r r0) as [->|]; [|exact IH]. destruct H. left. reflexivity. }
  rewrite E. apply c81_live.
Qed.
Print Assumptions c81_sub_live.

(** A case: two messages were read by a response. *)
Example c81_case_sub : exists s tr, hrun http0 (both5 ++ talk5) = Some (s, tr) /\ HttpSubSpec.lines 1 tr = [ma; mb] /\ ~ In (HRead 1, TooSlow) tr.
Proof.
  eexists _, _. split; [vm_compute; reflexivity|]. split; [vm_compute; reflexivity|]. intros X. repeat (destruct X as [X|X]; [discriminate X|]). destruct X.
Qed.
