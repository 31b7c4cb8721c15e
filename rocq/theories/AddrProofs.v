(** Lemmas about [Addr]. *)
From Verif Require Import Base Wire Cid FMap Addr.
Local Open Scope N_scope.

Lemma proto_eqb_spec x y : reflect (x = y) (proto_eqb x y).
Proof.
  destruct x, y; cbn [proto_eqb]; try (constructor; discriminate);
    try (match goal with |- context [N.eqb ?a ?b] => destruct (N.eqb_spec a b); constructor; congruence end);
    try (match goal with |- context [mh_eqb ?a ?b] => destruct (mh_eqb_spec a b); constructor; congruence end);
    try (constructor; reflexivity).
  destruct (beq enc enc0) eqn:E; constructor.
  - apply beq_eq in E. congruence.
  - intros [= ->]. rewrite beq_refl in E. discriminate.
Qed.
Lemma addr_eqb_spec x : forall y, reflect (x = y) (addr_eqb x y).
Proof.
  induction x as [|a x IH]; intros [|b y]; cbn [addr_eqb]; try (constructor; congruence).
  destruct (proto_eqb_spec a b) as [->|]; cbn [andb]; [|constructor; congruence]. destruct (IH y) as [->|]; constructor; congruence.
Qed.
Lemma wp_eqb_spec x y : reflect (x = y) (wp_eqb x y).
Proof.
  unfold wp_eqb. destruct x as [a p], y as [b q]. cbn [wp_addr wp_peer]. destruct (addr_eqb_spec a b) as [->|]; cbn [andb]; [|constructor; congruence].
  destruct (mh_eqb_spec p q) as [->|]; constructor; congruence.
Qed.

Lemma existsb_p2p a : existsb is_p2p a = true <-> exists h, In (PP2p h) a.
Proof.
  rewrite existsb_exists. split.
  - intros (x & Hx & E). destruct x; try discriminate. eauto.
  - intros (h & H). exists (PP2p h). auto.
Qed.
Lemma find_p2p_none a : find is_p2p a = None <-> forall h, ~ In (PP2p h) a.
Proof.
  split.
  - intros E h H. apply (find_none _ _ E) in H. discriminate.
  - intros H. destruct (find is_p2p a) as [x|] eqn:E; auto. apply find_some in E. destruct E as [E1 E2]. destruct x; try discriminate.
    exfalso. eapply H; eauto.
Qed.
Lemma find_p2p_some a x : find is_p2p a = Some x -> exists h u v, x = PP2p h /\ a = u ++ PP2p h :: v /\ forall h', ~ In (PP2p h') u.
Proof.
  induction a as [|y a IH]; cbn [find]; [discriminate|]. destruct (is_p2p y) eqn:E.
  - intros [= <-]. destruct y; try discriminate. exists h, [], a. auto.
  - intros H. destruct (IH H) as (h & u & v & -> & -> & Hu). exists h, (y :: u), v. split; [auto|]. split; [auto|].
    intros h' [->|Hin]; [discriminate|]. eapply Hu; eauto.
Qed.
Lemma find_p2p_at u h v : (forall h', ~ In (PP2p h') u) -> find is_p2p (u ++ PP2p h :: v) = Some (PP2p h).
Proof.
  intros H. induction u as [|y u IH]; cbn [app find]; [reflexivity|]. destruct (is_p2p y) eqn:E.
  - destruct y; try discriminate. exfalso. eapply (H h0). left. reflexivity.
  - apply IH. intros h' Hin. apply (H h'). right. exact Hin.
Qed.
Definition plain_proto (p : proto) : bool := negb (is_p2p p || is_circuit p).
Lemma filter_plain a : (forall h, ~ In (PP2p h) a) -> ~ In PCircuit a -> filter plain_proto a = a.
Proof.
  intros H1 H2. induction a as [|x a IH]; [reflexivity|]. cbn [filter]. assert (E : plain_proto x = true).
  { destruct x; try reflexivity; exfalso; [apply (H1 h)|apply H2]; left; reflexivity. }
  rewrite E, IH; auto. { intros h Hin. apply (H1 h). right. exact Hin. } { intros Hin. apply H2. right. exact Hin. }
Qed.
Lemma plain_in a x : In x (filter plain_proto a) -> (forall h, x <> PP2p h) /\ x <> PCircuit /\ In x a.
Proof. rewrite filter_In. intros [H E]. destruct x; try discriminate E; repeat split; auto; try intros h; discriminate. Qed.
