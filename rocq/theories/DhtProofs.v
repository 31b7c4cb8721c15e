(** Proofs about [Dht]. *)
From Verif Require Import Base Wire Cid FMap BlockSpec SubsSpec Subs SubsProofs GetPut GetPutProofs Dht DhtSpec.
Local Open Scope N_scope.

Notation lives := (@life_of qid value N.eqb).
Notation hold := (@holds qid value N.eqb).
Notation wait := (@waits qid value N.eqb).

Lemma unborn_next p : lives p (begins p) = Unborn.
Proof.
  destruct (lives p (begins p)) eqn:E; try reflexivity; exfalso;
    (assert (H := not_next N.eqb N.eqb_spec false p (begins p) _ E ltac:(discriminate)); rewrite Nat.eqb_refl in H; discriminate).
Qed.
Lemma born_next p i : lives p i <> Unborn -> (begins p =? i)%nat = false.
Proof. intros H. exact (not_next N.eqb N.eqb_spec false p i _ eq_refl H). Qed.

Definition agrees (a : ask) (r : result) (v : value) : Prop :=
  match meaning a r with
  | Some x => makes a v = Reply x
  | None => makes a v = LookAgain /\ exists p, a = AskFind p
  end.

(** A stage and a standing. *)
Definition ok (up : bool) (past : list (act qid value)) (running : list (qid * query)) (st : option stage) (sd : standing) : Prop :=
  match st with
  | None => sd = Unasked
  | Some (Sent a) => sd = if up then Asked a else Known (Fails NodeGone)
  | Some (SentAgain p) => sd = if up then Again p else Known (Fails NodeGone)
  | Some (Told r) => sd = Known r
  | Some Over => sd = Closed
  | Some (Waits a i) =>
      (exists q w, lives past i = Waiting q false w /\ up = true /\ sd = Running a q /\ mget N.eqb q running = Some (query_for a))
      \/ (exists q r v, lives past i = Decided q v /\ up = true /\ sd = Final a r /\ agrees a r v)
      \/ (exists q, lives past i = Lost q /\ up = false /\ sd = Known (Fails Cancelled))
  end.

(** How lives may change without harm to others. *)
Definition calm (l l' : life qid value) : Prop :=
  l' = l \/ (exists q n w w', l = Waiting q n w /\ l' = Waiting q n w') \/ (forall q, hold q l' = false).

Record inv (s : dht) (tr : record) : Prop := {
  i_up : d_up s = negb (exited tr);
  i_flag : flagged (d_past s) = exited tr;
  i_taken : taken (d_past s) = exited tr;
  i_chan : map fst (d_chan s) = unserved tr;
  i_down : d_up s = false -> d_chan s = [] /\ d_running s = [];
  i_once : NoDup (map fst (d_chan s));
  i_msg : forall c m, In (c, m) (d_chan s) ->
    match nth_error (d_calls s) c with
    | Some (Sent a) => m = message_of a
    | Some (SentAgain p) => m = Locate p true
    | Some Over => (exists a, m = message_of a) \/ (exists p, m = Locate p true)
    | _ => False
    end;
  i_sent : forall c, d_up s = true -> awaits c s = true -> In c (map fst (d_chan s));
  i_ok : forall c, ok (d_up s) (d_past s) (d_running s) (nth_error (d_calls s) c) (stands tr c);
  i_own : forall c c' a a' i, nth_error (d_calls s) c = Some (Waits a i) -> nth_error (d_calls s) c' = Some (Waits a' i) -> c = c';
  i_next : forall q k, mget N.eqb q (d_running s) = Some k -> q < d_next s;
  i_held : forall i q, hold q (lives (d_past s) i) = true -> q < d_next s;
  i_wait : forall q k i, mget N.eqb q (d_running s) = Some k -> hold q (lives (d_past s) i) = true ->
    wait q (lives (d_past s) i) = true /\ k <> QRepublishRecord
}.

Lemma inv0 : inv dht0 [].
Proof.
  constructor; try reflexivity; try discriminate; cbn.
  - constructor.
  - intros c m [].
  - intros c _. unfold awaits. cbn. destruct c; discriminate.
  - intros [|c]; reflexivity.
  - intros [|c]; discriminate.
Qed.

Lemma ok_frame up past past' running running' st sd : ok up past running st sd ->
  (forall a i, st = Some (Waits a i) -> lives past' i = lives past i \/ exists q n w w', lives past i = Waiting q n w /\ lives past' i = Waiting q n w') ->
  (forall q k, mget N.eqb q running = Some k -> mget N.eqb q running' = Some k) ->
  ok up past' running' st sd.
Proof.
  intros H Hl Hr. destruct st as [[a|a i|p|r|]|]; cbn in *; try exact H.
  specialize (Hl a i eq_refl). destruct H as [(q & w & L & U & Es & Hq)|[(q & r & v & L & U & Es & Hq)|(q & L & U & Es)]].
  - left. destruct Hl as [Hl|(q' & n & w1 & w2 & L1 & L2)].
    + exists q, w. rewrite Hl. auto.
    + rewrite L in L1. injection L1 as <- <- <-. exists q, w2. auto.
  - right; left. destruct Hl as [Hl|(q' & n & w1 & w2 & L1 & L2)]; [|rewrite L in L1; discriminate].
    exists q, r, v. rewrite Hl. auto.
  - right; right. destruct Hl as [Hl|(q' & n & w1 & w2 & L1 & L2)]; [|rewrite L in L1; discriminate].
    exists q. rewrite Hl. auto.
Qed.

Lemma calm_held past past' : (forall i, calm (lives past i) (lives past' i)) -> forall i q,
  hold q (lives past' i) = true -> hold q (lives past i) = true /\ (wait q (lives past i) = true -> wait q (lives past' i) = true).
Proof.
  intros H i q Hh. destruct (H i) as [E|[(q' & n & w & w' & E & E')|E]].
  - rewrite E in *. auto.
  - rewrite E' in Hh. rewrite E, E'. cbn in *. auto.
  - rewrite E in Hh. discriminate.
Qed.

Definition msg_ok (st : option stage) (m : node_msg) : Prop :=
  match st with
  | Some (Sent a) => m = message_of a
  | Some (SentAgain p) => m = Locate p true
  | Some Over => (exists a, m = message_of a) \/ (exists p, m = Locate p true)
  | _ => False
  end.
Definition sends (st : stage) : bool := match st with Sent _ | SentAgain _ => true | _ => false end.
Lemma awaits_spec c s : awaits c s = match nth_error (d_calls s) c with Some st => sends st | None => false end.
Proof. unfold awaits. destruct (nth_error (d_calls s) c) as [[]|]; reflexivity. Qed.

(** One call changes. *)
Lemma inv_set s tr c x0 y past' chan' o x :
  inv s tr -> nth_error (d_calls s) c = Some x0 ->
  exited ((o, x) :: tr) = exited tr -> flagged past' = flagged (d_past s) -> taken past' = taken (d_past s) ->
  (forall i, calm (lives (d_past s) i) (lives past' i)) ->
  (forall i, lives past' i = lives (d_past s) i \/ forall c' a, c' <> c -> nth_error (d_calls s) c' <> Some (Waits a i)) ->
  map fst chan' = unserved ((o, x) :: tr) -> (d_up s = false -> chan' = []) -> NoDup (map fst chan') ->
  (forall c' m, c' <> c -> In (c', m) chan' <-> In (c', m) (d_chan s)) ->
  (forall m, In (c, m) chan' -> msg_ok (Some y) m) ->
  (sends y = true -> d_up s = true -> In c (map fst chan')) ->
  ok (d_up s) past' (d_running s) (Some y) (stands ((o, x) :: tr) c) ->
  (forall c', c' <> c -> stands ((o, x) :: tr) c' = stands tr c') ->
  (forall a i, y = Waits a i -> forall c' a', c' <> c -> nth_error (d_calls s) c' <> Some (Waits a' i)) ->
  inv (mk_dht past' (d_up s) chan' (set_nth c y (d_calls s)) (d_running s) (d_next s)) ((o, x) :: tr).
Proof.
  intros H Hc He Hf Ht Hcalm Hl Hch Hd Hn Hin Hm Hs Hok Hst Hown.
  assert (Hnth : forall c', nth_error (set_nth c y (d_calls s)) c' = if (c =? c')%nat then Some y else nth_error (d_calls s) c')
    by (intros; apply nth_set with x0; exact Hc).
  constructor; cbn [d_past d_up d_chan d_calls d_running d_next].
  - rewrite He. apply H.
  - rewrite He, Hf. apply H.
  - rewrite He, Ht. apply H.
  - exact Hch.
  - intros U. split; [auto|]. apply (i_down _ _ H U).
  - exact Hn.
  - intros c' m Hi. rewrite Hnth. destruct (Nat.eqb_spec c c') as [<-|Hne]; [apply (Hm m Hi)|].
    apply (i_msg _ _ H). apply Hin; auto.
  - intros c' U. rewrite awaits_spec. cbn [d_calls]. rewrite Hnth. destruct (Nat.eqb_spec c c') as [<-|Hne]; [auto|].
    intros Ha. assert (Hq : In c' (map fst (d_chan s))).
    { apply (i_sent _ _ H); [exact U|]. rewrite awaits_spec. exact Ha. }
    apply in_map_iff in Hq as ([c1 m] & E & Hq). cbn in E. subst c1. apply in_map_iff. exists (c', m). split; [reflexivity|]. apply Hin; auto.
  - intros c'. rewrite Hnth. destruct (Nat.eqb_spec c c') as [<-|Hne]; [exact Hok|].
    rewrite Hst by auto. apply ok_frame with (d_past s) (d_running s); [apply H| |auto].
    intros a i Hw. destruct (Hl i) as [E|E]; [left; exact E|]. exfalso. apply (E c' a); auto.
  - intros c1 c2 a1 a2 i. rewrite !Hnth. destruct (Nat.eqb_spec c c1) as [<-|N1], (Nat.eqb_spec c c2) as [<-|N2]; intros H1 H2; auto.
    + injection H1 as ->. exfalso. apply (Hown a1 i eq_refl c2 a2); auto.
    + injection H2 as ->. exfalso. apply (Hown a2 i eq_refl c1 a1); auto.
    + exact (i_own _ _ H _ _ _ _ _ H1 H2).
  - apply H.
  - intros i q Hh. apply (calm_held _ _ Hcalm) in Hh as [Hh _]. apply (i_held _ _ H i q Hh).
  - intros q k i Hq Hh. apply (calm_held _ _ Hcalm) in Hh as [Hh Hw].
    destruct (i_wait _ _ H q k i Hq Hh) as [W K]. split; auto.
Qed.

(** A record entry that says nothing about calls. *)
Lemma inv_note s tr o x : inv s tr -> exited ((o, x) :: tr) = exited tr -> unserved ((o, x) :: tr) = unserved tr ->
  (forall c, stands ((o, x) :: tr) c = stands tr c) -> inv s ((o, x) :: tr).
Proof.
  intros H He Hu Hs. destruct H. constructor; rewrite ?He, ?Hu; auto. intros c. rewrite Hs. apply i_ok0.
Qed.

(** A query and its subscription. *)
Lemma life_new p q : lives (Insert (begins p) :: Begin q false :: p) (begins p) = if flagged p then Rejected q else Waiting q false None.
Proof. cbn [life_of begins]. rewrite !Nat.eqb_refl. destruct (flagged p); reflexivity. Qed.
Lemma life_old p q i : i <> begins p -> lives (Insert (begins p) :: Begin q false :: p) i = lives p i.
Proof. intros Hn. cbn [life_of begins]. apply Nat.neq_sym in Hn. apply Nat.eqb_neq in Hn. rewrite Hn. reflexivity. Qed.

Lemma run_ext s tr (k : query) q0 k0 : inv s tr -> mget N.eqb q0 (d_running s) = Some k0 -> mget N.eqb q0 ((d_next s, k) :: d_running s) = Some k0.
Proof.
  intros H Hq. cbn [mget]. destruct (N.eqb_spec q0 (d_next s)) as [E|E]; [|exact Hq]. apply (i_next _ _ H) in Hq. lia.
Qed.
Lemma inv_start s tr k : inv s tr -> d_up s = true -> inv (snd (start k s)) tr.
Proof.
  intros H U. cbn. constructor; cbn [d_past d_up d_chan d_calls d_running d_next]; try apply H.
  - congruence.
  - intros c. apply ok_frame with (d_past s) (d_running s); [apply H|auto|intros; eapply run_ext; eauto].
  - intros q k0. cbn [mget]. destruct (N.eqb_spec q (d_next s)) as [->|E]; [lia|]. intros Hq. apply (i_next _ _ H) in Hq. lia.
  - intros i q Hh. apply (i_held _ _ H) in Hh. lia.
  - intros q k0 i. cbn [mget]. destruct (N.eqb_spec q (d_next s)) as [->|E].
    + intros _ Hh. apply (i_held _ _ H) in Hh. lia.
    + intros Hq Hh. exact (i_wait _ _ H q k0 i Hq Hh).
Qed.

Definition subscribed (k : query) (s : dht) : dht :=
  with_past (Insert (begins (d_past s)) :: Begin (d_next s) false :: d_past s) (snd (start k s)).
Lemma inv_subscribed s tr k : inv s tr -> d_up s = true -> k <> QRepublishRecord -> inv (subscribed k s) tr.
Proof.
  intros H U Hk. assert (Hx : exited tr = false) by (generalize (i_up _ _ H); rewrite U; destruct (exited tr); [discriminate|reflexivity]).
  pose proof (inv_start s tr k H U) as H1. constructor; cbn [subscribed start snd with_past d_past d_up d_chan d_calls d_running d_next]; try apply H.
  - congruence.
  - intros c. apply ok_frame with (d_past s) (d_running s); [apply H| |intros; eapply run_ext; eauto].
    intros a i Hw. left. apply life_old. intros ->. pose proof (i_ok _ _ H c) as Ho. rewrite Hw in Ho. cbn in Ho.
    rewrite unborn_next in Ho. destruct Ho as [(? & ? & [=] & _)|[(? & ? & ? & [=] & _)|(? & [=] & _)]].
  - apply H1.
  - intros i q. destruct (Nat.eq_dec i (begins (d_past s))) as [->|E].
    + rewrite life_new, (i_flag _ _ H), Hx. cbn. destruct (N.eqb_spec q (d_next s)) as [->|]; [lia|discriminate].
    + rewrite life_old by exact E. intros Hh. apply (i_held _ _ H) in Hh. lia.
  - intros q k0 i Hq. destruct (Nat.eq_dec i (begins (d_past s))) as [->|E].
    + rewrite life_new, (i_flag _ _ H), Hx. cbn [holds waits]. intros Hh. split; [exact Hh|].
      destruct (N.eqb_spec q (d_next s)) as [->|]; [|discriminate]. cbn in Hq. rewrite N.eqb_refl in Hq. congruence.
    + rewrite life_old by exact E. exact (i_wait _ _ H1 q k0 i Hq).
Qed.
Lemma subscribed_life s tr k : inv s tr -> d_up s = true ->
  lives (d_past (subscribed k s)) (begins (d_past s)) = Waiting (d_next s) false None.
Proof.
  intros H U. change (d_past (subscribed k s)) with (Insert (begins (d_past s)) :: Begin (d_next s) false :: d_past s).
  rewrite life_new, (i_flag _ _ H). generalize (i_up _ _ H). rewrite U. destruct (exited tr); [discriminate|reflexivity].
Qed.

(** A future leaves. *)
Lemma leave_other p i j : j <> i -> lives (DropNotify i :: DropFut i :: p) j = lives p j.
Proof. intros Hn. cbn [life_of]. apply Nat.neq_sym in Hn. apply Nat.eqb_neq in Hn. rewrite Hn. reflexivity. Qed.
Lemma leave_own p i : lives p i <> Unborn -> (forall k n l, lives p i <> Creating k n l) -> (forall k n w b, lives p i <> Dropping k n w b) ->
  lives (DropNotify i :: DropFut i :: p) i = Dropped.
Proof.
  intros H1 H2 H3. cbn [life_of]. rewrite Nat.eqb_refl. destruct (lives p i) eqn:E; try reflexivity; exfalso; congruence.
Qed.
Lemma leave_calm p i : lives p i <> Unborn -> (forall k n l, lives p i <> Creating k n l) -> (forall k n w b, lives p i <> Dropping k n w b) ->
  forall j, calm (lives p j) (lives (DropNotify i :: DropFut i :: p) j).
Proof.
  intros H1 H2 H3 j. destruct (Nat.eq_dec j i) as [->|E].
  - right; right. intros q. rewrite leave_own; auto.
  - left. apply leave_other. exact E.
Qed.

Lemma set_same {A} (x : A) l : forall n, nth_error l n = Some x -> set_nth n x l = l.
Proof. induction l as [|y l IH]; intros [|n] H; cbn in *; try congruence. rewrite IH; auto. Qed.

Lemma nodup_last {A} (l : list A) x : NoDup l -> ~ In x l -> NoDup (l ++ [x]).
Proof.
  induction 1 as [|y l Hy Hn IH]; intros Hx; [constructor; [auto|constructor]|]. cbn. constructor.
  - rewrite in_app_iff. intros [Hi|[E|[]]]; [auto|]. subst. apply Hx. left. reflexivity.
  - apply IH. intros Hi. apply Hx. right. exact Hi.
Qed.
(** * Calls *)
Lemma inv_add s tr o x y chan' : inv s tr -> exited ((o, x) :: tr) = exited tr ->
  (chan' = d_chan s /\ sends y = false \/ exists m, chan' = d_chan s ++ [(length (d_calls s), m)] /\ d_up s = true /\ msg_ok (Some y) m) ->
  map fst chan' = unserved ((o, x) :: tr) -> (forall a i, y <> Waits a i) ->
  ok (d_up s) (d_past s) (d_running s) (Some y) (stands ((o, x) :: tr) (length (d_calls s))) ->
  (forall c', c' <> length (d_calls s) -> stands ((o, x) :: tr) c' = stands tr c') ->
  inv (mk_dht (d_past s) (d_up s) chan' (d_calls s ++ [y]) (d_running s) (d_next s)) ((o, x) :: tr).
Proof.
  intros H He Hc Hu Hy Hok Hs. set (n := length (d_calls s)) in *.
  assert (Hnth : forall c, nth_error (d_calls s ++ [y]) c = if (c =? n)%nat then Some y else nth_error (d_calls s) c).
  { intros c. destruct (Nat.eqb_spec c n) as [->|E].
    - rewrite nth_error_app2 by (unfold n; lia). unfold n. rewrite Nat.sub_diag. reflexivity.
    - destruct (lt_dec c n) as [L|L]; [apply nth_error_app1; exact L|].
      rewrite nth_error_app2 by (unfold n in *; lia). rewrite (proj2 (nth_error_None (d_calls s) c)) by (unfold n in *; lia).
      fold n. destruct (c - n)%nat as [|j] eqn:J; [lia|]. destruct j; reflexivity. }
  assert (Hlow : forall c m, In (c, m) (d_chan s) -> c <> n).
  { intros c m Hi ->. apply (i_msg _ _ H) in Hi. rewrite (proj2 (nth_error_None (d_calls s) n)) in Hi by (unfold n; lia). exact Hi. }
  constructor; cbn [d_past d_up d_chan d_calls d_running d_next].
  - rewrite He. apply H.
  - rewrite He. apply H.
  - rewrite He. apply H.
  - exact Hu.
  - intros U. destruct Hc as [[-> _]|(m & _ & U' & _)]; [apply H; exact U|congruence].
  - destruct Hc as [[-> _]|(m & -> & _)]; [apply H|]. rewrite map_app. cbn. apply nodup_last; [apply H|].
    rewrite in_map_iff. intros ([c m'] & E & Hi). cbn in E. subst c. exact (Hlow _ _ Hi eq_refl).
  - intros c m Hi. rewrite Hnth. destruct Hc as [[-> _]|(m' & -> & _ & Hm)].
    + destruct (Nat.eqb_spec c n) as [->|E]; [exfalso; exact (Hlow _ _ Hi eq_refl)|]. apply (i_msg _ _ H). exact Hi.
    + apply in_app_iff in Hi as [Hi|[[= <- <-]|[]]].
      * destruct (Nat.eqb_spec c n) as [->|E]; [exfalso; exact (Hlow _ _ Hi eq_refl)|]. apply (i_msg _ _ H). exact Hi.
      * rewrite Nat.eqb_refl. exact Hm.
  - intros c U. rewrite awaits_spec. cbn [d_calls]. rewrite Hnth. destruct (Nat.eqb_spec c n) as [->|E].
    + intros Hsy. destruct Hc as [[-> Hf]|(m & -> & _)]; [congruence|]. rewrite map_app, in_app_iff. right. left. reflexivity.
    + intros Ha. assert (Hq : In c (map fst (d_chan s))) by (apply (i_sent _ _ H); [exact U|rewrite awaits_spec; exact Ha]).
      destruct Hc as [[-> Hf]|(m & -> & _)]; [exact Hq|]. rewrite map_app, in_app_iff. left. exact Hq.
  - intros c. rewrite Hnth. destruct (Nat.eqb_spec c n) as [->|E]; [exact Hok|]. rewrite Hs by exact E. apply H.
  - intros c1 c2 a1 a2 i. rewrite !Hnth. destruct (Nat.eqb_spec c1 n) as [->|E1]; [intros [= ->]; exfalso; exact (Hy _ _ eq_refl)|].
    destruct (Nat.eqb_spec c2 n) as [->|E2]; [intros _ [= ->]; exfalso; exact (Hy _ _ eq_refl)|]. apply (i_own _ _ H).
  - apply H.
  - apply H.
  - apply H.
Qed.

Lemma stands_new s tr : inv s tr -> stands tr (length (d_calls s)) = Unasked.
Proof.
  intros H. pose proof (i_ok _ _ H (length (d_calls s))) as Ho. rewrite (proj2 (nth_error_None _ _)) in Ho by lia. exact Ho.
Qed.

Lemma inv_call debug s tr a have : inv s tr ->
  inv (fst (dstep debug s (DCall a have))) ((DCall a have, snd (dstep debug s (DCall a have))) :: tr) /\
  snd (dstep debug s (DCall a have)) <> Crash.
Proof.
  intros H. pose proof (i_up _ _ H) as U.
  assert (D : (exists c, a = AskProvide c /\ have = false) \/
    dstep debug s (DCall a have) = (if d_up s then (with_chan (d_chan s ++ [(length (d_calls s), message_of a)]) (with_calls (d_calls s ++ [Sent a]) s), Called (length (d_calls s)))
      else (with_calls (d_calls s ++ [Told (Fails NodeGone)]) s, Called (length (d_calls s)))) /\
    (forall c before, moves c before (DCall a have, Called (length (d_calls s))) (stands before c) =
      if (length (d_calls s) =? c)%nat then if exited before then Known (Fails NodeGone) else Asked a else stands before c) /\
    unserved ((DCall a have, Called (length (d_calls s))) :: tr) = if exited tr then unserved tr else unserved tr ++ [length (d_calls s)]).
  { destruct a; try (right; repeat split; reflexivity). destruct have; [right; repeat split; reflexivity|left; eauto]. }
  destruct D as [(c & -> & ->)|(D & V & W)].
  - cbn [dstep fst snd]. split; [|discriminate]. apply (inv_add s); try reflexivity; try discriminate; try exact H.
    + left. split; reflexivity.
    + cbn. apply H.
    + cbn. rewrite Nat.eqb_refl. reflexivity.
    + intros c' Hn. cbn. apply Nat.neq_sym in Hn. apply Nat.eqb_neq in Hn. rewrite Hn. reflexivity.
  - rewrite D. destruct (d_up s) eqn:Up; cbn [fst snd with_chan with_calls d_past d_up d_chan d_calls d_running d_next]; (split; [|discriminate]).
    + assert (X : exited tr = false) by (destruct (exited tr); [discriminate|reflexivity]).
      apply (inv_add s); try reflexivity; try discriminate; try exact H.
      * right. exists (message_of a). repeat split. exact Up.
      * rewrite W, X, map_app, (i_chan _ _ H). reflexivity.
      * cbn [stands]. rewrite V, Nat.eqb_refl, X. cbn. rewrite Up. reflexivity.
      * intros c Hn. cbn [stands]. rewrite V. apply Nat.neq_sym in Hn. apply Nat.eqb_neq in Hn. rewrite Hn. reflexivity.
    + assert (X : exited tr = true) by (destruct (exited tr); [reflexivity|discriminate]).
      apply (inv_add s); try reflexivity; try discriminate; try exact H.
      * left. split; reflexivity.
      * rewrite W, X, (i_chan _ _ H). reflexivity.
      * cbn [stands]. rewrite V, Nat.eqb_refl, X. reflexivity.
      * intros c Hn. cbn [stands]. rewrite V. apply Nat.neq_sym in Hn. apply Nat.eqb_neq in Hn. rewrite Hn. reflexivity.
Qed.

(** * The node takes a message *)
Lemma serve_set s tr c m rest x0 y past' ac co kn x :
  inv s tr -> d_up s = true -> d_chan s = (c, m) :: rest -> nth_error (d_calls s) c = Some x0 -> about c x -> sends y = false ->
  flagged past' = flagged (d_past s) -> taken past' = taken (d_past s) ->
  (forall i, calm (lives (d_past s) i) (lives past' i)) ->
  (forall i, lives past' i = lives (d_past s) i \/ forall c' a, c' <> c -> nth_error (d_calls s) c' <> Some (Waits a i)) ->
  ok (d_up s) past' (d_running s) (Some y) (stands ((DServe ac co kn, x) :: tr) c) ->
  (forall a i, y = Waits a i -> forall c' a', c' <> c -> nth_error (d_calls s) c' <> Some (Waits a' i)) ->
  inv (mk_dht past' (d_up s) rest (set_nth c y (d_calls s)) (d_running s) (d_next s)) ((DServe ac co kn, x) :: tr).
Proof.
  intros H U Hc Hx Ha Hy Hf Ht Hcalm Hl Hok Hown.
  pose proof (i_once _ _ H) as Hn. rewrite Hc in Hn. cbn in Hn. inversion Hn as [|? ? Hn1 Hn2]; subst.
  apply inv_set with x0; auto.
  - pose proof (i_chan _ _ H) as E. rewrite Hc in E. cbn in E. cbn [unserved]. rewrite <- E. destruct x; try contradiction; reflexivity.
  - congruence.
  - intros c' m' Hne. rewrite Hc. cbn. split; [auto|]. intros [[= -> _]|Hi]; [contradiction|exact Hi].
  - intros m' Hi. exfalso. apply Hn1. apply in_map_iff. exists (c, m'). split; [reflexivity|exact Hi].
  - congruence.
  - intros c' Hne. cbn [stands moves]. apply Nat.neq_sym in Hne. apply Nat.eqb_neq in Hne. destruct x; try reflexivity; cbn in Ha; subst; rewrite Hne; reflexivity.
Qed.

Lemma calm_refl p : forall i, calm (lives p i) (lives p i).
Proof. intros i. left. reflexivity. Qed.

Lemma query_msg a k : message_of a = Query k -> k = query_for a /\ k <> QRepublishRecord.
Proof. destruct a; cbn; intros [= <-]; split; try reflexivity; discriminate. Qed.
Lemma locate_msg a p l : message_of a = Locate p l -> a = AskFind p /\ l = false.
Proof. destruct a; cbn; intros [=]; subst; auto. Qed.

Lemma inv_start_for debug s tr c m rest k ac co kn :
  inv s tr -> d_up s = true -> d_chan s = (c, m) :: rest -> k <> QRepublishRecord ->
  (forall a, nth_error (d_calls s) c = Some (Sent a) -> k = query_for a) -> (forall p, nth_error (d_calls s) c <> Some (SentAgain p)) ->
  let z := start_for debug c k (with_chan rest s) in inv (fst z) ((DServe ac co kn, snd z) :: tr) /\ snd z = Started c (d_next s) k.
Proof.
  intros H U Hc Hk Ha Hp. pose proof (inv_subscribed s tr k H U Hk) as H1. pose proof (subscribed_life s tr k H U) as L.
  pose proof (i_msg _ _ H c m ltac:(rewrite Hc; left; reflexivity)) as Hm. fold (msg_ok (nth_error (d_calls s) c) m) in Hm.
  unfold start_for. cbn [start with_chan d_past d_up d_chan d_calls d_running d_next].
  rewrite (eff_begin N.eqb N.eqb_spec debug). cbn [ans]. rewrite awaits_spec. cbn [d_calls].
  destruct (nth_error (d_calls s) c) as [[a|a i|p|r|]|] eqn:E; try contradiction; cbn [sends].
  - cbn [fst snd]. split; [|reflexivity]. unfold ask_of. cbn [d_calls]. rewrite E.
    apply (serve_set (subscribed k s) tr c m rest (Sent a)); auto; try apply calm_refl; try reflexivity.
    + cbn [stands moves]. rewrite Nat.eqb_refl. pose proof (i_ok _ _ H c) as Ho. rewrite E in Ho. cbn in Ho. rewrite U in Ho. rewrite Ho.
      cbn [ok]. left. exists (d_next s), None. split; [exact L|]. split; [exact U|]. split; [reflexivity|]. cbn. rewrite N.eqb_refl. rewrite (Ha a eq_refl). reflexivity.
    + intros a' i [= <- <-] c' a2 Hne Hw. change (d_calls (subscribed k s)) with (d_calls s) in Hw.
      pose proof (i_ok _ _ H c') as Ho. rewrite Hw in Ho. cbn in Ho. rewrite unborn_next in Ho.
      destruct Ho as [(? & ? & [=] & _)|[(? & ? & ? & [=] & _)|(? & [=] & _)]].
  - exfalso. exact (Hp p eq_refl).
  - cbn [fst snd]. split; [|reflexivity].
    assert (C : forall j, calm (lives (d_past (subscribed k s)) j) (lives (DropNotify (begins (d_past s)) :: DropFut (begins (d_past s)) :: d_past (subscribed k s)) j))
      by (apply leave_calm; rewrite L; discriminate).
    pose proof (serve_set (subscribed k s) tr c m rest Over Over (DropNotify (begins (d_past s)) :: DropFut (begins (d_past s)) :: d_past (subscribed k s)) ac co kn (Started c (d_next s) k)) as X.
    change (d_calls (subscribed k s)) with (d_calls s) in X. rewrite (set_same Over) in X by exact E.
    apply X; auto; try reflexivity; try discriminate.
    + intros i. destruct (Nat.eq_dec i (begins (d_past s))) as [->|Hi]; [right|left; apply leave_other; exact Hi].
      intros c' a2 Hne Hw. pose proof (i_ok _ _ H c') as Ho. rewrite Hw in Ho. cbn in Ho. rewrite unborn_next in Ho.
      destruct Ho as [(? & ? & [=] & _)|[(? & ? & ? & [=] & _)|(? & [=] & _)]].
    + cbn [stands moves]. rewrite Nat.eqb_refl. pose proof (i_ok _ _ H c) as Ho. rewrite E in Ho. cbn in Ho. rewrite Ho. reflexivity.
Qed.

Lemma inv_serve debug s tr ac co kn : inv s tr ->
  let z := dstep debug s (DServe ac co kn) in inv (fst z) ((DServe ac co kn, snd z) :: tr) /\ snd z <> Crash.
Proof.
  intros H z. subst z. cbn [dstep]. destruct (d_up s) eqn:U.
  2:{ split; [|discriminate]. apply inv_note; auto. }
  destruct (d_chan s) as [|[c m] rest] eqn:Hc.
  { split; [|discriminate]. apply inv_note; auto. }
  pose proof (i_msg _ _ H c m ltac:(rewrite Hc; left; reflexivity)) as Hm. fold (msg_ok (nth_error (d_calls s) c) m) in Hm.
  pose proof (i_ok _ _ H c) as Ho.
  assert (Hsame : forall y x, about c x -> sends y = false -> (forall a i, y <> Waits a i) -> nth_error (d_calls s) c <> None ->
    ok (d_up s) (d_past s) (d_running s) (Some y) (stands ((DServe ac co kn, x) :: tr) c) ->
    inv (mk_dht (d_past s) (d_up s) rest (set_nth c y (d_calls s)) (d_running s) (d_next s)) ((DServe ac co kn, x) :: tr)).
  { intros y x Hx Hy Hw Hn Hk. destruct (nth_error (d_calls s) c) as [x0|] eqn:E; [|contradiction].
    apply serve_set with m x0; auto; try apply calm_refl. intros a i ->. exfalso. exact (Hw _ _ eq_refl). }
  destruct m as [k|p local_only]; cbn [serve].
  - assert (Hk : k <> QRepublishRecord).
    { destruct (nth_error (d_calls s) c) as [[a|a i|p|r|]|]; cbn in Hm; try contradiction; try discriminate.
      - symmetry in Hm. apply query_msg in Hm. apply Hm.
      - destruct Hm as [[a Hm]|[p Hm]]; [|discriminate]. symmetry in Hm. apply query_msg in Hm. apply Hm. }
    destruct (refusable k && negb ac).
    + split; [|discriminate]. cbn [fst snd]. rewrite awaits_spec. cbn [with_chan d_calls].
      destruct (nth_error (d_calls s) c) as [[a|a i|p|r|]|] eqn:E; cbn in Hm; try contradiction; try discriminate; cbn [sends].
      * apply (Hsame (Told (Fails Refused)) (RefusedStart c)); try reflexivity; try discriminate.
        cbn [stands moves]. rewrite Nat.eqb_refl. cbn in Ho. rewrite U in Ho. rewrite Ho. reflexivity.
      * pose proof (Hsame Over (RefusedStart c)) as X. rewrite (set_same Over) in X by exact E. apply X; try reflexivity; try discriminate.
        cbn [stands moves]. rewrite Nat.eqb_refl. cbn in Ho. rewrite Ho. reflexivity.
    + destruct (inv_start_for debug s tr c (Query k) rest k ac co kn H U Hc Hk) as [A B].
      * intros a E. rewrite E in Hm. cbn in Hm. symmetry in Hm. apply query_msg in Hm. apply Hm.
      * intros p E. rewrite E in Hm. discriminate.
      * split; [exact A|]. rewrite B. discriminate.
  - set (local := match co with [] => kn | _ => co end).
    destruct (match local with [] => false | _ => true end || local_only) eqn:El.
    + split; [|discriminate]. cbn [fst snd]. rewrite awaits_spec. cbn [with_chan d_calls].
      destruct (nth_error (d_calls s) c) as [[a|a i|q|r|]|] eqn:E; cbn in Hm; try contradiction; cbn [sends].
      * symmetry in Hm. apply locate_msg in Hm as [-> ->].
        apply (Hsame (Told (match local, false with [], true => Fails UnknownPeer | _, _ => Addresses local end)) (Located c local)); try reflexivity; try discriminate.
        cbn [stands moves]. rewrite Nat.eqb_refl. cbn in Ho. rewrite U in Ho. rewrite Ho. destruct local; reflexivity.
      * injection Hm as <- ->.
        apply (Hsame (Told (match local, true with [], true => Fails UnknownPeer | _, _ => Addresses local end)) (Located c local)); try reflexivity; try discriminate.
        cbn [stands moves]. rewrite Nat.eqb_refl. cbn in Ho. rewrite U in Ho. rewrite Ho. destruct local; reflexivity.
      * pose proof (Hsame Over (Located c local)) as X. rewrite (set_same Over) in X by exact E. apply X; try reflexivity; try discriminate.
        cbn [stands moves]. rewrite Nat.eqb_refl. cbn in Ho. rewrite Ho. reflexivity.
    + apply orb_false_iff in El as [_ El]. subst local_only.
      destruct (inv_start_for debug s tr c (Locate p false) rest (QClosest p) ac co kn H U Hc ltac:(discriminate)) as [A B].
      * intros a E. rewrite E in Hm. cbn in Hm. symmetry in Hm. apply locate_msg in Hm as [-> _]. reflexivity.
      * intros q E. rewrite E in Hm. discriminate.
      * split; [exact A|]. rewrite B. discriminate.
Qed.

Lemma inv_background debug s tr k : inv s tr ->
  let z := dstep debug s (DBackground k) in inv (fst z) ((DBackground k, snd z) :: tr) /\ snd z <> Crash.
Proof.
  intros H z. subst z. cbn [dstep]. destruct (d_up s) eqn:U; (split; [|discriminate]); apply inv_note; auto.
  apply inv_start; auto.
Qed.

(** * Events *)
Lemma finishes_one r : (exists v, finishes true r = [v] /\ forall a, fits r (query_for a) = true -> agrees a r v)
  \/ (r = RepublishRecord PutQuorumFailed /\ exists v w, finishes true r = [v; w]).
Proof.
  destruct r as [[]|[l|]|[l|]|[]|[]|[l| | |]|[]|[]];
    try (right; split; [reflexivity|]; cbn; eauto; fail);
    left; cbn; eexists; (split; [reflexivity|]); intros []; cbn; intros E; try discriminate; try reflexivity; eauto.
Qed.
Lemma life_finish p q v i : lives (Finish q v :: p) i =
  match lives p i with Waiting q' _ _ => if q =? q' then Decided q' v else lives p i | l => l end.
Proof. cbn [life_of]. destruct (lives p i); reflexivity. Qed.
Lemma finish_calm debug p q v : (forall i, hold q (lives p i) = true -> wait q (lives p i) = true) ->
  (match ans (effect_of (K:=qid) (V:=value) N.eqb debug p (Finish q v)) with OPanic => true | _ => false end) = false.
Proof.
  intros H. destruct (eff_finish (K:=qid) (V:=value) N.eqb N.eqb_spec debug p q v) as (_ & _ & ->).
  destruct (someone (hold q) (lives p) (begins p)) eqn:E; [|destruct debug; reflexivity].
  apply (someone_iff (K:=qid) (V:=value) N.eqb N.eqb_spec debug) in E; [|reflexivity]. destruct E as [i E]. apply H in E.
  assert (W : someone (wait q) (lives p) (begins p) = true) by (apply (someone_iff (K:=qid) (V:=value) N.eqb N.eqb_spec debug); [reflexivity|eauto]).
  rewrite W. destruct debug; reflexivity.
Qed.

Lemma finish_cons debug q v vs p : (forall i, hold q (lives p i) = true -> wait q (lives p i) = true) ->
  finish_all debug q (v :: vs) p = finish_all debug q vs (Finish q v :: p).
Proof.
  intros H. cbn [finish_all]. match goal with |- context [match ans ?e with OPanic => _ | _ => _ end] =>
    assert (X : match ans e with OPanic => true | _ => false end = false) by exact (finish_calm debug p q v H); rewrite X end.
  destruct (finish_all debug q vs (Finish q v :: p)). reflexivity.
Qed.

Lemma inv_event debug s tr q ex r : inv s tr ->
  let z := dstep debug s (DEvent q ex r) in inv (fst z) ((DEvent q ex r, snd z) :: tr) /\ snd z <> Crash.
Proof.
  intros H z. subst z. cbn [dstep].
  destruct (mget N.eqb q (d_running s)) as [k|] eqn:Hq.
  2:{ split; [|discriminate]. apply inv_note; auto. intros c. cbn. destruct ex; reflexivity. }
  destruct (d_up s && fits r k) eqn:F.
  2:{ split; [|discriminate]. apply inv_note; auto. intros c. cbn. destruct ex; reflexivity. }
  apply andb_true_iff in F as [U F]. destruct ex.
  2:{ cbn [finishes finish_all fst snd]. split; [|discriminate]. apply inv_note; auto. destruct s. exact H. }
  assert (J : forall i, hold q (lives (d_past s) i) = true -> wait q (lives (d_past s) i) = true) by (intros i Hh; apply (i_wait _ _ H q k i Hq Hh)).
  assert (Z : exists past' v, finish_all debug q (finishes true r) (d_past s) = (past', false) /\
    flagged past' = flagged (d_past s) /\ taken past' = taken (d_past s) /\
    (forall i, lives past' i = match lives (d_past s) i with Waiting q' _ _ => if q =? q' then Decided q' v else lives (d_past s) i | l => l end) /\
    (forall a, k = query_for a -> agrees a r v)).
  { destruct (finishes_one r) as [(v & -> & Hv)|(-> & v & w & ->)].
    - rewrite finish_cons by exact J. eexists _, v. split; [reflexivity|]. split; [reflexivity|]. split; [reflexivity|].
      split; [intros i; apply life_finish|]. intros a ->. apply Hv. exact F.
    - assert (Hnone : forall i, hold q (lives (d_past s) i) = false).
      { intros i. destruct (hold q (lives (d_past s) i)) eqn:E; [|reflexivity]. exfalso. destruct (i_wait _ _ H q k i Hq E) as [_ K].
        apply K. destruct k; try discriminate. reflexivity. }
      assert (L1 : forall i, lives (Finish q v :: d_past s) i = lives (d_past s) i).
      { intros i. rewrite life_finish. specialize (Hnone i). destruct (lives (d_past s) i); try reflexivity. cbn in Hnone. rewrite Hnone. reflexivity. }
      rewrite finish_cons by exact J. rewrite finish_cons by (intros i; rewrite L1; apply J).
      eexists _, v. split; [reflexivity|]. split; [reflexivity|]. split; [reflexivity|]. split.
      + intros i. rewrite life_finish, L1. specialize (Hnone i). destruct (lives (d_past s) i); try reflexivity. cbn in Hnone. rewrite Hnone. reflexivity.
      + intros a ->. destruct a; discriminate. }
  destruct Z as (past' & v & -> & Hf & Ht & Hl & Hv). cbn [fst snd]. split; [|discriminate].
  constructor; cbn [d_past d_up d_chan d_calls d_running d_next].
  - apply H.
  - rewrite Hf. apply H.
  - rewrite Ht. apply H.
  - apply H.
  - congruence.
  - apply H.
  - apply H.
  - intros c. apply (i_sent _ _ H c).
  - intros c. pose proof (i_ok _ _ H c) as Ho. cbn [stands moves].
    destruct (nth_error (d_calls s) c) as [[a|a i|p|x|]|] eqn:E; cbn [ok] in *.
    + rewrite Ho, U. reflexivity.
    + destruct Ho as [(q' & w & L & _ & Es & Hr)|[(q' & r' & v' & L & _ & Es & Hr)|(q' & L & U' & _)]]; [| |congruence].
      * rewrite Es. rewrite Hl, L. destruct (N.eqb_spec q q') as [<-|Hne].
        -- right; left. exists q, r, v. split; [reflexivity|]. split; [exact U|]. split; [reflexivity|]. apply Hv. congruence.
        -- left. exists q', w. split; [reflexivity|]. split; [exact U|]. split; [reflexivity|].
           rewrite (mget_mdel _ N.eqb_spec). destruct (N.eqb_spec q' q); congruence.
      * rewrite Es. rewrite Hl, L. right; left. exists q', r', v'. auto.
    + rewrite Ho, U. reflexivity.
    + rewrite Ho. reflexivity.
    + rewrite Ho. reflexivity.
    + rewrite Ho. reflexivity.
  - apply H.
  - intros q' k'. rewrite (mget_mdel _ N.eqb_spec). destruct (q' =? q); [discriminate|]. apply H.
  - intros i q' Hh. apply (i_held _ _ H i q'). rewrite Hl in Hh. destruct (lives (d_past s) i); try exact Hh. destruct (q =? k0); exact Hh.
  - intros q' k' i. rewrite (mget_mdel _ N.eqb_spec). destruct (N.eqb_spec q' q) as [->|Hne]; [discriminate|]. intros Hr Hh.
    assert (Hh' : hold q' (lives (d_past s) i) = true).
    { rewrite Hl in Hh. destruct (lives (d_past s) i); try exact Hh. destruct (q =? k0); exact Hh. }
    destruct (i_wait _ _ H q' k' i Hr Hh') as [W K]. split; [|exact K].
    rewrite Hl. destruct (lives (d_past s) i); try discriminate. cbn in W. apply N.eqb_eq in W. subst k0.
    destruct (N.eqb_spec q q') as [->|]; [contradiction|]. cbn. apply N.eqb_refl.
Qed.

(** * Polls and drops *)
Lemma msg_over st m : msg_ok st m -> msg_ok (Some Over) m.
Proof. destruct st as [[]|]; cbn; intros E; try contradiction; eauto. Qed.

Lemma inv_over s tr c x0 past' o x : inv s tr -> nth_error (d_calls s) c = Some x0 ->
  exited ((o, x) :: tr) = exited tr -> unserved ((o, x) :: tr) = unserved tr ->
  flagged past' = flagged (d_past s) -> taken past' = taken (d_past s) ->
  (forall i, calm (lives (d_past s) i) (lives past' i)) ->
  (forall i, lives past' i = lives (d_past s) i \/ exists a, x0 = Waits a i) ->
  stands ((o, x) :: tr) c = Closed -> (forall c', c' <> c -> stands ((o, x) :: tr) c' = stands tr c') ->
  inv (mk_dht past' (d_up s) (d_chan s) (set_nth c Over (d_calls s)) (d_running s) (d_next s)) ((o, x) :: tr).
Proof.
  intros H Hc He Hu Hf Ht Hcalm Hl Hs Hs'. apply inv_set with x0; auto; try discriminate.
  - intros i. destruct (Hl i) as [E|[a ->]]; [left; exact E|right]. intros c' a' Hne Hw. apply Hne. symmetry. exact (i_own _ _ H _ _ _ _ _ Hc Hw).
  - rewrite Hu. apply H.
  - intros U. apply (i_down _ _ H U).
  - apply H.
  - intros c' m Hne. reflexivity.
  - intros m Hi. apply (i_msg _ _ H) in Hi. exact (msg_over _ _ Hi).
Qed.

Lemma gone_other p i w j : j <> i -> lives (DropFut i :: Poll i w :: p) j = lives p j.
Proof. intros Hn. cbn [life_of]. apply Nat.neq_sym in Hn. apply Nat.eqb_neq in Hn. rewrite Hn. reflexivity. Qed.
Lemma gone_own p i w : (exists q v, lives p i = Decided q v) \/ (exists q, lives p i = Lost q) -> lives (DropFut i :: Poll i w :: p) i = Dropped.
Proof. intros [(q & v & E)|[q E]]; cbn [life_of]; rewrite Nat.eqb_refl, E; reflexivity. Qed.

Lemma poll_is debug p i w : ans (effect_of (K:=N) (V:=value) N.eqb debug p (Poll i w)) = poll_answer (lives p i).
Proof. rewrite (eff_poll (K:=N) (V:=value) N.eqb N.eqb_spec debug). reflexivity. Qed.

Lemma poll_others c w x tr c' : c' <> c -> stands ((DPoll c w, x) :: tr) c' = stands tr c'.
Proof. intros Hn. cbn [stands moves]. apply Nat.neq_sym in Hn. apply Nat.eqb_neq in Hn. rewrite Hn. reflexivity. Qed.
Lemma drop_others c x tr c' : c' <> c -> stands ((DDrop c, x) :: tr) c' = stands tr c'.
Proof. intros Hn. cbn [stands moves]. apply Nat.neq_sym in Hn. apply Nat.eqb_neq in Hn. rewrite Hn. reflexivity. Qed.

Lemma inv_poll debug s tr c w : inv s tr ->
  let z := dstep debug s (DPoll c w) in
  inv (fst z) ((DPoll c w, snd z) :: tr) /\ snd z <> Crash /\ snd z = poll_gives (stands tr c).
Proof.
  intros H z. subst z. cbn [dstep]. pose proof (i_ok _ _ H c) as Ho.
  destruct (nth_error (d_calls s) c) as [st|] eqn:E.
  2:{ cbn in Ho. rewrite Ho. split; [|split; [discriminate|reflexivity]]. apply inv_note; auto.
      intros c'. cbn. destruct (Nat.eqb_spec c c') as [<-|]; [rewrite Ho; reflexivity|reflexivity]. }
  assert (Hwait : forall sd, stands tr c = sd -> poll_gives sd = Waiting_ -> (forall a r, sd <> Final a r) -> inv s ((DPoll c w, Waiting_) :: tr)).
  { intros sd Es Hp Hn. apply inv_note; auto.
    - cbn. rewrite Es. destruct sd; try reflexivity. exfalso. exact (Hn _ _ eq_refl).
    - intros c'. cbn. destruct (Nat.eqb_spec c c') as [<-|]; [|reflexivity]. rewrite Es. destruct sd; try reflexivity; try discriminate. exfalso. exact (Hn _ _ eq_refl). }
  assert (Hans : forall r, stands tr c = Known r -> inv (set_call c Over s) ((DPoll c w, Answer r) :: tr)).
  { intros r Es. apply (inv_over s tr c st); auto; try apply calm_refl.
    - cbn [stands moves]. rewrite Nat.eqb_refl, Es. reflexivity.
    - intros c' Hn. apply poll_others. exact Hn. }
  destruct st as [a|a i|p|r|].
  - cbn in Ho. destruct (d_up s); rewrite Ho; cbn [fst snd poll_gives]; (split; [|split; [discriminate|reflexivity]]).
    + apply (Hwait _ Ho); [reflexivity|discriminate].
    + apply Hans. exact Ho.
  - rewrite poll_is.
    cbn [ok] in Ho. destruct Ho as [(q & w0 & L & U & Es & Hq)|[(q & r & v & L & U & Es & Hv)|(q & L & U & Es)]]; rewrite L, Es; cbn [poll_answer].
    + cbn [fst snd poll_gives]. split; [|split; [discriminate|reflexivity]].
      pose proof (inv_set s tr c (Waits a i) (Waits a i) (Poll i w :: d_past s) (d_chan s) (DPoll c w) Waiting_) as X.
      rewrite (set_same (Waits a i)) in X by exact E. apply X; auto; try discriminate.
      * intros j. cbn [life_of]. destruct (Nat.eqb_spec i j) as [<-|]; [|left; reflexivity]. rewrite L. right; left. exists q, false, w0, (Some w). auto.
      * intros j. cbn [life_of]. destruct (Nat.eqb_spec i j) as [<-|]; [|left; reflexivity]. right.
        intros c' a' Hne Hw. apply Hne. symmetry. exact (i_own _ _ H _ _ _ _ _ E Hw).
      * cbn. rewrite Es. apply H.
      * intros U'. apply (i_down _ _ H U').
      * apply H.
      * intros c' m _. reflexivity.
      * intros m Hi. apply (i_msg _ _ H) in Hi. rewrite E in Hi. contradiction.
      * cbn [stands moves]. rewrite Nat.eqb_refl, Es. cbn [ok]. left. exists q, (Some w). cbn [life_of]. rewrite Nat.eqb_refl, L. auto.
      * intros c' Hn. apply poll_others. exact Hn.
      * intros a' j [= <- <-] c' a2 Hne Hw. apply Hne. symmetry. exact (i_own _ _ H _ _ _ _ _ E Hw).
    + assert (C : forall j, calm (lives (d_past s) j) (lives (DropFut i :: Poll i w :: d_past s) j)).
      { intros j. destruct (Nat.eq_dec j i) as [->|Hj]; [|left; apply gone_other; exact Hj]. right; right. intros k. rewrite gone_own by eauto. reflexivity. }
      assert (G : forall j, lives (DropFut i :: Poll i w :: d_past s) j = lives (d_past s) j \/ exists b, Waits a i = Waits b j).
      { intros j. destruct (Nat.eq_dec j i) as [->|Hj]; [right; eauto|left; apply gone_other; exact Hj]. }
      unfold agrees in Hv. cbn [poll_gives]. destruct (meaning a r) as [x|] eqn:M.
      * rewrite Hv. cbn [fst snd]. split; [|split; [discriminate|reflexivity]].
        apply (inv_over s tr c (Waits a i) (DropFut i :: Poll i w :: d_past s)); auto.
        -- cbn [stands moves]. rewrite Nat.eqb_refl, Es. destruct a; try reflexivity. rewrite M. reflexivity.
        -- intros c' Hn. apply poll_others. exact Hn.
      * destruct Hv as [Hv [p ->]]. rewrite Hv, U. cbn [fst snd]. split; [|split; [discriminate|reflexivity]].
        cbn [with_chan set_call with_calls with_past d_past d_up d_chan d_calls d_running d_next].
        assert (Hno : forall m, ~ In (c, m) (d_chan s)) by (intros m Hi; apply (i_msg _ _ H) in Hi; rewrite E in Hi; contradiction).
        apply (inv_set s tr c (Waits (AskFind p) i)); auto; try discriminate.
        -- intros j. destruct (G j) as [Gj|[b [= _ <-]]]; [left; exact Gj|right].
           intros c' a' Hne Hw. apply Hne. symmetry. exact (i_own _ _ H _ _ _ _ _ E Hw).
        -- cbn [unserved]. rewrite Es, map_app, (i_chan _ _ H). reflexivity.
        -- congruence.
        -- rewrite map_app. cbn. apply nodup_last; [apply H|]. rewrite in_map_iff. intros ([c1 m] & E1 & Hi). cbn in E1. subst c1. exact (Hno _ Hi).
        -- intros c' m Hne. rewrite in_app_iff. split; [intros [Hi|[[= <- _]|[]]]; [exact Hi|contradiction]|auto].
        -- intros m Hi. apply in_app_iff in Hi as [Hi|[[= <-]|[]]]; [exfalso; exact (Hno _ Hi)|reflexivity].
        -- intros _ _. rewrite map_app, in_app_iff. right. left. reflexivity.
        -- cbn [stands moves]. rewrite Nat.eqb_refl, Es, M. cbn. rewrite U. reflexivity.
        -- intros c' Hn. apply poll_others. exact Hn.
    + cbn [fst snd poll_gives]. split; [|split; [discriminate|reflexivity]].
      apply (inv_over s tr c (Waits a i) (DropFut i :: Poll i w :: d_past s)); auto.
      * intros j. destruct (Nat.eq_dec j i) as [->|Hj]; [|left; apply gone_other; exact Hj]. right; right. intros k. rewrite gone_own by eauto. reflexivity.
      * intros j. destruct (Nat.eq_dec j i) as [->|Hj]; [right; eauto|left; apply gone_other; exact Hj].
      * cbn [stands moves]. rewrite Nat.eqb_refl, Es. reflexivity.
      * intros c' Hn. apply poll_others. exact Hn.
  - cbn in Ho. destruct (d_up s); rewrite Ho; cbn [fst snd poll_gives]; (split; [|split; [discriminate|reflexivity]]).
    + apply (Hwait _ Ho); [reflexivity|discriminate].
    + apply Hans. exact Ho.
  - cbn in Ho. rewrite Ho. cbn [fst snd poll_gives]. split; [|split; [discriminate|reflexivity]]. apply Hans. exact Ho.
  - cbn in Ho. rewrite Ho. split; [|split; [discriminate|reflexivity]]. apply inv_note; auto.
    intros c'. cbn. destruct (Nat.eqb_spec c c') as [<-|]; [rewrite Ho; reflexivity|reflexivity].
Qed.

Lemma inv_drop debug s tr c : inv s tr ->
  let z := dstep debug s (DDrop c) in inv (fst z) ((DDrop c, snd z) :: tr) /\ snd z <> Crash.
Proof.
  intros H z. subst z. cbn [dstep]. pose proof (i_ok _ _ H c) as Ho.
  destruct (nth_error (d_calls s) c) as [st|] eqn:E.
  2:{ cbn in Ho. split; [|discriminate]. apply inv_note; auto.
      intros c'. cbn. destruct (Nat.eqb_spec c c') as [<-|]; [rewrite Ho; reflexivity|reflexivity]. }
  assert (Hne : st <> Over -> stands ((DDrop c, Nothing) :: tr) c = Closed).
  { intros _. cbn [stands moves]. rewrite Nat.eqb_refl. destruct (stands tr c) eqn:Es; try reflexivity. exfalso.
    destruct st; cbn in Ho; try discriminate; try (destruct (d_up s); discriminate).
    destruct Ho as [(? & ? & _ & _ & [=] & _)|[(? & ? & ? & _ & _ & [=] & _)|(? & _ & _ & [=])]]. }
  assert (Hplain : st <> Over -> inv (set_call c Over s) ((DDrop c, Nothing) :: tr)).
  { intros Hn. apply (inv_over s tr c st); auto; try apply calm_refl. intros c'. apply drop_others. }
  destruct st as [a|a i|p|r|]; try (split; [apply Hplain; discriminate|discriminate]).
  - split; [|discriminate]. cbn [fst snd].
    assert (B : (exists q w, lives (d_past s) i = Waiting q false w) \/ (exists q v, lives (d_past s) i = Decided q v) \/ (exists q, lives (d_past s) i = Lost q)).
    { cbn in Ho. destruct Ho as [(q & w0 & L & _)|[(q & r & v & L & _)|(q & L & _)]]; eauto. }
    apply (inv_over s tr c (Waits a i) (DropNotify i :: DropFut i :: d_past s)); auto.
    + apply leave_calm; destruct B as [(q & w & ->)|[(q & v & ->)|(q & ->)]]; discriminate.
    + intros j. destruct (Nat.eq_dec j i) as [->|Hj]; [right; eauto|left; apply leave_other; exact Hj].
    + apply Hne. discriminate.
    + intros c'. apply drop_others.
  - split; [|discriminate]. apply inv_note; auto.
    intros c'. cbn. destruct (Nat.eqb_spec c c') as [<-|]; [|reflexivity]. cbn in Ho. rewrite Ho. reflexivity.
Qed.

Lemma inv_exit debug s tr : inv s tr ->
  let z := dstep debug s DExit in inv (fst z) ((DExit, snd z) :: tr) /\ snd z <> Crash.
Proof.
  intros H z. subst z. cbn [dstep]. pose proof (i_up _ _ H) as U0. destruct (d_up s) eqn:U.
  2:{ assert (X : exited tr = true) by (destruct (exited tr); [reflexivity|discriminate]). split; [|discriminate]. apply inv_note; auto.
      - destruct (i_down _ _ H U) as [C _]. pose proof (i_chan _ _ H) as Hc. rewrite C in Hc. cbn in *. exact Hc.
      - intros c. pose proof (i_ok _ _ H c) as Ho. rewrite U in Ho. cbn [stands moves].
        destruct (nth_error (d_calls s) c) as [[]|]; cbn in Ho; try (rewrite Ho; reflexivity).
        destruct Ho as [(? & ? & _ & [=] & _)|[(? & ? & ? & _ & [=] & _)|(? & _ & _ & ->)]]. reflexivity. }
  assert (X : exited tr = false) by (destruct (exited tr); [discriminate|reflexivity]).
  pose proof (i_taken _ _ H) as T. rewrite X in T. pose proof (i_flag _ _ H) as F. rewrite X in F.
  assert (L : forall i, lives (ShutTake :: ShutFlag :: d_past s) i =
    match lives (d_past s) i with Waiting k _ _ | Decided k _ | Rejected k => Lost k | l => l end).
  { intros i. cbn. rewrite T. cbn. destruct (lives (d_past s) i); reflexivity. }
  split; [|discriminate]. constructor; cbn [fst snd d_past d_up d_chan d_calls d_running d_next]; try reflexivity.
  - auto.
  - constructor.
  - intros c m [].
  - discriminate.
  - intros c. pose proof (i_ok _ _ H c) as Ho. rewrite U in Ho. cbn [stands moves].
    destruct (nth_error (d_calls s) c) as [[a|a i|p|r|]|]; cbn [ok] in *; try (rewrite Ho; reflexivity).
    destruct Ho as [(q & w & E & _ & -> & _)|[(q & r & v & E & _ & -> & _)|(q & _ & [=] & _)]]; right; right; exists q; rewrite L, E; auto.
  - apply H.
  - discriminate.
  - intros i q. rewrite L. intros Hh. apply (i_held _ _ H i q). destruct (lives (d_past s) i); try discriminate; exact Hh.
  - discriminate.
Qed.

Lemma inv_step debug s tr o : inv s tr ->
  inv (fst (dstep debug s o)) ((o, snd (dstep debug s o)) :: tr) /\ snd (dstep debug s o) <> Crash.
Proof.
  intros H. destruct o.
  - apply inv_call. exact H.
  - apply inv_serve. exact H.
  - apply inv_background. exact H.
  - apply inv_event. exact H.
  - destruct (inv_poll debug s tr c w H) as (A & B & _). auto.
  - apply inv_drop. exact H.
  - apply inv_exit. exact H.
Qed.

Lemma inv_run debug h : forall s tr, inv s tr -> inv (fst (drun debug s h)) (rev (snd (drun debug s h)) ++ tr) /\
  Forall (fun x => snd x <> Crash) (snd (drun debug s h)).
Proof.
  induction h as [|o h IH]; intros s tr H; [split; [exact H|constructor]|]. cbn [drun].
  destruct (inv_step debug s tr o H) as [A B]. destruct (dstep debug s o) as [s1 x]. cbn [fst snd] in A, B.
  destruct (IH s1 _ A) as [C D]. destruct (drun debug s1 h) as [s2 l]. cbn [fst snd] in *. split.
  - cbn [rev]. rewrite <- app_assoc. exact C.
  - constructor; [exact B|exact D].
Qed.
Lemma inv_from debug h : inv (fst (drun debug dht0 h)) (record_of debug h).
Proof. destruct (inv_run debug h dht0 [] inv0) as [H _]. rewrite app_nil_r in H. exact H. Qed.

(** * What each step gives *)
Lemma serve_gives debug s tr ac co kn : inv s tr -> exited tr = false ->
  let local := match co with [] => kn | _ => co end in
  let x := snd (dstep debug s (DServe ac co kn)) in
  match unserved tr with
  | [] => x = Disabled
  | c :: _ =>
      match stands tr c with
      | Asked (AskFind p) => x = match local with [] => Started c (d_next s) (QClosest p) | _ => Located c local end
      | Asked a => x = if refusable (query_for a) && negb ac then RefusedStart c else Started c (d_next s) (query_for a)
      | Again _ => x = Located c local
      | Closed => about c x
      | _ => False
      end
  end.
Proof.
  intros H X local x. subst x. pose proof (i_up _ _ H) as U. rewrite X in U. cbn in U.
  cbn [dstep]. rewrite U. rewrite <- (i_chan _ _ H). destruct (d_chan s) as [|[c m] rest] eqn:Hc; [reflexivity|]. cbn [map fst].
  pose proof (i_msg _ _ H c m ltac:(rewrite Hc; left; reflexivity)) as Hm. pose proof (i_ok _ _ H c) as Ho. rewrite U in Ho.
  assert (S : forall k, k <> QRepublishRecord -> (forall a, nth_error (d_calls s) c = Some (Sent a) -> k = query_for a) ->
    (forall p, nth_error (d_calls s) c <> Some (SentAgain p)) -> snd (start_for debug c k (with_chan rest s)) = Started c (d_next s) k).
  { intros k K1 K2 K3. destruct (inv_start_for debug s tr c m rest k ac co kn H U Hc K1 K2 K3) as [_ B]. exact B. }
  destruct (nth_error (d_calls s) c) as [[a|a i|p|r|]|] eqn:E; try contradiction; cbn in Ho; rewrite Ho; subst.
  - assert (S' : forall k, k <> QRepublishRecord -> k = query_for a -> snd (start_for debug c k (with_chan rest s)) = Started c (d_next s) k).
    { intros k K1 K2. apply S; [exact K1| |discriminate]. intros b [= <-]. exact K2. }
    destruct a; cbn [message_of serve query_for];
      try (match goal with |- context [refusable ?k && ?b] => destruct (refusable k && b) end; [reflexivity|apply S'; [discriminate|reflexivity]]).
    fold local. rewrite orb_false_r. destruct local; [|reflexivity]. apply S'; [discriminate|reflexivity].
  - cbn [serve]. fold local. rewrite orb_true_r. reflexivity.
  - cbn [about]. destruct Hm as [[a ->]|[p ->]].
    + assert (S' : forall k, k <> QRepublishRecord -> about c (snd (start_for debug c k (with_chan rest s)))).
      { intros k K1. rewrite S; [reflexivity|exact K1|discriminate|discriminate]. }
      destruct a; cbn [message_of serve];
        try (match goal with |- context [refusable ?k && ?b] => destruct (refusable k && b) end; [reflexivity|apply S'; discriminate]).
      fold local. rewrite orb_false_r. destruct local; [apply S'; discriminate|reflexivity].
    + cbn [serve]. fold local. rewrite orb_true_r. reflexivity.
Qed.

Lemma event_gives debug s tr q ex r c a : inv s tr -> stands tr c = Running a q ->
  snd (dstep debug s (DEvent q ex r)) = if fits r (query_for a) then Nothing else Disabled.
Proof.
  intros H Es. pose proof (i_ok _ _ H c) as Ho. rewrite Es in Ho.
  assert (K : d_up s = true /\ mget N.eqb q (d_running s) = Some (query_for a)).
  { destruct (nth_error (d_calls s) c) as [[b|b i|p|x|]|]; cbn in Ho; try discriminate; try (destruct (d_up s); discriminate).
    destruct Ho as [(q' & w & _ & U & [= -> ->] & Hq)|[(? & ? & ? & _ & _ & [=] & _)|(? & _ & _ & [=])]]. auto. }
  destruct K as [U Hq]. destruct (inv_event debug s tr q ex r H) as [_ B]. revert B. cbn [dstep]. rewrite Hq, U. cbn [andb].
  destruct (fits r (query_for a)); [|reflexivity]. destruct (finish_all _ _ _ _) as [past' []]; cbn; congruence.
Qed.

Lemma next_step debug s o : d_next s <= d_next (fst (dstep debug s o)) /\
  (forall c q k, snd (dstep debug s o) = Started c q k -> q = d_next s /\ d_next s < d_next (fst (dstep debug s o))).
Proof.
  assert (S : forall c k s, d_next s <= d_next (fst (start_for debug c k s)) /\
    (forall c' q k', snd (start_for debug c k s) = Started c' q k' -> q = d_next s /\ d_next s < d_next (fst (start_for debug c k s)))).
  { clear s o. intros c k s. unfold start_for. cbn [start]. match goal with |- context [match ?e with OId _ => _ | _ => _ end] => destruct e end;
      try (cbn; split; [lia|discriminate]). destruct (awaits c _); cbn; split; try lia; intros ? ? ? [= <- <- <-]; split; lia || reflexivity. }
  destruct o; cbn [dstep].
  - destruct a, have; cbn; try (split; [reflexivity|discriminate]); destruct (d_up s); cbn; split; try reflexivity; discriminate.
  - destruct (d_up s); [|cbn; split; [lia|discriminate]]. destruct (d_chan s) as [|[c m] rest]; [cbn; split; [lia|discriminate]|].
    destruct m as [k|p l]; cbn [serve].
    + destruct (refusable k && negb accepts); [|apply (S c k (with_chan rest s))]. destruct (awaits _ _); cbn; split; try lia; discriminate.
    + destruct (_ || l); [|apply (S c (QClosest p) (with_chan rest s))]. destruct (awaits _ _); cbn; split; try lia; discriminate.
  - destruct (d_up s); cbn; split; try lia; discriminate.
  - destruct (mget _ _ _); [|cbn; split; [lia|discriminate]]. destruct (_ && _); [|cbn; split; [lia|discriminate]].
    destruct (finish_all _ _ _ _) as [? []]; cbn; split; try lia; discriminate.
  - destruct (nth_error _ _) as [[]|]; try (cbn; split; [lia|discriminate]).
    + destruct (d_up s); cbn; split; try lia; discriminate.
    + destruct (ans _) as [| | |[v|]| |]; try (cbn; split; [lia|discriminate]). destruct (makes a v); try (cbn; split; [lia|discriminate]).
      destruct a; try (cbn; split; [lia|discriminate]). destruct (d_up s); cbn; split; try lia; discriminate.
    + destruct (d_up s); cbn; split; try lia; discriminate.
  - destruct (nth_error _ _) as [[]|]; cbn; split; try lia; discriminate.
  - destruct (d_up s); cbn; split; try lia; discriminate.
Qed.
Lemma started_once debug h : forall s tr, NoDup (map snd (started tr)) -> Forall (fun x => snd x < d_next s) (started tr) ->
  NoDup (map snd (started (rev (snd (drun debug s h)) ++ tr))).
Proof.
  induction h as [|o h IH]; intros s tr Hn Hf; [exact Hn|]. cbn [drun].
  destruct (next_step debug s o) as [L S]. destruct (dstep debug s o) as [s1 x]. cbn [fst snd] in L, S.
  specialize (IH s1 ((o, x) :: tr)). destruct (drun debug s1 h) as [s2 l]. cbn [fst snd] in *. cbn [rev]. rewrite <- app_assoc. cbn [app]. apply IH.
  - unfold started. cbn [flat_map snd]. fold (started tr). destruct x; try exact Hn. cbn. destruct (S _ _ _ eq_refl) as [-> _]. constructor; [|exact Hn].
    rewrite in_map_iff. intros ([c' q'] & E & Hi). rewrite Forall_forall in Hf. apply Hf in Hi. cbn in *. lia.
  - assert (Hf' : Forall (fun y => snd y < d_next s1) (started tr)) by (eapply Forall_impl; [|exact Hf]; cbn; intros; lia).
    unfold started. cbn [flat_map snd]. fold (started tr). destruct x; try exact Hf'. destruct (S _ _ _ eq_refl) as [-> ?]. constructor; [cbn; lia|exact Hf'].
Qed.
Lemma record_once debug h : NoDup (map snd (started (record_of debug h))).
Proof. pose proof (started_once debug h dht0 [] ltac:(constructor) ltac:(constructor)) as H. rewrite app_nil_r in H. exact H. Qed.

Lemma record_cut debug h t2 o x t1 : record_of debug h = t2 ++ (o, x) :: t1 ->
  exists h1 h2, h = h1 ++ o :: h2 /\ record_of debug h1 = t1 /\ gives debug h1 o = x.
Proof.
  unfold record_of, gives. generalize dht0. intros s E. assert (E' : snd (drun debug s h) = rev t1 ++ (o, x) :: rev t2).
  { rewrite <- (rev_involutive (snd (drun debug s h))), E, rev_app_distr. cbn. rewrite <- app_assoc. reflexivity. }
  clear E. revert s t1 E'. induction h as [|o1 h IH]; intros s t1 E.
  - cbn in E. destruct (rev t1); discriminate.
  - cbn [drun] in E. destruct (dstep debug s o1) as [s1 x1] eqn:D. destruct (drun debug s1 h) as [s2 l] eqn:R. cbn [snd] in E.
    destruct (rev t1) as [|y t1'] eqn:T.
    + cbn in E. injection E as -> -> _. exists [], h. split; [reflexivity|]. apply (f_equal (@rev _)) in T. rewrite rev_involutive in T. subst. cbn. rewrite D. auto.
    + cbn in E. injection E as <- E. destruct (IH s1 (rev t1')) as (h1 & h2 & -> & A & B); [rewrite R, rev_involutive; exact E|].
      exists (o1 :: h1), h2. split; [reflexivity|]. cbn [drun]. rewrite D. destruct (drun debug s1 h1) as [s3 l3] eqn:R3. cbn [fst snd] in *. split; [|exact B].
      cbn [rev]. rewrite A. rewrite <- (rev_involutive t1), T. reflexivity.
Qed.

(** How a standing came about. *)
Lemma asked_from tr c a : stands tr c = Asked a -> exists t2 have t1, tr = t2 ++ (DCall a have, Called c) :: t1.
Proof.
  induction tr as [|[o x] tr IH]; [discriminate|]. cbn [stands]. intros H.
  assert (K : stands tr c = Asked a -> exists t2 have t1, (o, x) :: tr = t2 ++ (DCall a have, Called c) :: t1).
  { intros E. destruct (IH E) as (t2 & hv & t1 & ->). exists ((o, x) :: t2), hv, t1. reflexivity. }
  destruct o; cbn [moves] in H.
  - destruct x; try (apply K; exact H). destruct (Nat.eqb_spec c0 c) as [->|]; [|apply K; exact H].
    assert (a0 = a) as -> by (destruct a0, have, (exited tr); try discriminate; congruence). exists [], have, tr. reflexivity.
  - destruct x; try (apply K; exact H); (destruct (c0 =? c)%nat; [|apply K; exact H]); destruct (stands tr c); try discriminate.
  - apply K; exact H.
  - destruct exhausted; [|apply K; exact H]. destruct x; try (apply K; exact H). destruct (stands tr c); try discriminate; try (apply K; exact H). destruct (q =? q0); discriminate.
  - destruct (c0 =? c)%nat; [|apply K; exact H]. destruct (stands tr c) as [| | |b r| | |]; try discriminate; try (apply K; exact H). destruct b; try discriminate. destruct (meaning _ r); discriminate.
  - destruct (c0 =? c)%nat; [|apply K; exact H]. destruct (stands tr c); discriminate.
  - destruct (stands tr c); discriminate.
Qed.
Lemma running_from tr c a q : stands tr c = Running a q ->
  exists t2 ac co kn k t1, tr = t2 ++ (DServe ac co kn, Started c q k) :: t1 /\ stands t1 c = Asked a /\ Forall (fun x => ~ ended q x) t2.
Proof.
  induction tr as [|[o x] tr IH]; [discriminate|]. cbn [stands]. intros H.
  assert (K : stands tr c = Running a q -> ~ ended q (o, x) ->
    exists t2 ac co kn k t1, (o, x) :: tr = t2 ++ (DServe ac co kn, Started c q k) :: t1 /\ stands t1 c = Asked a /\ Forall (fun x => ~ ended q x) t2).
  { intros E Hn. destruct (IH E) as (t2 & ac & co & kn & k & t1 & -> & A & B). exists ((o, x) :: t2), ac, co, kn, k, t1. repeat split; auto. }
  assert (P : o <> DExit -> (forall r, (o, x) <> (DEvent q true r, Nothing)) -> ~ ended q (o, x)).
  { intros P1 P2 [E|[r E]]; [exact (P1 E)|exact (P2 r E)]. }
  destruct o; cbn [moves] in H; try (specialize (P ltac:(discriminate) ltac:(discriminate))).
  - destruct x; try (apply K; [exact H|exact P]). destruct (c0 =? c)%nat; [|apply K; [exact H|exact P]].
    destruct a0, have, (exited tr); discriminate.
  - destruct x; try (apply K; [exact H|exact P]); (destruct (Nat.eqb_spec c0 c) as [->|]; [|apply K; [exact H|exact P]]); destruct (stands tr c) eqn:Es; try discriminate; try (apply K; [exact H|exact P]).
    injection H as -> ->. exists [], accepts, connected, known, k, tr. repeat split; auto.
  - apply K; [exact H|exact P].
  - destruct exhausted.
    2:{ apply K; [exact H|]. apply P; discriminate. }
    destruct x; try (apply K; [exact H|apply P; discriminate]).
    destruct (stands tr c) as [| |b q1| | | |] eqn:Es; try discriminate. destruct (N.eqb_spec q0 q1) as [|Hne]; [discriminate|].
    injection H as -> ->. apply K; [reflexivity|]. apply P; [discriminate|]. intros r' [= E _]. contradiction.
  - destruct (c0 =? c)%nat; [|apply K; [exact H|exact P]]. destruct (stands tr c) as [| | |b r| | |]; try discriminate; try (apply K; [exact H|exact P]). destruct b; try discriminate. destruct (meaning _ r); discriminate.
  - destruct (c0 =? c)%nat; [|apply K; [exact H|exact P]]. destruct (stands tr c); discriminate.
  - destruct (stands tr c); discriminate.
Qed.
Lemma final_from tr c a r : stands tr c = Final a r ->
  exists t2 q t1, tr = t2 ++ (DEvent q true r, Nothing) :: t1 /\ stands t1 c = Running a q.
Proof.
  induction tr as [|[o x] tr IH]; [discriminate|]. cbn [stands]. intros H.
  assert (K : stands tr c = Final a r -> exists t2 q t1, (o, x) :: tr = t2 ++ (DEvent q true r, Nothing) :: t1 /\ stands t1 c = Running a q).
  { intros E. destruct (IH E) as (t2 & q & t1 & -> & A). exists ((o, x) :: t2), q, t1. auto. }
  destruct o; cbn [moves] in H.
  - destruct x; try (apply K; exact H). destruct (c0 =? c)%nat; [|apply K; exact H]. destruct a0, have, (exited tr); discriminate.
  - destruct x; try (apply K; exact H); (destruct (c0 =? c)%nat; [|apply K; exact H]); destruct (stands tr c); try discriminate; apply K; exact H.
  - apply K; exact H.
  - destruct exhausted; [|apply K; exact H]. destruct x; try (apply K; exact H). destruct (stands tr c) as [| |b q1|b r1| | |] eqn:Es; try discriminate; try (apply K; exact H).
    destruct (N.eqb_spec q q1) as [<-|]; [|discriminate]. injection H as -> ->. exists [], q, tr. auto.
  - destruct (c0 =? c)%nat; [|apply K; exact H]. destruct (stands tr c) as [| | |b r1| | |]; try discriminate. destruct b; try discriminate. destruct (meaning _ r1); discriminate.
  - destruct (c0 =? c)%nat; [|apply K; exact H]. destruct (stands tr c); discriminate.
  - destruct (stands tr c); discriminate.
Qed.
