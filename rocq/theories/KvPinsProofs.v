(** The sled pin store: invariants. *)
From Verif Require Import Base Wire Cid CidProofs FMap BlockSpec Text TextProofs FsPaths FsPathsProofs PinSpec PinSpecProofs FsPins FsPinsReads KvPins.
Local Open Scope N_scope.

Lemma key_inj c1 m1 c2 m2 : wf_cid c1 -> wf_cid c2 -> pin_key c1 m1 = pin_key c2 m2 -> c1 = c2 /\ m1 = m2.
Proof.
  intros H1 H2 E. unfold pin_key in E. cbn [app] in E. injection E as El Et. split.
  - apply cid_text_inj; assumption.
  - destruct m1, m2; try reflexivity; discriminate.
Qed.
Lemma mode_eqb_spec a b : reflect (a = b) (mode_eqb a b).
Proof. destruct a, b; constructor; congruence. Qed.
Lemma key_eqb c1 m1 c2 m2 : wf_cid c1 -> wf_cid c2 ->
  beq (pin_key c1 m1) (pin_key c2 m2) = cid_eqb c1 c2 && mode_eqb m1 m2.
Proof.
  intros H1 H2. destruct (beq_spec (pin_key c1 m1) (pin_key c2 m2)) as [E|Hn].
  - apply key_inj in E as [-> ->]; try assumption. rewrite cid_eqb_refl. destruct m2; reflexivity.
  - destruct (cid_eqb_spec c1 c2) as [->|]; [|reflexivity]. destruct (mode_eqb_spec m1 m2) as [->|]; [congruence|reflexivity].
Qed.

Definition val (db : kv) (c : cid) (m : mode) : option bytes := mget beq (pin_key c m) db.
Lemma has_val db c m : has db c m = is_some (val db c m).
Proof. reflexivity. Qed.
Lemma val_insert db c m v x n : wf_cid c -> wf_cid x ->
  val (insert db c m v) x n = if cid_eqb x c && mode_eqb n m then Some v else val db x n.
Proof. intros Hc Hx. unfold val, insert. rewrite mget_mset by exact beq_spec. rewrite key_eqb by assumption. reflexivity. Qed.
Lemma val_delete db c m x n : wf_cid c -> wf_cid x ->
  val (delete db c m) x n = if cid_eqb x c && mode_eqb n m then None else val db x n.
Proof. intros Hc Hx. unfold val, delete. rewrite mget_mdel by exact beq_spec. rewrite key_eqb by assumption. reflexivity. Qed.

Definition kwf (db : kv) : Prop :=
  NoDup (mkeys db) /\
  forall k v, In (k, v) db -> exists c m, wf_cid c /\ k = pin_key c m /\
    (if mode_eqb m Indirect then exists root, wf_cid root /\ v = cid_to_text root else v = []).
Lemma kwf_insert db c m v : kwf db -> wf_cid c ->
  (if mode_eqb m Indirect then exists root, wf_cid root /\ v = cid_to_text root else v = []) ->
  kwf (insert db c m v).
Proof.
  intros [Hn H] Hc Hv. split; [apply mset_nodup; [exact beq_spec|exact Hn]|].
  intros k v' [[= <- <-]|Hi]; [eauto 6|]. apply filter_In in Hi as [Hi _]. auto.
Qed.
Lemma kwf_delete db c m : kwf db -> kwf (delete db c m).
Proof.
  intros [Hn H]. split; [apply mdel_nodup; exact Hn|]. intros k v Hi. apply filter_In in Hi as [Hi _]. auto.
Qed.

Lemma kv_mode_spec db c : kv_mode db c =
  if has db c Direct then Some Direct else if has db c Recursive then Some Recursive
  else if has db c Indirect then Some Indirect else None.
Proof. reflexivity. Qed.

(** The loops. *)
Lemma add_refs root l : wf_cid root -> Forall wf_cid l -> forall db, kwf db ->
  let db' := fold_left (add_ref root) l db in
  kwf db' /\ forall x m, wf_cid x ->
    val db' x m = match m with
                  | Indirect => if existsb (cid_eqb x) l && negb (is_some (kv_mode db x)) then Some (cid_to_text root) else val db x m
                  | _ => val db x m
                  end.
Proof.
  intros Hroot. induction 1 as [|c l Hc HF IH]; intros db Hdb.
  - cbn. split; [exact Hdb|]. intros x []; reflexivity.
  - cbn [fold_left].
    assert (H1 : kwf (add_ref root db c)).
    { unfold add_ref. destruct (kv_mode db c); [exact Hdb|]. apply kwf_insert; [exact Hdb|exact Hc|]. cbn. eauto. }
    destruct (IH _ H1) as [A B]. split; [exact A|]. intros x m Hx. rewrite B by exact Hx.
    assert (V : forall n, val (add_ref root db c) x n =
              if cid_eqb x c && negb (is_some (kv_mode db c)) && mode_eqb n Indirect then Some (cid_to_text root) else val db x n).
    { intros n. unfold add_ref. destruct (kv_mode db c) eqn:E; cbn [is_some negb].
      - rewrite andb_false_r. reflexivity.
      - rewrite val_insert by assumption. rewrite andb_true_r. reflexivity. }
    destruct m; rewrite ?V; cbn [mode_eqb]; rewrite ?andb_false_r; try reflexivity.
    rewrite andb_true_r. cbn [existsb].
    assert (M : is_some (kv_mode (add_ref root db c) x) = is_some (kv_mode db x) || cid_eqb x c).
    { rewrite !kv_mode_spec, !has_val, !V. cbn [mode_eqb]. rewrite !andb_false_r, !andb_true_r.
      destruct (cid_eqb_spec x c) as [->|]; cbn [andb].
      - rewrite (kv_mode_spec db c), !has_val.
        destruct (val db c Direct), (val db c Recursive), (val db c Indirect); reflexivity.
      - rewrite orb_false_r. reflexivity. }
    rewrite M. destruct (cid_eqb_spec x c) as [->|]; cbn [orb andb].
    + rewrite orb_true_r. cbn [negb]. rewrite andb_false_r. destruct (is_some (kv_mode db c)) eqn:E; reflexivity.
    + rewrite orb_false_r. reflexivity.
Qed.

Lemma drop_refs l : Forall wf_cid l -> forall db, kwf db ->
  let db' := fold_left drop_ref l db in
  kwf db' /\ forall x m, wf_cid x ->
    val db' x m = match m with
                  | Indirect => if existsb (cid_eqb x) l && negb (has db x Direct) && negb (has db x Recursive) then None else val db x m
                  | _ => val db x m
                  end.
Proof.
  induction 1 as [|c l Hc HF IH]; intros db Hdb.
  - cbn. split; [exact Hdb|]. intros x []; reflexivity.
  - cbn [fold_left].
    assert (H1 : kwf (drop_ref db c)).
    { unfold drop_ref. destruct (kv_mode db c) as [[| |]|]; try exact Hdb. apply kwf_delete. exact Hdb. }
    destruct (IH _ H1) as [A B]. split; [exact A|]. intros x m Hx. rewrite B by exact Hx.
    assert (V : forall n, val (drop_ref db c) x n =
              if cid_eqb x c && negb (has db c Direct) && negb (has db c Recursive) && mode_eqb n Indirect then None else val db x n).
    { intros n. unfold drop_ref. rewrite kv_mode_spec.
      destruct (has db c Direct); cbn [negb]; [rewrite !andb_false_r; reflexivity|].
      destruct (has db c Recursive); cbn [negb]; [rewrite !andb_false_r; reflexivity|]. rewrite !andb_true_r.
      destruct (has db c Indirect) eqn:E.
      - rewrite val_delete by assumption. reflexivity.
      - destruct (cid_eqb_spec x c) as [->|]; [|reflexivity]. destruct n; cbn; try reflexivity.
        rewrite has_val in E. destruct (val db c Indirect); [discriminate|reflexivity]. }
    assert (HD : has (drop_ref db c) x Direct = has db x Direct) by (rewrite !has_val, V; cbn; rewrite andb_false_r; reflexivity).
    assert (HR : has (drop_ref db c) x Recursive = has db x Recursive) by (rewrite !has_val, V; cbn; rewrite andb_false_r; reflexivity).
    destruct m; rewrite ?HD, ?HR, ?V; cbn [mode_eqb]; rewrite ?andb_false_r; try reflexivity.
    rewrite andb_true_r. cbn [existsb]. destruct (cid_eqb_spec x c) as [->|]; cbn [orb andb]; [|reflexivity].
    destruct (has db c Direct), (has db c Recursive), (existsb (cid_eqb c) l); reflexivity.
Qed.

Lemma once_wf l : Forall wf_cid l -> Forall wf_cid (once l).
Proof. rewrite !Forall_forall. intros H x Hx. apply H, once_in, Hx. Qed.
Lemma existsb_once x l : existsb (cid_eqb x) (once l) = existsb (cid_eqb x) l.
Proof. apply eq_true_iff_eq. rewrite !existsb_cid. apply once_in. Qed.


(** * The effect of an accepted call *)
Definition kone (db : kv) : Prop := forall c m n, wf_cid c -> has db c m = true -> has db c n = true -> m = n.

Lemma one_mode db c : kone db -> wf_cid c -> forall m, kv_mode db c = Some m <-> has db c m = true.
Proof.
  intros H Hc m. rewrite kv_mode_spec. split.
  - destruct (has db c Direct) eqn:E1; [intros [= <-]; exact E1|].
    destruct (has db c Recursive) eqn:E2; [intros [= <-]; exact E2|].
    destruct (has db c Indirect) eqn:E3; [intros [= <-]; exact E3|discriminate].
  - intros Hm. destruct (has db c Direct) eqn:E1; [f_equal; apply (H c); auto|].
    destruct (has db c Recursive) eqn:E2; [f_equal; apply (H c); auto|].
    destruct (has db c Indirect) eqn:E3; [f_equal; apply (H c); auto|]. destruct m; congruence.
Qed.
Lemma kone_other db c m n : kone db -> wf_cid c -> has db c m = true -> m <> n -> val db c n = None.
Proof.
  intros H Hc Hm Hn. destruct (val db c n) eqn:E; [|reflexivity]. exfalso. apply Hn. apply (H c); auto.
  rewrite has_val, E. reflexivity.
Qed.
Lemma kv_mode_none db c m : kv_mode db c = None -> val db c m = None.
Proof.
  rewrite kv_mode_spec, !has_val.
  destruct (val db c Direct) eqn:E1, (val db c Recursive) eqn:E2, (val db c Indirect) eqn:E3; cbn; try discriminate.
  intros _. destruct m; assumption.
Qed.
Lemma val_empty db c m : kwf db -> wf_cid c -> m <> Indirect -> has db c m = true -> val db c m = Some [].
Proof.
  intros [_ H] Hc Hm Hh. rewrite has_val in Hh. destruct (val db c m) as [v|] eqn:E; [|discriminate].
  apply mget_in in E; [|exact beq_spec]. apply H in E as (c' & m' & Hc' & Ek & Hv). apply key_inj in Ek as [_ <-]; auto.
  destruct m; cbn in Hv; [contradiction| |]; rewrite Hv; reflexivity.
Qed.

Definition kv_accepts (db : kv) (o : pop) : bool :=
  match o with
  | PinDirect c => negb (has db c Recursive)
  | PinRec c r => negb (broken r)
  | UnpinDirect c => has db c Direct || has db c Recursive
  | UnpinRec c r => negb (broken r) && (has db c Direct || has db c Recursive)
  end.
Definition after (db : kv) (o : pop) (x : cid) (m : mode) : option bytes :=
  match o with
  | PinDirect c => if cid_eqb x c then (if mode_eqb m Direct then Some [] else None) else val db x m
  | PinRec c r =>
      if cid_eqb x c then (if mode_eqb m Recursive then Some [] else None)
      else if negb (has db c Recursive) && mode_eqb m Indirect && existsb (cid_eqb x) (items r) && negb (is_some (kv_mode db x))
           then Some (cid_to_text c) else val db x m
  | UnpinDirect c => if cid_eqb x c && mode_eqb m Direct then None else val db x m
  | UnpinRec c r =>
      if (cid_eqb x c && mode_eqb m Recursive) || (mode_eqb m Indirect && existsb (cid_eqb x) (items r)) then None
      else val db x m
  end.

Lemma not_target_spec db c : kone db -> wf_cid c -> not_target db c = negb (has db c Direct || has db c Recursive).
Proof.
  intros H Hc. unfold not_target. rewrite kv_mode_spec. destruct (has db c Direct); [reflexivity|].
  destruct (has db c Recursive); [reflexivity|]. destruct (has db c Indirect); reflexivity.
Qed.

Lemma call_val db o : kwf db -> kone db -> wf_op o ->
  if kv_accepts db o then
    exists db', kv_pin_call db o = (db', Ok tt) /\ kwf db' /\ (forall x m, wf_cid x -> val db' x m = after db o x m)
  else kv_pin_call db o = (db, Err tt).
Proof.
  intros Hw H1 [Hc Hwr]. destruct o as [c|c r|c|c r]; cbn [kv_pin_call kv_accepts after op_cid op_refs] in *.
  - pose proof (one_mode db c H1 Hc) as Hm. unfold kv_pin_direct. destruct (has db c Recursive) eqn:Er; cbn [negb].
    { rewrite (proj2 (Hm Recursive) Er). reflexivity. }
    destruct (kv_mode db c) as [[| |]|] eqn:E.
    + eexists. split; [reflexivity|]. split; [apply kwf_insert; [apply kwf_delete; exact Hw|exact Hc|reflexivity]|].
      intros x m Hx. rewrite val_insert, val_delete by assumption. destruct (cid_eqb_spec x c) as [->|]; [|reflexivity].
      destruct m; cbn; try reflexivity. apply (kone_other db c Indirect Recursive H1 Hc); [apply Hm; reflexivity|discriminate].
    + eexists. split; [reflexivity|]. split; [exact Hw|]. intros x m Hx. destruct (cid_eqb_spec x c) as [->|]; [|reflexivity].
      assert (Hd : has db c Direct = true) by (apply Hm; reflexivity).
      destruct (mode_eqb_spec m Direct) as [->|Hne]; [apply val_empty; auto; discriminate|].
      apply (kone_other db c Direct m H1 Hc Hd). congruence.
    + assert (has db c Recursive = true) by (apply Hm; reflexivity). congruence.
    + eexists. split; [reflexivity|]. split; [apply kwf_insert; [exact Hw|exact Hc|reflexivity]|].
      intros x m Hx. rewrite val_insert by assumption. destruct (cid_eqb_spec x c) as [->|]; [|reflexivity].
      cbn [andb]. destruct (mode_eqb m Direct); [reflexivity|]. apply kv_mode_none. exact E.
  - pose proof (one_mode db c H1 Hc) as Hm. unfold kv_pin_rec. destruct (broken r); [reflexivity|]. cbn [negb].
    assert (Hnew : forall db1, kwf db1 ->
      (forall x m, wf_cid x -> val db1 x m = if cid_eqb x c then None else val db x m) ->
      kwf (fold_left (add_ref c) (once (items r)) (insert db1 c Recursive [])) /\
      forall x m, wf_cid x ->
        val (fold_left (add_ref c) (once (items r)) (insert db1 c Recursive [])) x m =
        if cid_eqb x c then (if mode_eqb m Recursive then Some [] else None)
        else if true && mode_eqb m Indirect && existsb (cid_eqb x) (items r) && negb (is_some (kv_mode db x))
             then Some (cid_to_text c) else val db x m).
    { intros db1 Hw1 V1.
      assert (V2 : forall x m, wf_cid x -> val (insert db1 c Recursive []) x m =
                if cid_eqb x c then (if mode_eqb m Recursive then Some [] else None) else val db x m).
      { intros x m Hx. rewrite val_insert, V1 by assumption. destruct (cid_eqb x c); cbn [andb]; reflexivity. }
      destruct (add_refs c (once (items r)) Hc (once_wf _ Hwr) (insert db1 c Recursive [])) as [A B];
        [apply kwf_insert; [exact Hw1|exact Hc|reflexivity]|].
      split; [exact A|]. intros x m Hx. rewrite B, existsb_once by exact Hx.
      assert (M : kv_mode (insert db1 c Recursive []) x = if cid_eqb x c then Some Recursive else kv_mode db x).
      { rewrite !kv_mode_spec, !has_val, !V2 by exact Hx. destruct (cid_eqb x c); reflexivity. }
      rewrite M, V2 by exact Hx. destruct (cid_eqb x c); cbn [is_some negb].
      - rewrite andb_false_r. destruct m; reflexivity.
      - destruct m; cbn [mode_eqb andb]; reflexivity. }
    destruct (has db c Recursive) eqn:Er.
    + rewrite (proj2 (Hm Recursive) Er). eexists. split; [reflexivity|]. split; [exact Hw|].
      intros x m Hx. cbn [negb andb]. destruct (cid_eqb_spec x c) as [->|]; [|reflexivity].
      destruct (mode_eqb_spec m Recursive) as [->|Hne]; [apply val_empty; auto; discriminate|].
      apply (kone_other db c Recursive m H1 Hc Er). congruence.
    + assert (Hdel : forall m0, kv_mode db c = Some m0 -> forall x m, wf_cid x -> val (delete db c m0) x m = if cid_eqb x c then None else val db x m).
      { intros m0 E x m Hx. rewrite val_delete by assumption. destruct (cid_eqb_spec x c) as [->|]; cbn [andb]; [|reflexivity].
        destruct (mode_eqb_spec m m0) as [->|Hne]; [reflexivity|]. apply (kone_other db c m0 m H1 Hc); [apply Hm; exact E|congruence]. }
      destruct (kv_mode db c) as [[| |]|] eqn:E.
      * eexists. split; [reflexivity|]. apply Hnew; [apply kwf_delete; exact Hw|apply Hdel; reflexivity].
      * eexists. split; [reflexivity|]. apply Hnew; [apply kwf_delete; exact Hw|apply Hdel; reflexivity].
      * assert (has db c Recursive = true) by (apply Hm; reflexivity). congruence.
      * eexists. split; [reflexivity|]. apply Hnew; [exact Hw|]. intros x m Hx.
        destruct (cid_eqb_spec x c) as [->|]; [|reflexivity]. apply kv_mode_none. exact E.
  - unfold kv_unpin_direct. rewrite not_target_spec by assumption.
    destruct (has db c Direct || has db c Recursive); cbn [negb]; [|reflexivity].
    eexists. split; [reflexivity|]. split; [apply kwf_delete; exact Hw|]. intros x m Hx. apply val_delete; assumption.
  - unfold kv_unpin_rec. rewrite not_target_spec by assumption. destruct (broken r); [reflexivity|]. cbn [negb andb].
    destruct (has db c Direct || has db c Recursive); cbn [negb]; [|reflexivity].
    eexists. split; [reflexivity|].
    destruct (drop_refs (once (items r)) (once_wf _ Hwr) (delete db c Recursive)) as [A B]; [apply kwf_delete; exact Hw|].
    split; [exact A|]. intros x m Hx. rewrite B, existsb_once by exact Hx. rewrite !has_val, !val_delete by assumption.
    cbn [mode_eqb]. rewrite andb_false_r, andb_true_r.
    destruct m; cbn [mode_eqb andb orb]; rewrite ?andb_false_r, ?andb_true_r, ?orb_false_r; cbn [orb]; try reflexivity.
    destruct (existsb (cid_eqb x) (items r)); [|reflexivity].
    destruct (val db x Indirect) as [v|] eqn:E; [|destruct (_ && _); reflexivity].
    assert (Hi : has db x Indirect = true) by (rewrite has_val, E; reflexivity).
    rewrite (kone_other db x Indirect Direct H1 Hx Hi) by discriminate.
    rewrite (kone_other db x Indirect Recursive H1 Hx Hi) by discriminate.
    destruct (cid_eqb x c); reflexivity.
Qed.

Lemma kone_step db db' o : kone db -> wf_op o -> kv_accepts db o = true ->
  (forall x m, wf_cid x -> val db' x m = after db o x m) -> kone db'.
Proof.
  intros H1 [Hc _] Ha V x m n Hx. rewrite !has_val, !V by exact Hx.
  destruct o as [c|c r|c|c r]; cbn [after op_cid kv_accepts] in *.
  - destruct (cid_eqb x c); [destruct m, n; cbn; congruence|apply (H1 x m n Hx)].
  - destruct (cid_eqb x c); [destruct m, n; cbn; congruence|].
    destruct (kv_mode db x) as [m0|] eqn:E; cbn [is_some negb].
    + rewrite !andb_false_r. apply (H1 x m n Hx).
    + rewrite !(kv_mode_none db x) by exact E. rewrite !andb_true_r.
      destruct (negb (has db c Recursive)), (existsb (cid_eqb x) (items r)); destruct m, n; cbn; congruence.
  - intros A B. apply (H1 x m n Hx); rewrite has_val.
    + destruct (cid_eqb x c && mode_eqb m Direct); [discriminate|exact A].
    + destruct (cid_eqb x c && mode_eqb n Direct); [discriminate|exact B].
  - intros A B. apply (H1 x m n Hx); rewrite has_val.
    + destruct (cid_eqb x c && mode_eqb m Recursive || _); [discriminate|exact A].
    + destruct (cid_eqb x c && mode_eqb n Recursive || _); [discriminate|exact B].
Qed.

(** * Recursive pins: exact after every history *)
Definition krec (past : list pop) (db : kv) : Prop :=
  kwf db /\ kone db /\ (forall c, wf_cid c -> has db c Recursive = is_some (recursive past c)).

Lemma krec_step past db o : krec past db -> wf_op o ->
  if kv_accepts db o then
    exists db', kv_pin_call db o = (db', Ok tt) /\ krec (o :: past) db' /\ (forall x m, wf_cid x -> val db' x m = after db o x m)
  else kv_pin_call db o = (db, Err tt).
Proof.
  intros (Hw & H1 & Hr) Ho. pose proof (call_val db o Hw H1 Ho) as H. destruct (kv_accepts db o) eqn:Ea; [|exact H].
  destruct H as (db' & E & Hw' & V). exists db'. split; [exact E|]. split; [|exact V].
  split; [exact Hw'|]. split; [apply (kone_step db db' o); assumption|].
  intros x Hx. rewrite has_val, V by exact Hx. pose proof (Hr x Hx) as Hrx. rewrite has_val in Hrx.
  destruct Ho as [Hc _]. destruct o as [c|c r|c|c r]; cbn [after recursive op_cid kv_accepts mode_eqb] in *.
  - destruct (cid_eqb_spec x c) as [->|]; [|exact Hrx]. cbn. rewrite <- Hr by exact Hc.
    apply negb_true_iff in Ea. rewrite Ea. reflexivity.
  - destruct (cid_eqb x c); [reflexivity|]. rewrite andb_false_r. exact Hrx.
  - rewrite andb_false_r. exact Hrx.
  - rewrite andb_true_r, orb_false_r. destruct (cid_eqb x c); [reflexivity|exact Hrx].
Qed.
Lemma krec_nil : krec [] [].
Proof. repeat split; try constructor. - intros k v []. - intros c m n _ [=]. Qed.

(** * No pin which should not be there *)
Section Sound.
  Variable refs_of : cid -> list cid.
  (** Directly pinned cids. *)
  Variable dt : list cid.
  Definition apart (o : pop) : Prop :=
    match o with PinDirect c => In c dt | UnpinRec c _ => ~ In c dt | _ => True end.
  Definition kv_ok (o : pop) : Prop := wf_op o /\ from_dag refs_of o /\ apart o.

  Definition ksound (past : list pop) (db : kv) : Prop :=
    krec past db /\
    (forall c, wf_cid c -> has db c Direct = direct past c) /\
    (forall c v, wf_cid c -> val db c Indirect = Some v ->
       exists root, wf_cid root /\ refers past root c = true /\ v = cid_to_text root) /\
    (forall c rs, recursive past c = Some rs -> rs = refs_of c) /\
    (forall c, direct past c = true -> In c dt).

  Lemma refers_pin past t r root c :
    refers (PinRec t r :: past) root c = if cid_eqb root t then existsb (cid_eqb c) (items r) else refers past root c.
  Proof. unfold refers. cbn [recursive]. destruct (cid_eqb root t); reflexivity. Qed.
  Lemma refers_unpin past t r root c :
    refers (UnpinRec t r :: past) root c = if cid_eqb root t then false else refers past root c.
  Proof. unfold refers. cbn [recursive]. destruct (cid_eqb root t); reflexivity. Qed.

  Lemma ksound_step past db o : ksound past db -> kv_ok o ->
    if kv_accepts db o then
      exists db', kv_pin_call db o = (db', Ok tt) /\ ksound (o :: past) db' /\ (forall x m, wf_cid x -> val db' x m = after db o x m)
    else kv_pin_call db o = (db, Err tt).
  Proof.
    intros (Hk & Hd & Hi & Hrs & Hdt) (Ho & Hdag & Hap). pose proof (krec_step past db o Hk Ho) as H.
    destruct (kv_accepts db o) eqn:Ea; [|exact H]. destruct H as (db' & E & Hk' & V).
    exists db'. split; [exact E|]. split; [|exact V]. split; [exact Hk'|].
    destruct Hk as (Hw & H1 & Hr). destruct Ho as [Hc Hwr].
    destruct o as [c|c r|c|c r]; cbn [after op_cid op_refs kv_accepts apart from_dag] in *.
    - split; [|split; [|split]].
      + intros x Hx. rewrite has_val, V by exact Hx. cbn [direct mode_eqb]. destruct (cid_eqb x c); [reflexivity|].
        rewrite <- has_val. apply Hd. exact Hx.
      + intros x v Hx. rewrite V by exact Hx. cbn [mode_eqb]. destruct (cid_eqb x c); [discriminate|]. intros Hv.
        exact (Hi x v Hx Hv).
      + exact Hrs.
      + intros x. cbn [direct]. destruct (cid_eqb_spec x c) as [->|]; [auto|apply Hdt].
    - destruct Hdag as [Hit Hb].
      assert (Hcnew : has db c Recursive = true -> forall x, refers (PinRec c r :: past) c x = refers past c x).
      { intros Hh x. rewrite refers_pin, cid_eqb_refl. rewrite Hr in Hh by exact Hc. unfold refers.
        destruct (recursive past c) as [rs|] eqn:Erc; [|discriminate]. rewrite (Hrs c rs Erc), Hit. reflexivity. }
      assert (Hold : forall root x, refers past root x = true -> refers (PinRec c r :: past) root x = true).
      { intros root x Hx. destruct (cid_eqb_spec root c) as [Er|Hn].
        - rewrite Er in *. rewrite Hcnew; [exact Hx|]. rewrite Hr by exact Hc. unfold refers in Hx. destruct (recursive past c); [reflexivity|discriminate].
        - rewrite refers_pin. destruct (cid_eqb_spec root c); [contradiction|exact Hx]. }
      split; [|split; [|split]].
      + intros x Hx. rewrite has_val, V by exact Hx. cbn [direct mode_eqb]. destruct (cid_eqb x c); [reflexivity|].
        rewrite andb_false_r. cbn [andb]. rewrite <- has_val. apply Hd. exact Hx.
      + intros x v Hx. rewrite V by exact Hx. cbn [mode_eqb]. destruct (cid_eqb x c); [discriminate|]. rewrite andb_true_r.
        destruct (negb (has db c Recursive) && existsb (cid_eqb x) (items r) && negb (is_some (kv_mode db x))) eqn:Eb.
        * intros [= <-]. exists c. split; [exact Hc|]. split; [|reflexivity]. rewrite refers_pin, cid_eqb_refl.
          apply andb_true_iff in Eb as [Eb _]. apply andb_true_iff in Eb as [_ Eb]. exact Eb.
        * intros Hv. destruct (Hi x v Hx Hv) as (root & Hwr' & Hf & Ev). exists root. auto.
      + intros x rs. cbn [recursive]. destruct (cid_eqb_spec x c) as [->|]; [intros [= <-]; exact Hit|apply Hrs].
      + intros x. cbn [direct]. destruct (cid_eqb x c); [discriminate|apply Hdt].
    - split; [|split; [|split]].
      + intros x Hx. rewrite has_val, V by exact Hx. cbn [direct mode_eqb]. rewrite andb_true_r. destruct (cid_eqb x c); [reflexivity|].
        rewrite <- has_val. apply Hd. exact Hx.
      + intros x v Hx. rewrite V by exact Hx. cbn [mode_eqb]. rewrite andb_false_r. intros Hv. exact (Hi x v Hx Hv).
      + exact Hrs.
      + intros x. cbn [direct]. destruct (cid_eqb x c); [discriminate|apply Hdt].
    - destruct Hdag as [Hit Hb].
      assert (Hnd : direct past c = false).
      { apply not_true_iff_false. intros Hx. apply Hap, Hdt, Hx. }
      split; [|split; [|split]].
      + intros x Hx. rewrite has_val, V by exact Hx. cbn [direct mode_eqb]. rewrite andb_false_r. cbn [andb orb].
        rewrite <- has_val, Hd by exact Hx. destruct (cid_eqb_spec x c) as [->|]; [exact Hnd|reflexivity].
      + intros x v Hx. rewrite V by exact Hx. cbn [mode_eqb]. rewrite andb_false_r. cbn [andb orb].
        destruct (existsb (cid_eqb x) (items r)) eqn:Ex; [discriminate|]. intros Hv.
        destruct (Hi x v Hx Hv) as (root & Hwr' & Hf & Ev). exists root. split; [exact Hwr'|]. split; [|exact Ev].
        rewrite refers_unpin. destruct (cid_eqb_spec root c) as [Er|]; [|exact Hf]. rewrite Er in *. exfalso.
        apply refers_spec in Hf as (rs & Erc & Hin). rewrite (Hrs c rs Erc), <- Hit in Hin. apply existsb_cid in Hin. congruence.
      + intros x rs. cbn [recursive]. destruct (cid_eqb x c); [discriminate|apply Hrs].
      + intros x. cbn [direct]. destruct (cid_eqb x c); [discriminate|apply Hdt].
  Qed.
  Lemma ksound_nil : ksound [] [].
  Proof. split; [exact krec_nil|]. repeat split; try discriminate. Qed.

  (** Everything found is pinned in that mode. *)
  Lemma has_sound past db c m : ksound past db -> wf_cid c -> has db c m = true -> pinned_as past c m = true.
  Proof.
    intros ((_ & _ & Hr) & Hd & Hi & _) Hc Hh. destruct m; cbn [pinned_as].
    - rewrite has_val in Hh. destruct (val db c Indirect) as [v|] eqn:E; [|discriminate].
      destruct (Hi c v Hc E) as (root & _ & Hf & _). apply indirect_spec. eauto.
    - rewrite <- Hd by exact Hc. exact Hh.
    - rewrite <- Hr by exact Hc. exact Hh.
  Qed.

  (** * Every pin is there, when nothing is shared *)
  Variables targets known : list cid.
  Definition kv_alone (o : pop) : Prop :=
    kv_ok o /\ In (op_cid o) targets /\ match o with PinRec c _ => In c known | _ => True end.
  Hypothesis alone : forall root x, In root known -> In x (refs_of root) -> ~ In x targets.
  Hypothesis one_owner : forall a b x, In a known -> In b known -> In x (refs_of a) -> In x (refs_of b) -> a = b.

  Definition kfull (past : list pop) (db : kv) : Prop :=
    ksound past db /\ incl (roots past) known /\
    (forall c, recursive past c <> None -> In c targets) /\
    (forall c, direct past c = true -> In c targets) /\
    (forall c, wf_cid c -> indirect past c = true -> has db c Indirect = true).

  Lemma kfull_step past db o : kfull past db -> kv_alone o ->
    if kv_accepts db o then exists db', kv_pin_call db o = (db', Ok tt) /\ kfull (o :: past) db'
    else kv_pin_call db o = (db, Err tt).
  Proof.
    intros (Hs & Hk & Hrt & Hdt & Hi) (Hok & Ht & Hkn). pose proof (ksound_step past db o Hs Hok) as H.
    destruct (kv_accepts db o) eqn:Ea; [|exact H]. destruct H as (db' & E & Hs' & V).
    exists db'. split; [exact E|]. split; [exact Hs'|].
    destruct Hs as ((Hw & H1 & Hr) & Hd & Hsi & Hrs & Hdd). destruct Hok as ([Hc Hwr] & Hdag & Hap).
    assert (Hrefs : forall x, indirect past x = true -> exists root, In root known /\ In x (refs_of root) /\ refers past root x = true).
    { intros x Hx. apply indirect_spec in Hx as (root & Hf). exists root. pose proof Hf as Hf'. apply refers_spec in Hf' as (rs & Er & Hin).
      split; [apply Hk; eapply recursive_roots; eauto|]. split; [|exact Hf]. rewrite <- (Hrs root rs Er). exact Hin. }
    assert (Hct : indirect past (op_cid o) = false).
    { apply not_true_iff_false. intros Hx. apply Hrefs in Hx as (root & Hroot & Hin & _). exact (alone root _ Hroot Hin Ht). }
    destruct o as [c|c r|c|c r]; cbn [after op_cid op_refs kv_accepts from_dag apart] in *.
    - split; [exact Hk|]. split; [exact Hrt|]. split.
      { intros x. cbn [direct]. destruct (cid_eqb_spec x c) as [->|]; [auto|apply Hdt]. }
      intros x Hx Hin. change (indirect past x = true) in Hin. rewrite has_val, V by exact Hx.
      destruct (cid_eqb_spec x c) as [->|]; [congruence|]. rewrite <- has_val. apply Hi; assumption.
    - split; [intros x [<-|Hx]; auto|]. split.
      { intros x. cbn [recursive]. destruct (cid_eqb_spec x c) as [->|]; [auto|apply Hrt]. }
      split. { intros x. cbn [direct]. destruct (cid_eqb x c); [discriminate|apply Hdt]. }
      destruct Hdag as [Hit _].
      intros x Hx Hin. rewrite has_val, V by exact Hx.
      apply indirect_spec in Hin as (root & Hf). rewrite refers_pin in Hf.
      destruct (cid_eqb_spec root c) as [Er|Hnr].
      + pose proof Hf as Hf'. apply existsb_cid in Hf'. rewrite Hit in Hf'.
        assert (Hnt : ~ In x targets) by (apply (alone c); assumption).
        destruct (cid_eqb_spec x c) as [->|]; [contradiction|]. rewrite Hf. cbn [mode_eqb]. rewrite !andb_true_r.
        destruct (kv_mode db x) as [m|] eqn:Em; cbn [is_some negb].
        * rewrite andb_false_r. apply (one_mode db x H1 Hx) in Em. destruct m; [exact Em| |]; exfalso; apply Hnt.
          -- apply Hdt. rewrite <- Hd by exact Hx. exact Em.
          -- apply Hrt. rewrite Hr in Em by exact Hx. destruct (recursive past x); [discriminate|discriminate].
        * rewrite andb_true_r. destruct (negb (has db c Recursive)) eqn:Enr; [reflexivity|].
          apply negb_false_iff in Enr. rewrite Hr in Enr by exact Hc. destruct (recursive past c) as [rs|] eqn:Erc; [|discriminate].
          assert (Hix : has db x Indirect = true).
          { apply Hi; [exact Hx|]. apply indirect_spec. exists c. apply refers_spec. exists rs. split; [exact Erc|].
            rewrite (Hrs c rs Erc). exact Hf'. }
          exact Hix.
      + assert (Hin' : indirect past x = true) by (apply indirect_spec; eauto).
        destruct (cid_eqb_spec x c) as [->|]; [congruence|]. destruct (_ && _); [reflexivity|]. apply Hi; assumption.
    - split; [exact Hk|]. split; [exact Hrt|]. split.
      { intros x. cbn [direct]. destruct (cid_eqb x c); [discriminate|apply Hdt]. }
      intros x Hx Hin. change (indirect past x = true) in Hin. rewrite has_val, V by exact Hx. cbn [mode_eqb].
      rewrite andb_false_r. apply Hi; assumption.
    - split; [exact Hk|]. split.
      { intros x. cbn [recursive]. destruct (cid_eqb x c); [contradiction|apply Hrt]. }
      split. { intros x. cbn [direct]. destruct (cid_eqb x c); [discriminate|apply Hdt]. }
      destruct Hdag as [Hit _].
      intros x Hx Hin. rewrite has_val, V by exact Hx. cbn [mode_eqb]. rewrite andb_false_r. cbn [andb orb].
      apply indirect_spec in Hin as (root & Hf). rewrite refers_unpin in Hf.
      destruct (cid_eqb_spec root c) as [|Hnr]; [discriminate|].
      assert (Hin' : indirect past x = true) by (apply indirect_spec; eauto).
      destruct (existsb (cid_eqb x) (items r)) eqn:Ex; [|apply Hi; assumption]. exfalso.
      apply existsb_cid in Ex. rewrite Hit in Ex.
      apply refers_spec in Hf as (rs & Er & Hinr). rewrite (Hrs root rs Er) in Hinr.
      assert (Hrc : recursive past c <> None).
      { intros Hn. assert (Hd' : has db c Direct = true).
        { rewrite Hr, Hn in Ea by exact Hc. cbn [is_some] in Ea. rewrite orb_false_r in Ea. apply andb_true_iff in Ea. tauto. }
        rewrite Hd in Hd' by exact Hc. apply Hap, Hdd, Hd'. }
      destruct (recursive past c) as [rs'|] eqn:Erc; [|contradiction].
      apply Hnr. apply (one_owner root c x); auto; apply Hk; eapply recursive_roots; eauto.
  Qed.
  Lemma kfull_nil : kfull [] [].
  Proof. split; [exact ksound_nil|]. repeat split; try discriminate; try contradiction. intros x []. Qed.

  (** What is found is what is pinned. *)
  Lemma has_full past db c m : kfull past db -> wf_cid c -> has db c m = pinned_as past c m.
  Proof.
    intros (Hs & _ & _ & _ & Hi) Hc. apply eq_true_iff_eq. split; [apply has_sound; assumption|].
    destruct Hs as ((_ & _ & Hr) & Hd & _). destruct m; cbn [pinned_as].
    - apply Hi. exact Hc.
    - rewrite Hd by exact Hc. auto.
    - rewrite Hr by exact Hc. auto.
  Qed.
End Sound.

(** * Reads *)
Section Reads.
  Variable other_base : N -> bytes -> option bytes.

  Lemma list_key_ok req c m : wf_cid c ->
    list_key other_base req (pin_key c m) = if req_matches req m then Some (Some (c, m)) else None.
  Proof.
    intros Hc. unfold list_key.
    assert (E1 : firstn 4 (pin_key c m) = [112; 105; 110; 46]) by (destruct m; reflexivity).
    assert (E2 : skipn 6 (pin_key c m) = cid_to_text c) by (destruct m; reflexivity).
    assert (E3 : read_letter (nth 4 (pin_key c m) 0) = Some m) by (destruct m; reflexivity).
    assert (E4 : (length (pin_key c m) <? 7)%nat = false).
    { apply Nat.ltb_ge. unfold pin_key. rewrite app_length.
      pose proof (cid_text_roundtrip other_base c Hc) as Et. destruct (cid_to_text c); [discriminate|cbn [length]; lia]. }
    rewrite E1, E2, E3, E4, beq_refl. cbn [negb orb]. rewrite alnum_utf8 by apply cid_text_alnum.
    rewrite cid_text_roundtrip by exact Hc. destruct (req_matches req m); reflexivity.
  Qed.

  Lemma kv_list_ok db req : kwf db ->
    exists l, kv_pin_list other_base db req = map Some l /\ NoDup l /\ Forall (fun cm => wf_cid (fst cm)) l /\
      forall c m, wf_cid c -> (In (c, m) l <-> has db c m = true /\ req_matches req m = true).
  Proof.
    intros [Hn Hw]. unfold kv_pin_list.
    assert (H : forall ks, NoDup ks -> (forall k, In k ks -> exists c m, wf_cid c /\ k = pin_key c m) ->
      exists l, list_keys other_base req ks = map Some l /\ NoDup l /\ Forall (fun cm => wf_cid (fst cm)) l /\
        forall c m, wf_cid c -> (In (c, m) l <-> In (pin_key c m) ks /\ req_matches req m = true)).
    { induction 1 as [|k ks Hk Hnd IH]; intros Hks.
      - exists []. split; [reflexivity|]. split; [constructor|]. split; [constructor|]. intros c m _. cbn. tauto.
      - destruct IH as (l & E & Hnl & HFl & Hl); [intros k' Hk'; apply Hks; right; exact Hk'|].
        destruct (Hks k (or_introl eq_refl)) as (c & m & Hc & ->). cbn [list_keys].
        rewrite list_key_ok by exact Hc. destruct (req_matches req m) eqn:Em.
        + exists ((c, m) :: l). split; [cbn; rewrite E; reflexivity|]. split; [constructor; [|exact Hnl]|].
          { intros Hi. apply Hl in Hi; [|exact Hc]. tauto. }
          split; [constructor; assumption|]. intros c' m' Hc'. cbn [In]. rewrite Hl by exact Hc'. split.
          * intros [[= <- <-]|[H1 H2]]; auto.
          * intros [[H1|H1] H2]; [|auto]. apply key_inj in H1 as [-> ->]; auto.
        + exists l. split; [exact E|]. split; [exact Hnl|]. split; [exact HFl|]. intros c' m' Hc'. rewrite Hl by exact Hc'. cbn [In]. split; [tauto|].
          intros [[H1|H1] H2]; [|auto]. apply key_inj in H1 as [-> ->]; auto. congruence. }
    destruct (H (mkeys db) Hn) as (l & E & Hnl & HFl & Hl).
    { intros k Hk. apply in_map_iff in Hk as ([k' v] & <- & Hi). apply Hw in Hi as (c & m & Hc & Ek & _). exists c, m. auto. }
    exists l. split; [exact E|]. split; [exact Hnl|]. split; [exact HFl|]. intros c m Hc. rewrite Hl by exact Hc.
    rewrite (in_mkeys beq beq_spec), has_val. unfold val. destruct (mget beq (pin_key c m) db) as [v|].
    - split; [intros [_ H2]; auto|intros [_ H2]; eauto].
    - split; [intros [(v & [=]) _]|intros [[=] _]].
  Qed.

  (** A query answers for the cids pinned as asked and leaves out the others. *)
  Definition kv_asked (db : kv) (req : option mode) (c : cid) : bool :=
    match kv_mode db c with Some m => req_matches req m | None => false end.
  Lemma kv_query_ok refs_of dt past db req ids : ksound refs_of dt past db -> Forall wf_cid ids ->
    exists ans, kv_query other_base db ids req = Some ans /\ map fst ans = filter (kv_asked db req) ids /\
      forall c k, In (c, k) ans -> kind_true (fun r => r) past c k /\ req_matches req (kind_mode k) = true.
  Proof.
    intros Hs. pose proof Hs as ((Hw & H1 & Hr) & Hd & Hi & _).
    induction 1 as [|c ids Hc HF IH].
    - exists []. split; [reflexivity|]. split; [reflexivity|]. intros c k [].
    - destruct IH as (l & El & Ef & Hl). cbn [kv_query filter]. unfold kv_asked at 1. rewrite El.
      destruct (kv_mode db c) as [m|] eqn:Em.
      + destruct (req_matches req m) eqn:Eq; [|exists l; auto].
        apply (one_mode db c H1 Hc) in Em. pose proof (has_sound refs_of dt past db c m Hs Hc Em) as Hp.
        destruct m.
        * rewrite has_val in Em. fold (val db c Indirect). destruct (val db c Indirect) as [v|] eqn:Ev; [|discriminate].
          destruct (Hi c v Hc Ev) as (root & Hwr & Hf & ->). rewrite alnum_utf8 by apply cid_text_alnum.
          rewrite cid_text_roundtrip by exact Hwr. eexists. split; [reflexivity|]. cbn [map fst]. rewrite Ef. split; [reflexivity|].
          intros x k [[= <- <-]|Hx]; [|auto]. cbn. eauto.
        * eexists. split; [reflexivity|]. cbn [map fst]. rewrite Ef. split; [reflexivity|].
          intros x k [[= <- <-]|Hx]; [|auto]. cbn. auto.
        * eexists. split; [reflexivity|]. cbn [map fst]. rewrite Ef. split; [reflexivity|].
          intros x k [[= <- <-]|Hx]; [|auto]. cbn in *. split; [|exact Eq]. destruct (recursive past c); [discriminate|discriminate].
      + exists l. auto.
  Qed.
End Reads.
