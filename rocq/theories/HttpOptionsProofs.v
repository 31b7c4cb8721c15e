(** Proofs about [HttpOptions]. *)
From Verif Require Import Base Wire Cid Text IpfsPath Resolve RefsHttp RefsHttpSpec RefsHttpProofs HttpOptions.
Local Open Scope N_scope.

Lemma all_of_values k l : all_of k l = values k l.
Proof. induction l as [|[k' v] l IH]; [reflexivity|]. rewrite values_cons. cbn [all_of fst snd]. rewrite IH. reflexivity. Qed.

Section Rules.
  Variable rules : bytes -> option rule.
  Definition query_ok (seen : list bytes) (l : list (bytes * bytes)) : Prop :=
    forall k r, rules k = Some r -> Forall (fun v => readable r v = true) (values k l) /\
      (once r = true -> values k l = [] \/ (~ In k seen /\ exists v, values k l = [v])).
  Lemma seen_in k seen : existsb (beq k) seen = true <-> In k seen.
  Proof. rewrite existsb_exists. split; [intros (x & Hx & E); destruct (beq_spec k x); congruence|]. intros H. exists k. split; [exact H|]. destruct (beq_spec k k); congruence. Qed.
  Lemma read_query_ok l : forall seen t, read_query rules seen l = Ok t ->
    query_ok seen l /\ forall k, rules k <> None -> values k t = values k l.
  Proof.
    induction l as [|[k v] l IH]; intros seen t; cbn [read_query].
    - intros [= <-]. split; [|reflexivity]. intros k r _. split; [constructor|auto].
    - destruct (rules k) as [r|] eqn:Er.
      2: { intros H. destruct (IH _ _ H) as [H1 H2]. split.
           - intros k' r' E. rewrite values_cons. cbn [fst snd]. destruct (beq_spec k k'); [congruence|]. apply H1, E.
           - intros k' E. rewrite H2, values_cons by exact E. cbn [fst snd]. destruct (beq_spec k k'); [congruence|reflexivity]. }
      destruct (once r && existsb (beq k) seen) eqn:Eo; [discriminate|]. destruct (readable r v) eqn:Ev; [|discriminate].
      destruct (read_query rules (k :: seen) l) as [t'|e|] eqn:E; try discriminate. intros [= <-]. destruct (IH _ _ E) as [H1 H2]. split.
      + intros k' r' E'. rewrite values_cons. cbn [fst snd]. destruct (H1 _ _ E') as [G1 G2]. destruct (beq_spec k k') as [->|Hk].
        * assert (r' = r) by congruence. subst r'. split; [constructor; assumption|]. intros Ho. right. split.
          { rewrite Ho in Eo. cbn [andb] in Eo. intros Hin. apply seen_in in Hin. congruence. }
          destruct (G2 Ho) as [->|[Hn _]]; [eauto|]. exfalso. apply Hn. left. reflexivity.
        * split; [exact G1|]. intros Ho. destruct (G2 Ho) as [->|[Hn Hv]]; [auto|]. right. split; [intros X; apply Hn; right; exact X|exact Hv].
      + intros k' E'. rewrite !values_cons. cbn [fst snd]. rewrite H2 by exact E'. reflexivity.
  Qed.
  Lemma read_query_accepts l : forall seen, query_ok seen l -> exists t, read_query rules seen l = Ok t.
  Proof.
    induction l as [|[k v] l IH]; intros seen H; cbn [read_query]; [eauto|]. destruct (rules k) as [r|] eqn:Er.
    - destruct (H k r Er) as [H1 H2]. rewrite values_cons in H1, H2. cbn [fst snd] in H1, H2. destruct (beq_spec k k) as [_|]; [|congruence].
      inversion H1 as [|? ? Hv Hr]; subst. rewrite Hv. assert (Eo : once r && existsb (beq k) seen = false).
      { destruct (once r); [|reflexivity]. destruct (H2 eq_refl) as [[=]|[Hn _]]. destruct (existsb (beq k) seen) eqn:E; [|reflexivity]. apply seen_in in E. contradiction. }
      rewrite Eo. destruct (IH (k :: seen)) as (t & ->); [|eauto]. intros k' r' E'. destruct (H k' r' E') as [G1 G2]. rewrite values_cons in G1, G2. cbn [fst snd] in G1, G2.
      destruct (beq_spec k k') as [->|Hk].
      + assert (r' = r) by congruence. subst r'. split; [exact Hr|]. intros Ho. left. destruct (G2 Ho) as [[=]|[_ (x & [= _ X])]]. exact X.
      + split; [exact G1|]. intros Ho. destruct (G2 Ho) as [G|[Hn G]]; [left; exact G|right]. split; [|exact G]. intros [X|X]; [congruence|contradiction].
    - apply IH. intros k' r' E'. destruct (H k' r' E') as [G1 G2]. rewrite values_cons in G1, G2. cbn [fst snd] in G1, G2. destruct (beq_spec k k'); [congruence|]. auto.
  Qed.
  Lemma read_query_no_panic l : forall seen, read_query rules seen l <> Panic.
  Proof.
    induction l as [|[k v] l IH]; intros seen; cbn [read_query]; [discriminate|]. destruct (rules k) as [r|]; [|apply IH]. destruct (once r && _); [discriminate|].
    destruct (readable r v); [|discriminate]. specialize (IH (k :: seen)). destruct (read_query rules (k :: seen) l); congruence.
  Qed.
  Lemma one_of_values k t : one_of k t = hd_error (values k t).
  Proof. unfold one_of. rewrite all_of_values. reflexivity. Qed.
  (** A key which may be given once. *)
  Lemma read_once l t k r : read_query rules [] l = Ok t -> rules k = Some r -> once r = true ->
    (values k l = [] /\ one_of k t = None) \/ exists v, values k l = [v] /\ one_of k t = Some v /\ readable r v = true.
  Proof.
    intros H Hr Ho. destruct (read_query_ok _ _ _ H) as [H1 H2]. rewrite one_of_values, H2 by congruence. destruct (H1 _ _ Hr) as [G1 G2].
    destruct (G2 Ho) as [->|[_ (v & E)]]; [left; auto|]. rewrite E in *. right. exists v. inversion G1. auto.
  Qed.
  Lemma read_all_of l t k : read_query rules [] l = Ok t -> rules k <> None -> all_of k t = values k l.
  Proof. intros H Hr. rewrite all_of_values. exact (proj2 (read_query_ok _ _ _ H) k Hr). Qed.
End Rules.

Lemma a_bool_spec v : a_bool v = true <-> v = v_true \/ v = v_false.
Proof.
  unfold a_bool, parse_bool. change s_true with v_true. change s_false with v_false. destruct (beq_spec v v_true) as [->|H1]; [split; auto|].
  destruct (beq_spec v v_false) as [->|H2]; [split; auto|]. split; [discriminate|intros [?|?]; contradiction].
Qed.
(** A flag with a default. *)
Definition flag_or (d : bool) (vs : list bytes) (b : bool) : Prop :=
  (vs = [] /\ b = d) \/ (vs = [v_true] /\ b = true) \/ (vs = [v_false] /\ b = false).
Lemma read_flag rules l t k d : read_query rules [] l = Ok t -> rules k = Some (mk_rule true a_bool) -> flag_or d (values k l) (bool_of d (one_of k t)).
Proof.
  intros H Hr. destruct (read_once rules l t k _ H Hr eq_refl) as [[-> ->]|(v & -> & -> & Hv)]; [left; auto|]. cbn [readable] in Hv.
  apply a_bool_spec in Hv as [-> | ->]; [right; left|right; right]; split; reflexivity.
Qed.
Lemma flag_or_fun d vs a b : flag_or d vs a -> flag_or d vs b -> a = b.
Proof. intros [[E1 ->]|[[E1 ->]|[E1 ->]]] [[E2 ->]|[[E2 ->]|[E2 ->]]]; try reflexivity; exfalso; rewrite E1 in E2; discriminate. Qed.
Lemma parse_u8_spec v n : parse_u8 v = Some n <-> (decimal v n \/ exists r, v = 43 :: r /\ decimal r n) /\ n < 256.
Proof.
  assert (Hd : forall ds, match ds with [] => None | _ => match digits_val ds 0 with Some v => if v <? 256 then Some v else None | None => None end end = Some n <-> decimal ds n /\ n < 256).
  { intros ds. destruct ds as [|c ds]; [split; [discriminate|]; intros [H _]; apply decimal_first in H as (? & ? & [=] & _)|].
    split.
    - destruct (digits_val (c :: ds) 0) as [m|] eqn:E; [|discriminate]. destruct (N.ltb_spec m 256); [|discriminate]. intros [= ->]. split; [apply digits_decimal; [discriminate|exact E]|assumption].
    - intros [H L]. rewrite (decimal_digits _ _ H) by (unfold u64_max1; lia). destruct (N.ltb_spec n 256); [reflexivity|lia]. }
  destruct v as [|c r].
  - split; [discriminate|]. intros [[H|(r & [=] & _)] _]. apply decimal_first in H as (? & ? & [=] & _).
  - destruct (N.eq_dec c 43) as [->|Hc].
    + etransitivity; [exact (Hd r)|]. split; [intros [H L]; split; [right; eauto|exact L]|]. intros [[H|(r' & [= <-] & H)] L]; [|auto].
      apply decimal_first in H as (c & r' & [= <- _] & X). lia.
    + assert (E : parse_u8 (c :: r) = match digits_val (c :: r) 0 with Some v => if v <? 256 then Some v else None | None => None end).
      { destruct c as [|p]; [reflexivity|]. repeat (destruct p as [p|p|]; try reflexivity). congruence. }
      etransitivity; [rewrite E; exact (Hd (c :: r))|]. split; [intros [H L]; split; [left; exact H|exact L]|]. intros [[H|(r' & [= -> _] & _)] L]; [auto|congruence].
Qed.
