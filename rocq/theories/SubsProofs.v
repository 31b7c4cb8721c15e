(** The registry follows the specification. *)
From Verif Require Import Base Wire Cid FMap BlockSpec SubsSpec Subs.

Section Proofs.
  Context {K V : Type}.
  Variable keqb : K -> K -> bool.
  Hypothesis keqb_spec : forall a b, reflect (a = b) (keqb a b).
  Variable debug : bool.
  Notation act := (act K V).
  Notation life := (life K V).
  Notation state := (@state K V).
  Notation sub := (@sub V).
  Notation life_of := (life_of keqb).
  Notation step := (step keqb debug).
  Notation run := (run keqb debug).

  Lemma ieqb_spec a b : reflect (a = b) (ieqb a b).
  Proof. apply Nat.eqb_spec. Qed.
  Lemma keqb_refl k : keqb k k = true.
  Proof. destruct (keqb_spec k k); congruence. Qed.
  Lemma ieqb_sym a b : ieqb a b = ieqb b a.
  Proof. apply Nat.eqb_sym. Qed.

  Definition entry (t : @table K V) (k : K) (i : nat) : option sub :=
    match mget keqb k t with Some m => mget ieqb i m | None => None end.
  Definition want (l : life) : option (K * sub) :=
    match l with
    | Waiting k n w => Some (k, Pending w n)
    | Decided k v => Some (k, Ready v)
    | Rejected k => Some (k, Cancelled)
    | _ => None
    end.
  Definition want_at (l : life) (k : K) : option sub :=
    match want l with Some (k', e) => if keqb k k' then Some e else None | None => None end.
  Definition good_table (t : @table K V) : Prop :=
    NoDup (mkeys t) /\ forall k m, mget keqb k t = Some m -> m <> [] /\ NoDup (mkeys m).
  Definition fut_ok (l : life) (f : option (K * bool)) : Prop :=
    match l with
    | Waiting k _ _ | Decided k _ | Rejected k | Lost k => f = Some (k, false)
    | Collected k => exists c, f = Some (k, c)
    | _ => f = None
    end.

  Record inv (p : list act) (s : state) : Prop := {
    i_flag : flag s = flagged p;
    i_next : next s = begins p;
    i_took : took s = taken p;
    i_good : good_table (tab s);
    i_tab : forall k i, entry (tab s) k i = want_at (life_of p i) k;
    i_creating : forall i, mget ieqb i (creating s) = match life_of p i with Creating k n l => Some (k, n, l) | _ => None end;
    i_futs : forall i, fut_ok (life_of p i) (mget ieqb i (futs s));
    i_dropping : forall i, mget ieqb i (dropping s) = match life_of p i with Dropping k n w l => Some (k, n, w, l) | _ => None end;
    i_unborn : forall i, (begins p <= i)%nat -> life_of p i = Unborn
  }.

  Lemma entry_mset t k m k' i : entry (mset keqb k m t) k' i = if keqb k' k then mget ieqb i m else entry t k' i.
  Proof. unfold entry. rewrite mget_mset by exact keqb_spec. destruct (keqb k' k); reflexivity. Qed.
  Lemma entry_mdel t k k' i : entry (mdel keqb k t) k' i = if keqb k' k then None else entry t k' i.
  Proof. unfold entry. rewrite mget_mdel by exact keqb_spec. destruct (keqb k' k); reflexivity. Qed.

  Lemma good_mset t k m : good_table t -> m <> [] -> NoDup (mkeys m) -> good_table (mset keqb k m t).
  Proof.
    intros [H1 H2] Hm Hn. split; [apply mset_nodup; assumption|]. intros k' m'. rewrite mget_mset by exact keqb_spec.
    destruct (keqb k' k); [intros [= <-]; auto|apply H2].
  Qed.
  Lemma good_mdel t k : good_table t -> good_table (mdel keqb k t).
  Proof.
    intros [H1 H2]. split; [apply mdel_nodup; assumption|]. intros k' m'. rewrite mget_mdel by exact keqb_spec.
    destruct (keqb k' k); [discriminate|apply H2].
  Qed.
  (** Writing back an inner map, removing it when empty. *)
  Lemma put_inner t k (m : list (nat * sub)) : good_table t -> NoDup (mkeys m) ->
    let t' := if match m with [] => true | _ => false end then mdel keqb k t else mset keqb k m t in
    good_table t' /\ forall k' i, entry t' k' i = if keqb k' k then mget ieqb i m else entry t k' i.
  Proof.
    intros Hg Hn. destruct m as [|x m]; cbn zeta.
    - split; [apply good_mdel; exact Hg|]. intros k' i. rewrite entry_mdel. destruct (keqb k' k); reflexivity.
    - split; [apply good_mset; [exact Hg|discriminate|exact Hn]|]. intros k' i. apply entry_mset.
  Qed.

  Lemma mget_wake v i (m : list (nat * sub)) : mget ieqb i (wake_all v m) =
    match mget ieqb i m with Some (Pending _ _) => Some (Ready v) | e => e end.
  Proof.
    induction m as [|[j e] m IH]; [reflexivity|]. cbn [wake_all map snd fst]. fold (wake_all v m).
    destruct e; cbn [mget fst]; destruct (ieqb i j); auto.
  Qed.
  Lemma wake_keys v (m : list (nat * sub)) : mkeys (wake_all v m) = mkeys m.
  Proof.
    unfold mkeys, wake_all. rewrite map_map. apply map_ext. intros [j e]. cbn. destruct e; reflexivity.
  Qed.
  Lemma wake_nil v (m : list (nat * sub)) : wake_all v m = [] -> m = [].
  Proof. destruct m; [reflexivity|discriminate]. Qed.

  (** The future's own entry. *)
  Lemma own_entry p s i k e : inv p s -> want (life_of p i) = Some (k, e) ->
    exists m, mget keqb k (tab s) = Some m /\ mget ieqb i m = Some e.
  Proof.
    intros H Hw. pose proof (i_tab p s H k i) as Ht. unfold want_at in Ht. rewrite Hw, keqb_refl in Ht.
    unfold entry in Ht. destruct (mget keqb k (tab s)) as [m|]; [eauto|discriminate].
  Qed.
  Lemma no_entry p s i : inv p s -> want (life_of p i) = None -> forall k m, mget keqb k (tab s) = Some m -> mget ieqb i m = None.
  Proof.
    intros H Hw k m Hm. pose proof (i_tab p s H k i) as Ht. unfold want_at in Ht. rewrite Hw in Ht.
    unfold entry in Ht. rewrite Hm in Ht. exact Ht.
  Qed.

  (** Whether the inner map becomes empty. *)
  Lemma last_spec p s i k m : inv p s -> mget keqb k (tab s) = Some m ->
    match mdel ieqb i m with [] => true | _ => false end =
    negb (existsb (fun j => negb (j =? i)%nat && holds keqb k (life_of p j)) (seq 0 (begins p))).
  Proof.
    intros H Hm. apply eq_true_iff_eq. rewrite negb_true_iff. destruct (i_good p s H) as [_ Hg]. destruct (Hg k m Hm) as [_ Hn].
    assert (Hh : forall j, holds keqb k (life_of p j) = is_some (mget ieqb j m)).
    { intros j. pose proof (i_tab p s H k j) as Ht. unfold entry in Ht. rewrite Hm in Ht. rewrite Ht. unfold want_at.
      destruct (life_of p j); cbn [holds want]; try reflexivity; destruct (keqb k _); reflexivity. }
    split.
    - intros E. apply not_true_iff_false. rewrite existsb_exists. intros (j & _ & Hj). apply andb_prop in Hj as [Hne Hj].
      rewrite Hh in Hj. destruct (mget ieqb j m) as [e|] eqn:Ej; [|discriminate].
      assert (X : mget ieqb j (mdel ieqb i m) = Some e).
      { rewrite mget_mdel by exact ieqb_spec. change (ieqb j i) with (j =? i)%nat. destruct (j =? i)%nat; [discriminate|exact Ej]. }
      destruct (mdel ieqb i m); [discriminate|discriminate].
    - intros Hf. destruct (mdel ieqb i m) as [|[j e] r] eqn:E; [reflexivity|]. exfalso. apply not_true_iff_false in Hf. apply Hf.
      assert (Hj : mget ieqb j (mdel ieqb i m) = Some e) by (rewrite E; cbn [mget]; unfold ieqb; rewrite Nat.eqb_refl; reflexivity).
      rewrite mget_mdel in Hj by exact ieqb_spec. destruct (ieqb j i) eqn:Eji; [discriminate|].
      apply existsb_exists. exists j. split.
      + apply in_seq. split; [lia|]. cbn. destruct (le_lt_dec (begins p) j) as [Hle|Hlt]; [|exact Hlt]. exfalso.
        pose proof (Hh j) as Hhj. rewrite (i_unborn p s H j Hle), Hj in Hhj. discriminate.
      + change (j =? i)%nat with (ieqb j i). rewrite Eji. cbn. rewrite Hh, Hj. reflexivity.
  Qed.

  Lemma inv_init : inv [] init.
  Proof.
    constructor; try reflexivity; try (intros; reflexivity).
    split; [constructor|discriminate].
  Qed.

  Ltac same H := first [exact (i_flag _ _ H)|exact (i_next _ _ H)|exact (i_took _ _ H)|exact (i_good _ _ H)].

  Lemma step_inv p s a : inv p s -> inv (a :: p) (fst (step s a)).
  Proof.
    intros H. destruct a as [k n|i|i w|k v|i|i| |]; cbn [Subs.step].
    - (* Begin *)
      constructor; cbn [tab flag next took creating futs dropping fst SubsSpec.life_of flagged existsb begins taken orb].
      + apply H.
      + f_equal. apply H.
      + apply H.
      + apply H.
      + intros k' j. rewrite (i_tab _ _ H). destruct (Nat.eqb_spec (begins p) j) as [<-|]; [|reflexivity].
        rewrite (i_unborn _ _ H) by lia. reflexivity.
      + intros j. cbn [mget]. rewrite (i_creating _ _ H), (i_next _ _ H), (i_flag _ _ H).
        change (ieqb j (begins p)) with (j =? begins p)%nat. rewrite Nat.eqb_sym. destruct (begins p =? j)%nat; reflexivity.
      + intros j. destruct (Nat.eqb_spec (begins p) j) as [<-|]; [|apply H].
        pose proof (i_futs _ _ H (begins p)) as Hf. rewrite (i_unborn _ _ H) in Hf by lia. exact Hf.
      + intros j. rewrite (i_dropping _ _ H). destruct (Nat.eqb_spec (begins p) j) as [<-|]; [|reflexivity].
        rewrite (i_unborn _ _ H) by lia. reflexivity.
      + intros j Hj. destruct (Nat.eqb_spec (begins p) j); [lia|]. apply (i_unborn _ _ H). lia.
    - (* Insert *)
      pose proof (i_creating _ _ H i) as Hc. destruct (mget ieqb i (creating s)) as [[[k n] late]|] eqn:Ec.
      + destruct (life_of p i) eqn:El; try discriminate. injection Hc as -> -> ->.
        set (m := match mget keqb k0 (tab s) with Some m => m | None => [] end).
        set (e := if late0 then Cancelled else Pending None n0).
        assert (Hm : NoDup (mkeys m)).
        { unfold m. destruct (mget keqb k0 (tab s)) eqn:Em; [|constructor]. apply (i_good _ _ H) in Em. tauto. }
        assert (Hmi : forall j, mget ieqb j m = entry (tab s) k0 j).
        { intros j. unfold m, entry. destruct (mget keqb k0 (tab s)); reflexivity. }
        assert (Hl : forall j, life_of (Insert i :: p) j = if (i =? j)%nat then (if late0 then Rejected k0 else Waiting k0 n0 None) else life_of p j).
        { intros j. cbn [SubsSpec.life_of]. destruct (Nat.eqb_spec i j) as [<-|]; [|reflexivity]. rewrite El. destruct late0; reflexivity. }
        constructor; cbn [tab flag next took creating futs dropping fst].
        * exact (i_flag _ _ H).
        * exact (i_next _ _ H).
        * exact (i_took _ _ H).
        * apply good_mset; [apply H|discriminate|]. apply mset_nodup; [exact ieqb_spec|exact Hm].
        * intros k' j. rewrite entry_mset, mget_mset by exact ieqb_spec. rewrite Hl, (ieqb_sym j i).
          change (ieqb i j) with (i =? j)%nat. destruct (Nat.eqb_spec i j) as [<-|Hn].
          -- unfold want_at. destruct late0; cbn [want]; destruct (keqb k' k0) eqn:Ek; try reflexivity.
             ++ rewrite (i_tab _ _ H), El. reflexivity.
             ++ rewrite (i_tab _ _ H), El. reflexivity.
          -- rewrite Hmi. destruct (keqb_spec k' k0) as [->|]; apply H.
        * intros j. rewrite mget_mdel by exact ieqb_spec. rewrite Hl, (i_creating _ _ H), (ieqb_sym j i).
          change (ieqb i j) with (i =? j)%nat. destruct (i =? j)%nat; [destruct late0|]; reflexivity.
        * intros j. rewrite mget_mset by exact ieqb_spec. rewrite Hl, (ieqb_sym j i).
          change (ieqb i j) with (i =? j)%nat. destruct (i =? j)%nat; [destruct late0; cbn; reflexivity|apply H].
        * intros j. rewrite Hl, (i_dropping _ _ H). destruct (Nat.eqb_spec i j) as [<-|]; [|reflexivity]. rewrite El. destruct late0; reflexivity.
        * intros j Hj. rewrite Hl. destruct (Nat.eqb_spec i j) as [<-|]; [|apply (i_unborn _ _ H); exact Hj].
          rewrite (i_unborn _ _ H) in El by exact Hj. discriminate.
      + cbn [fst]. assert (Hl : forall j, life_of (Insert i :: p) j = life_of p j).
        { intros j. cbn [SubsSpec.life_of]. destruct (Nat.eqb_spec i j) as [<-|]; [|reflexivity]. destruct (life_of p i); try discriminate; reflexivity. }
        constructor; intros; rewrite ?Hl; apply H; assumption.
    - (* Poll *)
      assert (Hsame : (forall j, life_of (Poll i w :: p) j = life_of p j) -> inv (Poll i w :: p) s).
      { intros Hl. constructor; intros; rewrite ?Hl; apply H; assumption. }
      pose proof (i_futs _ _ H i) as Hf.
      destruct (mget ieqb i (futs s)) as [[k c]|] eqn:Ef.
      2:{ apply Hsame. intros j. cbn [SubsSpec.life_of]. destruct (Nat.eqb_spec i j) as [<-|]; [|reflexivity].
          destruct (life_of p i); cbn in Hf; try discriminate; try reflexivity. }
      destruct (mget keqb k (tab s)) as [m|] eqn:Em.
      2:{ apply Hsame. intros j. cbn [SubsSpec.life_of]. destruct (Nat.eqb_spec i j) as [<-|]; [|reflexivity].
          destruct (life_of p i) eqn:El; cbn in Hf; try discriminate; try reflexivity; exfalso;
            injection Hf as -> ->; edestruct (own_entry p s i) as (m & Hm & _); try exact H;
            try (rewrite El; reflexivity); congruence. }
      destruct (mget ieqb i m) as [e|] eqn:Ei.
      2:{ apply Hsame. intros j. cbn [SubsSpec.life_of]. destruct (Nat.eqb_spec i j) as [<-|]; [|reflexivity].
          destruct (life_of p i) eqn:El; cbn in Hf; try discriminate; try reflexivity; exfalso;
            injection Hf as -> ->; edestruct (own_entry p s i) as (m' & Hm & Hm'); try exact H;
            try (rewrite El; reflexivity); congruence. }
      assert (Hw : want (life_of p i) = Some (k, e)).
      { pose proof (i_tab _ _ H k i) as Ht. unfold entry in Ht. rewrite Em, Ei in Ht. unfold want_at in Ht.
        destruct (want (life_of p i)) as [[k' e']|]; [|discriminate]. destruct (keqb_spec k k') as [->|]; congruence. }
      assert (Hn : NoDup (mkeys m)) by (destruct (i_good _ _ H) as [_ Hg]; apply (Hg k m Em)).
      assert (Hmi : forall j, mget ieqb j m = entry (tab s) k j) by (intros; unfold entry; rewrite Em; reflexivity).
      destruct e as [v|w0 n|].
      + (* Ready *)
        destruct (life_of p i) eqn:El; try discriminate. injection Hw as -> ->. cbn in Hf. injection Hf as ->.
        assert (Hl : forall j, life_of (Poll i w :: p) j = if (i =? j)%nat then Collected k else life_of p j).
        { intros j. cbn [SubsSpec.life_of]. destruct (Nat.eqb_spec i j) as [<-|]; [rewrite El|]; reflexivity. }
        destruct (put_inner (tab s) k (mdel ieqb i m) (i_good _ _ H) (mdel_nodup ieqb i m Hn)) as [Hg He].
        constructor; cbn [tab flag next took creating futs dropping fst].
        * exact (i_flag _ _ H).
        * exact (i_next _ _ H).
        * exact (i_took _ _ H).
        * exact Hg.
        * intros k' j. cbn zeta in He. rewrite He, mget_mdel, Hl, Hmi, (ieqb_sym j i) by exact ieqb_spec.
          change (ieqb i j) with (i =? j)%nat. destruct (Nat.eqb_spec i j) as [<-|].
          -- rewrite (i_tab _ _ H), El. unfold want_at. cbn. destruct (keqb k' k); reflexivity.
          -- destruct (keqb_spec k' k) as [->|]; apply H.
        * intros j. rewrite Hl, (i_creating _ _ H). destruct (Nat.eqb_spec i j) as [<-|]; [rewrite El|]; reflexivity.
        * intros j. rewrite Hl, mget_mset by exact ieqb_spec. rewrite (ieqb_sym j i). change (ieqb i j) with (i =? j)%nat.
          destruct (i =? j)%nat; [cbn; eauto|apply H].
        * intros j. rewrite Hl, (i_dropping _ _ H). destruct (Nat.eqb_spec i j) as [<-|]; [rewrite El|]; reflexivity.
        * intros j Hj. rewrite Hl. destruct (Nat.eqb_spec i j) as [<-|]; [|apply (i_unborn _ _ H); exact Hj].
          rewrite (i_unborn _ _ H) in El by exact Hj. discriminate.
      + (* Pending *)
        destruct (life_of p i) eqn:El; try discriminate. injection Hw as -> -> ->. cbn in Hf. injection Hf as ->.
        assert (Hl : forall j, life_of (Poll i w :: p) j = if (i =? j)%nat then Waiting k n (Some w) else life_of p j).
        { intros j. cbn [SubsSpec.life_of]. destruct (Nat.eqb_spec i j) as [<-|]; [rewrite El|]; reflexivity. }
        constructor; cbn [tab flag next took creating futs dropping fst].
        * exact (i_flag _ _ H).
        * exact (i_next _ _ H).
        * exact (i_took _ _ H).
        * apply good_mset; [apply H|discriminate|]. apply mset_nodup; [exact ieqb_spec|exact Hn].
        * intros k' j. rewrite entry_mset, mget_mset, Hl, Hmi, (ieqb_sym j i) by exact ieqb_spec.
          change (ieqb i j) with (i =? j)%nat. destruct (Nat.eqb_spec i j) as [<-|].
          -- rewrite (i_tab _ _ H), El. unfold want_at. cbn. destruct (keqb k' k); reflexivity.
          -- destruct (keqb_spec k' k) as [->|]; apply H.
        * intros j. rewrite Hl, (i_creating _ _ H). destruct (Nat.eqb_spec i j) as [<-|]; [rewrite El|]; reflexivity.
        * intros j. rewrite Hl. destruct (Nat.eqb_spec i j) as [<-|]; [exact Ef|apply H].
        * intros j. rewrite Hl, (i_dropping _ _ H). destruct (Nat.eqb_spec i j) as [<-|]; [rewrite El|]; reflexivity.
        * intros j Hj. rewrite Hl. destruct (Nat.eqb_spec i j) as [<-|]; [|apply (i_unborn _ _ H); exact Hj].
          rewrite (i_unborn _ _ H) in El by exact Hj. discriminate.
      + (* Cancelled *)
        destruct (life_of p i) eqn:El; try discriminate. injection Hw as ->. cbn in Hf. injection Hf as ->.
        assert (Hl : forall j, life_of (Poll i w :: p) j = if (i =? j)%nat then Collected k else life_of p j).
        { intros j. cbn [SubsSpec.life_of]. destruct (Nat.eqb_spec i j) as [<-|]; [rewrite El|]; reflexivity. }
        destruct (put_inner (tab s) k (mdel ieqb i m) (i_good _ _ H) (mdel_nodup ieqb i m Hn)) as [Hg He].
        constructor; cbn [tab flag next took creating futs dropping fst].
        * exact (i_flag _ _ H).
        * exact (i_next _ _ H).
        * exact (i_took _ _ H).
        * exact Hg.
        * intros k' j. cbn zeta in He. rewrite He, mget_mdel, Hl, Hmi, (ieqb_sym j i) by exact ieqb_spec.
          change (ieqb i j) with (i =? j)%nat. destruct (Nat.eqb_spec i j) as [<-|].
          -- rewrite (i_tab _ _ H), El. unfold want_at. cbn. destruct (keqb k' k); reflexivity.
          -- destruct (keqb_spec k' k) as [->|]; apply H.
        * intros j. rewrite Hl, (i_creating _ _ H). destruct (Nat.eqb_spec i j) as [<-|]; [rewrite El|]; reflexivity.
        * intros j. rewrite Hl, mget_mset by exact ieqb_spec. rewrite (ieqb_sym j i). change (ieqb i j) with (i =? j)%nat.
          destruct (i =? j)%nat; [cbn; eauto|apply H].
        * intros j. rewrite Hl, (i_dropping _ _ H). destruct (Nat.eqb_spec i j) as [<-|]; [rewrite El|]; reflexivity.
        * intros j Hj. rewrite Hl. destruct (Nat.eqb_spec i j) as [<-|]; [|apply (i_unborn _ _ H); exact Hj].
          rewrite (i_unborn _ _ H) in El by exact Hj. discriminate.
    - (* Finish *)
      destruct (mget keqb k (tab s)) as [m|] eqn:Em.
      + assert (Hn : m <> [] /\ NoDup (mkeys m)) by (destruct (i_good _ _ H) as [_ Hg]; apply (Hg k m Em)).
        assert (Hmi : forall j, mget ieqb j m = entry (tab s) k j) by (intros; unfold entry; rewrite Em; reflexivity).
        constructor; cbn [tab flag next took creating futs dropping fst].
        * exact (i_flag _ _ H).
        * exact (i_next _ _ H).
        * exact (i_took _ _ H).
        * apply good_mset; [apply H| |rewrite wake_keys; tauto]. intros E. apply wake_nil in E. tauto.
        * intros k' j. rewrite entry_mset, mget_wake, Hmi, !(i_tab _ _ H). cbn [SubsSpec.life_of]. unfold want_at.
          destruct (life_of p j) as [| |k1 n1 w1|k1 v1|k1|k1|k1|k1 n1 w1 l1|]; cbn [want];
            destruct (keqb_spec k' k) as [->|Hne]; try reflexivity;
            try (destruct (keqb_spec k k1) as [->|Hne1]; cbn [want]; try reflexivity; rewrite ?keqb_refl; try reflexivity).
          -- destruct (keqb_spec k k1); [congruence|reflexivity].
          -- destruct (keqb_spec k' k1); [congruence|reflexivity].
        * intros j. cbn [SubsSpec.life_of]. rewrite (i_creating _ _ H). destruct (life_of p j); try reflexivity. destruct (keqb k k0); reflexivity.
        * intros j. cbn [SubsSpec.life_of]. pose proof (i_futs _ _ H j) as Hf. destruct (life_of p j); try exact Hf. destruct (keqb k k0); exact Hf.
        * intros j. cbn [SubsSpec.life_of]. rewrite (i_dropping _ _ H). destruct (life_of p j); try reflexivity. destruct (keqb k k0); reflexivity.
        * intros j Hj. cbn [SubsSpec.life_of]. rewrite (i_unborn _ _ H) by exact Hj. reflexivity.
      + assert (Hl : forall j, life_of (Finish k v :: p) j = life_of p j).
        { intros j. cbn [SubsSpec.life_of]. destruct (life_of p j) eqn:El; try reflexivity. destruct (keqb_spec k k0) as [->|]; [|reflexivity].
          exfalso. edestruct (own_entry p s j) as (m & Hm & _); [exact H|rewrite El; reflexivity|congruence]. }
        cbn [fst]. constructor; intros; rewrite ?Hl; apply H; assumption.
    - (* DropFut *)
      pose proof (i_futs _ _ H i) as Hf.
      destruct (mget ieqb i (futs s)) as [[k c]|] eqn:Ef.
      2:{ assert (Hl : forall j, life_of (DropFut i :: p) j = life_of p j).
          { intros j. cbn [SubsSpec.life_of]. destruct (Nat.eqb_spec i j) as [<-|]; [|reflexivity].
            destruct (life_of p i); cbn in Hf; try discriminate; try reflexivity. destruct Hf as [c [=]]. }
          cbn [fst]. constructor; intros; rewrite ?Hl; apply H; assumption. }
      (* no entry: only the future goes *)
      assert (Hgone : want (life_of p i) = None -> forall t' d', d' = dropping s -> good_table t' -> (forall k j, entry t' k j = entry (tab s) k j) ->
                inv (DropFut i :: p) (mk_state t' (flag s) (next s) (took s) (creating s) (mdel ieqb i (futs s)) d')).
      { intros Hw t' d' -> Hg He.
        assert (Hl : forall j, life_of (DropFut i :: p) j = if (i =? j)%nat then Dropped else life_of p j).
        { intros j. cbn [SubsSpec.life_of]. destruct (Nat.eqb_spec i j) as [<-|]; [|reflexivity].
          destruct (life_of p i); cbn in Hf, Hw; try discriminate; reflexivity. }
        constructor; cbn [tab flag next took creating futs dropping].
        * exact (i_flag _ _ H).
        * exact (i_next _ _ H).
        * exact (i_took _ _ H).
        * exact Hg.
        * intros k' j. rewrite He, (i_tab _ _ H), Hl. destruct (Nat.eqb_spec i j) as [<-|]; [|reflexivity]. unfold want_at. rewrite Hw. reflexivity.
        * intros j. rewrite Hl, (i_creating _ _ H). destruct (Nat.eqb_spec i j) as [<-|]; [|reflexivity].
          destruct (life_of p i); cbn in Hf; try discriminate; reflexivity.
        * intros j. rewrite Hl, mget_mdel by exact ieqb_spec. rewrite (ieqb_sym j i). change (ieqb i j) with (i =? j)%nat.
          destruct (i =? j)%nat; [reflexivity|apply H].
        * intros j. rewrite Hl, (i_dropping _ _ H). destruct (Nat.eqb_spec i j) as [<-|]; [|reflexivity].
          destruct (life_of p i); cbn in Hf; try discriminate; reflexivity.
        * intros j Hj. rewrite Hl. destruct (Nat.eqb_spec i j) as [<-|]; [|apply (i_unborn _ _ H); exact Hj].
          rewrite (i_unborn _ _ H) in Hf by exact Hj. discriminate. }
      destruct c.
      { cbn [fst]. apply Hgone; [|reflexivity|apply H|reflexivity].
        destruct (life_of p i); cbn in Hf; try discriminate; try reflexivity. }
      destruct (mget keqb k (tab s)) as [m|] eqn:Em.
      2:{ cbn [fst]. apply Hgone; [|reflexivity|apply H|reflexivity].
          destruct (want (life_of p i)) as [[k' e]|] eqn:Hw; [|reflexivity]. exfalso.
          destruct (own_entry p s i k' e H Hw) as (m & Hm & _).
          destruct (life_of p i); cbn in Hw, Hf; try discriminate; congruence. }
      assert (Hn : m <> [] /\ NoDup (mkeys m)) by (destruct (i_good _ _ H) as [_ Hg]; apply (Hg k m Em)).
      assert (Hmi : forall j, mget ieqb j m = entry (tab s) k j) by (intros; unfold entry; rewrite Em; reflexivity).
      destruct (put_inner (tab s) k (mdel ieqb i m) (i_good _ _ H) (mdel_nodup ieqb i m (proj2 Hn))) as [Hg He]. cbn zeta in He.
      destruct (want (life_of p i)) as [[k' e]|] eqn:Hw.
      2:{ cbn [fst]. rewrite (no_entry p s i H Hw k m Em). apply Hgone; [reflexivity|reflexivity|exact Hg|].
          intros k' j. rewrite He, mget_mdel, Hmi by exact ieqb_spec. destruct (keqb_spec k' k) as [->|]; [|reflexivity].
          destruct (ieqb_spec j i) as [->|]; [|reflexivity]. rewrite (i_tab _ _ H). unfold want_at. rewrite Hw. reflexivity. }
      assert (k' = k) as ->.
      { destruct (life_of p i); cbn in Hw, Hf; try discriminate; congruence. }
      destruct (own_entry p s i k e H Hw) as (m' & Hm' & Hme). assert (m' = m) as -> by congruence.
      set (d' := match mget ieqb i m with Some (Pending w n) => _ | _ => _ end).
      set (islast := match mdel ieqb i m with [] => true | _ => false end) in *.
      assert (Hlast := last_spec p s i k m H Em). fold islast in Hlast.
      assert (Hl : forall j, life_of (DropFut i :: p) j =
                if (i =? j)%nat then match e with Pending w n => Dropping k n w islast | _ => Dropped end else life_of p j).
      { intros j. cbn [SubsSpec.life_of]. destruct (Nat.eqb_spec i j) as [<-|]; [|reflexivity].
        destruct (life_of p i); cbn in Hw; try discriminate; injection Hw as -> <-; try reflexivity. rewrite Hlast. reflexivity. }
      assert (Hd' : forall j, mget ieqb j d' = if (i =? j)%nat then match e with Pending w n => Some (k, n, w, islast) | _ => None end else mget ieqb j (dropping s)).
      { intros j. unfold d'. rewrite Hme.
        assert (Hno : mget ieqb i (dropping s) = None) by (rewrite (i_dropping _ _ H); destruct (life_of p i); try discriminate; reflexivity).
        destruct e; cbn [mget]; rewrite ?(ieqb_sym j i); change (ieqb i j) with (i =? j)%nat; destruct (Nat.eqb_spec i j) as [<-|]; auto. }
      constructor; cbn [tab flag next took creating futs dropping fst].
      * exact (i_flag _ _ H).
      * exact (i_next _ _ H).
      * exact (i_took _ _ H).
      * exact Hg.
      * intros k' j. rewrite He, mget_mdel, Hmi, Hl, (ieqb_sym j i) by exact ieqb_spec. change (ieqb i j) with (i =? j)%nat.
        destruct (Nat.eqb_spec i j) as [<-|].
        -- destruct (keqb_spec k' k) as [->|Hne].
           ++ destruct e; reflexivity.
           ++ rewrite (i_tab _ _ H). unfold want_at. rewrite Hw. destruct (keqb_spec k' k); [contradiction|]. destruct e; reflexivity.
        -- destruct (keqb_spec k' k) as [->|]; apply H.
      * intros j. rewrite Hl, (i_creating _ _ H). destruct (Nat.eqb_spec i j) as [<-|]; [|reflexivity].
        destruct (life_of p i); try discriminate; destruct e; reflexivity.
      * intros j. rewrite Hl, mget_mdel by exact ieqb_spec. rewrite (ieqb_sym j i). change (ieqb i j) with (i =? j)%nat.
        destruct (i =? j)%nat; [destruct e; reflexivity|apply H].
      * intros j. rewrite Hd', Hl, (i_dropping _ _ H). destruct (i =? j)%nat; [destruct e; reflexivity|reflexivity].
      * intros j Hj. rewrite Hl. destruct (Nat.eqb_spec i j) as [<-|]; [|apply (i_unborn _ _ H); exact Hj].
        rewrite (i_unborn _ _ H) in Hw by exact Hj. discriminate.
    - (* DropNotify *)
      pose proof (i_dropping _ _ H i) as Hd. destruct (mget ieqb i (dropping s)) as [[[[k n] w] last]|] eqn:Ed.
      + destruct (life_of p i) eqn:El; try discriminate. injection Hd as -> -> -> ->.
        assert (Hl : forall j, life_of (DropNotify i :: p) j = if (i =? j)%nat then Dropped else life_of p j).
        { intros j. cbn [SubsSpec.life_of]. destruct (Nat.eqb_spec i j) as [<-|]; [rewrite El|]; reflexivity. }
        constructor; cbn [tab flag next took creating futs dropping fst].
        * exact (i_flag _ _ H).
        * exact (i_next _ _ H).
        * exact (i_took _ _ H).
        * apply H.
        * intros k' j. rewrite (i_tab _ _ H), Hl. destruct (Nat.eqb_spec i j) as [<-|]; [rewrite El|]; reflexivity.
        * intros j. rewrite (i_creating _ _ H), Hl. destruct (Nat.eqb_spec i j) as [<-|]; [rewrite El|]; reflexivity.
        * intros j. pose proof (i_futs _ _ H j) as Hf. rewrite Hl. destruct (Nat.eqb_spec i j) as [<-|]; [rewrite El in Hf|]; exact Hf.
        * intros j. rewrite mget_mdel, Hl, (i_dropping _ _ H), (ieqb_sym j i) by exact ieqb_spec. change (ieqb i j) with (i =? j)%nat.
          destruct (i =? j)%nat; reflexivity.
        * intros j Hj. rewrite Hl. destruct (Nat.eqb_spec i j) as [<-|]; [|apply (i_unborn _ _ H); exact Hj].
          rewrite (i_unborn _ _ H) in El by exact Hj. discriminate.
      + assert (Hl : forall j, life_of (DropNotify i :: p) j = life_of p j).
        { intros j. cbn [SubsSpec.life_of]. destruct (Nat.eqb_spec i j) as [<-|]; [|reflexivity]. destruct (life_of p i); try discriminate; reflexivity. }
        cbn [fst]. constructor; intros; rewrite ?Hl; apply H; assumption.
    - (* ShutFlag *)
      constructor; cbn [tab flag next took creating futs dropping fst SubsSpec.life_of flagged existsb begins taken orb]; try apply H. reflexivity.
    - (* ShutTake *)
      rewrite (i_flag _ _ H), (i_took _ _ H).
      destruct (flagged p && negb (taken p)) eqn:E.
      + assert (Hl : forall j, life_of (ShutTake :: p) j = match life_of p j with Waiting k _ _ | Decided k _ | Rejected k => Lost k | l => l end).
        { intros j. cbn [SubsSpec.life_of]. rewrite E. destruct (life_of p j); reflexivity. }
        apply andb_prop in E as [E1 E2].
        constructor; cbn [tab flag next took creating futs dropping fst].
        * cbn. exact (eq_refl : flagged p = flagged p).
        * exact (i_next _ _ H).
        * cbn [taken]. rewrite E1. reflexivity.
        * split; [constructor|discriminate].
        * intros k j. rewrite Hl. destruct (life_of p j); reflexivity.
        * intros j. rewrite Hl, (i_creating _ _ H). destruct (life_of p j); reflexivity.
        * intros j. rewrite Hl. pose proof (i_futs _ _ H j) as Hf. destruct (life_of p j); exact Hf.
        * intros j. rewrite Hl, (i_dropping _ _ H). destruct (life_of p j); reflexivity.
        * intros j Hj. rewrite Hl, (i_unborn _ _ H) by exact Hj. reflexivity.
      + assert (Hl : forall j, life_of (ShutTake :: p) j = life_of p j).
        { intros j. cbn [SubsSpec.life_of]. rewrite E. reflexivity. }
        cbn [fst]. constructor; intros; rewrite ?Hl; try (apply H; assumption).
        cbn [taken]. rewrite (i_took _ _ H). destruct (flagged p), (taken p); try discriminate; reflexivity.
  Qed.

  Lemma run_inv p : inv p (run p).
  Proof. induction p as [|a p IH]; [apply inv_init|]. cbn [Subs.run]. apply step_inv. exact IH. Qed.

  Lemma not_next (p : list act) i l : life_of p i = l -> l <> Unborn -> (begins p =? i)%nat = false.
  Proof.
    intros <- H. apply Nat.eqb_neq. intros <-. apply H. apply (i_unborn _ _ (run_inv p)). lia.
  Qed.

  (** * What each step answers and sends *)
  Notation eff := (effect_of keqb debug).

  Lemma eff_begin (p : list act) k n : eff p (Begin k n) = mk_effect (OId (begins p)) [] (if flagged p && n then [k] else []).
  Proof.
    unfold effect_of. pose proof (run_inv p) as H. cbn [Subs.step snd]. rewrite (i_next _ _ H), (i_flag _ _ H).
    destruct (flagged p), n; reflexivity.
  Qed.

  Lemma eff_poll (p : list act) i w : eff p (Poll i w) = quiet (poll_answer (life_of p i)).
  Proof.
    unfold effect_of. pose proof (run_inv p) as H. pose proof (i_futs _ _ H i) as Hf. cbn [Subs.step].
    destruct (mget ieqb i (futs (run p))) as [[k c]|] eqn:Ef.
    2:{ destruct (life_of p i); cbn in Hf; try discriminate; try reflexivity. destruct Hf as [c [=]]. }
    destruct (want (life_of p i)) as [[k' e]|] eqn:Hw.
    - destruct (own_entry p _ i k' e H Hw) as (m & Hm & Hi).
      assert (k' = k) as -> by (destruct (life_of p i); cbn in Hw, Hf; try discriminate; congruence).
      rewrite Hm, Hi. destruct (life_of p i); cbn in Hw; try discriminate; injection Hw as _ <-; reflexivity.
    - assert (E : poll_answer (life_of p i) = OReady ACancelled) by (destruct (life_of p i); cbn in Hw, Hf; try discriminate; reflexivity).
      rewrite E. destruct (mget keqb k (tab (run p))) as [m|] eqn:Em; [|reflexivity].
      rewrite (no_entry p _ i H Hw k m Em). reflexivity.
  Qed.

  Lemma eff_insert (p : list act) i : woken (eff p (Insert i)) = [] /\ unwants (eff p (Insert i)) = [].
  Proof.
    unfold effect_of. cbn [Subs.step]. destruct (mget ieqb i (creating (run p))) as [[[k n] late]|]; split; reflexivity.
  Qed.

  Lemma eff_drop (p : list act) i : woken (eff p (DropFut i)) = [] /\ unwants (eff p (DropFut i)) = [].
  Proof.
    unfold effect_of. cbn [Subs.step]. destruct (mget ieqb i (futs (run p))) as [[k [|]]|]; [split; reflexivity| |split; reflexivity].
    destruct (mget keqb k (tab (run p))); split; reflexivity.
  Qed.

  Lemma eff_notify (p : list act) i : eff p (DropNotify i) =
    match life_of p i with
    | Dropping k n w last => mk_effect ODone (match w with Some w => [w] | None => [] end) (if last && n then [k] else [])
    | _ => quiet ODisabled
    end.
  Proof.
    unfold effect_of. cbn [Subs.step]. rewrite (i_dropping _ _ (run_inv p) i). destruct (life_of p i); reflexivity.
  Qed.

  (** The table and the lives. *)
  Lemma inner (p : list act) k : match mget keqb k (tab (run p)) with
    | Some m => m <> [] /\ NoDup (mkeys m) /\ forall i, mget ieqb i m = want_at (life_of p i) k
    | None => forall i, want_at (life_of p i) k = None
    end.
  Proof.
    pose proof (run_inv p) as H. destruct (mget keqb k (tab (run p))) as [m|] eqn:E.
    - destruct (i_good _ _ H) as [_ Hg]. destruct (Hg k m E). repeat split; auto.
      intros i. rewrite <- (i_tab _ _ H). unfold entry. rewrite E. reflexivity.
    - intros i. rewrite <- (i_tab _ _ H). unfold entry. rewrite E. reflexivity.
  Qed.
  Lemma want_at_waiting (l : life) k w n : want_at l k = Some (Pending w n) <-> l = Waiting k n w.
  Proof.
    unfold want_at. destruct l; cbn [want]; try (destruct (keqb_spec k k0) as [->|]); split; intros E; try discriminate; try congruence.
  Qed.

  Lemma wakers_in (m : list (nat * sub)) w : In w (wakers m) <-> exists i n, In (i, Pending (Some w) n) m.
  Proof.
    unfold wakers. rewrite in_flat_map. split.
    - intros ([i e] & Hi & Hw). cbn in Hw. destruct e as [|[w'|] n|]; cbn in Hw; try contradiction. destruct Hw as [->|[]]. eauto.
    - intros (i & n & Hi). exists (i, Pending (Some w) n). split; [exact Hi|left; reflexivity].
  Qed.

  Lemma waiting_key (l : life) k : waits keqb k l = true <-> exists n w, l = Waiting k n w.
  Proof.
    destruct l; cbn [waits]; try (split; [discriminate|intros (? & ? & [=])]).
    destruct (keqb_spec k k0) as [->|]; split; intros; try discriminate; eauto. destruct H as (? & ? & [=]). congruence.
  Qed.

  Lemma someone_iff test (p : list act) : test Unborn = false ->
    someone test (life_of p) (begins p) = true <-> exists i, test (life_of p i) = true.
  Proof.
    intros H0. unfold someone. rewrite existsb_exists. split; [intros (i & _ & H); eauto|].
    intros (i & H). exists i. split; [|exact H]. apply in_seq. split; [lia|]. cbn.
    destruct (le_lt_dec (begins p) i) as [Hle|]; [|assumption]. rewrite (i_unborn _ _ (run_inv p) i Hle) in H. congruence.
  Qed.

  Lemma eff_finish (p : list act) k v :
    unwants (eff p (Finish k v)) = [] /\
    (forall w, In w (woken (eff p (Finish k v))) <-> exists i n, life_of p i = Waiting k n (Some w)) /\
    ans (eff p (Finish k v)) =
      (if debug && someone (holds keqb k) (life_of p) (begins p) && negb (someone (waits keqb k) (life_of p) (begins p))
       then OPanic else ODone).
  Proof.
    unfold effect_of. cbn [Subs.step]. pose proof (inner p k) as Hk. destruct (mget keqb k (tab (run p))) as [m|].
    - destruct Hk as (Hne & Hn & Hi). cbn [snd unwants woken ans]. split; [reflexivity|]. split.
      + intros w. rewrite wakers_in. split.
        * intros (i & n & Hin). apply (in_mget ieqb ieqb_spec) in Hin; [|exact Hn]. exists i, n. rewrite Hi in Hin. apply want_at_waiting. exact Hin.
        * intros (i & n & Hl). apply want_at_waiting in Hl. rewrite <- Hi in Hl. exists i, n. apply (mget_in ieqb ieqb_spec) in Hl. exact Hl.
      + assert (Eh : someone (holds keqb k) (life_of p) (begins p) = true).
        { apply someone_iff; [reflexivity|]. destruct m as [|[i e] m]; [contradiction|]. exists i.
          specialize (Hi i). cbn [mget] in Hi. unfold ieqb in Hi. rewrite Nat.eqb_refl in Hi.
          unfold want_at in Hi. destruct (life_of p i); cbn [want holds] in *; try discriminate; destruct (keqb k _); try discriminate; reflexivity. }
        rewrite Eh, andb_true_r. replace (someone (waits keqb k) (life_of p) (begins p)) with (pending m); [reflexivity|].
        apply eq_true_iff_eq. rewrite someone_iff by reflexivity. unfold pending. rewrite existsb_exists. split.
        * intros ([i e] & Hin & He). cbn in He. destruct e as [|w n|]; try discriminate.
          apply (in_mget ieqb ieqb_spec) in Hin; [|exact Hn]. rewrite Hi in Hin. apply want_at_waiting in Hin. exists i. apply waiting_key. eauto.
        * intros (i & Hl). apply waiting_key in Hl as (n & w & Hl). apply want_at_waiting in Hl. rewrite <- Hi in Hl.
          apply (mget_in ieqb ieqb_spec) in Hl. exists (i, Pending w n). split; [exact Hl|reflexivity].
    - cbn [snd unwants woken ans quiet]. split; [reflexivity|]. split.
      + intros w. split; [intros []|]. intros (i & n & Hl). apply want_at_waiting in Hl. rewrite Hk in Hl. discriminate.
      + replace (someone (holds keqb k) (life_of p) (begins p)) with false; [rewrite andb_false_r; reflexivity|].
        symmetry. apply not_true_iff_false. rewrite someone_iff by reflexivity. intros (i & Hl). specialize (Hk i). unfold want_at in Hk.
        destruct (life_of p i); cbn [want holds] in *; try discriminate; destruct (keqb k _); discriminate.
  Qed.

  Lemma eff_take (p : list act) : flagged p = true -> taken p = false ->
    (forall w, In w (woken (eff p ShutTake)) <-> exists i k n, life_of p i = Waiting k n (Some w)) /\
    (forall k, In k (unwants (eff p ShutTake)) <-> exists i w, life_of p i = Waiting k true w).
  Proof.
    intros Hfl Htk. unfold effect_of. cbn [Subs.step]. pose proof (run_inv p) as H.
    rewrite (i_flag _ _ H), (i_took _ _ H), Hfl, Htk. cbn [andb negb snd woken unwants].
    destruct (i_good _ _ H) as [Hn Hg].
    assert (Hin : forall k i e, want_at (life_of p i) k = Some e -> exists m, In (k, m) (tab (run p)) /\ In (i, e) m).
    { intros k i e He. rewrite <- (i_tab _ _ H) in He. unfold entry in He.
      destruct (mget keqb k (tab (run p))) as [m|] eqn:Em; [|discriminate]. exists m.
      apply (mget_in keqb keqb_spec) in Em. apply (mget_in ieqb ieqb_spec) in He. split; assumption. }
    assert (Hout : forall k m i e, In (k, m) (tab (run p)) -> In (i, e) m -> want_at (life_of p i) k = Some e).
    { intros k m i e Hm Hi. apply (in_mget keqb keqb_spec) in Hm; [|exact Hn]. rewrite <- (i_tab _ _ H). unfold entry. rewrite Hm.
      apply (in_mget ieqb ieqb_spec); [apply (Hg k m Hm)|exact Hi]. }
    split.
    - intros w. rewrite in_flat_map. split.
      + intros (x & Hx & Hw). apply in_flat_map in Hx as ([k m] & Hm & Hx). apply in_map_iff in Hx as ([i e] & <- & Hi).
        cbn in Hw. destruct e as [|[w'|] n|]; cbn in Hw; try contradiction. destruct Hw as [->|[]].
        exists i, k, n. apply want_at_waiting. eapply Hout; eassumption.
      + intros (i & k & n & Hl). apply want_at_waiting in Hl. destruct (Hin _ _ _ Hl) as (m & Hm & Hi).
        exists (cancel k (Pending (Some w) n : sub) true). split; [|left; reflexivity].
        apply in_flat_map. exists (k, m). split; [exact Hm|]. apply in_map_iff. exists (i, Pending (Some w) n). split; [reflexivity|exact Hi].
    - intros k. rewrite in_flat_map. split.
      + intros (x & Hx & Hw). apply in_flat_map in Hx as ([k' m] & Hm & Hx). apply in_map_iff in Hx as ([i e] & <- & Hi).
        cbn in Hw. destruct e as [|w n|]; cbn in Hw; try contradiction. destruct n; cbn in Hw; [|contradiction]. destruct Hw as [->|[]].
        exists i, w. apply want_at_waiting. eapply Hout; eassumption.
      + intros (i & w & Hl). apply want_at_waiting in Hl. destruct (Hin _ _ _ Hl) as (m & Hm & Hi).
        exists (cancel k (Pending w true : sub) true). split; [|left; reflexivity].
        apply in_flat_map. exists (k, m). split; [exact Hm|]. apply in_map_iff. exists (i, Pending w true). split; [reflexivity|exact Hi].
  Qed.

  (** * Lives over time *)
  Lemma life_waiting (p : list act) i k n w q : life_of p i = Waiting k n w ->
    Forall (fun a => match a with DropFut j => j <> i | ShutTake => False | Finish k' _ => k' <> k | _ => True end) q ->
    exists w', life_of (q ++ p) i = Waiting k n w'.
  Proof.
    intros Hl. induction q as [|a q IH]; intros Hq; [exists w; exact Hl|]. inversion Hq; subst.
    destruct (IH H2) as [w' Hw]. cbn [app SubsSpec.life_of].
    destruct a as [k' n'|j|j w1|k' v|j|j| |]; rewrite ?Hw; try (eexists; reflexivity); try contradiction.
    - destruct (Nat.eqb_spec (begins (q ++ p)) i) as [E|]; [|eauto].
      rewrite <- E in Hw. rewrite (i_unborn _ _ (run_inv (q ++ p))) in Hw by lia. discriminate.
    - destruct (j =? i)%nat; eauto.
    - destruct (j =? i)%nat; eauto.
    - destruct (keqb_spec k' k); [contradiction|eauto].
    - destruct (Nat.eqb_spec j i); [contradiction|eauto].
    - destruct (j =? i)%nat; eauto.
  Qed.

  (** A life which nothing but polling, dropping and shutdown changes. *)
  Lemma life_steady (p : list act) i l q : life_of p i = l ->
    match l with Decided _ _ | Rejected _ => True | _ => False end ->
    Forall (fun a => match a with DropFut j => j <> i | ShutTake => False | Poll j _ => j <> i | _ => True end) q ->
    life_of (q ++ p) i = l.
  Proof.
    intros Hl Hd. induction q as [|a q IH]; intros Hq; [exact Hl|]. inversion Hq; subst. specialize (IH H2).
    cbn [app SubsSpec.life_of].
    destruct a as [k' n'|j|j w1|k' v|j|j| |]; rewrite ?IH; try contradiction; try reflexivity.
    - destruct (Nat.eqb_spec (begins (q ++ p)) i) as [E|]; [|reflexivity].
      rewrite <- E in IH. rewrite (i_unborn _ _ (run_inv (q ++ p))) in IH by lia. rewrite E in IH. rewrite <- IH in Hd. destruct Hd.
    - destruct (j =? i)%nat; [|reflexivity]. destruct (life_of p i); try contradiction; reflexivity.
    - destruct (Nat.eqb_spec j i); [contradiction|reflexivity].
    - destruct (life_of p i); try contradiction; reflexivity.
    - destruct (Nat.eqb_spec j i); [contradiction|reflexivity].
    - destruct (j =? i)%nat; [|reflexivity]. destruct (life_of p i); try contradiction; reflexivity.
  Qed.

  (** A spent life: no value comes any more. *)
  Definition spent (l : life) : bool :=
    match l with Lost _ | Collected _ | Dropping _ _ _ _ | Dropped => true | _ => false end.
  Lemma spent_stays (p : list act) i q : spent (life_of p i) = true -> spent (life_of (q ++ p) i) = true.
  Proof.
    intros Hl. induction q as [|a q IH]; [exact Hl|]. cbn [app SubsSpec.life_of].
    destruct a as [k' n'|j|j w1|k' v|j|j| |]; try exact IH;
      try (destruct (j =? i)%nat; [|exact IH]; destruct (life_of (q ++ p) i); try discriminate; exact IH).
    - destruct (Nat.eqb_spec (begins (q ++ p)) i) as [E|]; [|exact IH].
      rewrite <- E in IH. rewrite (i_unborn _ _ (run_inv (q ++ p))) in IH by lia. discriminate.
    - destruct (life_of (q ++ p) i); try discriminate; exact IH.
    - destruct (flagged (q ++ p) && negb (taken (q ++ p))); [|exact IH]. destruct (life_of (q ++ p) i); try discriminate; exact IH.
  Qed.
  (** A cancelled one stays cancelled until it is dropped. *)
  Definition over (l : life) : bool := match l with Rejected _ | Lost _ | Collected _ => true | _ => false end.
  Lemma over_stays (p : list act) i q : over (life_of p i) = true -> Forall (fun a => a <> DropFut i) q -> over (life_of (q ++ p) i) = true.
  Proof.
    intros Hl. induction q as [|a q IH]; intros Hq; [exact Hl|]. inversion Hq; subst. specialize (IH H2). cbn [app SubsSpec.life_of].
    destruct a as [k' n'|j|j w1|k' v|j|j| |]; try exact IH;
      try (destruct (Nat.eqb_spec j i) as [->|]; [|exact IH]; destruct (life_of (q ++ p) i); try discriminate; try exact IH; try reflexivity; try congruence).
    - destruct (Nat.eqb_spec (begins (q ++ p)) i) as [E|]; [|exact IH].
      rewrite <- E in IH. rewrite (i_unborn _ _ (run_inv (q ++ p))) in IH by lia. discriminate.
    - destruct (life_of (q ++ p) i); try discriminate; exact IH.
    - destruct (flagged (q ++ p) && negb (taken (q ++ p))); [|exact IH]. destruct (life_of (q ++ p) i); try discriminate; reflexivity.
  Qed.
  Lemma over_answer (l : life) : over l = true -> poll_answer l = OReady ACancelled.
  Proof. destruct l; try discriminate; reflexivity. Qed.

  (** Where a decided value came from. *)
  Lemma decided_from (p : list act) i k v : life_of p i = Decided k v ->
    exists q p0 n w, p = q ++ Finish k v :: p0 /\ life_of p0 i = Waiting k n w.
  Proof.
    induction p as [|a p IH]; [discriminate|]. cbn [SubsSpec.life_of]. intros Hl.
    assert (Hback : life_of p i = Decided k v -> exists q p0 n w, a :: p = q ++ Finish k v :: p0 /\ life_of p0 i = Waiting k n w).
    { intros E. destruct (IH E) as (q & p0 & n & w & -> & E0). exists (a :: q), p0, n, w. split; [reflexivity|exact E0]. }
    destruct a as [k' n'|j|j w1|k' v'|j|j| |]; auto.
    - destruct (begins p =? i)%nat; [discriminate|auto].
    - destruct (j =? i)%nat; auto. destruct (life_of p i) as [|? ? []| | | | | | |]; try discriminate; auto.
    - destruct (j =? i)%nat; auto. destruct (life_of p i); try discriminate; auto.
    - destruct (life_of p i) eqn:E; auto; try discriminate. destruct (keqb_spec k' k0) as [->|]; [|discriminate]. injection Hl as -> ->.
      exists [], p, n, w. split; [reflexivity|exact E].
    - destruct (j =? i)%nat; auto. destruct (life_of p i); try discriminate; auto.
    - destruct (j =? i)%nat; auto. destruct (life_of p i); try discriminate; auto.
    - destruct (flagged p && negb (taken p)); auto. destruct (life_of p i); try discriminate; auto.
  Qed.
  (** Where a dropping future came from. *)
  Lemma dropping_from (p : list act) i k n w last : life_of p i = Dropping k n w last ->
    exists q p0, p = q ++ DropFut i :: p0 /\ life_of p0 i = Waiting k n w /\ ~ In (DropNotify i) q /\
      last = negb (existsb (fun j => negb (j =? i)%nat && holds keqb k (life_of p0 j)) (seq 0 (begins p0))).
  Proof.
    induction p as [|a p IH]; [discriminate|]. cbn [SubsSpec.life_of]. intros Hl.
    assert (Hback : a <> DropNotify i -> life_of p i = Dropping k n w last ->
       exists q p0, a :: p = q ++ DropFut i :: p0 /\ life_of p0 i = Waiting k n w /\ ~ In (DropNotify i) q /\
         last = negb (existsb (fun j => negb (j =? i)%nat && holds keqb k (life_of p0 j)) (seq 0 (begins p0)))).
    { intros Ha E. destruct (IH E) as (q & p0 & -> & E0 & Hq & El). exists (a :: q), p0.
      repeat split; auto. intros [->|Hin]; [congruence|contradiction]. }
    destruct a as [k' n'|j|j w1|k' v'|j|j| |]; try (apply Hback; [discriminate|exact Hl]).
    - destruct (begins p =? i)%nat; [discriminate|]. apply Hback; [discriminate|exact Hl].
    - destruct (j =? i)%nat; [|apply Hback; [discriminate|exact Hl]]. destruct (life_of p i) as [|? ? []| | | | | | |]; try discriminate; apply Hback; congruence.
    - destruct (j =? i)%nat; [|apply Hback; [discriminate|exact Hl]]. destruct (life_of p i); try discriminate; apply Hback; congruence.
    - destruct (life_of p i) eqn:E; try discriminate; try (apply Hback; congruence). destruct (keqb k' k0); discriminate.
    - destruct (Nat.eqb_spec j i) as [->|]; [|apply Hback; [discriminate|exact Hl]].
      destruct (life_of p i) eqn:E; try discriminate; try (apply Hback; congruence). injection Hl as -> -> -> <-.
      exists [], p. repeat split; auto.
    - destruct (Nat.eqb_spec j i) as [->|]; [|apply Hback; [congruence|exact Hl]]. destruct (life_of p i); discriminate.
    - destruct (flagged p && negb (taken p)); [|apply Hback; [discriminate|exact Hl]]. destruct (life_of p i); try discriminate; apply Hback; congruence.
  Qed.
End Proofs.
