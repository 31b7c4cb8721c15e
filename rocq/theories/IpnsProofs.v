(** Lemmas about [Ipns]. *)
From Verif Require Import Base Wire WireProofs Cid CidProofs Text TextProofs FMap IpfsPath PathSpec IpfsPathProofs Ipns IpnsSpec.
Local Open Scope N_scope.

Lemma strip_spec p : forall s r, strip p s = Some r <-> s = p ++ r.
Proof.
  induction p as [|a p IH]; intros s r; cbn [strip app].
  - split; [intros [= ->]; reflexivity|intros ->; reflexivity].
  - destruct s as [|b s]; [split; discriminate|]. destruct (N.eqb_spec a b) as [->|E].
    + rewrite IH. split; [intros ->; reflexivity|intros [= ->]; reflexivity].
    + split; [discriminate|]. intros [= -> _]. congruence.
Qed.
Lemma strip_none p s : strip p s = None <-> forall r, s <> p ++ r.
Proof.
  destruct (strip p s) as [x|] eqn:E.
  - split; [discriminate|]. intros H. apply strip_spec in E. exfalso. eapply H; eauto.
  - split; [|reflexivity]. intros _ r H. apply strip_spec in H. congruence.
Qed.

Lemma segs_eqb_spec a : forall b, reflect (a = b) (segs_eqb a b).
Proof.
  induction a as [|x a IH]; intros [|y b]; cbn [segs_eqb]; try (constructor; congruence).
  destruct (beq_spec x y) as [->|]; cbn [andb]; [|constructor; congruence]. destruct (IH b) as [->|]; constructor; congruence.
Qed.
Lemma path_eqb_spec a b : reflect (a = b) (path_eqb a b).
Proof.
  unfold path_eqb. destruct a as [ra sa], b as [rb sb]. cbn [p_root p_segs].
  assert (R : reflect (ra = rb) (root_eqb ra rb)).
  { destruct ra, rb; cbn [root_eqb]; try (constructor; congruence).
    - destruct (cid_eqb_spec c c0) as [->|]; constructor; congruence.
    - destruct (mh_eqb_spec p p0) as [E|]; constructor; congruence.
    - destruct (beq_spec name name0) as [->|]; constructor; congruence. }
  destruct R as [->|]; cbn [andb]; [|constructor; congruence]. destruct (segs_eqb_spec sa sb) as [->|]; constructor; congruence.
Qed.
Lemma seen_in p l : existsb (path_eqb p) l = true <-> In p l.
Proof.
  rewrite existsb_exists. split.
  - intros (x & H & E). destruct (path_eqb_spec p x) as [->|]; [exact H|discriminate].
  - intros H. exists p. split; [exact H|]. destruct (path_eqb_spec p p); congruence.
Qed.

Section Dns.
  Variable ob : N -> bytes -> option bytes.

  Lemma first_link_some l r : first_link ob l = Some r <->
    exists before suffix after, l = before ++ (s_dnslink_eq ++ suffix) :: after /\ (forall rest, ~ In (s_dnslink_eq ++ rest) before) /\
      r = if utf8 suffix then path_from_str ob suffix else None.
  Proof.
    induction l as [|t l IH]; cbn [first_link].
    - split; [discriminate|]. intros ([|] & s & a & H & _); discriminate.
    - destruct (strip s_dnslink_eq t) as [suffix|] eqn:E.
      + apply strip_spec in E. subst t. split.
        * intros [= <-]. exists [], suffix, l. split; [reflexivity|]. split; [intros rest []|reflexivity].
        * intros (before & s & after & H & N & ->). destruct before as [|b before].
          -- apply (f_equal (@tl bytes)) in H as Hl. apply (f_equal (fun x => hd [] x)) in H. cbn [app hd] in H. apply app_inv_head in H. subst. reflexivity.
          -- exfalso. apply (N suffix). left. apply (f_equal (fun x => hd [] x)) in H. symmetry. exact H.
      + pose proof (proj1 (strip_none _ _) E) as Hn. rewrite IH. split.
        * intros (before & s & after & -> & N & ->). exists (t :: before), s, after. split; [reflexivity|]. split; [|reflexivity].
          intros rest [->|H]; [eapply Hn; reflexivity|eapply N; exact H].
        * intros (before & s & after & H & N & ->). destruct before as [|b before].
          -- exfalso. apply (f_equal (fun x => hd [] x)) in H. cbn [app hd] in H. eapply Hn. exact H.
          -- apply (f_equal (@tl bytes)) in H. cbn [app tl] in H. exists before, s, after. split; [exact H|]. split; [|reflexivity].
             intros rest H'. eapply N. right. exact H'.
  Qed.

  Variable txt : bytes -> option (list (list bytes)).
  Lemma says_spec n p : says ob txt n p <-> exists res, txt n = Some res /\ first_link ob (concat res) = Some (Some p).
  Proof.
    split.
    - intros (res & before & suffix & after & H1 & H2 & H3 & H4 & H5). exists res. split; [exact H1|]. apply first_link_some.
      exists before, suffix, after. split; [exact H2|]. split; [exact H3|]. rewrite H4. symmetry. f_equal. apply parse_spec. exact H5.
    - intros (res & H1 & H2). apply first_link_some in H2 as (before & suffix & after & H2 & H3 & H4). exists res, before, suffix, after.
      destruct (utf8 suffix) eqn:U; [|discriminate]. split; [exact H1|]. split; [exact H2|]. split; [exact H3|]. split; [reflexivity|]. apply parse_spec. congruence.
  Qed.
  Lemma search_cons n l : search ob txt (n :: l) = match txt n with
    | None => search ob txt l
    | Some res => match first_link ob (concat res) with Some (Some p) => Some p | _ => search ob txt l end end.
  Proof. reflexivity. Qed.
  Lemma search_spec n l p : search ob txt (n :: l) = Some p <-> says ob txt n p \/ ((forall q, ~ says ob txt n q) /\ search ob txt l = Some p).
  Proof.
    rewrite search_cons, says_spec. split.
    - destruct (txt n) as [res|] eqn:E.
      + destruct (first_link ob (concat res)) as [[q|]|] eqn:F.
        * intros [= ->]. left. exists res. auto.
        * intros H. right. split; [|exact H]. intros q Hq. apply says_spec in Hq as (res' & E1 & F1). congruence.
        * intros H. right. split; [|exact H]. intros q Hq. apply says_spec in Hq as (res' & E1 & F1). congruence.
      + intros H. right. split; [|exact H]. intros q Hq. apply says_spec in Hq as (res' & E1 & F1). congruence.
    - intros [(res & E & F)|[N H]]; [rewrite E, F; reflexivity|]. destruct (txt n) as [res|] eqn:E; [|exact H].
      destruct (first_link ob (concat res)) as [[q|]|] eqn:F; [|exact H|exact H]. exfalso. apply (N q). apply says_spec. exists res. auto.
  Qed.
  Lemma dnslink_spec d p : dnslink ob txt d = Some p <-> links ob txt d p.
  Proof.
    unfold dnslink, searched. rewrite search_spec. unfold links. destruct (strip s_dnslink_dot d) as [r|] eqn:E.
    - apply strip_spec in E. cbn [search]. split; intros [H|[H1 H2]]; auto; [discriminate|]. destruct H2 as [H2 _]. exfalso. eapply H2; eauto.
    - pose proof (proj1 (strip_none _ _) E) as Hn. rewrite search_spec. cbn [search]. split.
      + intros [H|[H1 [H2|[_ H2]]]]; [auto|auto|discriminate].
      + intros [H|(H1 & _ & H2)]; auto.
  Qed.
  Lemma resolve_spec p q : resolve ob txt p = Some q <-> (is_ipld p /\ q = p) \/ leads ob txt p q.
  Proof.
    unfold resolve, is_ipld, leads. destruct (p_root p) as [c|k|d].
    - split; [intros [= ->]; left; eauto|]. intros [[_ ->]|(d & H & _)]; [reflexivity|discriminate].
    - split; [discriminate|]. intros [[(c & H) _]|(d & H & _)]; discriminate.
    - rewrite dnslink_spec. split; [intros H; right; eauto|]. intros [[(c & H) _]|(d' & [= <-] & H)]; [discriminate|exact H].
  Qed.
End Dns.

(** * The loop *)
Section Loop.
  Context {T : Type}.
  Variable f : T -> option T.
  Fixpoint it (n : nat) (x : option T) : option T :=
    match n with O => x | S n => match it n x with Some y => f y | None => None end end.
  Lemma it_add a b x : it (a + b) x = it a (it b x).
  Proof. induction a as [|a IH]; cbn [it Nat.add]; [reflexivity|]. rewrite IH. reflexivity. Qed.
  Lemma it_none n : it n None = None.
  Proof. induction n as [|n IH]; cbn [it]; [reflexivity|]. rewrite IH. reflexivity. Qed.
  Lemma it_fix n y : f y = Some y -> it n (Some y) = Some y.
  Proof. intros H. induction n as [|n IH]; cbn [it]; [reflexivity|]. rewrite IH. exact H. Qed.
  Lemma it_period x i d k : it i x = it (i + d) x -> it (i + k * d) x = it i x.
  Proof.
    intros H. induction k as [|k IH]; [rewrite Nat.add_0_r; reflexivity|].
    replace (i + S k * d)%nat with (d + (i + k * d))%nat by lia. rewrite it_add, IH, <- it_add, Nat.add_comm. symmetry. exact H.
  Qed.
End Loop.

Lemma follow_constant ob txt fuel : forall n seen x k r,
  (forall y, In y seen <-> exists i, (i < k)%nat /\ it (resolve ob txt) i x = Some y) ->
  follow ob fuel (fun _ => txt) n seen (it (resolve ob txt) k x) = Some r ->
  exists m, (k <= m)%nat /\ r = it (resolve ob txt) m x /\ (r = None \/ exists i, (i < m)%nat /\ it (resolve ob txt) i x = r).
Proof.
  induction fuel as [|fuel IH]; intros n seen x k r Hs H; cbn [follow] in H.
  - destruct (it (resolve ob txt) k x) as [res|] eqn:E; [|injection H as <-; exists k; split; [lia|]; split; [auto|left; reflexivity]].
    destruct (existsb (path_eqb res) seen) eqn:S; [|discriminate]. injection H as <-. apply seen_in, Hs in S as (i & Hi & Ei). exists k. split; [lia|].
    split; [auto|]. right. exists i. auto.
  - destruct (it (resolve ob txt) k x) as [res|] eqn:E; [|injection H as <-; exists k; split; [lia|]; split; [auto|left; reflexivity]].
    destruct (existsb (path_eqb res) seen) eqn:S.
    + injection H as <-. apply seen_in, Hs in S as (i & Hi & Ei). exists k. split; [lia|]. split; [auto|]. right. exists i. auto.
    + assert (E' : resolve ob txt res = it (resolve ob txt) (Datatypes.S k) x) by (cbn [it]; rewrite E; reflexivity). rewrite E' in H.
      destruct (IH (Datatypes.S n) (res :: seen) x (Datatypes.S k) r) as (m & Hm & Hr & Hor); [|exact H|exists m; split; [lia|auto]].
      intros y. cbn [In]. rewrite Hs. split.
      * intros [<-|(i & Hi & Ei)]; [exists k; split; [lia|exact E]|exists i; split; [lia|exact Ei]].
      * intros (i & Hi & Ei). destruct (Nat.eq_dec i k) as [->|]; [left; congruence|right; exists i; split; [lia|exact Ei]].
Qed.

(** Ends when the answers are among finitely many paths. *)
Lemma follow_ends ob fuel : forall (P : list ipfs_path) txt n seen r,
  (forall n p q, In p P -> resolve ob (txt n) p = Some q -> In q P) ->
  NoDup seen -> incl seen P -> (forall q, r = Some q -> In q P) -> (length P <= fuel + length seen)%nat ->
  follow ob fuel txt n seen r <> None.
Proof.
  induction fuel as [|fuel IH]; intros P txt n seen r HP N I Hr Hl; cbn [follow]; (destruct r as [res|]; [|discriminate]);
    (destruct (existsb (path_eqb res) seen) eqn:S; [discriminate|]).
  - exfalso. assert (X : ~ In res seen) by (intros X; apply seen_in in X; congruence).
    assert (L : (length (res :: seen) <= length P)%nat). { apply NoDup_incl_length; [constructor; assumption|]. intros y [<-|Hy]; auto. }
    cbn [length] in L. cbn [Nat.add] in Hl. lia.
  - assert (X : ~ In res seen) by (intros X; apply seen_in in X; congruence).
    apply (IH P); [exact HP|constructor; assumption|intros y [<-|Hy]; auto|intros q Hq; eapply HP; [apply Hr; reflexivity|exact Hq]|cbn [length]; lia].
Qed.

Lemma chain_trans ob txt p q r : chain ob txt p q -> chain ob txt q r -> chain ob txt p r.
Proof. induction 1 as [|p q q' H _ IH]; [auto|]. intros H'. econstructor; [exact H|auto]. Qed.
Lemma it_chain ob txt n : forall p q, it (resolve ob txt) n (Some p) = Some q -> chain ob txt p q.
Proof.
  induction n as [|n IH]; intros p q H; cbn [it] in H; [injection H as ->; constructor|].
  destruct (it (resolve ob txt) n (Some p)) as [y|] eqn:E; [|discriminate]. apply IH in E. apply resolve_spec in H as [[_ ->]|H]; [exact E|].
  eapply chain_trans; [exact E|]. econstructor; [exact H|constructor].
Qed.
Lemma chain_it ob txt p q : chain ob txt p q -> exists n, it (resolve ob txt) n (Some p) = Some q.
Proof.
  induction 1 as [p|p q r H _ (n & IH)]; [exists 0%nat; reflexivity|]. exists (n + 1)%nat. rewrite it_add. cbn [it].
  assert (E : resolve ob txt p = Some q) by (apply resolve_spec; auto). rewrite E. exact IH.
Qed.
