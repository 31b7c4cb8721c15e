(** Proofs about [HttpBlock]. *)
From Coq Require Import Permutation.
From Verif Require Import Base Wire Cid CidProofs Text TextProofs FMap BlockSpec FsPaths FsPathsProofs FsBlocks FsBlocksProofs PinSpec FsPins PinnedRepo
  RefsHttp RefsHttpSpec RefsHttpProofs HttpOptions HttpOptionsProofs NodePins NodePinsProofs HttpBlock HttpBlockSpec.
Local Open Scope N_scope.

(** * Forms *)
Lemma blen_app_ (a b : bytes) : blen (a ++ b) = blen a + blen b.
Proof. unfold blen. rewrite app_length. lia. Qed.
Lemma take_pieces_spec limit l : forall buffer b, blen buffer <= limit ->
  (take_pieces limit buffer l = Ok b <-> b = buffer ++ concat l /\ blen b <= limit).
Proof.
  induction l as [|p l IH]; intros buffer b Hb; cbn [take_pieces concat].
  - rewrite app_nil_r. split; [intros [= <-]; auto|intros [-> _]; reflexivity].
  - destruct (N.ltb_spec limit (blen buffer + blen p)) as [H|H].
    + split; [discriminate|]. intros [-> X]. rewrite !blen_app_ in X. lia.
    + rewrite IH by (rewrite blen_app_; lia). rewrite app_assoc. reflexivity.
Qed.
Lemma skip_pieces_spec l : skip_pieces l = Ok tt <-> ~ In [] l.
Proof.
  induction l as [|p l IH]; cbn [skip_pieces]; [split; [intros _ []|reflexivity]|]. destruct p as [|x p].
  - split; [discriminate|]. intros H. destruct H. left. reflexivity.
  - rewrite IH. split; [intros H [X|X]; [discriminate|auto]|intros H X; apply H; right; exact X].
Qed.
Lemma allowed_in name names : existsb (beq name) names = true <-> In name names.
Proof. apply seen_in. Qed.
Lemma only_named_spec names limit m data : only_named names limit m = Ok data <-> holds names limit m data.
Proof.
  destruct m as [l fails]. unfold only_named, holds. cbn [m_fields m_fails].
  assert (G : forall l, read_fields names limit fails [] false l = Ok data <->
    exists before f, l = before ++ [f] /\ fails = false /\ (exists n, f_name f = Some n /\ In n names) /\ f_fails f = false /\ concat (f_pieces f) = data /\ blen data <= limit /\
    forall g, In g before -> (exists n, f_name g = Some n /\ ~ In n names) /\ f_fails g = false /\ ~ In [] (f_pieces g)); [|apply G].
  clear l. induction l as [|f l IH].
  - cbn [read_fields]. split; [destruct fails; discriminate|]. intros (before & g & E & _). destruct before; discriminate.
  - cbn [read_fields]. destruct (f_name f) as [name|] eqn:En.
    2: { split; [discriminate|]. intros (before & g & E & _ & (n & Hn & _) & _ & _ & _ & Hb). destruct before as [|g' before]; injection E as -> ->; [congruence|].
         destruct (Hb g' (or_introl eq_refl)) as ((n' & X & _) & _). congruence. }
    cbv zeta. destruct (existsb (beq name) names) eqn:Ea.
    + pose proof Ea as Ein. apply allowed_in in Ein. split.
      * destruct (take_pieces limit [] (f_pieces f)) as [b|e|] eqn:Et; try discriminate. apply take_pieces_spec in Et as [-> Hl]; [|unfold blen; cbn; lia]. cbn [app] in *.
        destruct (f_fails f) eqn:Ef; [discriminate|]. destruct l as [|g l].
        { cbn [read_fields]. destruct fails eqn:Ei; [discriminate|]. intros [= <-]. exists [], f. split; [reflexivity|]. split; [reflexivity|]. split; [eauto|].
          split; [exact Ef|]. split; [reflexivity|]. split; [exact Hl|]. intros g []. }
        cbn [read_fields]. destruct (f_name g); discriminate.
      * intros (before & g & E & -> & (n & Hn & Hin) & Hf & Hc & Hl & Hb). destruct before as [|g' before]; injection E as -> ->.
        2: { destruct (Hb g' (or_introl eq_refl)) as ((n' & X & Y) & _). congruence. }
        assert (Et : take_pieces limit [] (f_pieces g) = Ok data) by (apply take_pieces_spec; [unfold blen; cbn; lia|]; cbn [app]; auto). rewrite Et, Hf. reflexivity.
    + assert (Hn : ~ In name names) by (intros X; apply allowed_in in X; congruence). split.
      * destruct (skip_pieces (f_pieces f)) as [[]|e|] eqn:Es; try discriminate. apply skip_pieces_spec in Es. destruct (f_fails f) eqn:Ef; [discriminate|]. intros H. apply IH in H as (before & g & -> & Hrest & Hx & Hy & Hz & Hw & Hb).
        exists (f :: before), g. split; [reflexivity|]. split; [exact Hrest|]. split; [exact Hx|]. split; [exact Hy|]. split; [exact Hz|]. split; [exact Hw|]. intros g' [<-|Hg]; [|apply Hb, Hg]. split; [eauto|]. auto.
      * intros (before & g & E & Hrest & (n & Hx & Hin) & Hy & Hz & Hw & Hb). destruct before as [|g' before]; injection E as -> ->; [congruence|].
        destruct (Hb g' (or_introl eq_refl)) as (_ & Hf & Hp). apply skip_pieces_spec in Hp. rewrite Hp, Hf. apply IH. exists before, g. split; [reflexivity|]. split; [exact Hrest|]. split; [eauto|].
        split; [exact Hy|]. split; [exact Hz|]. split; [exact Hw|]. intros g'' Hg. apply Hb. right. exact Hg.
Qed.
Lemma only_named_no_panic names limit m : only_named names limit m <> Panic.
Proof.
  unfold only_named. generalize (@nil N) at 1. generalize false at 1. induction (m_fields m) as [|f l IH]; intros matched buffer; cbn [read_fields].
  - destruct (m_fails m), matched; discriminate.
  - destruct (f_name f); [|discriminate]. cbv zeta. destruct matched; [discriminate|].
    assert (Ht : forall l b, take_pieces limit b l <> Panic) by (clear; induction l as [|p l IH]; intros b; cbn [take_pieces]; [discriminate|]; destruct (_ <? _); [discriminate|apply IH]).
    assert (Hs : forall l, skip_pieces l <> Panic) by (clear; induction l as [|[|p q] l IH]; cbn [skip_pieces]; [discriminate|discriminate|apply IH]).
    destruct (existsb _ _).
    + destruct (take_pieces _ _ _) eqn:E; [|discriminate|destruct (Ht _ _ E)]. destruct (f_fails f); [discriminate|apply IH].
    + destruct (skip_pieces _) eqn:E; [|discriminate|destruct (Hs _ E)]. destruct (f_fails f); [discriminate|apply IH].
Qed.

(** * Tables *)
Lemma codec_named_spec s c : codec_named s = Some c <-> In (s, c) codecs.
Proof.
  unfold codec_named, codecs. cbn [In]. fold n_dagpb n_dagcbor n_dagjson n_raw. split.
  - destruct (beq_spec s n_dagcbor) as [->|_]; [intros [= <-]; auto|]. destruct (beq_spec s n_dagpb) as [->|_]; [intros [= <-]; auto|].
    destruct (beq_spec s n_dagjson) as [->|_]; [intros [= <-]; auto|]. destruct (beq_spec s n_raw) as [->|_]; [intros [= <-]; auto 6|]. discriminate.
  - intros [H|[H|[H|[H|[]]]]]; injection H as <- <-; reflexivity.
Qed.
Lemma chosen_spec k d query v o : (values k query = [] /\ o = None) \/ (exists w, values k query = [w] /\ o = Some w) ->
  (chosen k d query v <-> v = or_else d o).
Proof.
  intros [[E ->]|(w & E & ->)]; unfold chosen, or_else; rewrite E; split.
  - intros [[_ H]|H]; [exact H|discriminate].
  - auto.
  - intros [[H _]|H]; [discriminate|injection H as <-; reflexivity].
  - intros ->. auto.
Qed.

Section Names.
  Variable sha256 sha512 sha3 : bytes -> bytes.
  Lemma hash_named_spec b s data mh : hash_named sha256 sha512 sha3 b s data = Some mh <->
    exists code hash, In (s, code, hash) (if b : bool then hashes sha256 sha512 sha3 else firstn 2 (hashes sha256 sha512 sha3)) /\ mh = {| mh_code := code; mh_digest := hash data |}.
  Proof.
    unfold hash_named, hashes. fold n_sha2_256 n_sha2_512 n_sha3_512. split.
    - destruct (beq_spec s n_sha2_256) as [->|_]; [intros [= <-]; exists 18, sha256; destruct b; cbn [firstn In]; auto|].
      destruct (beq_spec s n_sha2_512) as [->|_]; [intros [= <-]; exists 19, sha512; destruct b; cbn [firstn In]; auto|].
      destruct b; cbn [andb]; [|discriminate]. destruct (beq_spec s n_sha3_512) as [->|_]; [intros [= <-]; exists 20, sha3; cbn [In]; auto 6|discriminate].
    - intros (code & hash & Hin & ->). destruct b; cbn [firstn In] in Hin.
      + destruct Hin as [H|[H|[H|[]]]]; injection H as <- <- <-; reflexivity.
      + destruct Hin as [H|[H|[]]]; injection H as <- <- <-; reflexivity.
  Qed.
  Hypothesis H256 : forall b, length (sha256 b) = 32%nat /\ wf_bytes (sha256 b).
  Hypothesis H512 : forall b, length (sha512 b) = 64%nat /\ wf_bytes (sha512 b).
  Hypothesis H3 : forall b, length (sha3 b) = 64%nat /\ wf_bytes (sha3 b).
  Lemma named_v1_wf s codec name code hash data : In (s, codec) codecs -> In (name, code, hash) (hashes sha256 sha512 sha3) ->
    wf_cid (CidV1 codec {| mh_code := code; mh_digest := hash data |}).
  Proof.
    intros Hs Hh. cbn [wf_cid mh_code mh_digest].
    assert (A : codec_known codec = true) by (destruct Hs as [E|[E|[E|[E|[]]]]]; injection E as _ <-; reflexivity).
    destruct Hh as [E|[E|[E|[]]]]; injection E as _ <- <-; split; try exact A; (split; [unfold u64_max1; lia|]);
      [destruct (H256 data) as [L W]|destruct (H512 data) as [L W]|destruct (H3 data) as [L W]]; (split; [exact W|]); unfold blen, u64_max1; rewrite L; lia.
  Qed.
  Lemma named_v0_wf data : wf_cid (CidV0 (sha256 data)).
  Proof. exact (H256 data). Qed.
End Names.

(** * The store *)
Lemma eqb_key c x : cid_eqb c x = true <-> c = x.
Proof. destruct (cid_eqb_spec c x); split; congruence. Qed.
Lemma stored_as_spec (s : state) c data r : wf_cid c -> exists b, stored_as s c data r = ((b, snd s), r) /\
  forall x, wf_cid x -> f_get b x = if cid_eqb (to_v1 c) (to_v1 x) then Some (match f_get (fst s) c with Some old => old | None => data end) else f_get (fst s) x.
Proof.
  intros Hc. unfold stored_as, f_put, fs_put. cbn [b_cid b_data]. rewrite block_path_ok by exact Hc. rewrite (f_get_file (fst s) c Hc).
  destruct (fs_get (block_file c) (fst s)) as [old|] eqn:E.
  - eexists. split; [reflexivity|]. intros x Hx. destruct (cid_eqb_spec (to_v1 c) (to_v1 x)) as [Ek|]; [|reflexivity].
    rewrite f_get_file by exact Hx. unfold block_file in *. rewrite <- Ek. exact E.
  - eexists. split; [reflexivity|]. intros x Hx. rewrite !f_get_file, put_all by assumption. cbn [concat]. rewrite app_nil_r. reflexivity.
Qed.

Section Rm.
  Variable ob : N -> bytes -> option bytes.
  Variable storage_error : bytes.
  Notation one := (rm_one ob storage_error).
  Definition free (s : state) (c : cid) : bool := match fs_is_pinned ob (snd s) c with Some false => true | _ => false end.
  Definition reason (s : state) (c : cid) : bytes :=
    match fs_is_pinned ob (snd s) c with Some true => t_pinned | Some false => t_missing | None => storage_error end.
  Lemma rm_one_spec (s : state) c : wf_cid c ->
    if free s c && match f_get (fst s) c with Some _ => true | None => false end then
      exists b, one s c = ((b, snd s), Ok None) /\
        forall x, wf_cid x -> f_get b x = if cid_eqb (to_v1 c) (to_v1 x) then None else f_get (fst s) x
    else one s c = (s, Ok (Some (reason s c))).
  Proof.
    intros Hc. unfold rm_one, fs_remove_block, remove_block, free, reason. destruct (fs_is_pinned ob (snd s) c) as [[|]|] eqn:Ep; cbn [andb]; try reflexivity.
    unfold f_remove, fs_remove. rewrite block_path_ok by exact Hc. rewrite (f_get_file (fst s) c Hc). destruct (fs_get (block_file c) (fst s)) eqn:E.
    - eexists. split; [reflexivity|]. intros x Hx. rewrite !f_get_file, remove_view by assumption. reflexivity.
    - destruct s. reflexivity.
  Qed.

  Variable cs : list cid.
  Hypothesis Hwf : Forall wf_cid cs.
  Definition named_by (P : cid -> Prop) (order : list nat) (x : cid) : Prop := exists i c, In i order /\ nth_error cs i = Some c /\ P c /\ to_v1 c = to_v1 x.
  Lemma rm_run_spec order : forall s, NoDup order -> exists b l, rm_run ob storage_error s cs order = ((b, snd s), Ok l) /\
    (forall x, wf_cid x -> (f_get b x = None <-> f_get (fst s) x = None \/ named_by (fun c => free s c = true) order x) /\
                           (forall d, f_get b x = Some d -> f_get (fst s) x = Some d)) /\
    (forall i e, answer_at i l = Some e -> In i order) /\
    (forall i c, In i order -> nth_error cs i = Some c ->
       (answer_at i l = Some None /\ free s c = true /\ f_get (fst s) c <> None) \/
       (answer_at i l = Some (Some (reason s c)))) /\
    (forall x d, wf_cid x -> f_get (fst s) x = Some d -> named_by (fun c => free s c = true) order x ->
       exists i c, nth_error cs i = Some c /\ to_v1 c = to_v1 x /\ answer_at i l = Some None) /\
    (forall i j c c', nth_error cs i = Some c -> nth_error cs j = Some c' -> to_v1 c = to_v1 c' -> answer_at i l = Some None -> answer_at j l = Some None -> i = j).
  Proof.
    induction order as [|i order IH]; intros s Hn; cbn [rm_run].
    - exists (fst s), []. split; [destruct s; reflexivity|]. split; [intros x _; split; [split; [auto|intros [H|(i & c & [] & _)]; exact H]|auto]|].
      split; [intros i e [=]|]. split; [intros i c []|]. split; [intros x d _ _ (i & c & [] & _)|intros i j c c' _ _ _ [=]].
    - inversion Hn as [|? ? Hi Hn']; subst. destruct (nth_error cs i) as [c|] eqn:Ec.
      2: { destruct (IH s Hn') as (b & l & E & V & A0 & A & D & U). exists b, l. split; [exact E|].
           assert (Hnm : forall P x, named_by P (i :: order) x <-> named_by P order x).
           { intros P x. split; intros (j & c & Hj & X); [destruct Hj as [->|Hj]; [destruct X; congruence|]; exists j, c; auto|exists j, c; split; [right; exact Hj|exact X]]. }
           split; [intros x Hx; rewrite Hnm; apply V, Hx|]. split; [intros j e H; right; eapply A0, H|]. split; [intros j c [<-|Hj]; [congruence|apply A, Hj]|].
           split; [intros x d Hx Hd H; apply (D x d Hx Hd), Hnm, H|exact U]. }
      assert (Hc : wf_cid c) by (rewrite Forall_forall in Hwf; apply Hwf; eapply nth_error_In; exact Ec).
      pose proof (rm_one_spec s c Hc) as H1. destruct (free s c) eqn:Ef; cbn [andb] in H1.
      1: destruct (f_get (fst s) c) as [old|] eqn:Eg.
      (* removed *)
      1: { destruct H1 as (b1 & -> & V1). destruct (IH (b1, snd s) Hn') as (b & l & E & V & A0 & A & D & U). cbn [fst snd] in *. rewrite E.
        exists b, ((i, None) :: l). split; [reflexivity|]. assert (Hfree : forall c', free (b1, snd s) c' = free s c') by reflexivity. assert (Hrea : forall c', reason (b1, snd s) c' = reason s c') by reflexivity.
        assert (Hno : forall j c', nth_error cs j = Some c' -> to_v1 c = to_v1 c' -> answer_at j l <> Some None).
        { intros j c' Ej Ek Ha. assert (Hc' : wf_cid c') by (rewrite Forall_forall in Hwf; apply Hwf; eapply nth_error_In; exact Ej).
          destruct (A j c' (A0 _ _ Ha) Ej) as [(_ & _ & X)|X]; [|congruence]. apply X. rewrite V1 by exact Hc'. apply eqb_key in Ek. rewrite Ek. reflexivity. }
        split; [|split; [|split; [|split]]].
        - intros x Hx. destruct (V x Hx) as [Va Vb]. rewrite V1 in Va, Vb by exact Hx. destruct (cid_eqb_spec (to_v1 c) (to_v1 x)) as [Ek|Ek].
          + split; [|intros d Hd; specialize (Vb d Hd); discriminate]. split; [intros _; right; exists i, c; split; [left; reflexivity|auto]|]. intros _. apply Va. left. reflexivity.
          + split; [|exact Vb]. rewrite Va. split; (intros [H|(j & c' & Hj & Ej & Hf & Ek')]; [left; exact H|right; exists j, c']).
            * split; [right; exact Hj|auto].
            * destruct Hj as [<-|Hj]; [exfalso; apply Ek; congruence|]. auto.
        - intros j e. cbn [answer_at]. destruct (Nat.eqb_spec j i) as [->|]; [left; reflexivity|]. intros H. right. eapply A0, H.
        - intros j c' Hj Ej. cbn [answer_at]. destruct (Nat.eqb_spec j i) as [->|Hji].
          + assert (c' = c) by congruence. subst c'. left. split; [reflexivity|]. split; [exact Ef|congruence].
          + destruct Hj as [->|Hj]; [contradiction|]. destruct (A j c' Hj Ej) as [(X & Y & Z)|X]; [left|right; rewrite X, Hrea; reflexivity].
            split; [exact X|]. split; [exact Y|]. assert (Hc' : wf_cid c') by (rewrite Forall_forall in Hwf; apply Hwf; eapply nth_error_In; exact Ej).
            rewrite V1 in Z by exact Hc'. destruct (cid_eqb (to_v1 c) (to_v1 c')); congruence.
        - intros x d Hx Hd (j & c' & Hj & Ej & Hf & Ek). destruct (cid_eqb_spec (to_v1 c) (to_v1 x)) as [Ek'|Ek'].
          + exists i, c. split; [exact Ec|]. split; [exact Ek'|]. cbn [answer_at]. rewrite Nat.eqb_refl. reflexivity.
          + destruct Hj as [<-|Hj]; [exfalso; apply Ek'; congruence|].
            destruct (D x d Hx) as (k & c'' & E1 & E2 & E3).
            * rewrite V1 by exact Hx. destruct (cid_eqb_spec (to_v1 c) (to_v1 x)); [contradiction|exact Hd].
            * exists j, c'. auto.
            * exists k, c''. split; [exact E1|]. split; [exact E2|]. cbn [answer_at]. destruct (Nat.eqb_spec k i) as [->|]; [|exact E3]. exfalso. apply Hi. eapply A0, E3.
        - intros j k c1 c2 E1 E2 Ek. cbn [answer_at]. destruct (Nat.eqb_spec j i) as [->|Hj], (Nat.eqb_spec k i) as [->|Hk]; intros Ha Hb; [reflexivity| | |].
          + exfalso. assert (c1 = c) by congruence. subst c1. exact (Hno _ _ E2 Ek Hb).
          + exfalso. assert (c2 = c) by congruence. subst c2. exact (Hno _ _ E1 (eq_sym Ek) Ha).
          + exact (U _ _ _ _ E1 E2 Ek Ha Hb). }
      (* not removed *)
      all: rewrite H1; destruct (IH s Hn') as (b & l & E & V & A0 & A & D & U); rewrite E; exists b, ((i, Some (reason s c)) :: l); split; [reflexivity|].
      all: split; [|split; [|split; [|split]]].
      all: try (intros j e; cbn [answer_at]; destruct (Nat.eqb_spec j i) as [->|]; [left; reflexivity|]; intros H; right; eapply A0, H).
      all: try (intros j c' Hj Ej; cbn [answer_at]; destruct (Nat.eqb_spec j i) as [->|Hji];
             [assert (c' = c) by congruence; subst c'; right; reflexivity|destruct Hj as [->|Hj]; [contradiction|]; exact (A j c' Hj Ej)]).
      all: try (intros j k c1 c2 E1 E2 Ek; cbn [answer_at]; destruct (Nat.eqb_spec j i) as [->|Hj], (Nat.eqb_spec k i) as [->|Hk]; intros Ha Hb; try discriminate; exact (U _ _ _ _ E1 E2 Ek Ha Hb)).
      all: assert (Hsame : forall x, wf_cid x -> named_by (fun c => free s c = true) (i :: order) x -> f_get (fst s) x = None \/ named_by (fun c => free s c = true) order x);
        [intros x Hx (j & c' & [<-|Hj] & Ej & Hf & Ek); [|right; exists j, c'; auto]; assert (c' = c) by congruence; subst c'; try congruence; left;
         rewrite f_get_file in * by assumption; unfold block_file in *; rewrite <- Ek; exact Eg|].
      all: try (intros x Hx; destruct (V x Hx) as [Va Vb]; split; [|exact Vb]; rewrite Va; split; (intros [H|H]; [left; exact H|]);
             [right; destruct H as (j & c' & Hj & X); exists j, c'; split; [right; exact Hj|exact X]|exact (Hsame x Hx H)]).
      all: intros x d Hx Hd H; destruct (Hsame x Hx H) as [X|X]; [congruence|]; destruct (D x d Hx Hd X) as (k & c'' & E1 & E2 & E3); exists k, c''; split; [exact E1|]; split; [exact E2|];
        cbn [answer_at]; destruct (Nat.eqb_spec k i) as [->|]; [exfalso; apply Hi; eapply A0, E3|exact E3].
  Qed.
End Rm.

(** * Lines *)
Definition rm_text (x : bytes * bytes) : bytes :=
  123 :: json_string k_error_key ++ 58 :: json_string (fst x) ++ 44 :: json_string k_hash_key ++ 58 :: json_string (snd x) ++ [125].
Lemma rm_line_text x : rm_line false x = rm_text x ++ [10].
Proof. unfold rm_line, rm_text. rewrite <- !app_comm_cons. repeat (rewrite <- app_assoc; cbn [app]). reflexivity. Qed.
Lemma rm_text_no_newline x : ~ In 10 (rm_text x).
Proof.
  unfold rm_text. intros [X|X]; [discriminate|]. apply in_app_or in X as [X|[X|X]]; [exact (json_no_newline _ X)|discriminate|].
  apply in_app_or in X as [X|[X|X]]; [exact (json_no_newline _ X)|discriminate|].
  apply in_app_or in X as [X|[X|X]]; [exact (json_no_newline _ X)|discriminate|].
  apply in_app_or in X as [X|[X|[]]]; [exact (json_no_newline _ X)|discriminate].
Qed.
Lemma expect_app p s : expect p (p ++ s) = Some s.
Proof. induction p as [|y p IH]; [reflexivity|]. cbn [expect app]. rewrite N.eqb_refl. exact IH. Qed.
Lemma read_rm_text x : read_rm_line (rm_text x) = Some x.
Proof.
  destruct x as [a b]. unfold rm_text, json_string, read_rm_line. cbn [fst snd].
  change (123 :: (34 :: concat (map escape k_error_key) ++ [34]) ++ 58 :: (34 :: concat (map escape a) ++ [34]) ++ 44 :: (34 :: concat (map escape k_hash_key) ++ [34]) ++ 58 :: (34 :: concat (map escape b) ++ [34]) ++ [125])
    with ([123; 34; 69; 114; 114; 111; 114; 34; 58; 34] ++ (concat (map escape a) ++ [34]) ++ [44; 34; 72; 97; 115; 104; 34; 58; 34] ++ (concat (map escape b) ++ [34]) ++ [125]).
  rewrite expect_app. rewrite <- app_assoc. cbn [app]. rewrite read_quoted.
  change (44 :: 34 :: 72 :: 97 :: 115 :: 104 :: 34 :: 58 :: 34 :: (concat (map escape b) ++ [34]) ++ [125]) with ([44; 34; 72; 97; 115; 104; 34; 58; 34] ++ (concat (map escape b) ++ [34]) ++ [125]).
  rewrite expect_app. rewrite <- app_assoc. cbn [app]. rewrite read_quoted. reflexivity.
Qed.
Lemma read_rm_lines_body l : read_rm_body (concat (map (rm_line false) l)) = Some l.
Proof.
  unfold read_rm_body. assert (H : lines (concat (map (rm_line false) l)) = Some (map rm_text l)).
  { induction l as [|x l IH]; [reflexivity|]. cbn [map concat]. rewrite rm_line_text, <- app_assoc. cbn [app]. rewrite lines_line by apply rm_text_no_newline. rewrite IH. reflexivity. }
  rewrite H. clear H. induction l as [|x l IH]; [reflexivity|]. cbn [map read_rm_lines]. rewrite read_rm_text, IH. reflexivity.
Qed.
