(** Proofs about [HttpPins]. *)
From Verif Require Import Base Wire Cid CidProofs Text Ipld FMap BlockSpec FsPaths FsPathsProofs FsBlocks FsBlocksProofs PinSpec FsPins FsPinsProofs FsPinsReads PinnedRepo RefsHttp RefsHttpSpec RefsHttpProofs
  HttpOptions HttpOptionsProofs NodePins NodePinsSpec NodePinsProofs HttpBlockProofs HttpPins HttpPinsSpec.
From Verif Require HttpBlock RefsSpec PropsNodePins.
From Coq Require Import Permutation.
Local Open Scope N_scope.

(** * Lines *)
Definition ls_text (x : bytes * bytes) : bytes :=
  123 :: json_string k_cid_key ++ 58 :: json_string (fst x) ++ 44 :: json_string k_type_key ++ 58 :: json_string (snd x) ++ [125].
Lemma ls_line_text x : ls_line x = ls_text x ++ [10].
Proof. unfold ls_line, ls_text. rewrite <- !app_comm_cons. repeat (rewrite <- app_assoc; cbn [app]). reflexivity. Qed.
Lemma ls_text_no_newline x : ~ In 10 (ls_text x).
Proof.
  unfold ls_text. intros [X|X]; [discriminate|]. apply in_app_or in X as [X|[X|X]]; [exact (json_no_newline _ X)|discriminate|].
  apply in_app_or in X as [X|[X|X]]; [exact (json_no_newline _ X)|discriminate|].
  apply in_app_or in X as [X|[X|X]]; [exact (json_no_newline _ X)|discriminate|].
  apply in_app_or in X as [X|[X|[]]]; [exact (json_no_newline _ X)|discriminate].
Qed.
Lemma read_ls_text x : read_ls_line (ls_text x) = Some x.
Proof.
  destruct x as [a b]. unfold ls_text, json_string, read_ls_line. cbn [fst snd].
  match goal with |- context [expect ?p _] => change (123 :: (34 :: concat (map escape k_cid_key) ++ [34]) ++ 58 :: (34 :: concat (map escape a) ++ [34]) ++ 44 :: (34 :: concat (map escape k_type_key) ++ [34]) ++ 58 :: (34 :: concat (map escape b) ++ [34]) ++ [125])
    with (p ++ (concat (map escape a) ++ [34]) ++ ([44; 34; 84; 121; 112; 101; 34; 58; 34] ++ (concat (map escape b) ++ [34]) ++ [125])) end.
  rewrite expect_app. rewrite <- app_assoc. cbn [app]. rewrite read_quoted.
  change (44 :: 34 :: 84 :: 121 :: 112 :: 101 :: 34 :: 58 :: 34 :: (concat (map escape b) ++ [34]) ++ [125]) with ([44; 34; 84; 121; 112; 101; 34; 58; 34] ++ (concat (map escape b) ++ [34]) ++ [125]).
  rewrite expect_app. rewrite <- app_assoc. cbn [app]. rewrite read_quoted. reflexivity.
Qed.
Lemma read_ls_lines_body l : read_ls_body (concat (map ls_line l)) = Some l.
Proof.
  unfold read_ls_body. assert (H : lines (concat (map ls_line l)) = Some (map ls_text l)).
  { induction l as [|x l IH]; [reflexivity|]. cbn [map concat]. rewrite ls_line_text, <- app_assoc. cbn [app]. rewrite lines_line by apply ls_text_no_newline. rewrite IH. reflexivity. }
  rewrite H. clear H. induction l as [|x l IH]; [reflexivity|]. cbn [map read_ls_lines]. rewrite read_ls_text, IH. reflexivity.
Qed.

Lemma json_strings_length l : (length l <= length (json_strings l))%nat.
Proof.
  induction l as [|x l IH]; [cbn; lia|]. destruct l as [|y l].
  - cbn [json_strings]. rewrite app_length. cbn [length]. lia.
  - change (json_strings (x :: y :: l)) with (json_string x ++ 44 :: json_strings (y :: l)). rewrite app_length. change (length (44 :: json_strings (y :: l))) with (S (length (json_strings (y :: l)))).
    change (length (x :: y :: l)) with (S (length (y :: l))). lia.
Qed.
Lemma read_array_ok rest l : l <> [] -> forall steps, (length l <= steps)%nat -> read_array steps (json_strings l ++ rest) = Some (l, rest).
Proof.
  induction l as [|x l IH]; intros Hn steps Hs; [contradiction|]. destruct steps as [|steps]; [cbn in Hs; lia|]. cbn [read_array].
  destruct l as [|y l].
  - cbn [json_strings]. unfold json_string. change ((34 :: concat (map escape x) ++ [34]) ++ [93]) with (34 :: (concat (map escape x) ++ [34]) ++ [93]). rewrite <- app_comm_cons. cbn [expect N.eqb Pos.eqb].
    rewrite <- app_assoc, <- app_assoc. cbn [app]. rewrite read_quoted. reflexivity.
  - change (json_strings (x :: y :: l)) with (json_string x ++ 44 :: json_strings (y :: l)). unfold json_string. rewrite <- app_assoc. rewrite <- app_comm_cons. cbn [expect N.eqb Pos.eqb].
    rewrite <- app_assoc, <- app_comm_cons. change ([34] ++ 44 :: json_strings (y :: l) ++ rest) with (34 :: 44 :: json_strings (y :: l) ++ rest). rewrite read_quoted. cbn [N.eqb Pos.eqb]. change ([] ++ (44 :: json_strings (y :: l)) ++ rest) with (44 :: (json_strings (y :: l) ++ rest)). cbn iota beta. change (44 =? 93) with false. change (44 =? 44) with true. cbn iota. rewrite IH; [reflexivity|discriminate|cbn [length] in *; lia].
Qed.
Lemma read_pins_ok cs : cs <> [] -> read_pins (pins_json cs) = Some (map cid_to_text cs).
Proof.
  intros Hn. unfold read_pins, pins_json.
  match goal with |- context [expect ?p (123 :: ?x ++ 58 :: 91 :: ?r)] => change (expect p (123 :: x ++ 58 :: 91 :: r)) with (expect p (p ++ r)) end.
  rewrite expect_app. rewrite read_array_ok; [reflexivity|destruct cs; [contradiction|discriminate]|]. pose proof (json_strings_length (map cid_to_text cs)). rewrite app_length. lia.
Qed.

(** * Options *)
Lemma filter_named_spec v req : filter_named v = Some req <-> asked_type [v] req.
Proof.
  unfold filter_named, asked_type, n_all, n_direct, n_recursive, n_indirect.
  destruct (beq_spec v [97; 108; 108]) as [->|N1].
  { split; [intros [= <-]; left; auto|]. intros [[_ ->]|[[[=] _]|[[[=] _]|[[=] _]]]]. reflexivity. }
  destruct (beq_spec v [100; 105; 114; 101; 99; 116]) as [->|N2].
  { split; [intros [= <-]; right; left; auto|]. intros [[[[=]|[=]] _]|[[_ ->]|[[[=] _]|[[=] _]]]]. reflexivity. }
  destruct (beq_spec v [114; 101; 99; 117; 114; 115; 105; 118; 101]) as [->|N3].
  { split; [intros [= <-]; right; right; right; auto|]. intros [[[[=]|[=]] _]|[[[=] _]|[[[=] _]|[_ ->]]]]. reflexivity. }
  destruct (beq_spec v [105; 110; 100; 105; 114; 101; 99; 116]) as [->|N4].
  { split; [intros [= <-]; right; right; left; auto|]. intros [[[[=]|[=]] _]|[[[=] _]|[[_ ->]|[[=] _]]]]. reflexivity. }
  split; [discriminate|]. intros [[[[=]|[=]] _]|[[[=] _]|[[[=] _]|[[=] _]]]]; contradiction.
Qed.

(** * Order *)
Lemma in_order_perm {A} (l : list A) order : Permutation order (seq 0 (length l)) -> Permutation (in_order l order) l.
Proof.
  intros H. assert (G : forall a b, Permutation a b -> Permutation (in_order l a) (in_order l b)).
  { induction 1; cbn [in_order flat_map]; auto; [apply Permutation_app_head; assumption|rewrite !app_assoc; apply Permutation_app_tail, Permutation_app_comm|eapply perm_trans; eassumption]. }
  eapply perm_trans; [apply G, H|]. assert (E : forall pre rest, l = pre ++ rest -> in_order l (seq (length pre) (length rest)) = rest).
  { intros pre rest. revert pre. induction rest as [|x rest IH]; intros pre El; [reflexivity|]. cbn [length seq in_order flat_map].
    rewrite El at 1. rewrite nth_error_app2 by lia. rewrite Nat.sub_diag. cbn [nth_error app]. f_equal.
    specialize (IH (pre ++ [x])). rewrite app_length in IH. cbn [length] in IH. rewrite Nat.add_1_r in IH. apply IH. rewrite El, <- app_assoc. reflexivity. }
  pose proof (E [] l eq_refl) as E0. cbn [length] in E0. rewrite E0. apply Permutation_refl.
Qed.

(** * Listed cids *)
Section Listed.
  Variable ob : N -> bytes -> option bytes.
  Variable past : list pop.
  Variable f : fs.
  Hypothesis Hr : frep past f.
  Lemma list_files_incl req fl : forall ret ys ds rs, list_files req fl ret = (ys, ds, rs) -> forall c, In c ys \/ In c ds \/ In c rs -> In c (map fst fl).
  Proof.
    induction fl as [|[c [|]] fl IH]; intros ret ys ds rs; cbn [list_files].
    - intros [= <- <- <-] c [[]|[[]|[]]].
    - destruct (list_files req fl _) as [[ys' ds'] rs'] eqn:E. intros [= <- <- <-] x Hx. cbn [map fst].
      assert (x = c \/ In x ys' \/ In x ds' \/ In x rs') as [->|H]; [|left; reflexivity|right; eapply IH; [exact E|tauto]].
      destruct (_ && _); cbn in Hx; intuition.
    - destruct (list_files req fl _) as [[ys' ds'] rs'] eqn:E. intros [= <- <- <-] x Hx. cbn [map fst].
      assert (x = c \/ In x ys' \/ In x ds' \/ In x rs') as [->|H]; [|left; reflexivity|right; eapply IH; [exact E|tauto]].
      destruct (req_matches req Direct); cbn in Hx; intuition.
  Qed.
  Lemma list_indirect_incl rs : Forall wf_cid rs -> forall ret l ok, list_indirect ob f rs ret = (l, ok) -> Forall wf_cid l.
  Proof.
    induction 1 as [|r rs Hw HF IH]; intros ret l ok; cbn [list_indirect]; [intros [= <- <-]; constructor|].
    rewrite (read_refs_ok ob past f Hr r Hw).
    assert (Hrs : Forall wf_cid match recursive past r with Some rs0 => FsPins.once rs0 | None => [] end).
    { destruct (recursive past r) as [rs0|] eqn:E; [|constructor]. apply Forall_forall. intros x Hx. apply (proj1 (once_in _ _)) in Hx.
      destruct Hr as (_ & _ & _ & _ & H5). destruct (H5 _ _ E) as [_ H]. rewrite Forall_forall in H. apply H, Hx. }
    destruct (list_indirect ob f rs _) as [more ok'] eqn:E. intros [= <- <-]. apply Forall_app. split; [|eapply IH; exact E].
    apply Forall_forall. intros x Hx. apply fresh_in in Hx as [Hx _]. rewrite Forall_forall in Hrs. apply Hrs, Hx.
  Qed.
  Lemma pinfiles_wf c : In c (map fst (pinfiles f)) -> wf_cid c.
  Proof. intros H. apply in_map_iff in H as ([c' r] & <- & H). apply (pinfiles_in past f Hr) in H. apply H. Qed.
  Lemma list_wf req c m l ok : fs_pin_list ob f req = (l, ok) -> In (c, m) l -> wf_cid c.
  Proof.
    unfold fs_pin_list. destruct (list_files req (pinfiles f) []) as [[ys ds] rs] eqn:E. pose proof (list_files_incl _ _ _ _ _ _ E) as Hi.
    assert (Hfront : forall x y, In (x, y) (map (fun c => (c, Recursive)) ys ++ map (fun c => (c, Direct)) (fresh_ones ds ys)) -> wf_cid x).
    { intros x y Hx. apply pinfiles_wf, Hi. apply in_app_or in Hx as [Hx|Hx]; apply in_map_iff in Hx as (z & [= <- _] & Hz); [left; exact Hz|]. apply fresh_in in Hz as [Hz _]. auto. }
    destruct (req_matches req Indirect).
    - destruct (list_indirect ob f rs _) as [is ok'] eqn:E'. intros [= <- <-] H. apply in_app_or in H as [H|H]; [eapply Hfront, H|].
      apply in_map_iff in H as (z & [= <- _] & Hz). eapply Forall_forall; [|exact Hz]. eapply list_indirect_incl; [|exact E']. apply Forall_forall. intros x Hx. apply pinfiles_wf, Hi. auto.
    - intros [= <- <-]. apply Hfront.
  Qed.
End Listed.

(** * Pinning *)
Section Pins.
  Variable ob : N -> bytes -> option bytes.
  Variable decode : cid -> bytes -> outcome ipld unit.
  Variable checks : bool.
  Variable fuel : nat.
  Variable all : list nop.
  Hypothesis Hown : by_own_name decode all.
  Notation step := (fs_node_step ob decode checks fuel).
  Notation look s := (f_get (fst s)).
  Notation ninv := (ninv decode all).
  Notation can_walk := (PropsNodePins.can_walk decode fuel).
  Definition inv (s : fs * fs) (ps : list pop) : Prop := ninv s ps /\ unshadowed ps (snd s).

  Lemma pinned_iff s ps d : ninv s ps ->
    (pinned ps d = true <-> direct ps d = true \/ exists r, recursive ps r <> None /\ under (look s) decode r d).
  Proof.
    intros (Hs & Hp & Hk). split.
    - unfold pinned. intros H. apply orb_true_iff in H as [H|H]; [apply orb_true_iff in H as [H|H]|]; [|left; exact H|].
      + right. exists d. split; [destruct (recursive ps d); discriminate|apply under_root].
      + right. apply existsb_exists in H as (c & _ & Hr). unfold refers in Hr. destruct (recursive ps c) as [rs|] eqn:Ec; [|discriminate].
        apply existsb_exists in Hr as (e & He & Heq). destruct (cid_eqb_spec d e) as [->|]; [|discriminate]. exists c. split; [congruence|]. eapply Hk; eassumption.
    - intros [H|(r & Hr & Hu)]; [unfold pinned; rewrite H, orb_true_r; reflexivity|]. destruct (recursive ps r) as [rs|] eqn:E; [|contradiction].
      specialize (Hk r rs E). pose proof (kept_under _ _ _ _ _ _ Hk Hu) as Hd. exact (kept_pinned decode all ps (fst s) r rs d E Hk Hd).
  Qed.
  (** What pinning [c] is to pin. *)
  Definition adds (rec : bool) (s : fs * fs) (c d : cid) : Prop := if rec then under (look s) decode c d else d = c.
  Definition fine (rec : bool) (s : fs * fs) (c : cid) : Prop := if rec then complete (look s) decode c else look s c <> None.

  Lemma pin_step s ps c rec : inv s ps -> wf_cid c -> In (NPin c rec) all ->
    let '(s', a, acc) := step s (NPin c rec) in
    fst s' = fst s /\ inv s' (acc ++ ps) /\
    match a with
    | Done => fine rec s c /\ (rec = false -> recursive ps c = None /\ recursive (acc ++ ps) = recursive ps) /\
        forall d, pinned (acc ++ ps) d = true <-> pinned ps d = true \/ adds rec s c d
    | _ => s' = s /\ acc = []
    end.
  Proof.
    intros [Hinv Hun] Hc Hin. pose proof (inv_pin decode checks fuel all Hown s ps c rec Hc Hin Hinv) as H. pose proof Hinv as (Hs & Hp & Hk).
    unfold fs_node_step, node_step. cbn zeta in *.
    destruct (insert_call f_get decode checks fuel (fst s) c rec) as [o|a] eqn:Ei; cbn [pin_op] in *.
    2: { cbn [accepted app]. split; [reflexivity|]. split; [split; assumption|]. destruct a; auto. exfalso. unfold insert_call in Ei. destruct (f_get (fst s) c); [|discriminate].
         destruct (negb rec); [discriminate|]. destruct (decode c b) as [v|u|]; try discriminate. destruct (references _ _ _ _ _ _ _ _) as [[r|u|]|]; discriminate. }
    destruct (insert_call_ok decode checks fuel all Hown _ _ _ _ Hs Hc Ei) as [Ho Hcase]. unfold answered in *. pose proof (call_rep ps (snd s) o Hp Ho) as Hcall.
    destruct (fs_accepts ps o) eqn:Ea.
    2: { rewrite Hcall in *. cbn [fst snd accepted app] in *. split; [reflexivity|]. split; [split; [apply H|exact Hun]|]. destruct s; auto. }
    destruct Hcall as (f' & Ecall & Hf' & Hu'). rewrite Ecall in *. cbn [fst snd accepted app] in *. destruct H as [Hnew _]. split; [reflexivity|]. split; [split; [exact Hnew|cbn [snd]; auto]|].
    destruct o as [c'|c' r|c'|c' r]; try contradiction.
    - destruct Hcase as (-> & -> & Hg). split; [exact Hg|]. split; [intros _; split; [cbn [fs_accepts] in Ea; destruct (recursive ps c); [discriminate|reflexivity]|reflexivity]|].
      intros d. rewrite (pinned_iff _ _ d Hnew), (pinned_iff _ _ d Hinv). cbn [direct recursive fst adds]. destruct (cid_eqb_spec d c) as [->|Hd]; [|tauto]. tauto.
    - destruct Hcase as (-> & -> & _). pose proof Hnew as (_ & _ & Hk'). specialize (Hk' c (items r)). cbn [recursive fst] in Hk'. destruct (cid_eqb_spec c c) as [_|]; [|contradiction]. specialize (Hk' eq_refl).
      split; [|split; [discriminate|]].
      + intros d Hd. eapply kept_doc; [exact Hk'|]. eapply kept_under; eassumption.
      + intros d. rewrite (pinned_iff _ _ d Hnew), (pinned_iff _ _ d Hinv). cbn [direct recursive fst adds]. split.
        * intros [H|(x & Hx & Hxd)]; [destruct (cid_eqb d c); [discriminate|auto]|]. destruct (cid_eqb_spec x c) as [Exc|Exc]; [right; rewrite <- Exc; exact Hxd|left; right; eauto].
        * intros [[H|(x & Hx & Hxd)]|H].
          -- destruct (cid_eqb_spec d c) as [->|]; [|left; exact H]. right. exists c. destruct (cid_eqb_spec c c) as [_|]; [|contradiction]. split; [discriminate|apply under_root].
          -- right. exists x. split; [|exact Hxd]. destruct (cid_eqb x c); [discriminate|exact Hx].
          -- right. exists c. destruct (cid_eqb_spec c c) as [_|]; [|contradiction]. split; [discriminate|exact H].
  Qed.
  Definition acceptable (rec : bool) (s : fs * fs) (ps : list pop) (c : cid) : Prop :=
    if rec then can_walk s c /\ complete (look s) decode c else look s c <> None /\ recursive ps c = None.
  Lemma pin_step_accepts s ps c rec : inv s ps -> wf_cid c -> acceptable rec s ps c -> snd (fst (step s (NPin c rec))) = Done.
  Proof.
    intros [(Hs & Hp & Hk) _] Hc Ha. unfold fs_node_step, node_step. destruct rec; cbn [acceptable] in Ha.
    - destruct Ha as [[Hl (universe & Hu & Hf)] Hcomp].
      destruct (Hcomp c (under_root _ _ _)) as (v & data & Hg & Hv). destruct (references_ok f_get decode checks fuel (fst s) c v true universe) as (l & El); try assumption; [exists data; auto|].
      assert (Ei : insert_call f_get decode checks fuel (fst s) c true = inl (PinRec c (mk_refs l false))) by (unfold insert_call; rewrite Hg; cbn [negb]; rewrite Hv, El; reflexivity).
      rewrite Ei. destruct (insert_call_ok decode checks fuel all Hown _ _ _ _ Hs Hc Ei) as [Ho _]. cbn [pin_op]. unfold answered. pose proof (call_rep ps (snd s) _ Hp Ho) as Hcall.
      cbn [fs_accepts broken negb] in Hcall. destruct Hcall as (f' & -> & _). reflexivity.
    - destruct Ha as [Hg Hr]. unfold insert_call. destruct (f_get (fst s) c) as [data|] eqn:E; [|contradiction]. cbn [negb pin_op]. unfold answered.
      pose proof (call_rep ps (snd s) (PinDirect c) Hp (conj Hc (Forall_nil _))) as Hcall. cbn [fs_accepts] in Hcall. rewrite Hr in Hcall. cbn [is_some negb] in Hcall.
      destruct Hcall as (f' & -> & _). reflexivity.
  Qed.
  Lemma pin_all_spec rec l : Forall wf_cid l -> incl (map (fun c => NPin c rec) l) all -> forall s ps, inv s ps ->
    let (s', a) := pin_all ob decode checks fuel s rec l in
    fst s' = fst s /\ exists ps', inv s' ps' /\
    (forall d, pinned ps d = true -> pinned ps' d = true) /\
    (forall d, pinned ps' d = true -> pinned ps d = true \/ exists c, In c l /\ adds rec s c d) /\
    (a = Done -> forall c, In c l -> fine rec s c /\ (rec = false -> recursive ps c = None) /\ forall d, adds rec s c d -> pinned ps' d = true) /\
    ((forall c, In c l -> acceptable rec s ps c) -> a = Done).
  Proof.
    induction 1 as [|c l Hc HF IH]; intros Hi s ps Hinv; cbn [pin_all].
    - split; [reflexivity|]. exists ps. split; [exact Hinv|]. split; [auto|]. split; [auto|]. split; [intros _ c []|reflexivity].
    - pose proof (pin_step s ps c rec Hinv Hc (Hi _ (or_introl eq_refl))) as Hst. pose proof (pin_step_accepts s ps c rec Hinv Hc) as Hac.
      destruct (step s (NPin c rec)) as [[s1 a1] acc]. destruct Hst as (Ef & Hinv1 & Hans). cbn [fst snd] in Hac.
      assert (Hi' : incl (map (fun c => NPin c rec) l) all) by (intros x Hx; apply Hi; right; exact Hx).
      assert (Hstop : a1 <> Done -> s1 = s /\ acc = []) by (destruct a1; tauto).
      destruct a1.
      + destruct Hans as (Hfine & Hrec & Hpin). specialize (IH Hi' s1 (acc ++ ps) Hinv1). destruct (pin_all ob decode checks fuel s1 rec l) as [s2 a2].
        destruct IH as (E2 & ps' & Hinv2 & M1 & M2 & M3 & M4). unfold adds, fine, acceptable, PropsNodePins.can_walk in *. rewrite Ef in *. split; [exact E2|]. exists ps'. split; [exact Hinv2|].
        split; [intros d Hd; apply M1, Hpin; auto|]. split; [|split].
        * intros d Hd. apply M2 in Hd as [Hd|(x & Hx & Hxd)]; [|right; exists x; split; [right; exact Hx|exact Hxd]]. apply Hpin in Hd as [Hd|Hd]; [auto|]. right. exists c. split; [left; reflexivity|exact Hd].
        * intros -> x [<-|Hx].
          -- split; [exact Hfine|]. split; [apply Hrec|]. intros d Hd. apply M1, Hpin. auto.
          -- destruct (M3 eq_refl x Hx) as (F1 & F2 & F3). split; [exact F1|]. split; [|exact F3]. intros E. specialize (F2 E). destruct (Hrec E) as [_ Er]. congruence.
        * intros Hall. apply M4. intros x Hx. specialize (Hall x (or_intror Hx)). destruct rec; [exact Hall|]. destruct (Hrec eq_refl) as [_ Er]. rewrite Er. exact Hall.
      + destruct (Hstop ltac:(discriminate)) as [-> ->]. split; [reflexivity|]. exists ps. split; [exact Hinv|]. split; [auto|]. split; [auto|]. split; [discriminate|].
        intros Hall. exfalso. specialize (Hac (Hall c (or_introl eq_refl))). discriminate.
      + destruct (Hstop ltac:(discriminate)) as [-> ->]. cbn [app] in *. specialize (IH Hi' s ps Hinv). destruct (pin_all ob decode checks fuel s rec l) as [s2 a2].
        destruct IH as (E2 & ps' & Hinv2 & M1 & M2 & M3 & M4).
        assert (G : fst s2 = fst s /\ exists ps', inv s2 ps' /\ (forall d, pinned ps d = true -> pinned ps' d = true) /\ (forall d, pinned ps' d = true -> pinned ps d = true \/ exists x, In x (c :: l) /\ adds rec s x d)).
        { split; [exact E2|]. exists ps'. split; [exact Hinv2|]. split; [exact M1|]. intros d Hd. apply M2 in Hd as [Hd|(x & Hx & Hxd)]; [auto|]. right. exists x. split; [right; exact Hx|exact Hxd]. }
        assert (Hno : (forall x, In x (c :: l) -> acceptable rec s ps x) -> False) by (intros Hall; specialize (Hac (Hall c (or_introl eq_refl))); discriminate).
        destruct G as (G1 & ps2 & G2 & G3 & G4). destruct a2; (split; [exact G1|]; exists ps2; split; [exact G2|]; split; [exact G3|]; split; [exact G4|]; split; [discriminate|]; intros Hall; destruct (Hno Hall)).
      + destruct (Hstop ltac:(discriminate)) as [-> ->]. split; [reflexivity|]. exists ps. split; [exact Hinv|]. split; [auto|]. split; [auto|]. split; [discriminate|].
        intros Hall. exfalso. specialize (Hac (Hall c (or_introl eq_refl))). discriminate.
  Qed.

  Lemma unpin_step s ps c rec : inv s ps -> wf_cid c ->
    let '(s', a, acc) := step s (NUnpin c rec) in
    fst s' = fst s /\ inv s' (acc ++ ps) /\
    match a with
    | Done => (rec = true -> recursive ps c <> None \/ direct ps c = true) /\ (rec = false -> direct ps c = true) /\
        forall d, recursive (acc ++ ps) d = (if rec && cid_eqb d c then None else recursive ps d) /\ direct (acc ++ ps) d = (if cid_eqb d c then false else direct ps d)
    | _ => s' = s /\ acc = []
    end.
  Proof.
    intros [Hinv Hun] Hc. pose proof (inv_unpin decode checks fuel all Hown s ps c rec Hc Hinv) as H. pose proof Hinv as (Hs & Hp & Hk).
    unfold fs_node_step, node_step. cbn zeta in *.
    destruct (remove_call f_get decode checks fuel (fst s) c rec) as [o|a] eqn:Ei; cbn [pin_op] in *.
    2: { cbn [accepted app]. split; [reflexivity|]. split; [split; assumption|]. destruct a; auto. exfalso. unfold remove_call in Ei. destruct (negb rec); [discriminate|]. destruct (f_get (fst s) c); [|discriminate].
         destruct (decode c b) as [v|u|]; try discriminate. destruct (references _ _ _ _ _ _ _ _) as [[r|u|]|]; discriminate. }
    destruct (remove_call_ok decode checks fuel all Hown _ _ _ _ Hs Hc Ei) as [Ho Hcase]. unfold answered in *. pose proof (call_rep ps (snd s) o Hp Ho) as Hcall.
    destruct (fs_accepts ps o) eqn:Ea.
    2: { rewrite Hcall in *. cbn [fst snd accepted app] in *. split; [reflexivity|]. split; [split; [apply H|exact Hun]|]. destruct s; auto. }
    destruct Hcall as (f' & Ecall & Hf' & Hu'). rewrite Ecall in *. cbn [fst snd accepted app] in *. destruct H as [Hnew _]. split; [reflexivity|]. split; [split; [exact Hnew|cbn [snd]; auto]|].
    assert (Ho' : o = UnpinDirect c /\ rec = false \/ exists r, o = UnpinRec c r /\ rec = true).
    { unfold remove_call in Ei. destruct rec; cbn [negb] in Ei; [right|left; split; congruence]. destruct (f_get (fst s) c); [|discriminate]. destruct (decode c b); try discriminate.
      destruct (references _ _ _ _ _ _ _ _) as [[r|u|]|]; try discriminate. exists r. split; congruence. }
    destruct Ho' as [[-> ->]|(r & -> & ->)]; cbn [fs_accepts] in Ea; (split; [|split]).
    - discriminate.
    - auto.
    - intros d. cbn [recursive direct andb]. auto.
    - intros _. destruct (recursive ps c); [left; discriminate|right; exact Ea].
    - discriminate.
    - intros d. cbn [recursive direct andb]. auto.
  Qed.
  (** The whole history keeps the files apart. *)
  Lemma inv_all h : Forall nop_wf h -> incl h all -> forall s ps, inv s ps ->
    let (s', ps') := fs_node_run ob decode checks fuel s ps h in inv s' ps'.
  Proof.
    induction 1 as [|o h Ho HF IH]; intros Hi s ps Hinv; [exact Hinv|]. unfold fs_node_run. cbn [node_run].
    assert (G : let '(s', _, acc) := step s o in inv s' (acc ++ ps)).
    { destruct o as [b|c|c rec|c rec]; cbn in Ho.
      - pose proof (inv_step ob decode checks fuel all Hown s ps (NPut b) Ho (Hi _ (or_introl eq_refl)) (proj1 Hinv)) as H. unfold fs_node_step, node_step in *. destruct (f_put (fst s) b) as [f' r]. split; [exact H|apply Hinv].
      - pose proof (inv_step ob decode checks fuel all Hown s ps (NRemove c) Ho (Hi _ (or_introl eq_refl)) (proj1 Hinv)) as H. unfold fs_node_step, node_step in *.
        assert (Esnd : snd (fst (remove_block (fs_is_pinned ob) f_remove s c)) = snd s).
        { unfold remove_block. destruct (fs_is_pinned ob (snd s) c) as [[|]|]; try reflexivity. destruct (f_remove (fst s) c) as [b [[|]|u|]]; reflexivity. }
        destruct (remove_block (fs_is_pinned ob) f_remove s c) as [s' r]. split; [exact H|]. cbn [fst] in Esnd. rewrite Esnd. apply Hinv.
      - pose proof (pin_step s ps c rec Hinv Ho (Hi _ (or_introl eq_refl))) as H. destruct (step s (NPin c rec)) as [[s' a] acc]. apply H.
      - pose proof (unpin_step s ps c rec Hinv Ho) as H. destruct (step s (NUnpin c rec)) as [[s' a] acc]. apply H. }
    unfold fs_node_step in G. destruct (node_step f_get f_put f_remove (fs_is_pinned ob) fs_pin_call decode checks fuel s o) as [[s' a] acc].
    apply IH; [intros x Hx; apply Hi; right; exact Hx|exact G].
  Qed.
  Lemma inv_begin : inv ([], []) [].
  Proof. split; [apply inv_start|apply frep_nil]. Qed.
End Pins.
