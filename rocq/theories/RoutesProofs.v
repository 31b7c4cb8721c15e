(** Proofs about routing and refusals. *)
From Coq Require Import Ascii String.
From Verif Require Import Base Wire RefsHttp Str Json JsonSpec JsonProofs ConfigProofs Routes RoutesSpec.
Local Open Scope N_scope.

(** * Paths *)

Fixpoint joined (segs : list bytes) : bytes :=
  match segs with
  | [] => []
  | [s] => s
  | s :: segs => s ++ 47 :: joined segs
  end.
Definition plain (s : bytes) : Prop := s <> [] /\ ~ In 47 s.

Lemma segment_spec p : p = segment p /\ after p = [] \/ p = segment p ++ 47 :: after p.
Proof.
  induction p as [|c p IH]; [left; split; reflexivity|]. cbn. destruct (N.eqb_spec c 47) as [->|].
  - right. reflexivity.
  - destruct IH as [[E A]|E]; [left|right]; [split; [f_equal; exact E|exact A]|cbn; f_equal; exact E].
Qed.
Lemma segment_app s p : ~ In 47 s -> segment (s ++ 47 :: p) = s /\ after (s ++ 47 :: p) = p.
Proof.
  induction s as [|c s IH]; intros H; [split; reflexivity|]. cbn. destruct (N.eqb_spec c 47) as [->|].
  - exfalso. apply H. left. reflexivity.
  - destruct IH as [A B]; [intros X; apply H; right; exact X|]. rewrite A, B. split; reflexivity.
Qed.
Lemma segment_whole s : ~ In 47 s -> segment s = s /\ after s = [].
Proof.
  induction s as [|c s IH]; intros H; [split; reflexivity|]. cbn. destruct (N.eqb_spec c 47) as [->|].
  - exfalso. apply H. left. reflexivity.
  - destruct IH as [A B]; [intros X; apply H; right; exact X|]. rewrite A, B. split; reflexivity.
Qed.
Lemma enter_nil segs r : Forall plain segs -> enter segs [] = Some r -> segs = [] /\ r = [].
Proof.
  destruct segs as [|s segs]; cbn [enter segment after]; intros P H; [injection H as <-; split; reflexivity|].
  destruct (beq_spec [] s) as [<-|]; [|discriminate]. inversion_clear P as [|? ? [X _] _]. contradiction X. reflexivity.
Qed.
Lemma enter_iff segs : segs <> [] -> Forall plain segs -> forall p r,
  enter segs p = Some r <-> (p = joined segs /\ r = []) \/ p = joined segs ++ 47 :: r.
Proof.
  induction segs as [|s segs IH]; intros N P p r; [contradiction|]. inversion_clear P as [|? ? [S1 S2] P']. cbn [enter].
  destruct segs as [|s' segs].
  - cbn [enter joined]. split.
    + destruct (beq_spec (segment p) s) as [<-|]; [|discriminate]. intros H. injection H as <-. destruct (segment_spec p) as [[E A]|E]; [left; split; assumption|right; exact E].
    + intros [[-> ->]| ->].
      * destruct (segment_whole s S2) as [A B]. rewrite A, B, beq_refl. reflexivity.
      * destruct (segment_app s r S2) as [A B]. rewrite A, B, beq_refl. reflexivity.
  - specialize (IH ltac:(discriminate) P'). change (joined (s :: s' :: segs)) with (s ++ 47 :: joined (s' :: segs)). split.
    + destruct (beq_spec (segment p) s) as [<-|]; [|discriminate]. intros H. destruct (segment_spec p) as [[E A]|E].
      * rewrite A in H. destruct (enter_nil _ _ P' H) as [X _]. discriminate.
      * apply IH in H. destruct H as [[A ->]|A]; rewrite A in E; [left; split; [exact E|reflexivity]|right]. rewrite E at 1. rewrite <- app_assoc. reflexivity.
    + intros H. assert (E : exists t, p = s ++ 47 :: t /\ ((t = joined (s' :: segs) /\ r = []) \/ t = joined (s' :: segs) ++ 47 :: r)).
      { destruct H as [[-> ->]| ->]; [exists (joined (s' :: segs)); split; [reflexivity|left; split; reflexivity]|]. exists (joined (s' :: segs) ++ 47 :: r). split; [rewrite <- app_assoc; reflexivity|right; reflexivity]. }
      destruct E as (t & -> & E). destruct (segment_app s t S2) as [A B]. rewrite A, B, beq_refl. apply IH. exact E.
Qed.
Lemma enter_app a b p : enter (a ++ b) p = match enter a p with Some r => enter b r | None => None end.
Proof. revert p. induction a as [|s a IH]; intros p; [reflexivity|]. cbn. destruct (beq (segment p) s); [apply IH|reflexivity]. Qed.

(** * Filters *)

Definition leaf : Type := list bytes * bool * endpoint.
Fixpoint leaves (f : filter) : list leaf :=
  match f with
  | Path segs closed e => [(segs, closed, e)]
  | Under seg f => map (fun x => (seg :: fst (fst x), snd (fst x), snd x)) (leaves f)
  | Or a b => leaves a ++ leaves b
  end.
Definition matches (x : leaf) (p : bytes) : bool :=
  match enter (fst (fst x)) p with
  | None => false
  | Some rest => negb (snd (fst x) && negb (match rest with [] => true | _ => false end))
  end.
Lemma matches_under seg x p : matches (seg :: fst (fst x), snd (fst x), snd x) p =
  match enter [seg] p with Some r => matches x r | None => false end.
Proof. unfold matches. cbn [fst snd]. change (seg :: fst (fst x)) with ([seg] ++ fst (fst x)). rewrite enter_app. destruct (enter [seg] p); reflexivity. Qed.

Section Handlers.
  Variable handle : endpoint -> reply.
  Definition result (e : endpoint) : response + rejection := match call handle e with Reply r => inl r | Reject l => inr (Other l) end.
  Lemma run_none f : forall p, (forall x, In x (leaves f) -> matches x p = false) -> run handle f p = ([], inr NotFound).
  Proof.
    induction f as [segs closed e|seg f IH|a IHa b IHb]; intros p H; cbn [run].
    - specialize (H (segs, closed, e) (or_introl eq_refl)). unfold matches in H. cbn [fst snd] in H. destruct (enter segs p) as [r|]; [|reflexivity]. destruct (closed && _); [reflexivity|discriminate].
    - destruct (enter [seg] p) as [r|] eqn:E; [|reflexivity]. apply IH. intros x I. specialize (H (seg :: fst (fst x), snd (fst x), snd x)). rewrite matches_under, E in H. apply H. cbn [leaves]. apply (in_map (fun x => (seg :: fst (fst x), snd (fst x), snd x))). exact I.
    - rewrite IHa by (intros x I; apply H; cbn [leaves]; apply in_or_app; left; exact I). rewrite IHb by (intros x I; apply H; cbn [leaves]; apply in_or_app; right; exact I). reflexivity.
  Qed.
  Lemma run_one f : forall p x l1 l2, leaves f = l1 ++ x :: l2 -> matches x p = true ->
    (forall y, In y (l1 ++ l2) -> matches y p = false) -> run handle f p = ([snd x], result (snd x)).
  Proof.
    induction f as [segs closed e|seg f IH|a IHa b IHb]; intros p x l1 l2 L M H; cbn [run].
    - cbn [leaves] in L. destruct l1 as [|? l1]; [|destruct l1; discriminate]. injection L as <- <-. unfold matches in M. cbn [fst snd] in *. destruct (enter segs p) as [r|]; [|discriminate]. destruct (closed && _); [discriminate|reflexivity].
    - cbn [leaves] in L. destruct (map_eq_app _ _ _ _ L) as (m1 & m2 & Em & E1 & E2). apply map_eq_cons in E2. destruct E2 as (y & m3 & -> & <- & E3). rewrite matches_under in M. destruct (enter [seg] p) as [r|] eqn:E; [|discriminate].
      cbn [snd]. apply (IH r y m1 m3 Em M). intros z Z. specialize (H (seg :: fst (fst z), snd (fst z), snd z)). rewrite matches_under, E in H. apply H. rewrite <- E1, <- E3, <- map_app. apply (in_map (fun x => (seg :: fst (fst x), snd (fst x), snd x))). exact Z.
    - cbn [leaves] in L. destruct (Nat.lt_ge_cases (length l1) (length (leaves a))) as [Q|Q].
      + assert (exists l2', leaves a = l1 ++ x :: l2' /\ l2 = l2' ++ leaves b) as (l2' & La & ->).
        { exists (firstn (length (leaves a) - S (length l1)) l2). assert (X := f_equal (firstn (length (leaves a))) L). rewrite firstn_app, Nat.sub_diag, firstn_O, app_nil_r, firstn_all in X.
          rewrite firstn_app, (firstn_all2 l1) in X by lia. destruct (length (leaves a) - length l1)%nat as [|k] eqn:K; [lia|]. cbn [firstn] in X. replace (length (leaves a) - S (length l1))%nat with k by lia. split; [exact X|].
          rewrite X in L. rewrite <- app_assoc in L. apply app_inv_head in L. cbn [app] in L. injection L as L. symmetry. exact L. }
        rewrite (IHa p x l1 l2' La M) by (intros y Y; apply H; apply in_app_or in Y; apply in_or_app; destruct Y as [Y|Y]; [left; exact Y|right; apply in_or_app; left; exact Y]).
        rewrite (run_none b p) by (intros y Y; apply H; apply in_or_app; right; apply in_or_app; right; exact Y).
        destruct (result (snd x)) as [r|[|l]] eqn:R; [reflexivity| |reflexivity]. unfold result in R. destruct (call handle (snd x)); discriminate.
      + assert (exists l1', leaves b = l1' ++ x :: l2 /\ l1 = leaves a ++ l1') as (l1' & Lb & ->).
        { exists (skipn (length (leaves a)) l1). assert (X := f_equal (skipn (length (leaves a))) L). rewrite skipn_app, Nat.sub_diag, skipn_O, skipn_all in X. cbn [app] in X.
          rewrite skipn_app in X. replace (length (leaves a) - length l1)%nat with 0%nat in X by lia. split; [exact X|].
          rewrite X in L. rewrite app_assoc in L. change (skipn 0 (x :: l2)) with (x :: l2) in L. apply app_inv_tail in L. symmetry. exact L. }
        rewrite (run_none a p) by (intros y Y; apply H; rewrite <- app_assoc; apply in_or_app; left; exact Y).
        rewrite (IHb p x l1' l2 Lb M) by (intros y Y; apply H; rewrite <- app_assoc; apply in_or_app; right; exact Y).
        destruct (result (snd x)); reflexivity.
  Qed.
End Handlers.

(** * The table *)
Definition plainb (s : bytes) : bool := negb (match s with [] => true | _ => false end) && forallb (fun c => negb (c =? 47)) s.
Lemma plainb_spec s : plainb s = true -> plain s.
Proof.
  intros H. apply andb_prop in H as [A B]. split; [intros ->; discriminate|]. intros I. rewrite forallb_forall in B. specialize (B 47 I). discriminate.
Qed.
Definition base : bytes := text "/api/v0/".
Definition leaf_ok (x : leaf) : bool :=
  negb (match fst (fst x) with [] => true | _ => false end) && forallb plainb (fst (fst x)) &&
  beq (text (path_of (snd x))) (base ++ joined (fst (fst x))) && eqb (snd (fst x)) (negb (with_all_below (snd x))).
Lemma table_ok : forallb leaf_ok (leaves api) = true.
Proof. vm_compute. reflexivity. Qed.
Lemma in_table x : In x (leaves api) ->
  fst (fst x) <> [] /\ Forall plain (fst (fst x)) /\ text (path_of (snd x)) = base ++ joined (fst (fst x)) /\ snd (fst x) = negb (with_all_below (snd x)).
Proof.
  intros I. pose proof (proj1 (forallb_forall _ _) table_ok x I) as H. unfold leaf_ok in H.
  apply andb_prop in H as [H D]. apply andb_prop in H as [H C]. apply andb_prop in H as [A B].
  split; [intros E; rewrite E in A; discriminate|]. split; [|split; [apply beq_eq, C|apply eqb_prop, D]].
  apply Forall_forall. intros s S. apply plainb_spec. rewrite forallb_forall in B. apply B. exact S.
Qed.
Lemma all_there e : exists l1 x l2, leaves api = l1 ++ x :: l2 /\ snd x = e.
Proof.
  enough (H : In e (map snd (leaves api))).
  { apply in_map_iff in H as (x & E & I). apply in_split in I as (l1 & l2 & I). exists l1, x, l2. split; assumption. }
  destruct e; vm_compute; repeat (left; reflexivity) || (repeat first [left; reflexivity|right]).
Qed.
(** No path is matched by two of them. *)
Fixpoint is_prefix (a b : list bytes) : bool :=
  match a, b with
  | [], _ => true
  | x :: a, y :: b => beq x y && is_prefix a b
  | _, [] => false
  end.
Definition clash (x y : leaf) : bool :=
  if snd (fst x) then is_prefix (fst (fst x)) (fst (fst y)) && is_prefix (fst (fst y)) (fst (fst x))
  else is_prefix (fst (fst x)) (fst (fst y)).
Fixpoint no_clash (l : list leaf) : bool :=
  match l with
  | [] => true
  | x :: l => forallb (fun y => negb (clash x y || clash y x)) l && no_clash l
  end.
Lemma table_apart : no_clash (leaves api) = true.
Proof. vm_compute. reflexivity. Qed.
Lemma is_prefix_spec a b : is_prefix a b = true <-> exists c, b = a ++ c.
Proof.
  revert b. induction a as [|x a IH]; intros b; cbn; [split; [intros _; exists b; reflexivity|reflexivity]|].
  destruct b as [|y b]; [split; [discriminate|intros (c & E); discriminate]|].
  rewrite andb_true_iff, beq_eq, IH. split.
  - intros [-> (c & ->)]. exists c. reflexivity.
  - intros (c & E). injection E as -> ->. split; [reflexivity|exists c; reflexivity].
Qed.
Lemma enter_prefix a b p r1 r2 : (length a <= length b)%nat -> enter a p = Some r1 -> enter b p = Some r2 ->
  exists c, b = a ++ c /\ enter c r1 = Some r2.
Proof.
  revert b p. induction a as [|s a IH]; intros b p L A B.
  - injection A as ->. exists b. split; [reflexivity|exact B].
  - destruct b as [|t b]; [cbn in L; lia|]. cbn [enter] in A, B. destruct (beq_spec (segment p) s) as [<-|]; [|discriminate]. destruct (beq_spec (segment p) t) as [<-|]; [|discriminate].
    destruct (IH b (after p) ltac:(cbn in L; lia) A B) as (c & -> & C). exists c. split; [reflexivity|exact C].
Qed.
Lemma both_clash x y p : Forall plain (fst (fst x)) -> Forall plain (fst (fst y)) -> matches x p = true -> matches y p = true -> clash x y = true \/ clash y x = true.
Proof.
  enough (G : forall x y, (length (fst (fst x)) <= length (fst (fst y)))%nat -> Forall plain (fst (fst x)) -> Forall plain (fst (fst y)) -> matches x p = true -> matches y p = true -> clash x y = true).
  { intros A B C D. destruct (Nat.le_ge_cases (length (fst (fst x))) (length (fst (fst y)))); [left|right]; apply G; assumption. }
  clear x y. intros x y L A B C D. unfold matches in C, D. destruct (enter (fst (fst x)) p) as [r1|] eqn:E1; [|discriminate]. destruct (enter (fst (fst y)) p) as [r2|] eqn:E2; [|discriminate].
  destruct (enter_prefix _ _ _ _ _ L E1 E2) as (c & Ec & Er). unfold clash. destruct (snd (fst x)).
  - destruct r1; [|discriminate]. rewrite Ec in B. apply Forall_app in B as [_ B]. destruct (enter_nil _ _ B Er) as [-> _]. rewrite app_nil_r in Ec. rewrite Ec. rewrite (proj2 (is_prefix_spec _ _)) by (exists []; rewrite app_nil_r; reflexivity). reflexivity.
  - apply is_prefix_spec. exists c. exact Ec.
Qed.
Lemma no_clash_split l1 x l2 : no_clash (l1 ++ x :: l2) = true -> forall y, In y (l1 ++ l2) -> clash x y = false /\ clash y x = false.
Proof.
  induction l1 as [|z l1 IH]; cbn [app no_clash]; intros H y I; apply andb_prop in H as [H1 H2].
  - rewrite forallb_forall in H1. specialize (H1 y I). apply negb_true_iff in H1. apply orb_false_iff in H1. exact H1.
  - destruct I as [->|I]; [|apply IH; assumption]. rewrite forallb_forall in H1. specialize (H1 x ltac:(apply in_or_app; right; left; reflexivity)). apply negb_true_iff in H1. apply orb_false_iff in H1. tauto.
Qed.
Lemma matches_asks x p : In x (leaves api) -> (matches x p = true <-> asks (base ++ p) (snd x)).
Proof.
  intros I. destruct (in_table x I) as (A & B & C & D). unfold matches, asks. rewrite D. rewrite C. unfold text at 1 2. cbn [map list_ascii_of_string N_of_ascii N_of_digits].
  change (N_of_ascii "/") with 47. cbn [app]. split.
  - destruct (enter (fst (fst x)) p) as [r|] eqn:E; [|discriminate]. apply (enter_iff _ A B) in E. intros H. destruct E as [[-> ->]| ->]; [left; reflexivity|].
    destruct (with_all_below (snd x)); [right; right; split; [reflexivity|]; exists r; rewrite <- app_assoc; reflexivity|]. destruct r; [|discriminate]. right. left. rewrite <- app_assoc. reflexivity.
  - intros H. assert (E : exists r, enter (fst (fst x)) p = Some r /\ (r = [] \/ with_all_below (snd x) = true)).
    { destruct H as [H|[H|(W & t & H)]]; try rewrite <- app_assoc in H; apply app_inv_head in H.
      - exists []. split; [apply (enter_iff _ A B); left; split; [exact H|reflexivity]|left; reflexivity].
      - exists []. split; [apply (enter_iff _ A B); right; exact H|left; reflexivity].
      - exists t. split; [apply (enter_iff _ A B); right; exact H|right; exact W]. }
    destruct E as (r & -> & [-> | ->]); [rewrite andb_false_r|]; reflexivity.
Qed.
Lemma asks_base path e : asks path e -> exists p, path = base ++ p.
Proof.
  destruct (all_there e) as (l1 & x & l2 & L & <-). destruct (in_table x) as (_ & _ & C & _); [rewrite L; apply in_or_app; right; left; reflexivity|].
  unfold asks. rewrite C. intros [->|[->|(_ & t & ->)]]; [eexists; reflexivity| |]; rewrite <- app_assoc; eexists; reflexivity.
Qed.
Lemma asks_one path e1 e2 : asks path e1 -> asks path e2 -> e1 = e2.
Proof.
  intros A B. destruct (asks_base path e1 A) as (p & ->). destruct (all_there e1) as (l1 & x & l2 & L & E). destruct (all_there e2) as (m1 & y & m2 & M & F).
  assert (Ix : In x (leaves api)) by (rewrite L; apply in_or_app; right; left; reflexivity). assert (Iy : In y (leaves api)) by (rewrite M; apply in_or_app; right; left; reflexivity).
  rewrite <- E in A |- *. rewrite <- F in B |- *. apply (matches_asks x p Ix) in A. apply (matches_asks y p Iy) in B.
  destruct (both_clash x y p) as [H|H]; try assumption; [apply in_table, Ix|apply in_table, Iy| |];
    (pose proof Iy as J; rewrite L in J; apply in_app_or in J; destruct J as [J|[->|J]]; [|reflexivity|];
     destruct (no_clash_split l1 x l2 ltac:(rewrite <- L; exact table_apart) y ltac:(apply in_or_app; tauto)) as [X Y]; congruence).
Qed.
Lemma start_base p : enter [text "api"; text "v0"] (start (base ++ p)) = Some p.
Proof.
  apply enter_iff; [discriminate|repeat constructor; apply plainb_spec; reflexivity|]. right. reflexivity.
Qed.
Section Serve.
  Variable handle : endpoint -> reply.
  Definition answer (e : endpoint) : response := match call handle e with Reply r => r | Reject l => recover (Other l) end.
  Lemma serve_asked path e : asks path e -> serve handle (text "POST") path = ([e], answer e).
  Proof.
    intros A. destruct (asks_base path e A) as (p & ->). unfold serve. rewrite beq_refl, start_base. destruct (all_there e) as (l1 & x & l2 & L & E). pose proof A as A'. rewrite <- E in A'.
    assert (Ix : In x (leaves api)) by (rewrite L; apply in_or_app; right; left; reflexivity).
    rewrite (run_one handle api p x l1 l2 L).
    - rewrite E. unfold result, answer. destruct (call handle e); reflexivity.
    - apply (matches_asks x p Ix). exact A'.
    - intros y I. destruct (matches y p) eqn:M; [exfalso|reflexivity]. assert (Iy : In y (leaves api)) by (rewrite L; apply in_app_or in I; apply in_or_app; cbn; tauto).
      destruct (no_clash_split l1 x l2 ltac:(rewrite <- L; exact table_apart) y I) as [X Y]. apply (matches_asks x p Ix) in A'.
      destruct (both_clash x y p) as [H|H]; try assumption; [apply in_table, Ix|apply in_table, Iy|congruence|congruence].
  Qed.
  Lemma serve_unasked p : (forall e, ~ asks (47 :: p) e) -> serve handle (text "POST") (47 :: p) = ([], not_found).
  Proof.
    intros A. unfold serve. rewrite beq_refl. destruct (enter _ (start (47 :: p))) as [q|] eqn:E; [|reflexivity].
    rewrite run_none; [reflexivity|]. apply enter_iff in E; [|discriminate|repeat constructor; apply plainb_spec; reflexivity].
    intros x I. destruct (matches x q) eqn:M; [exfalso|reflexivity]. destruct E as [[_ ->]|E].
    - unfold matches in M. destruct (enter _ []) as [r|] eqn:X; [|discriminate]. destruct (in_table x I) as (N & P & _). apply enter_nil in X; [|exact P]. tauto.
    - apply (A (snd x)). apply (matches_asks x q I) in M. cbn [start] in E. rewrite E. exact M.
  Qed.
End Serve.

(** * Refusals *)
Lemma message_tells status msg : utf8 msg = true -> tells (r_body (message status msg)) msg.
Proof.
  intros U. apply document_iff. exists (message_body msg), []. split; [|split; [constructor|rewrite app_nil_r; reflexivity]].
  unfold message_body. apply v_object.
  assert (K : forall k v s l t, utf8 k = true -> value_text v s -> members_text l t -> members_text ((Some k, v) :: l) (json_string k ++ 58 :: s ++ 44 :: t)).
  { intros k v s l t Hk V M. replace (Some k) with (string_value (map spell1 k)) by (unfold string_value; rewrite spell_text, Hk; reflexivity). unfold json_string. cbn [app].
    apply (m_more [] (map spell1 k) _ [] v s [] l t); try constructor; try assumption. apply escape_chars. }
  assert (Z : forall k v s, utf8 k = true -> value_text v s -> members_text [(Some k, v)] (json_string k ++ 58 :: s ++ [125])).
  { intros k v s Hk V. replace (Some k) with (string_value (map spell1 k)) by (unfold string_value; rewrite spell_text, Hk; reflexivity). unfold json_string. cbn [app].
    apply (m_last [] (map spell1 k) _ [] v s []); try constructor; try assumption. apply escape_chars. }
  apply K; [reflexivity|apply json_string_text, U|]. apply (K _ _ [48]); [reflexivity|apply v_number; left; exists [48], [], []; repeat split; constructor|].
  apply Z; [reflexivity|apply json_string_text; reflexivity].
Qed.
Lemma find_in_some {A} (p : reason -> option A) l x : find_in p l = Some x -> exists r, holds l r /\ p r = Some x.
Proof.
  induction l as [r|a IHa b IHb]; cbn; intros H; [exists r; split; [reflexivity|exact H]|].
  destruct (find_in p a) as [y|]; [injection H as ->; destruct (IHa eq_refl) as (r & R & E); exists r; split; [left; exact R|exact E]|].
  destruct (IHb H) as (r & R & E). exists r. split; [right; exact R|exact E].
Qed.
Lemma find_in_none {A} (p : reason -> option A) l : find_in p l = None -> forall r, holds l r -> p r = None.
Proof.
  induction l as [r|a IHa b IHb]; cbn; intros H r' R; [subst; exact H|].
  destruct (find_in p a); [discriminate|]. destruct R as [R|R]; [apply IHa|apply IHb]; trivial.
Qed.
