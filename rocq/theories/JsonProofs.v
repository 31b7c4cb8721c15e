(** Lemmas about [Json]: the reader accepts exactly the grammar. *)
From Verif Require Import Base Wire Json JsonSpec.
Local Open Scope N_scope.

(** * White space *)
Lemma is_ws_spec c : is_ws c = true <-> In c [32; 9; 10; 13].
Proof. unfold is_ws. cbn [In]. split; intros H; [lia|]. destruct H as [<-|[<-|[<-|[<-|[]]]]]; reflexivity. Qed.
Lemma skip_ws_split s : exists w, spaces w /\ s = w ++ skip_ws s.
Proof.
  induction s as [|c s (w & W & E)]; [exists []; split; [constructor|reflexivity]|]. cbn [skip_ws].
  destruct (is_ws c) eqn:X.
  - exists (c :: w). split; [constructor; [apply is_ws_spec, X|exact W]|cbn [app]; f_equal; exact E].
  - exists []. split; [constructor|reflexivity].
Qed.
Lemma skip_ws_app w s : spaces w -> skip_ws (w ++ s) = skip_ws s.
Proof.
  induction w as [|c w IH]; intros W; [reflexivity|]. inversion W as [|? ? X W']; subst. cbn [app skip_ws].
  rewrite (proj2 (is_ws_spec c) X). apply IH, W'.
Qed.
Lemma skip_ws_head c s : is_ws c = false -> skip_ws (c :: s) = c :: s.
Proof. intros E. cbn [skip_ws]. rewrite E. reflexivity. Qed.
Lemma skip_ws_nil s : skip_ws s = [] -> spaces s.
Proof. intros E. destruct (skip_ws_split s) as (w & W & X). rewrite E, app_nil_r in X. subst. exact W. Qed.
Lemma spaces_skip w : spaces w -> skip_ws w = [].
Proof. intros W. rewrite <- (app_nil_r w), (skip_ws_app w [] W). reflexivity. Qed.
Lemma value_text_spaces w v s : spaces w -> value_text v s -> value_text v (w ++ s).
Proof. induction w as [|c w IH]; intros W H; [exact H|]. inversion W; subst. cbn [app]. apply v_space; [assumption|]. apply IH; assumption. Qed.

(** * Strings *)
Lemma hexval_spec c v : hexval c = Some v <-> hex c v.
Proof.
  unfold hexval, hex. destruct ((48 <=? c) && (c <=? 57)) eqn:A; [split; [intros H; injection H as <-; lia|intros H; f_equal; lia]|].
  destruct ((97 <=? c) && (c <=? 102)) eqn:B; [split; [intros H; injection H as <-; lia|intros H; f_equal; lia]|].
  destruct ((65 <=? c) && (c <=? 70)) eqn:C; [split; [intros H; injection H as <-; lia|intros H; f_equal; lia]|].
  split; [discriminate|lia].
Qed.
Lemma simple_escape_spec e c : simple_escape e = Some c <->
  In (e, c) [(34, 34); (92, 92); (47, 47); (98, 8); (102, 12); (110, 10); (114, 13); (116, 9)].
Proof.
  unfold simple_escape. split.
  - destruct (N.eqb_spec e 34) as [->|]; [intros H; injection H as <-; cbn; tauto|].
    destruct (N.eqb_spec e 92) as [->|]; [intros H; injection H as <-; cbn; tauto|].
    destruct (N.eqb_spec e 47) as [->|]; [intros H; injection H as <-; cbn; tauto|].
    destruct (N.eqb_spec e 98) as [->|]; [intros H; injection H as <-; cbn; tauto|].
    destruct (N.eqb_spec e 102) as [->|]; [intros H; injection H as <-; cbn; tauto|].
    destruct (N.eqb_spec e 110) as [->|]; [intros H; injection H as <-; cbn; tauto|].
    destruct (N.eqb_spec e 114) as [->|]; [intros H; injection H as <-; cbn; tauto|].
    destruct (N.eqb_spec e 116) as [->|]; [intros H; injection H as <-; cbn; tauto|]. discriminate.
  - cbn [In]. intros H. repeat (destruct H as [H|H]; [injection H as <- <-; reflexivity|]). destruct H.
Qed.
Lemma scan_sound n : forall s l r, (length s <= n)%nat -> scan s = Some (l, r) -> exists p, chars l p /\ s = p ++ r.
Proof.
  induction n as [|n IH]; intros s l r L H; [destruct s; [discriminate|cbn in L; lia]|].
  destruct s as [|c s]; [discriminate|]. cbn [length] in L. cbn [scan] in H.
  destruct (N.eqb_spec c 34) as [->|N1]; [injection H as <- <-; exists [34]; split; [constructor|reflexivity]|].
  destruct (N.eqb_spec c 92) as [->|N2].
  - destruct s as [|e s1]; [discriminate|]. cbn [length] in L. destruct (N.eqb_spec e 117) as [->|N3].
    + destruct s1 as [|a [|b [|c [|d s2]]]]; try discriminate. cbn [length] in L. destruct (hex4 a b c d) as [u|] eqn:X; [|discriminate].
      unfold hex4 in X. destruct (hexval a) as [va|] eqn:Ea; [|discriminate]. destruct (hexval b) as [vb|] eqn:Eb; [|discriminate]. destruct (hexval c) as [vc|] eqn:Ec; [|discriminate]. destruct (hexval d) as [vd|] eqn:Ed; [|discriminate]. injection X as <-.
      unfold push in H. destruct (scan s2) as [[l' r']|] eqn:Q; [|discriminate]. injection H as <- <-. destruct (IH s2 l' r' ltac:(lia) Q) as (p & C & ->).
      exists (92 :: 117 :: a :: b :: c :: d :: p). split; [|reflexivity]. apply hexval_spec in Ea, Eb, Ec, Ed. apply chars_unit; assumption.
    + destruct (simple_escape e) as [x|] eqn:X; [|discriminate]. unfold push in H. destruct (scan s1) as [[l' r']|] eqn:Q; [|discriminate]. injection H as <- <-. destruct (IH s1 l' r' ltac:(lia) Q) as (p & C & ->).
      exists (92 :: e :: p). split; [|reflexivity]. apply chars_escape; [apply simple_escape_spec, X|exact C].
  - destruct (N.ltb_spec c 32) as [|G]; [discriminate|]. unfold push in H. destruct (scan s) as [[l' r']|] eqn:Q; [|discriminate]. injection H as <- <-. destruct (IH s l' r' ltac:(lia) Q) as (p & C & ->).
    exists (c :: p). split; [|reflexivity]. apply chars_plain; assumption.
Qed.
Lemma scan_complete l p r : chars l p -> scan (p ++ r) = Some (l, r).
Proof.
  induction 1 as [|c l s N1 N2 G C IH|e c l s I C IH|a b c d va vb vc vd l s Ha Hb Hc Hd C IH]; cbn [app scan].
  - reflexivity.
  - destruct (N.eqb_spec c 34); [contradiction|]. destruct (N.eqb_spec c 92); [contradiction|]. destruct (N.ltb_spec c 32); [lia|]. rewrite IH. reflexivity.
  - change (92 =? 34) with false. change (92 =? 92) with true. cbv iota.
    assert (X : simple_escape e = Some c) by (apply simple_escape_spec, I). destruct (N.eqb_spec e 117) as [->|]; [discriminate|]. rewrite X, IH. reflexivity.
  - change (92 =? 34) with false. change (92 =? 92) with true. change (117 =? 117) with true. cbv iota. unfold hex4.
    apply hexval_spec in Ha, Hb, Hc, Hd. rewrite Ha, Hb, Hc, Hd, IH. reflexivity.
Qed.

(** * Numbers *)
Lemma is_digit_spec c : is_digit c = true <-> dig c.
Proof. unfold is_digit, dig. lia. Qed.
Lemma is_digit_false c : is_digit c = false <-> ~ dig c.
Proof. unfold is_digit, dig. lia. Qed.
Lemma skip_digits_split s : exists p, Forall dig p /\ s = p ++ skip_digits s.
Proof.
  induction s as [|c s (p & P & E)]; [exists []; split; [constructor|reflexivity]|]. cbn [skip_digits]. destruct (is_digit c) eqn:X.
  - exists (c :: p). split; [constructor; [apply is_digit_spec, X|exact P]|cbn [app]; f_equal; exact E].
  - exists []. split; [constructor|reflexivity].
Qed.
Definition no_digit (r : bytes) : Prop := match r with [] => True | c :: _ => ~ dig c end.
Lemma skip_digits_app p r : Forall dig p -> no_digit r -> skip_digits (p ++ r) = r.
Proof.
  induction p as [|c p IH]; intros P R.
  - cbn [app]. destruct r as [|c r]; [reflexivity|]. cbn [skip_digits]. rewrite (proj2 (is_digit_false c) R). reflexivity.
  - inversion P; subst. cbn [app skip_digits]. rewrite (proj2 (is_digit_spec c)) by assumption. apply IH; assumption.
Qed.
Lemma some_digits_sound s r : some_digits s = Some r -> exists p, digs p /\ s = p ++ r.
Proof.
  destruct s as [|c s]; [discriminate|]. cbn [some_digits]. destruct (is_digit c) eqn:X; [|discriminate]. intros H. injection H as <-.
  destruct (skip_digits_split s) as (p & P & E). exists (c :: p). split; [split; [discriminate|constructor; [apply is_digit_spec, X|exact P]]|cbn [app]; f_equal; exact E].
Qed.
Lemma some_digits_complete p r : digs p -> no_digit r -> some_digits (p ++ r) = Some r.
Proof.
  intros [Hne P] R. destruct p as [|c p]; [congruence|]. inversion P; subst. cbn [app some_digits]. rewrite (proj2 (is_digit_spec c)) by assumption. rewrite skip_digits_app by assumption. reflexivity.
Qed.
Lemma exponent_sound s r : exponent s = Some r -> exists p, exp_text p /\ s = p ++ r.
Proof.
  destruct s as [|c s]; [intros H; injection H as <-; exists []; split; [constructor|reflexivity]|]. cbn [exponent].
  destruct ((c =? 101) || (c =? 69)) eqn:X; [|intros H; injection H as <-; exists []; split; [constructor|reflexivity]].
  assert (E : In c [101; 69]) by (cbn; lia). destruct s as [|d s]; [discriminate|]. destruct ((d =? 43) || (d =? 45)) eqn:Y; intros H; destruct (some_digits_sound _ _ H) as (p & P & Q).
  - subst s. exists (c :: d :: p). split; [apply exp_signed; [exact E|cbn; lia|exact P]|reflexivity].
  - exists (c :: p). split; [apply exp_plain; assumption|]. cbn [app]. rewrite <- Q. reflexivity.
Qed.
(** What may follow a number. *)
Definition ends (r : bytes) : Prop := match r with [] => True | c :: _ => ~ dig c /\ c <> 46 /\ c <> 101 /\ c <> 69 end.
Lemma ends_no_digit r : ends r -> no_digit r.
Proof. destruct r; [trivial|]. cbn. tauto. Qed.
Lemma exponent_complete p r : exp_text p -> ends r -> exponent (p ++ r) = Some r.
Proof.
  intros P R. pose proof (ends_no_digit r R) as R'. destruct P as [|e s E D|e g s E G D]; cbn [app].
  - destruct r as [|c r]; [reflexivity|]. cbn [exponent]. cbn in R. replace ((c =? 101) || (c =? 69)) with false by lia. reflexivity.
  - cbn [exponent]. replace ((e =? 101) || (e =? 69)) with true by (cbn in E; lia). pose proof (some_digits_complete s r D R') as X.
    destruct D as [D1 D2]. destruct s as [|d s]; [congruence|]. cbn [app] in *. inversion D2; subst. unfold dig in *. replace ((d =? 43) || (d =? 45)) with false by lia. exact X.
  - cbn [exponent]. replace ((e =? 101) || (e =? 69)) with true by (cbn in E; lia). replace ((g =? 43) || (g =? 45)) with true by (cbn in G; lia). apply some_digits_complete; assumption.
Qed.
Lemma fraction_sound s r : fraction s = Some r -> exists f e, frac_text f /\ exp_text e /\ s = f ++ e ++ r.
Proof.
  destruct s as [|c s]; [intros H; injection H as <-; exists [], []; repeat split; constructor|]. cbn [fraction]. destruct (N.eqb_spec c 46) as [->|].
  - destruct (some_digits s) as [t|] eqn:X; [|discriminate]. intros H. destruct (some_digits_sound _ _ X) as (p & P & ->). destruct (exponent_sound _ _ H) as (e & E & ->). exists (46 :: p), e. split; [constructor; exact P|]. split; [exact E|]. reflexivity.
  - intros H. destruct (exponent_sound _ _ H) as (e & E & Q). exists [], e. split; [constructor|]. split; [exact E|exact Q].
Qed.
Lemma exp_no_digit e r : exp_text e -> ends r -> no_digit (e ++ r) /\ (match e ++ r with c :: _ => c <> 46 | [] => True end).
Proof.
  intros E R. destruct E as [|e s E D|e g s E G D]; cbn [app no_digit].
  - destruct r; [split; exact Logic.I|]. cbn in R |- *. tauto.
  - cbn in E. unfold dig. lia.
  - cbn in E. unfold dig. lia.
Qed.
Lemma fraction_complete f e r : frac_text f -> exp_text e -> ends r -> fraction (f ++ e ++ r) = Some r.
Proof.
  intros F E R. pose proof (exponent_complete e r E R) as X. destruct (exp_no_digit e r E R) as [Y Z]. destruct F as [|s D]; cbn [app].
  - destruct (e ++ r) as [|c t] eqn:Q; [destruct r; [reflexivity|destruct e; discriminate]|]. cbn [fraction]. destruct (N.eqb_spec c 46); [contradiction|]. exact X.
  - cbn [fraction]. change (46 =? 46) with true. cbv iota. rewrite (some_digits_complete s (e ++ r) D Y). exact X.
Qed.
Lemma frac_no_digit f e r : frac_text f -> exp_text e -> ends r -> no_digit (f ++ e ++ r).
Proof. intros F E R. destruct F; cbn [app]; [apply (exp_no_digit e r E R)|cbn; unfold dig; lia]. Qed.
Lemma integer_sound s r : integer s = Some r -> exists p, unsigned_text p /\ s = p ++ r.
Proof.
  destruct s as [|c s]; [discriminate|]. cbn [integer]. destruct (N.eqb_spec c 48) as [->|Hne].
  - destruct s as [|d s].
    + intros H. injection H as <-. exists [48]. split; [exists [48], [], []; repeat split; constructor|reflexivity].
    + destruct (is_digit d) eqn:X; [discriminate|]. intros H. destruct (fraction_sound _ _ H) as (f & e & F & E & Q). exists ([48] ++ f ++ e). split; [exists [48], f, e; repeat split; [constructor|exact F|exact E]|]. rewrite Q, <- !app_assoc. reflexivity.
  - destruct (is_digit c) eqn:X; [|discriminate]. intros H. destruct (fraction_sound _ _ H) as (f & e & F & E & Q). destruct (skip_digits_split s) as (p & P & Y).
    exists ((c :: p) ++ f ++ e). split; [exists (c :: p), f, e; repeat split; [constructor; [unfold is_digit in X; lia|exact P]|exact F|exact E]|]. rewrite Y, Q. cbn [app]. rewrite <- !app_assoc. reflexivity.
Qed.
Lemma integer_complete p r : unsigned_text p -> ends r -> integer (p ++ r) = Some r.
Proof.
  intros (i & f & e & HI & F & E & ->) R. pose proof (fraction_complete f e r F E R) as X. pose proof (frac_no_digit f e r F E R) as Y. rewrite <- !app_assoc.
  destruct HI as [|c s C P]; cbn [app integer].
  - change (48 =? 48) with true. cbv iota. destruct (f ++ e ++ r) as [|d t] eqn:Q; [injection X as <-; reflexivity|]. rewrite (proj2 (is_digit_false d) Y). exact X.
  - destruct (N.eqb_spec c 48); [lia|]. replace (is_digit c) with true by (unfold is_digit; lia). rewrite skip_digits_app by assumption. exact X.
Qed.
Lemma unsigned_head p : unsigned_text p -> exists c t, p = c :: t /\ dig c.
Proof. intros (i & f & e & HI & _ & _ & ->). destruct HI as [|c s C P]; eexists _, _; (split; [reflexivity|unfold dig; lia]). Qed.
Lemma number_sound s r : number s = Some r -> exists p, number_text p /\ s = p ++ r.
Proof.
  destruct s as [|c s]; [discriminate|]. cbn [number]. destruct (N.eqb_spec c 45) as [->|]; intros H; destruct (integer_sound _ _ H) as (p & P & E).
  - exists (45 :: p). split; [right; exists p; split; [exact P|reflexivity]|cbn [app]; f_equal; exact E].
  - exists p. split; [left; exact P|exact E].
Qed.
Lemma number_complete p r : number_text p -> ends r -> number (p ++ r) = Some r.
Proof.
  intros [P|(t & P & ->)] R.
  - pose proof (integer_complete p r P R) as X. destruct (unsigned_head p P) as (c & t & -> & D). cbn [app number] in *. unfold dig in D. destruct (N.eqb_spec c 45); [lia|]. exact X.
  - cbn [app number]. change (45 =? 45) with true. apply integer_complete; assumption.
Qed.
Lemma number_head p : number_text p -> exists c t, p = c :: t /\ (c = 45 \/ dig c).
Proof. intros [P|(t & P & ->)]; [destruct (unsigned_head p P) as (c & t & -> & D); eauto|eauto]. Qed.

(** * Soundness *)
Lemma literal_sound p : forall s r, literal p s = Some r -> s = p ++ r.
Proof.
  induction p as [|x p IH]; intros s r H; [injection H as ->; reflexivity|]. destruct s as [|y s]; [discriminate|]. cbn [literal] in H. destruct (N.eqb_spec x y) as [->|]; [|discriminate]. cbn [app]. f_equal. apply IH, H.
Qed.
Lemma literal_complete p r : literal p (p ++ r) = Some r.
Proof. induction p as [|x p IH]; [reflexivity|]. cbn [app literal]. rewrite N.eqb_refl. exact IH. Qed.
Lemma consumed (p r : bytes) : firstn (length (p ++ r) - length r) (p ++ r) = p.
Proof. rewrite app_length, Nat.add_sub, firstn_app, Nat.sub_diag, firstn_all, firstn_O, app_nil_r. reflexivity. Qed.
Lemma sound_all f :
  (forall s v r, value f s = Some (v, r) -> exists p, value_text v p /\ s = p ++ r) /\
  (forall s l r, elements f s = Some (l, r) -> exists p, elements_text l p /\ s = p ++ r) /\
  (forall s l r, members f s = Some (l, r) -> exists p, members_text l p /\ s = p ++ r).
Proof.
  induction f as [|f (IHv & IHe & IHm)]; [repeat split; discriminate|]. split; [|split].
  - intros s v r H. cbn [value] in H. destruct (skip_ws_split s) as (w & W & E). destruct (skip_ws s) as [|c t]; [discriminate|].
    enough (G : exists p, value_text v p /\ c :: t = p ++ r).
    { destruct G as (p & P & Q). exists (w ++ p). split; [apply value_text_spaces; assumption|]. rewrite E, Q, app_assoc. reflexivity. }
    clear s w W E. destruct (N.eqb_spec c 34) as [->|].
    { destruct (scan t) as [[l u]|] eqn:X; [|discriminate]. injection H as <- <-. destruct (scan_sound (length t) t l u ltac:(lia) X) as (p & P & ->). exists (34 :: p). split; [constructor; exact P|reflexivity]. }
    destruct (N.eqb_spec c 91) as [->|].
    { destruct (skip_ws_split t) as (w & W & E). destruct (skip_ws t) as [|d u] eqn:Y; [discriminate|]. destruct (N.eqb_spec d 93) as [->|].
      - injection H as <- <-. exists (91 :: w ++ [93]). split; [constructor; exact W|]. rewrite E. cbn [app]. rewrite <- app_assoc. reflexivity.
      - destruct (elements f t) as [[l u']|] eqn:X; [|discriminate]. injection H as <- <-. destruct (IHe t l u' X) as (p & P & ->). exists (91 :: p). split; [constructor; exact P|reflexivity]. }
    destruct (N.eqb_spec c 123) as [->|].
    { destruct (skip_ws_split t) as (w & W & E). destruct (skip_ws t) as [|d u] eqn:Y; [discriminate|]. destruct (N.eqb_spec d 125) as [->|].
      - injection H as <- <-. exists (123 :: w ++ [125]). split; [constructor; exact W|]. rewrite E. cbn [app]. rewrite <- app_assoc. reflexivity.
      - destruct (members f t) as [[l u']|] eqn:X; [|discriminate]. injection H as <- <-. destruct (IHm t l u' X) as (p & P & ->). exists (123 :: p). split; [constructor; exact P|reflexivity]. }
    unfold a_literal in H.
    destruct (N.eqb_spec c 110) as [->|].
    { destruct (literal [117; 108; 108] t) as [u|] eqn:X; [|discriminate]. injection H as <- <-. exists null_text. split; [apply v_null|]. rewrite (literal_sound _ _ _ X). reflexivity. }
    destruct (N.eqb_spec c 116) as [->|].
    { destruct (literal [114; 117; 101] t) as [u|] eqn:X; [|discriminate]. injection H as <- <-. exists true_text. split; [apply v_true|]. rewrite (literal_sound _ _ _ X). reflexivity. }
    destruct (N.eqb_spec c 102) as [->|].
    { destruct (literal [97; 108; 115; 101] t) as [u|] eqn:X; [|discriminate]. injection H as <- <-. exists false_text. split; [apply v_false|]. rewrite (literal_sound _ _ _ X). reflexivity. }
    destruct (number (c :: t)) as [u|] eqn:X; [|discriminate]. destruct (number_sound _ _ X) as (p & P & Q). rewrite Q, (consumed p u) in H. injection H as <- <-. exists p. split; [constructor; exact P|exact Q].
  - intros s l r H. cbn [elements] in H. destruct (value f s) as [[v u]|] eqn:X; [|discriminate]. destruct (IHv _ _ _ X) as (p & P & ->).
    destruct (skip_ws_split u) as (w & W & E). destruct (skip_ws u) as [|c t]; [discriminate|]. destruct (N.eqb_spec c 44) as [->|].
    + unfold push in H. destruct (elements f t) as [[l' r']|] eqn:Y; [|discriminate]. injection H as <- <-. destruct (IHe _ _ _ Y) as (q & Q & ->). exists (p ++ w ++ 44 :: q). split; [constructor; assumption|]. rewrite E, <- !app_assoc. reflexivity.
    + destruct (N.eqb_spec c 93) as [->|]; [|discriminate]. injection H as <- <-. exists (p ++ w ++ [93]). split; [constructor; assumption|]. rewrite E, <- !app_assoc. reflexivity.
  - intros s l r H. cbn [members] in H. destruct (skip_ws_split s) as (w1 & W1 & E1). destruct (skip_ws s) as [|q t]; [discriminate|]. destruct (N.eqb_spec q 34) as [->|]; [|discriminate].
    destruct (scan t) as [[k u]|] eqn:X; [|discriminate]. destruct (scan_sound (length t) t k u ltac:(lia) X) as (ks & K & ->). destruct (skip_ws_split u) as (w2 & W2 & E2). destruct (skip_ws u) as [|c r2]; [discriminate|]. destruct (N.eqb_spec c 58) as [->|]; [|discriminate].
    destruct (value f r2) as [[v r3]|] eqn:Y; [|discriminate]. destruct (IHv _ _ _ Y) as (p & P & ->). destruct (skip_ws_split r3) as (w3 & W3 & E3). destruct (skip_ws r3) as [|d t]; [discriminate|]. destruct (N.eqb_spec d 44) as [->|].
    + unfold push in H. destruct (members f t) as [[l' r']|] eqn:Z; [|discriminate]. injection H as <- <-. destruct (IHm _ _ _ Z) as (m & M & ->). exists (w1 ++ 34 :: ks ++ w2 ++ 58 :: p ++ w3 ++ 44 :: m). split; [constructor; assumption|].
      rewrite E1, E2, E3. repeat rewrite <- ?app_assoc, <- ?app_comm_cons. reflexivity.
    + destruct (N.eqb_spec d 125) as [->|]; [|discriminate]. injection H as <- <-. exists (w1 ++ 34 :: ks ++ w2 ++ 58 :: p ++ w3 ++ [125]). split; [constructor; assumption|].
      rewrite E1, E2, E3. repeat rewrite <- ?app_assoc, <- ?app_comm_cons. reflexivity.
Qed.

(** * Completeness *)
Scheme value_text_ind' := Induction for value_text Sort Prop
  with elements_text_ind' := Induction for elements_text Sort Prop
  with members_text_ind' := Induction for members_text Sort Prop.
Combined Scheme text_ind from value_text_ind', elements_text_ind', members_text_ind'.

Lemma value_head v s : value_text v s -> exists w c t, spaces w /\ s = w ++ c :: t /\ is_ws c = false /\ c <> 93 /\ c <> 125.
Proof.
  induction 1 as [c v s C _ (w & d & t & W & -> & D)| | | |s P|l s C|w W|l s E|w W|l s M].
  - exists (c :: w), d, t. split; [constructor; assumption|]. split; [reflexivity|exact D].
  - exists [], 110, [117; 108; 108]. repeat split; try constructor; lia.
  - exists [], 116, [114; 117; 101]. repeat split; try constructor; lia.
  - exists [], 102, [97; 108; 115; 101]. repeat split; try constructor; lia.
  - destruct (number_head s P) as (c & t & -> & D). exists [], c, t. unfold is_ws, dig in *. repeat split; try constructor; try lia; destruct D; lia.
  - exists [], 34, s. repeat split; try constructor; lia.
  - exists [], 91, (w ++ [93]). repeat split; try constructor; lia.
  - exists [], 91, s. repeat split; try constructor; lia.
  - exists [], 123, (w ++ [125]). repeat split; try constructor; lia.
  - exists [], 123, s. repeat split; try constructor; lia.
Qed.
Lemma ends_spaces w c r : spaces w -> c = 44 \/ c = 93 \/ c = 125 -> ends (w ++ c :: r).
Proof.
  intros W C. destruct W as [|x w X W]; cbn [app ends].
  - unfold dig. lia.
  - cbn in X. unfold dig. lia.
Qed.
Lemma complete_all :
  (forall v p, value_text v p -> forall f r, (2 * length p <= f)%nat -> ((exists n, v = JNum n) -> ends r) -> value f (p ++ r) = Some (v, r)) /\
  (forall l p, elements_text l p -> forall f r, (2 * length p <= f)%nat -> elements f (p ++ r) = Some (l, r)) /\
  (forall l p, members_text l p -> forall f r, (2 * length p <= f)%nat -> members f (p ++ r) = Some (l, r)).
Proof.
  apply text_ind.
  - intros c v s C P IH f r L R. cbn [length] in L. rewrite <- (IH f r ltac:(lia) R). cbn [app]. destruct f as [|f]; [reflexivity|]. cbn [value]. cbn [skip_ws]. rewrite (proj2 (is_ws_spec c) C). reflexivity.
  - intros [|f] r L _; [cbn in L; lia|]. reflexivity.
  - intros [|f] r L _; [cbn in L; lia|]. reflexivity.
  - intros [|f] r L _; [cbn in L; lia|]. reflexivity.
  - intros s P f r L R. pose proof (number_complete s r P (R (ex_intro _ s eq_refl))) as X. pose proof (consumed s r) as Z. destruct (number_head s P) as (c & t & -> & D). cbn [app] in *. destruct f as [|f]; [cbn in L; lia|]. cbn [value]. unfold dig in D.
    rewrite skip_ws_head by (unfold is_ws; lia). destruct (N.eqb_spec c 34); [lia|]. destruct (N.eqb_spec c 91); [lia|]. destruct (N.eqb_spec c 123); [lia|]. destruct (N.eqb_spec c 110); [lia|]. destruct (N.eqb_spec c 116); [lia|]. destruct (N.eqb_spec c 102); [lia|]. rewrite X, Z. reflexivity.
  - intros l s C [|f] r L _; [cbn in L; lia|]. cbn [app value]. rewrite skip_ws_head by reflexivity. change (34 =? 34) with true. cbv iota. rewrite (scan_complete l s r C). reflexivity.
  - intros w W [|f] r L _; [cbn in L; lia|]. cbn [app value]. rewrite skip_ws_head by reflexivity. change (91 =? 34) with false. change (91 =? 91) with true. cbv iota. rewrite <- app_assoc, (skip_ws_app w _ W). reflexivity.
  - intros l s E IH [|f] r L _; [cbn in L; lia|]. cbn [length] in L. cbn [app value]. rewrite skip_ws_head by reflexivity. change (91 =? 34) with false. change (91 =? 91) with true. cbv iota.
    rewrite (IH f r) by lia.
    assert (H : exists w c t, spaces w /\ s = w ++ c :: t /\ is_ws c = false /\ c <> 93).
    { destruct E as [v s w V W|v s w l t V W E]; destruct (value_head v s V) as (w' & c & u & W' & -> & D1 & D2 & _); eexists w', c, _; (split; [exact W'|split; [rewrite <- app_assoc; reflexivity|split; assumption]]). }
    destruct H as (w & c & t & W & -> & D1 & D2). rewrite <- app_assoc, (skip_ws_app w _ W). cbn [app]. rewrite skip_ws_head by exact D1. destruct (N.eqb_spec c 93); [contradiction|]. reflexivity.
  - intros w W [|f] r L _; [cbn in L; lia|]. cbn [app value]. rewrite skip_ws_head by reflexivity. change (123 =? 34) with false. change (123 =? 91) with false. change (123 =? 123) with true. cbv iota. rewrite <- app_assoc, (skip_ws_app w _ W). reflexivity.
  - intros l s M IH [|f] r L _; [cbn in L; lia|]. cbn [length] in L. cbn [app value]. rewrite skip_ws_head by reflexivity. change (123 =? 34) with false. change (123 =? 91) with false. change (123 =? 123) with true. cbv iota.
    rewrite (IH f r) by lia.
    assert (H : exists w t, spaces w /\ s = w ++ 34 :: t) by (destruct M as [w1 ? ? ? ? ? ? W1|w1 ? ? ? ? ? ? ? ? W1]; exists w1; eexists; (split; [exact W1|reflexivity])).
    destruct H as (w & t & W & ->). rewrite <- app_assoc, (skip_ws_app w _ W). cbn [app]. rewrite skip_ws_head by reflexivity. reflexivity.
  - intros v s w V IH W [|f] r L; [rewrite !app_length in L; cbn in L; lia|]. rewrite !app_length in L. cbn [length] in L. cbn [elements]. rewrite <- !app_assoc. cbn [app].
    rewrite (IH f (w ++ 93 :: r)) by (try lia; intros _; apply ends_spaces; tauto). rewrite (skip_ws_app w _ W), skip_ws_head by reflexivity. reflexivity.
  - intros v s w l t V IH W E IHe [|f] r L; [rewrite !app_length in L; cbn in L; lia|]. rewrite !app_length in L. cbn [length] in L. cbn [elements]. rewrite <- !app_assoc. cbn [app].
    rewrite (IH f (w ++ 44 :: t ++ r)) by (try lia; intros _; apply ends_spaces; tauto). rewrite (skip_ws_app w _ W), skip_ws_head by reflexivity. change (44 =? 44) with true. cbv iota. rewrite (IHe f r) by lia. reflexivity.
  - intros w1 k ks w2 v s w3 W1 K W2 V IH W3 [|f] r L; [rewrite !app_length in L; cbn in L; lia|]. rewrite !app_length in L; cbn [length] in L; rewrite !app_length in L; cbn [length] in L; rewrite !app_length in L; cbn [length] in L.
    cbn [members]. repeat rewrite <- ?app_assoc, <- ?app_comm_cons. rewrite (skip_ws_app w1 _ W1), skip_ws_head by reflexivity. change (34 =? 34) with true. cbv iota. rewrite (scan_complete k ks _ K), (skip_ws_app w2 _ W2), skip_ws_head by reflexivity. change (58 =? 58) with true. cbv iota.
    change ([125] ++ r) with (125 :: r); cbn [app]; rewrite (IH f (w3 ++ 125 :: r)) by (try lia; intros _; apply ends_spaces; tauto). rewrite (skip_ws_app w3 _ W3). cbn [app]. rewrite skip_ws_head by reflexivity. reflexivity.
  - intros w1 k ks w2 v s w3 l t W1 K W2 V IH W3 M IHm [|f] r L; [rewrite !app_length in L; cbn in L; lia|]. rewrite !app_length in L; cbn [length] in L; rewrite !app_length in L; cbn [length] in L; rewrite !app_length in L; cbn [length] in L.
    cbn [members]. repeat rewrite <- ?app_assoc, <- ?app_comm_cons. rewrite (skip_ws_app w1 _ W1), skip_ws_head by reflexivity. change (34 =? 34) with true. cbv iota. rewrite (scan_complete k ks _ K), (skip_ws_app w2 _ W2), skip_ws_head by reflexivity. change (58 =? 58) with true. cbv iota.
    rewrite (IH f (w3 ++ 44 :: t ++ r)) by (try lia; intros _; apply ends_spaces; tauto). rewrite (skip_ws_app w3 _ W3). cbn [app]. rewrite skip_ws_head by reflexivity. change (44 =? 44) with true. cbv iota. rewrite (IHm f r) by lia. reflexivity.
Qed.

(** * Documents *)
Lemma document_iff s v : document s = Some v <-> document_text v s.
Proof.
  unfold document. split.
  - destruct (value _ s) as [[v' r]|] eqn:X; [|discriminate]. destruct (skip_ws r) eqn:Y; [|discriminate]. intros H. injection H as ->. destruct (proj1 (sound_all _) _ _ _ X) as (p & P & E). exists p, r. repeat split; [exact P|apply skip_ws_nil, Y|exact E].
  - intros (p & w & P & W & ->). rewrite (proj1 complete_all v p P); [rewrite (spaces_skip w W); reflexivity|rewrite app_length; lia|]. intros _. destruct W as [|c w C W]; [exact Logic.I|]. cbn in C. cbn. unfold dig. lia.
Qed.
(** A document which is not a number ends with its last character: no proper beginning of the value is
    one, and no continuation but white space. *)
Lemma value_text_prefix v p t v' : value_text v p -> value_text v' (p ++ t) -> (forall n, v <> JNum n) -> t = [].
Proof.
  intros P Q H. pose proof (proj1 complete_all v p P (2 * length (p ++ t))%nat t ltac:(rewrite app_length; lia) ltac:(intros (n & E); exfalso; exact (H n E))) as X.
  pose proof (proj1 complete_all v' _ Q (2 * length (p ++ t))%nat [] ltac:(lia) ltac:(intros; exact Logic.I)) as Y. rewrite app_nil_r in Y. congruence.
Qed.

(** * What a string says *)
Lemma some_eq {A} (a b : A) : Some a = Some b -> b = a.
Proof. intros H. injection H as ->. reflexivity. Qed.
Lemma utf8_char_encode c : c < 1114112 -> utf8_char c (encode_utf8 c).
Proof.
  intros H. unfold encode_utf8. assert (M : forall x, x mod 64 < 64) by (intros; apply N.mod_lt; lia).
  assert (D : forall x, x = x / 64 * 64 + x mod 64) by (intros x; pose proof (N.div_mod x 64 ltac:(lia)); lia).
  assert (E4 : c / 4096 = c / 64 / 64) by (rewrite N.div_div by lia; reflexivity). assert (E18 : c / 262144 = c / 64 / 64 / 64) by (rewrite !N.div_div by lia; reflexivity).
  rewrite E18, E4. pose proof (D c) as D0. pose proof (D (c / 64)) as D1. pose proof (D (c / 64 / 64)) as D2. pose proof (M c). pose proof (M (c / 64)). pose proof (M (c / 64 / 64)).
  destruct (N.ltb_spec c 128); [apply one_byte; assumption|].
  destruct (N.ltb_spec c 2048).
  { rewrite D0 at 1. apply two_bytes; [lia|split; [reflexivity|lia]|lia]. }
  destruct (N.ltb_spec c 65536).
  { replace c with ((c / 64 / 64 * 64 + c / 64 mod 64) * 64 + c mod 64) at 1 by lia. apply three_bytes; [lia|split; [reflexivity|lia]|split; [reflexivity|lia]|lia]. }
  replace c with (((c / 64 / 64 / 64 * 64 + c / 64 / 64 mod 64) * 64 + c / 64 mod 64) * 64 + c mod 64) at 1 by lia.
  apply four_bytes; [lia|split; [reflexivity|lia]..|lia].
Qed.
Lemma utf8_char_unique c b1 b2 : utf8_char c b1 -> utf8_char c b2 -> b1 = b2.
Proof.
  unfold tail_of. intros H1 H2. destruct H1; inversion H2; subst; unfold tail_of in *; try lia; repeat match goal with H : _ /\ _ |- _ => destruct H end; subst; repeat f_equal; lia.
Qed.
Lemma utf8_char_iff c b : c < 1114112 -> utf8_char c b <-> b = encode_utf8 c.
Proof. intros H. split; [intros X; exact (utf8_char_unique c _ _ X (utf8_char_encode c H))|intros ->; apply utf8_char_encode, H]. Qed.
Definition small_units (l : list jchar) : Prop := Forall (fun c => match c with Unit u => u < 65536 | Raw _ => True end) l.
Lemma hex_small c v : hex c v -> v < 16.
Proof. unfold hex. lia. Qed.
Lemma chars_units l s : chars l s -> small_units l.
Proof.
  induction 1; unfold small_units in *; constructor; auto. repeat match goal with H : hex _ _ |- _ => apply hex_small in H end. lia.
Qed.
Lemma text_of_means l : small_units l -> forall s, text_of l = Some s <-> means l s.
Proof.
  intros U s. split.
  - revert s U. induction l as [l IH] using (well_founded_induction (Wf_nat.well_founded_ltof _ (@length jchar))). unfold Wf_nat.ltof in IH. intros s U E. destruct l as [|[c|u] l]; cbn [text_of] in E.
    + apply some_eq in E; subst s. constructor.
    + destruct (text_of l) as [t|] eqn:T; [|discriminate]. apply some_eq in E; subst s. apply means_raw. apply IH; [cbn; lia|inversion U; assumption|exact T].
    + inversion U as [|? ? Hu U']; subst. cbv beta iota in Hu. destruct (N.leb_spec 55296 u) as [A|A]; cbn [andb] in E.
      2:{ replace (56320 <=? u) with false in E by lia. cbn [andb] in E. destruct (text_of l) as [t|] eqn:T; [|discriminate]. apply some_eq in E; subst s. apply means_unit; [lia|apply utf8_char_encode; lia|apply IH; [cbn; lia|exact U'|exact T]]. }
      destruct (N.ltb_spec u 56320) as [B|B].
      * destruct l as [|[c|v] l]; try discriminate. destruct (N.leb_spec 56320 v) as [C|C]; cbn [andb] in E; [|discriminate]. destruct (N.ltb_spec v 57344) as [D|D]; [|discriminate].
        destruct (text_of l) as [t|] eqn:T; [|discriminate]. apply some_eq in E; subst s.
        replace (Unit u) with (Unit (55296 + (u - 55296))) by (f_equal; lia). replace (Unit v) with (Unit (56320 + (v - 56320))) by (f_equal; lia).
        apply means_pair; [lia|lia| |apply IH; [cbn; lia|inversion U'; assumption|exact T]]. replace (65536 + 1024 * (u - 55296) + (v - 56320)) with (65536 + (u - 55296) * 1024 + (v - 56320)) by lia. apply utf8_char_encode. lia.
      * replace (56320 <=? u) with true in E by lia. cbn [andb] in E. destruct (N.ltb_spec u 57344) as [D|D]; [discriminate|]. destruct (text_of l) as [t|] eqn:T; [|discriminate]. apply some_eq in E; subst s. apply means_unit; [lia|apply utf8_char_encode; lia|apply IH; [cbn; lia|exact U'|exact T]].
  - intros M. induction M as [|c l s M IH|u l b s Hu B M IH|h t l b s Hh Ht B M IH].
    + reflexivity.
    + inversion U; subst. cbn [text_of]. rewrite IH by assumption. reflexivity.
    + inversion U as [|? ? Hs U']; subst. cbv beta iota in Hs. cbn [text_of]. apply utf8_char_iff in B; [|lia]. subst b. rewrite (IH U').
      destruct (N.leb_spec 55296 u); cbn [andb].
      * replace (u <? 56320) with false by lia. replace (56320 <=? u) with true by lia. cbn [andb]. replace (u <? 57344) with false by lia. reflexivity.
      * replace (56320 <=? u) with false by lia. reflexivity.
    + inversion U as [|? ? Hs U']; subst. inversion U' as [|? ? Hs' U'']; subst. cbn [text_of]. apply utf8_char_iff in B; [|lia]. subst b. rewrite (IH U'').
      replace ((55296 <=? 55296 + h) && (55296 + h <? 56320)) with true by lia. replace ((56320 <=? 56320 + t) && (56320 + t <? 57344)) with true by lia.
      replace (65536 + (55296 + h - 55296) * 1024 + (56320 + t - 56320)) with (65536 + 1024 * h + t) by lia. reflexivity.
Qed.
Lemma string_means l q : chars l q -> forall s, string_value l = Some s <-> means l s /\ utf8 s = true.
Proof.
  intros C s. rewrite <- (text_of_means l (chars_units l q C)). unfold string_value. destruct (text_of l) as [t|]; [|split; [discriminate|intros [? _]; discriminate]].
  destruct (utf8 t) eqn:E; split.
  - intros X. injection X as ->. split; [reflexivity|exact E].
  - intros [X _]. exact X.
  - discriminate.
  - intros [X Y]. injection X as ->. congruence.
Qed.
