(** Lemmas about [DagJson]. *)
From Verif Require Import Base Wire Cid CidProofs Text TextProofs BTree Ipld Cbor CborSpec RefsHttp RefsHttpSpec FsPathsProofs HttpPubsub HttpPubsubSpec HttpPubsubProofs Config ConfigSpec ConfigProofs
  Json JsonSpec JsonProofs Codecs CodecsProofs CborRound DagJson DagJsonSpec.
From Verif Require Endpoints EndpointsProofs.
Local Open Scope N_scope.

(** * Base64 *)
Lemma b64_index_inv c v : b64_index c = Some v -> v < 64 /\ c = b64_digit v.
Proof.
  unfold b64_index. intros H.
  destruct ((65 <=? c) && (c <=? 90)) eqn:E1; [apply some_eq in H; subst; split; [lia|]; unfold b64_digit; destruct (N.ltb_spec (c - 65) 26); lia|].
  destruct ((97 <=? c) && (c <=? 122)) eqn:E2; [apply some_eq in H; subst; split; [lia|]; unfold b64_digit; destruct (N.ltb_spec (c - 71) 26); [lia|]; destruct (N.ltb_spec (c - 71) 52); lia|].
  destruct ((48 <=? c) && (c <=? 57)) eqn:E3; [apply some_eq in H; subst; split; [lia|]; unfold b64_digit; destruct (N.ltb_spec (c + 4) 26); [lia|]; destruct (N.ltb_spec (c + 4) 52); [lia|]; destruct (N.ltb_spec (c + 4) 62); lia|].
  destruct (N.eqb_spec c 43) as [->|]; [apply some_eq in H; subst; split; [lia|reflexivity]|].
  destruct (N.eqb_spec c 47) as [->|]; [apply some_eq in H; subst; split; [lia|reflexivity]|]. discriminate.
Qed.
Lemma b64_index_stands c v : b64_index c = Some v -> v < 64 /\ stands_for c v.
Proof. intros H. destruct (b64_index_inv c v H) as [L ->]. split; [exact L|apply digit_stands, L]. Qed.
Lemma stands_index c v : stands_for c v -> b64_index c = Some v.
Proof. intros H. apply stands_digit in H as [L ->]. apply b64_index_digit, L. Qed.
Lemma stands_pad c v : stands_for c v -> (c =? 61) = false.
Proof. intros H. apply stands_digit in H as [_ ->]. apply b64_digit_pad. Qed.
Lemma digit_plain v : v < 64 -> escape (b64_digit v) = [b64_digit v].
Proof.
  intros H. assert (A : forallb (fun v => match escape (b64_digit v) with [c] => c =? b64_digit v | _ => false end) (map N.of_nat (seq 0 64)) = true) by reflexivity.
  rewrite forallb_forall in A. specialize (A v). cbv beta in A.
  assert (I : In v (map N.of_nat (seq 0 64))) by (apply in_map_iff; exists (N.to_nat v); split; [lia|apply in_seq; lia]). specialize (A I).
  destruct (escape (b64_digit v)) as [|c [|]]; try discriminate. apply N.eqb_eq in A. congruence.
Qed.
Lemma text_plain x s : base64_text x s -> concat (map escape s) = s.
Proof.
  assert (P : forall c v, stands_for c v -> escape c = [c]) by (intros c v H; apply stands_digit in H as [L ->]; apply digit_plain, L).
  induction 1 as [|x a b A B|x y a b c A B C|x y z a b c d l s A B C D T IH]; cbn [map concat]; rewrite ?(P _ _ A), ?(P _ _ B).
  - reflexivity.
  - reflexivity.
  - rewrite (P _ _ C). reflexivity.
  - rewrite (P _ _ C), (P _ _ D), IH. reflexivity.
Qed.
Lemma tail2_ok a b x : base64_tail2 a b = Some x -> wf_bytes x /\ base64_text x [a; b; 61; 61].
Proof.
  unfold base64_tail2. destruct (b64_index a) as [va|] eqn:A; [|discriminate]. destruct (b64_index b) as [vb|] eqn:B; [|discriminate].
  destruct (N.eqb_spec (vb mod 16) 0) as [Z|]; [|discriminate]. intros H. apply some_eq in H. subst x.
  apply b64_index_stands in A, B. destruct A as [LA A], B as [LB B].
  pose proof (N.div_mod vb 16 ltac:(lia)) as D. assert (vb / 16 < 4) by (apply N.div_lt_upper_bound; lia).
  split; [constructor; [unfold is_byte; lia|constructor]|]. constructor.
  - rewrite (N.add_comm (va * 4)), N.div_add, (N.div_small (vb / 16) 4) by lia. exact A.
  - rewrite (N.add_comm (va * 4)), N.mod_add, (N.mod_small (vb / 16) 4) by lia. replace (vb / 16 * 16) with vb by lia. exact B.
Qed.
Lemma tail3_ok a b c x : base64_tail3 a b c = Some x -> wf_bytes x /\ base64_text x [a; b; c; 61].
Proof.
  unfold base64_tail3. destruct (b64_index a) as [va|] eqn:A; [|discriminate]. destruct (b64_index b) as [vb|] eqn:B; [|discriminate]. destruct (b64_index c) as [vc|] eqn:C; [|discriminate].
  destruct (N.eqb_spec (vc mod 4) 0) as [Z|]; [|discriminate]. intros H. apply some_eq in H. subst x.
  apply b64_index_stands in A, B, C. destruct A as [LA A], B as [LB B], C as [LC C].
  pose proof (N.div_mod vb 16 ltac:(lia)) as D. pose proof (N.div_mod vc 4 ltac:(lia)) as D2. pose proof (N.mod_lt vb 16 ltac:(lia)). assert (vb / 16 < 4) by (apply N.div_lt_upper_bound; lia). assert (vc / 4 < 16) by (apply N.div_lt_upper_bound; lia).
  split; [constructor; [unfold is_byte; lia|constructor; [unfold is_byte; lia|constructor]]|]. constructor.
  - rewrite (N.add_comm (va * 4)), N.div_add, (N.div_small (vb / 16) 4) by lia. exact A.
  - rewrite (N.add_comm (va * 4)), N.mod_add, (N.mod_small (vb / 16) 4) by lia. rewrite (N.add_comm (vb mod 16 * 16)), N.div_add, (N.div_small (vc / 4) 16) by lia. replace (vb / 16 * 16 + (0 + vb mod 16)) with vb by lia. exact B.
  - rewrite (N.add_comm (vb mod 16 * 16)), N.mod_add, (N.mod_small (vc / 4) 16) by lia. replace (vc / 4 * 4) with vc by lia. exact C.
Qed.
Lemma base64_read_sound n : forall s x, (length s <= n)%nat -> base64_read s = Some x -> base64_of s x.
Proof.
  assert (P2 : Forall (eq 61) [61; 61]) by (repeat constructor). assert (P1 : Forall (eq 61) [61]) by (repeat constructor).
  induction n as [|n IH]; intros s x L H.
  { destruct s; [|cbn in L; lia]. apply some_eq in H. subst x. split; [constructor|]. exists []. split; constructor. }
  destruct s as [|a [|b [|c [|d r]]]].
  - apply some_eq in H. subst x. split; [constructor|]. exists []. split; constructor.
  - discriminate.
  - destruct (tail2_ok a b x H) as [W T]. split; [exact W|]. exists [61; 61]. split; assumption.
  - cbn [base64_read] in H. destruct (N.eqb_spec c 61) as [->|].
    + destruct (tail2_ok a b x H) as [W T]. split; [exact W|]. exists [61]. split; assumption.
    + destruct (tail3_ok a b c x H) as [W T]. split; [exact W|]. exists [61]. split; assumption.
  - cbn [base64_read] in H. destruct (N.eqb_spec d 61) as [->|].
    + destruct r; [|discriminate]. destruct (N.eqb_spec c 61) as [->|].
      * destruct (tail2_ok a b x H) as [W T]. split; [exact W|]. exists []. split; [constructor|exact T].
      * destruct (tail3_ok a b c x H) as [W T]. split; [exact W|]. exists []. split; [constructor|exact T].
    + destruct (b64_index a) as [va|] eqn:A; [|discriminate]. destruct (b64_index b) as [vb|] eqn:B; [|discriminate]. destruct (b64_index c) as [vc|] eqn:C; [|discriminate]. destruct (b64_index d) as [vd|] eqn:D; [|discriminate].
      destruct (base64_read r) as [l|] eqn:R; [|discriminate]. apply some_eq in H. subst x. destruct (IH r l ltac:(cbn in L; lia) R) as (W & pad & P & T).
      apply b64_index_stands in A, B, C, D. destruct A as [LA A], B as [LB B], C as [LC C], D as [LD D].
      pose proof (N.div_mod vb 16 ltac:(lia)) as D1. pose proof (N.div_mod vc 4 ltac:(lia)) as D2. pose proof (N.mod_lt vb 16 ltac:(lia)). pose proof (N.mod_lt vc 4 ltac:(lia)). assert (vb / 16 < 4) by (apply N.div_lt_upper_bound; lia). assert (vc / 4 < 16) by (apply N.div_lt_upper_bound; lia).
      split; [do 3 (constructor; [unfold is_byte; lia|]); exact W|]. exists pad. split; [exact P|]. cbn [app]. constructor; [| | | |exact T].
      * rewrite (N.add_comm (va * 4)), N.div_add, (N.div_small (vb / 16) 4) by lia. exact A.
      * rewrite (N.add_comm (va * 4)), N.mod_add, (N.mod_small (vb / 16) 4) by lia. rewrite (N.add_comm (vb mod 16 * 16)), N.div_add, (N.div_small (vc / 4) 16) by lia. replace (vb / 16 * 16 + (0 + vb mod 16)) with vb by lia. exact B.
      * rewrite (N.add_comm (vb mod 16 * 16)), N.mod_add, (N.mod_small (vc / 4) 16) by lia. rewrite (N.add_comm (vc mod 4 * 64)), N.div_add, (N.div_small vd 64) by lia. replace (vc / 4 * 4 + (0 + vc mod 4)) with vc by lia. exact C.
      * rewrite (N.add_comm (vc mod 4 * 64)), N.mod_add, (N.mod_small vd 64) by lia. exact D.
Qed.
Lemma pad_only (p : bytes) : Forall (eq 61) p -> forall c r, p = c :: r -> c = 61.
Proof. intros F c r ->. inversion F. congruence. Qed.
Lemma base64_read_complete x t : base64_text x t -> forall s pad, t = s ++ pad -> Forall (eq 61) pad -> wf_bytes x -> base64_read s = Some x.
Proof.
  induction 1 as [|x a b A B|x y a b c A B C|x y z a b c d l t A B C D T IH]; intros s pad E F W.
  - destruct s; [reflexivity|discriminate].
  - inversion W as [|? ? Hx _]; subst. unfold is_byte in Hx. pose proof (stands_pad _ _ A) as NA. pose proof (stands_pad _ _ B) as NB. apply N.eqb_neq in NA, NB.
    assert (X : base64_tail2 a b = Some [x]).
    { unfold base64_tail2. rewrite (stands_index _ _ A), (stands_index _ _ B), N.mod_mul, N.div_mul by lia. change (0 =? 0) with true. cbv iota. pose proof (N.div_mod x 4 ltac:(lia)). do 2 f_equal. lia. }
    destruct s as [|s1 [|s2 [|s3 [|s4 [|s5 s]]]]]; cbn [app] in E.
    + exfalso. apply NA. exact (pad_only pad F a _ (eq_sym E)).
    + injection E as -> E. exfalso. apply NB. exact (pad_only pad F b _ (eq_sym E)).
    + injection E as -> -> E. exact X.
    + injection E as -> -> <- E. exact X.
    + injection E as -> -> <- <- E. exact X.
    + discriminate.
  - inversion W as [|? ? Hx W2]; subst. inversion W2 as [|? ? Hy _]; subst. unfold is_byte in Hx, Hy. destruct (b64_parts x y Hx Hy) as (P1 & P2 & P3 & P4 & P5 & P6 & P7 & P8).
    pose proof (stands_pad _ _ A) as NA. pose proof (stands_pad _ _ B) as NB. pose proof (stands_pad _ _ C) as NC.
    assert (X : base64_tail3 a b c = Some [x; y]).
    { unfold base64_tail3. rewrite (stands_index _ _ A), (stands_index _ _ B), (stands_index _ _ C), N.mod_mul by lia. change (0 =? 0) with true. cbv iota. rewrite P1, P2, P6, P5, P8. reflexivity. }
    destruct s as [|s1 [|s2 [|s3 [|s4 [|s5 s]]]]]; cbn [app] in E.
    + apply N.eqb_neq in NA. exfalso. apply NA. exact (pad_only pad F a _ (eq_sym E)).
    + injection E as -> E. apply N.eqb_neq in NB. exfalso. apply NB. exact (pad_only pad F b _ (eq_sym E)).
    + injection E as -> -> E. apply N.eqb_neq in NC. exfalso. apply NC. exact (pad_only pad F c _ (eq_sym E)).
    + injection E as -> -> -> E. cbn [base64_read]. rewrite NC. exact X.
    + injection E as -> -> -> <- E. cbn [base64_read]. change (61 =? 61) with true. cbv iota. rewrite NC. exact X.
    + discriminate.
  - inversion W as [|? ? Hx W2]; subst. inversion W2 as [|? ? Hy W3]; subst. inversion W3 as [|? ? Hz W4]; subst. unfold is_byte in Hx, Hy, Hz. destruct (b64_parts x y Hx Hy) as (P1 & P2 & P3 & P4 & P5 & _ & _ & P8). destruct (b64_last y z Hy Hz) as (Q1 & Q2 & Q3 & Q4 & Q5).
    pose proof (stands_pad _ _ A) as NA. pose proof (stands_pad _ _ B) as NB. pose proof (stands_pad _ _ C) as NC. pose proof (stands_pad _ _ D) as ND.
    destruct s as [|s1 [|s2 [|s3 [|s4 s]]]]; cbn [app] in E.
    + apply N.eqb_neq in NA. exfalso. apply NA. exact (pad_only pad F a _ (eq_sym E)).
    + injection E as -> E. apply N.eqb_neq in NB. exfalso. apply NB. exact (pad_only pad F b _ (eq_sym E)).
    + injection E as -> -> E. apply N.eqb_neq in NC. exfalso. apply NC. exact (pad_only pad F c _ (eq_sym E)).
    + injection E as -> -> -> E. apply N.eqb_neq in ND. exfalso. apply ND. exact (pad_only pad F d _ (eq_sym E)).
    + injection E as -> -> -> -> E. cbn [base64_read]. rewrite ND, (stands_index _ _ A), (stands_index _ _ B), (stands_index _ _ C), (stands_index _ _ D), (IH s pad E F W4), P1, P2, Q1, Q2, P5, P8, Q5. reflexivity.
Qed.
Lemma base64_read_iff s x : base64_read s = Some x <-> base64_of s x.
Proof.
  split; [apply (base64_read_sound (length s)); lia|]. intros (W & pad & P & T). exact (base64_read_complete x _ T s pad eq_refl P W).
Qed.

(** * Numbers *)
Lemma digits_decimal s : forall n, s <> [] -> Forall dig s -> digits_value s = n <-> decimal s n.
Proof.
  induction s as [|c s IH] using rev_ind; intros n Hs F; [contradiction|]. apply Forall_app in F as [F1 F2]. inversion_clear F2 as [|? ? C _]. unfold digits_value. rewrite fold_left_app. cbn [fold_left]. fold (digits_value s). unfold dig in C.
  destruct s as [|a s].
  - cbn. split.
    + intros <-. apply decimal_one. split; lia.
    + intros D. inversion D as [c' v' [D1 D2] E|s' m c' v' D1 D2 E]; subst; [lia|]. exfalso. apply EndpointsProofs.decimal_nonempty in D1. destruct s' as [|? [|]]; [contradiction|discriminate|discriminate].
  - assert (Z : a :: s <> []) by discriminate. split.
    + intros <-. apply decimal_more; [apply IH; try assumption; reflexivity|split; lia].
    + intros D. remember ((a :: s) ++ [c]) as L eqn:EL. destruct D as [c' v' D|s' m c' v' D1 D2]; [destruct s; discriminate|]. apply app_inj_tail in EL as [-> ->]. apply IH in D1; [|exact Z|exact F1]. destruct D2. lia.
Qed.
Lemma decimal_digs s n : decimal s n -> s <> [] /\ Forall dig s.
Proof.
  intros D. split; [exact (EndpointsProofs.decimal_nonempty s n D)|]. induction D as [c v [-> L]|s n c v D IH [-> L]]; [constructor; [unfold dig; lia|constructor]|apply Forall_app; split; [exact IH|constructor; [unfold dig; lia|constructor]]].
Qed.
Lemma all_digits s : forallb is_digit s = true <-> Forall dig s.
Proof. rewrite forallb_forall, Forall_forall. split; intros H x X; apply is_digit_spec; auto. Qed.

Section Doc.
  Variable float_value : bytes -> option N.
  Let number_doc := number_doc float_value.
  Let doc_of := doc_of float_value.
  Let says := says float_value.

  Lemma number_plain t : (forall r, t <> 45 :: r) -> number_doc t = if forallb is_digit t && (digits_value t <? 18446744073709551616) then Some (JInt (Z.of_N (digits_value t))) else as_float float_value t.
  Proof.
    intros H. unfold number_doc, DagJson.number_doc. destruct t as [|c t]; [reflexivity|]. destruct (N.eq_dec c 45) as [->|Q]; [contradiction (H t eq_refl)|]. destruct c as [|p]; [reflexivity|]. repeat (destruct p as [p|p|]; try reflexivity; try (exfalso; lia)).
  Qed.
  Lemma number_doc_int t i : number_text t -> number_doc t = Some (JInt i) <-> int64 t i.
  Proof.
    intros T. destruct (number_head t T) as (c & r & -> & D).
    destruct (N.eq_dec c 45) as [->|Q].
    - assert (R : r <> []).
      { destruct T as [U|(u & U & E)]; [destruct (unsigned_head _ U) as (x & y & E & X); injection E as <- <-; unfold dig in X; lia|]. injection E as <-. destruct (unsigned_head _ U) as (x & y & -> & _). discriminate. }
      unfold number_doc, DagJson.number_doc. destruct (forallb is_digit r && (0 <? digits_value r) && (digits_value r <=? 9223372036854775808)) eqn:G.
      + apply andb_prop in G as [G G3]. apply andb_prop in G as [G1 G2]. apply all_digits in G1. apply N.ltb_lt in G2. apply N.leb_le in G3. pose proof (proj1 (digits_decimal r _ R G1) eq_refl) as X. split.
        * intros E. apply some_eq in E. injection E as ->. apply int64_minus; [exact X|]. change (2 ^ 63) with 9223372036854775808. lia.
        * intros E. inversion E as [t n Y|t n Y L]; subst; [apply decimal_digs in Y as [_ Y]; inversion_clear Y as [|? ? Y1 _]; unfold dig in Y1; lia|]. rewrite (EndpointsProofs.decimal_one_value _ _ X _ Y). reflexivity.
      + split; [unfold as_float; destruct (float_value _); discriminate|]. intros E. exfalso. inversion E as [t n Y|t n Y L]; subst; [apply decimal_digs in Y as [_ Y]; inversion_clear Y as [|? ? Y1 _]; unfold dig in Y1; lia|].
        pose proof (decimal_digs _ _ Y) as [_ Y1]. apply (digits_decimal r n R Y1) in Y. apply all_digits in Y1. rewrite Y1, Y in G. change (2 ^ 63) with 9223372036854775808 in L. lia.
    - rewrite number_plain by congruence. destruct D as [D|D]; [contradiction|]. destruct (forallb is_digit (c :: r) && (digits_value (c :: r) <? 18446744073709551616)) eqn:G.
      + apply andb_prop in G as [G1 G2]. apply all_digits in G1. apply N.ltb_lt in G2. pose proof (proj1 (digits_decimal (c :: r) _ ltac:(discriminate) G1) eq_refl) as X. split.
        * intros E. apply some_eq in E. injection E as ->. apply int64_plain; [exact X|exact G2].
        * intros E. inversion E as [t n Y|t n Y L]; subst; [|contradiction]. rewrite (EndpointsProofs.decimal_one_value _ _ X _ Y). reflexivity.
      + split; [unfold as_float; destruct (float_value _); discriminate|]. intros E. exfalso. inversion E as [t n Y L|t n Y L]; subst; [|contradiction].
        pose proof (decimal_digs _ _ Y) as [Y0 Y1]. apply (digits_decimal _ n Y0 Y1) in Y. apply all_digits in Y1. rewrite Y1, Y in G. change (2 ^ 64) with 18446744073709551616 in L. lia.
  Qed.
  Lemma number_doc_cases t : (exists i, number_doc t = Some (JInt i)) \/ number_doc t = as_float float_value t.
  Proof.
    assert (C : (exists r, t = 45 :: r) \/ forall r, t <> 45 :: r).
    { destruct t as [|c t]; [right; discriminate|]. destruct (N.eq_dec c 45) as [->|]; [left; eauto|right; congruence]. }
    destruct C as [(r & ->)|C].
    - unfold number_doc, DagJson.number_doc. destruct (_ && _); [left; eauto|right; reflexivity].
    - rewrite number_plain by exact C. destruct (_ && _); [left; eauto|right; reflexivity].
  Qed.
  Lemma number_doc_float t f : number_text t -> number_doc t = Some (JFloat f) <-> (forall i, ~ int64 t i) /\ float_value t = Some f.
  Proof.
    intros T. destruct (number_doc_cases t) as [(i & E)|E]; rewrite E.
    - split; [discriminate|]. intros [H _]. exfalso. exact (H i (proj1 (number_doc_int t i T) E)).
    - unfold as_float in *. split.
      + destruct (float_value t) as [g|] eqn:G; [|discriminate]. intros X. apply some_eq in X. injection X as ->. split; [|reflexivity]. intros i Y. apply (number_doc_int t i T) in Y. rewrite E in Y. discriminate.
      + intros [_ ->]. reflexivity.
  Qed.

  (** * Values *)
  Fixpoint nums (j : jv) : Prop :=
    match j with
    | JNum t => number_text t
    | Json.JArr l => (fix go l := match l with [] => True | x :: r => nums x /\ go r end) l
    | Json.JObj l => (fix go (l : list (option bytes * jv)) := match l with [] => True | x :: r => nums (snd x) /\ go r end) l
    | _ => True
    end.
  Lemma nums_arr l : nums (Json.JArr l) <-> Forall nums l.
  Proof. induction l as [|x l IH]; [split; [constructor|exact (fun _ => Logic.I)]|]. split; [intros [A B]; constructor; [exact A|apply IH, B]|intros H; inversion_clear H; split; [assumption|apply IH; assumption]]. Qed.
  Lemma nums_obj l : nums (Json.JObj l) <-> Forall (fun x => nums (snd x)) l.
  Proof. induction l as [|x l IH]; [split; [constructor|exact (fun _ => Logic.I)]|]. split; [intros [A B]; constructor; [exact A|apply IH, B]|intros H; inversion_clear H; split; [assumption|apply IH; assumption]]. Qed.
  Lemma jv_induction (P : jv -> Prop) : P Json.JNull -> (forall b, P (Json.JBool b)) -> (forall t, P (JNum t)) -> (forall s, P (Json.JStr s)) ->
    (forall l, Forall P l -> P (Json.JArr l)) -> (forall l, Forall (fun x => P (snd x)) l -> P (Json.JObj l)) -> forall j, P j.
  Proof.
    intros A B C D E F. fix IH 1. intros [|b|t|s|l|l]; [exact A|apply B|apply C|apply D|apply E|apply F].
    - induction l as [|x l IHl]; constructor; [apply IH|exact IHl].
    - induction l as [|x l IHl]; constructor; [apply IH|exact IHl].
  Qed.
  Lemma text_nums : (forall j p, value_text j p -> nums j) /\ (forall l p, elements_text l p -> Forall nums l) /\ (forall l p, members_text l p -> Forall (fun x => nums (snd x)) l).
  Proof.
    apply text_ind; intros; try exact Logic.I; try assumption.
    - apply nums_arr. assumption.
    - apply nums_obj. assumption.
    - constructor; [assumption|constructor].
    - constructor; assumption.
    - constructor; [assumption|constructor].
    - constructor; assumption.
  Qed.

  Fixpoint docs (l : list jv) : option (list json) :=
    match l with
    | [] => Some []
    | x :: r => match doc_of x, docs r with Some d, Some ds => Some (d :: ds) | _, _ => None end
    end.
  Fixpoint fields (l : list (option bytes * jv)) : option (list (bytes * json)) :=
    match l with
    | [] => Some []
    | (k, x) :: r => match k, doc_of x, fields r with Some k, Some d, Some ds => Some ((k, d) :: ds) | _, _, _ => None end
    end.
  Lemma doc_arr l : doc_of (Json.JArr l) = option_map JArr (docs l).
  Proof. reflexivity. Qed.
  Lemma doc_obj l : doc_of (Json.JObj l) = option_map JObj (fields l).
  Proof. reflexivity. Qed.
  Lemma docs_spec l ds : docs l = Some ds <-> Forall2 (fun x d => doc_of x = Some d) l ds.
  Proof.
    revert ds. induction l as [|x l IH]; intros ds; cbn [docs].
    - split; [intros H; apply some_eq in H; subst; constructor|intros H; inversion H; reflexivity].
    - split.
      + destruct (doc_of x) eqn:X; [|discriminate]. destruct (docs l) eqn:Y; [|discriminate]. intros H. apply some_eq in H. subst ds. constructor; [exact X|apply IH; reflexivity].
      + intros H. inversion H as [|? d ? r A B]; subst. rewrite A. apply IH in B. rewrite B. reflexivity.
  Qed.
  Lemma fields_spec l ds : fields l = Some ds <-> Forall2 (fun x d => fst x = Some (fst d) /\ doc_of (snd x) = Some (snd d)) l ds.
  Proof.
    revert ds. induction l as [|[k x] l IH]; intros ds; cbn [fields].
    - split; [intros H; apply some_eq in H; subst; constructor|intros H; inversion H; reflexivity].
    - split.
      + destruct k as [k|]; [|discriminate]. destruct (doc_of x) eqn:X; [|discriminate]. destruct (fields l) eqn:Y; [|discriminate]. intros H. apply some_eq in H. subst ds. constructor; [split; [reflexivity|exact X]|apply IH; reflexivity].
      + intros H. inversion H as [|? d ? r [A B] C]; subst. cbn [fst snd] in A, B. rewrite A, B. apply IH in C. rewrite C. destruct d; reflexivity.
  Qed.
  Lemma map_all_iff {A} (f : A -> kres ipld) l vs : map_all f l = Ok vs <-> Forall2 (fun x v => f x = Ok v) l vs.
  Proof.
    split; [|apply map_all_spec]. revert vs. induction l as [|x l IH]; intros vs H; cbn [map_all] in H.
    - injection H as <-. constructor.
    - destruct (f x) as [v|e|] eqn:X; cbn [kbind] in H; try discriminate. destruct (map_all f l) as [us|e|] eqn:Y; cbn [kbind] in H; try discriminate. injection H as <-. constructor; [exact X|apply IH; reflexivity].
  Qed.
  Lemma last_given_app {V} k (l1 l2 : list (bytes * V)) : last_given k (l1 ++ l2) = match last_given k l2 with Some x => Some x | None => last_given k l1 end.
  Proof.
    induction l1 as [|[k' v] l1 IH]; cbn [app last_given]; [destruct (last_given k l2); reflexivity|]. rewrite IH. destruct (last_given k l2); reflexivity.
  Qed.
  Lemma bt_last {V} (l : list (bytes * V)) k : bt_get k (bt_of_list l) = last_given k l.
  Proof.
    induction l as [|[k' v] l IH] using rev_ind; [reflexivity|]. unfold bt_of_list in *. rewrite fold_left_app, last_given_app. cbn [fold_left fst snd last_given]. rewrite bt_get_insert by apply bt_of_list_sorted. destruct (beq k k'); [reflexivity|exact IH].
  Qed.
  Lemma link_shape l : {s | l = [(Some [47], Json.JStr (Some s))]} + {~ link_shaped l}.
  Proof.
    destruct l as [|[k v] [|y l]]; [right; intros (s & H); discriminate| |right; intros (s & H); discriminate].
    destruct k as [k|]; [|right; intros (s & H); discriminate]. destruct (beq_spec k [47]) as [->|Q]; [|right; intros (s & H); injection H; congruence].
    destruct v as [|b|t|[s|]|l|l]; try (right; intros (s' & H); discriminate). left. exists s. reflexivity.
  Qed.
  Lemma forall2_exists {A B C} (R : A -> B -> Prop) (Q : B -> C -> Prop) l n : Forall2 (fun a c => exists b, R a b /\ Q b c) l n <-> exists m, Forall2 R l m /\ Forall2 Q m n.
  Proof.
    split.
    - induction 1 as [|a c l n (b & X & Y) H (m & M1 & M2)]; [exists []; split; constructor|]. exists (b :: m). split; constructor; assumption.
    - intros (m & M1 & M2). revert n M2. induction M1 as [|a b l m X M1 IH]; intros n M2; inversion M2 as [|? c ? n' Y Z]; subst; constructor; [eauto|apply IH, Z].
  Qed.
  Lemma forall2_iff {A B} (R Q : A -> B -> Prop) l n : Forall (fun a => forall b, R a b <-> Q a b) l -> Forall2 R l n <-> Forall2 Q l n.
  Proof.
    intros F. revert n. induction F as [|a l X F IH]; intros n; [split; intros H; inversion H; constructor|]. split; intros H; inversion H as [|? b ? n' Y Z]; subst; (constructor; [apply X, Y|apply IH, Z]).
  Qed.
  (** An object which is no link. *)
  Lemma of_obj_map d (ds : list (bytes * json)) (kvs : list (bytes * ipld)) : Forall2 (fun x kv => fst x = fst kv /\ of_json base64_read (S d) (snd x) = Ok (snd kv)) ds kvs ->
    (forall s, ds <> [([47], JStr s)]) -> of_json base64_read (S (S d)) (JObj ds) = Ok (IMap (bt_of_list kvs)).
  Proof.
    intros F H. rewrite of_json_obj. assert (X : map_all (fun kv : bytes * json => of_json base64_read (S d) (snd kv)) ds = Ok (map snd kvs)).
    { apply map_all_iff. clear H. induction F as [|x kv ds kvs [_ A] F IH]; constructor; assumption. }
    rewrite X. cbn [kbind]. clear X. assert (Y : combine (map fst ds) (map snd kvs) = kvs).
    { clear H. induction F as [|x kv ds kvs [A _] F IH]; [reflexivity|]. cbn [map combine]. rewrite IH, A. destruct kv; reflexivity. }
    rewrite Y. destruct F as [|[k x] [k' v] ds kvs [A B] F]; [reflexivity|]. cbn [fst snd] in A, B. subst k'. destruct F; [|reflexivity]. cbn [map fst snd].
    destruct v; try reflexivity. destruct (beq_spec k [47]) as [->|]; [|reflexivity]. exfalso. destruct x as [| | | |s'| |]; cbn in B; try discriminate.
    - exact (H s' eq_refl).
    - destruct d; [discriminate|]. destruct (map_all _ _); discriminate.
    - destruct d; [discriminate|]. change (of_json base64_read (S (S d)) (JObj m) = Ok (Str s)) in B. rewrite of_json_obj in B. destruct (map_all _ _) as [vs|e|]; cbn [kbind] in B; [|discriminate|discriminate]. destruct m as [|[k1 x1] [|]]; [destruct vs; discriminate| |destruct vs; discriminate]. destruct vs as [|[] [|]]; try discriminate. destruct (beq k1 [47]); [|discriminate]. destruct (base64_read s0); [|discriminate]. destruct (cid_from_bytes b); discriminate.
  Qed.
  Lemma doc_says j : nums j -> forall d v, (exists x, doc_of j = Some x /\ of_json base64_read (S d) x = Ok v) <-> says d j v.
  Proof.
    induction j as [|b|t|s|l IH|l IH] using jv_induction; intros G d v.
    - split; [intros (x & X & Y); apply some_eq in X; subst x; injection Y as <-; constructor|intros H; inversion H; subst; exists JNull; split; reflexivity].
    - split; [intros (x & X & Y); apply some_eq in X; subst x; injection Y as <-; constructor|intros H; inversion H; subst; exists (JBool b); split; reflexivity].
    - split.
      + intros (x & X & Y). change (number_doc t = Some x) in X. destruct (number_doc_cases t) as [(i & E)|E]; rewrite E in X.
        * apply some_eq in X. subst x. injection Y as <-. apply says_int. apply number_doc_int; assumption.
        * unfold as_float in *. destruct (float_value t) as [f|] eqn:F; [|discriminate]. apply some_eq in X. subst x. injection Y as <-. apply (number_doc_float t f G) in E. destruct E. apply says_float; assumption.
      + intros H. inversion H as [| |d' t' i I|d' t' f N1 F| | | |]; subst; [exists (JInt i)|exists (JFloat f)]; (split; [|reflexivity]); [apply (number_doc_int t i G), I|apply (number_doc_float t f G); split; assumption].
    - split.
      + intros (x & X & Y). destruct s as [s|]; [|discriminate]. apply some_eq in X. subst x. injection Y as <-. constructor.
      + intros H. inversion H; subst. eexists. split; reflexivity.
    - apply nums_arr in G. destruct d as [|d].
      { split; [intros (x & X & Y); rewrite doc_arr in X; destruct (docs l); [|discriminate]; apply some_eq in X; subst x; discriminate|intros H; inversion H]. }
      assert (K : forall vs, Forall2 (fun j v => exists x, doc_of j = Some x /\ of_json base64_read (S d) x = Ok v) l vs <-> Forall2 (says d) l vs).
      { intros vs. apply forall2_iff. rewrite Forall_forall in *. intros j J u. apply IH; [exact J|apply G, J]. }
      split.
      + intros (x & X & Y). rewrite doc_arr in X. destruct (docs l) as [ds|] eqn:E; [|discriminate]. apply some_eq in X. subst x. apply docs_spec in E. rewrite of_json_arr in Y. destruct (map_all _ ds) as [vs|e|] eqn:M; cbn [kbind] in Y; try discriminate. injection Y as <-. apply map_all_iff in M. apply says_list. apply K. apply forall2_exists. exists ds. split; assumption.
      + intros H. inversion H as [| | | | |d' l' vs F| |]; subst. apply K in F. apply forall2_exists in F as (ds & F1 & F2). exists (JArr ds). rewrite doc_arr, (proj2 (docs_spec l ds) F1). split; [reflexivity|]. rewrite of_json_arr, (proj2 (map_all_iff _ _ _) F2). reflexivity.
    - apply nums_obj in G. destruct d as [|d].
      { split; [intros (x & X & Y); rewrite doc_obj in X; destruct (fields l); [|discriminate]; apply some_eq in X; subst x; discriminate|intros H; inversion H]. }
      destruct (link_shape l) as [(s & ->)|NL].
      + assert (E : doc_of (Json.JObj [(Some [47], Json.JStr (Some s))]) = Some (JObj [([47], JStr s)])) by reflexivity. rewrite E. split.
        * intros (x & X & Y). apply some_eq in X. subst x. rewrite of_json_obj in Y. cbn [map_all kbind of_json snd] in Y. rewrite beq_refl in Y. destruct (base64_read s) as [b|] eqn:B; [|discriminate]. destruct (cid_from_bytes b) as [c|] eqn:C; [|discriminate]. injection Y as <-. apply base64_read_iff in B. exact (says_link _ d s b c B C).
        * intros H. exists (JObj [([47], JStr s)]). split; [reflexivity|]. inversion H as [| | | | | |d' l' kvs m F NL|d' s' x c B C]; subst; [exfalso; apply NL; exists s; reflexivity|]. apply base64_read_iff in B. rewrite of_json_obj. cbn [map_all kbind of_json snd]. rewrite beq_refl, B, C. reflexivity.
      + assert (K : forall kvs, Forall2 (fun a b => exists x, (fst a = Some (fst x) /\ doc_of (snd a) = Some (snd x)) /\ (fst x = fst b /\ of_json base64_read (S d) (snd x) = Ok (snd b))) l kvs <-> Forall2 (fun a b => fst a = Some (fst b) /\ says d (snd a) (snd b)) l kvs).
        { intros kvs. apply forall2_iff. rewrite Forall_forall in *. intros [k j] J [k' u]. cbn [fst snd]. specialize (IH (k, j) J (G _ J) d u). cbn [snd] in IH. rewrite <- IH. split.
          - intros ([k1 x] & (A & B) & C & D). cbn [fst snd] in *. subst. split; [reflexivity|]. eauto.
          - intros (A & x & B & C). exists (k', x). cbn. auto. }
        assert (NS : forall ds, Forall2 (fun x d => fst x = Some (fst d) /\ doc_of (snd x) = Some (snd d)) l ds -> forall s, ds <> [([47], JStr s)]).
        { intros ds F s ->. inversion F as [|[k j] ? ? ? [A B] F2]; subst. inversion F2; subst. cbn [fst snd] in *. subst k. apply NL. destruct j as [|b|t|[s'|]|l|l].
          - discriminate.
          - discriminate.
          - exfalso. change (number_doc t = Some (JStr s)) in B. destruct (number_doc_cases t) as [(i & E)|E]; rewrite E in B; [discriminate|]. unfold as_float in B. destruct (float_value t); discriminate.
          - exists s'. reflexivity.
          - discriminate.
          - rewrite doc_arr in B. destruct (docs l); discriminate.
          - rewrite doc_obj in B. destruct (fields l); discriminate. }
        split.
        * intros (x & X & Y). rewrite doc_obj in X. destruct (fields l) as [ds|] eqn:E; [|discriminate]. apply some_eq in X. subst x. apply fields_spec in E.
          assert (M : exists vs, map_all (fun kv : bytes * json => of_json base64_read (S d) (snd kv)) ds = Ok vs) by (rewrite of_json_obj in Y; destruct (map_all _ ds) as [vs|e|]; cbn [kbind] in Y; try discriminate; eauto).
          destruct M as (vs & M). apply map_all_iff in M.
          assert (F : Forall2 (fun x kv => fst x = fst kv /\ of_json base64_read (S d) (snd x) = Ok (snd kv)) ds (combine (map fst ds) vs)).
          { clear E Y NS. induction M as [|x u ds vs A M IHM]; constructor; [split; [reflexivity|exact A]|exact IHM]. }
          rewrite (of_obj_map d ds _ F (NS ds E)) in Y. injection Y as <-. apply (says_map _ d l (combine (map fst ds) vs)).
          -- apply K. apply forall2_exists. exists ds. split; assumption.
          -- exact NL.
          -- apply bt_of_list_sorted.
          -- intros k. apply bt_last.
        * intros H. inversion H as [| | | | | |d' l' kvs m F NL' S1 S2|d' s' x c B C]; subst; [|exfalso; apply NL; exists s'; reflexivity]. apply K in F. apply forall2_exists in F as (ds & F1 & F2). exists (JObj ds). rewrite doc_obj, (proj2 (fields_spec l ds) F1). split; [reflexivity|]. rewrite (of_obj_map d ds _ F2 (NS ds F1)). do 2 f_equal. apply bt_ext; [apply bt_of_list_sorted|exact S1|]. intros k. rewrite S2. apply bt_last.
  Qed.
End Doc.

(** * Writing *)
Lemma dec_unsigned n : unsigned_text (Endpoints.dec n).
Proof.
  destruct (EndpointsProofs.dec_number n) as [H|(t & H & E)]; [exact H|]. exfalso. destruct (decimal_digs _ _ (EndpointsProofs.dec_decimal n)) as [_ F]. rewrite E in F. inversion_clear F as [|? ? D _]. unfold dig in D. lia.
Qed.
Lemma int_form_text i : number_text (int_form i).
Proof. unfold int_form. destruct (i <? 0)%Z; [right; eexists; split; [apply dec_unsigned|reflexivity]|left; apply dec_unsigned]. Qed.
Lemma int_form_64 i : (- 2 ^ 63 <= i < 2 ^ 64)%Z -> int64 (int_form i) i.
Proof.
  intros [A B]. change (- 2 ^ 63)%Z with (-9223372036854775808)%Z in A. change (2 ^ 64)%Z with 18446744073709551616%Z in B. unfold int_form. destruct (Z.ltb_spec i 0).
  - replace i with (- Z.of_N (Z.to_N (- i)))%Z at 2 by lia. apply int64_minus; [apply EndpointsProofs.dec_decimal|]. change (2 ^ 63) with 9223372036854775808. lia.
  - replace i with (Z.of_N (Z.to_N i)) at 2 by lia. apply int64_plain; [apply EndpointsProofs.dec_decimal|]. change (2 ^ 64) with 18446744073709551616. lia.
Qed.
Lemma int64_range t i : int64 t i -> (- 2 ^ 63 <= i < 2 ^ 64)%Z.
Proof. change (- 2 ^ 63)%Z with (-9223372036854775808)%Z. change (2 ^ 64)%Z with 18446744073709551616%Z. intros [t' n D L|t' n D L]; [change (2 ^ 64) with 18446744073709551616 in L|change (2 ^ 63) with 9223372036854775808 in L]; lia. Qed.
Lemma int_form_value i j : int64 (int_form i) j -> j = i.
Proof.
  unfold int_form. intros H. destruct (Z.ltb_spec i 0).
  - remember (45 :: _) as t eqn:E. destruct H as [t n D L|t n D L]; [|].
    + exfalso. subst t. apply decimal_digs in D as [_ D]. inversion_clear D as [|? ? D1 _]. unfold dig in D1. lia.
    + injection E as ->. rewrite (EndpointsProofs.decimal_one_value _ _ D _ (EndpointsProofs.dec_decimal _)). lia.
  - remember (Endpoints.dec _) as t eqn:E. destruct H as [t n D L|t n D L].
    + subst t. rewrite (EndpointsProofs.decimal_one_value _ _ D _ (EndpointsProofs.dec_decimal _)). lia.
    + exfalso. destruct (decimal_digs _ _ (EndpointsProofs.dec_decimal (Z.to_N i))) as [_ F]. rewrite <- E in F. inversion_clear F as [|? ? D1 _]. unfold dig in D1. lia.
Qed.

Section Write.
  Variable float_text : N -> bytes.
  Fixpoint shape (v : ipld) : jv :=
    match v with
    | Null => Json.JNull
    | IBool b => Json.JBool b
    | Integer i => JNum (int_form i)
    | Float f => if f64_finite f then JNum (float_text f) else Json.JNull
    | Str s => Json.JStr (Some s)
    | IBytes b => Json.JArr (map (fun x => JNum (Endpoints.dec x)) b)
    | IList l => Json.JArr (map shape l)
    | IMap m => Json.JObj (map (fun kv => (Some (fst kv), shape (snd kv))) m)
    | Link c => Json.JObj [(Some [47], Json.JStr (Some (base64 (cid_to_bytes c))))]
    end.
  Lemma commas_elements {A} (f : A -> jv) (g : A -> bytes) l : Forall (fun x => value_text (f x) (g x)) l -> l <> [] -> elements_text (map f l) (commas (map g l) ++ [93]).
  Proof.
    intros F. induction F as [|x l X F IH]; [contradiction|]. intros _. destruct l as [|y l].
    - exact (e_last (f x) _ [] X ltac:(constructor)).
    - specialize (IH ltac:(discriminate)). change (commas (map g (x :: y :: l))) with (g x ++ 44 :: commas (map g (y :: l))). rewrite <- app_assoc. exact (e_more (f x) _ [] _ _ X ltac:(constructor) IH).
  Qed.
  Lemma array_text {A} (f : A -> jv) (g : A -> bytes) l : Forall (fun x => value_text (f x) (g x)) l -> value_text (Json.JArr (map f l)) (91 :: commas (map g l) ++ [93]).
  Proof. intros F. destruct l as [|x l]; [exact (v_array_empty [] ltac:(constructor))|]. apply v_array, commas_elements; [exact F|discriminate]. Qed.
  Lemma commas_members {A} (k : A -> bytes) (f : A -> jv) (g : A -> bytes) l : Forall (fun x => utf8 (k x) = true /\ value_text (f x) (g x)) l -> l <> [] ->
    members_text (map (fun x => (Some (k x), f x)) l) (commas (map (fun x => json_string (k x) ++ 58 :: g x) l) ++ [125]).
  Proof.
    intros F. induction F as [|x l [K X] F IH]; [contradiction|]. intros _. destruct l as [|y l].
    - cbn [map commas]. rewrite <- app_assoc. apply EndpointsProofs.member_end; assumption.
    - specialize (IH ltac:(discriminate)). set (h := fun x => json_string (k x) ++ 58 :: g x) in *. change (commas (map h (x :: y :: l))) with ((json_string (k x) ++ 58 :: g x) ++ 44 :: commas (map h (y :: l))).
      replace (((json_string (k x) ++ 58 :: g x) ++ 44 :: commas (map h (y :: l))) ++ [125]) with (json_string (k x) ++ 58 :: g x ++ 44 :: (commas (map h (y :: l)) ++ [125])) by (rewrite <- !app_assoc; cbn [app]; rewrite <- ?app_assoc; reflexivity).
      apply EndpointsProofs.member_cons; assumption.
  Qed.
  Hypothesis printer : prints_floats f64_finite float_text.
  Lemma b64_utf8 x : wf_bytes x -> utf8 (base64 x) = true.
  Proof. intros W. apply utf8_ascii. destruct (base64_text_decode x (base64 x) W (base64_encode_text x W)) as [_ F]. eapply Forall_impl; [|exact F]. cbv beta. tauto. Qed.
  Lemma encode_text v : wf_ipld v -> value_text (shape v) (json_encode float_text v).
  Proof.
    induction v as [|b|i|f|s|bs|l IH|m IH|c] using ipld_ind'; intros W; cbn [shape json_encode].
    - apply v_null.
    - destruct b; [apply v_true|apply v_false].
    - apply v_number, int_form_text.
    - destruct (f64_finite f) eqn:F; [apply v_number, printer, F|apply v_null].
    - apply json_string_text. apply W.
    - apply array_text. apply Forall_forall. intros x _. apply v_number. left. apply dec_unsigned.
    - apply array_text. destruct W as [_ W]. rewrite allP_Forall in W. rewrite Forall_forall in *. auto.
    - destruct W as (_ & _ & W1 & W2). rewrite allP_Forall in W1, W2. destruct m as [|x m]; [exact (v_object_empty [] ltac:(constructor))|]. apply v_object.
      apply (commas_members (A := bytes * ipld) fst (fun kv => shape (snd kv)) (fun kv => json_encode float_text (snd kv))); [|discriminate]. rewrite Forall_forall in *. intros kv I. split; [apply (W1 kv I)|apply IH; auto].
    - apply v_object. cbn [wf_ipld] in W. change (json_string [47] ++ 58 :: json_string (base64 (cid_to_bytes c)) ++ [125]) with (json_string [47] ++ 58 :: (json_string (base64 (cid_to_bytes c)) ++ [125])).
      apply EndpointsProofs.member_end; [reflexivity|]. apply json_string_text, b64_utf8, cid_to_bytes_wf, W.
  Qed.

  Variable float_value : bytes -> option N.
  Lemma shape_link v l : shape v = Json.JObj l -> link_shaped l -> (exists s, v = IMap [([47], Str s)]) \/ exists c, v = Link c.
  Proof.
    intros E (s & ->). destruct v as [| | |f| | | |m|c]; try discriminate.
    - cbn [shape] in E. destruct (f64_finite f); discriminate.
    - left. cbn [shape] in E. destruct m as [|[k v] [|]]; try discriminate. cbn [map fst snd] in E. injection E as -> E. destruct v as [| | |f| | | | |]; try discriminate.
      + cbn [shape] in E. destruct (f64_finite f); discriminate.
      + eauto.
    - right. eauto.
  Qed.
  Lemma sorted_last {V} (m : list (bytes * V)) k : bt_sorted m -> bt_get k m = last_given k m.
  Proof. intros H. rewrite <- (bt_last m k), (bt_of_sorted m H). reflexivity. Qed.
  Lemma shape_says v : wf_ipld v -> forall d, survives float_text float_value f64_finite d v -> says float_value d (shape v) v.
  Proof.
    induction v as [|b|i|f|s|bs|l IH|m IH|c] using ipld_ind'; intros W d S; cbn [shape].
    - constructor.
    - constructor.
    - inversion S as [| |d' i' R| | | | |]; subst. apply says_int, int_form_64, R.
    - inversion S as [| | |d' f' F R| | | |]; subst. rewrite F. apply says_float; [apply printer, F|exact R].
    - constructor.
    - inversion S.
    - inversion S as [| | | | |d' l' F| |]; subst. apply says_list. destruct W as [_ W]. rewrite allP_Forall in W. clear S.
      induction l as [|x l IHl]; constructor; inversion_clear F; inversion_clear W; inversion_clear IH; auto.
    - inversion S as [| | | | | |d' m' NL F|]; subst. destruct W as (_ & W1 & _ & W2). rewrite allP_Forall in W2. apply (says_map _ d' _ m).
      + clear - IH F W2. induction m as [|x m IHm]; cbn [map]; constructor; inversion_clear F; inversion_clear W2; inversion_clear IH; [split; [reflexivity|cbn [snd]; auto]|auto].
      + intros X. destruct (shape_link (IMap m) _ eq_refl X) as [(s & E)|(c & E)]; [injection E as ->; exact (NL s eq_refl)|discriminate].
      + exact W1.
      + intros k. apply sorted_last, W1.
    - inversion S; subst. cbn [wf_ipld] in W. destruct W as [W _]. pose proof (cid_to_bytes_wf c W) as B. apply (says_link _ _ _ (cid_to_bytes c)); [|apply cid_roundtrip, W]. split; [exact B|]. exists []. split; [constructor|]. rewrite app_nil_r. apply base64_encode_text, B.
  Qed.

  Variable float_reread : N -> N.
  Variable int_as_float : Z -> N.
  Hypothesis rereads : forall f, f64_finite f = true -> float_value (float_text f) = Some (float_reread f).
  Hypothesis large : forall i, (- 2 ^ 127 <= i < 2 ^ 127)%Z -> (forall j, ~ int64 (int_form i) j) -> float_value (int_form i) = Some (int_as_float i).
  Lemma shape_doc v : wf_ipld v -> doc_of float_value (shape v) = Some (to_json base64 float_reread int_as_float v).
  Proof.
    induction v as [|b|i|f|s|bs|l IH|m IH|c] using ipld_ind'; intros W; cbn [shape to_json].
    - reflexivity.
    - reflexivity.
    - cbn [doc_of]. destruct ((-9223372036854775808 <=? i) && (i <? 18446744073709551616))%Z eqn:E.
      + apply number_doc_int; [apply int_form_text|]. apply int_form_64. change (- 2 ^ 63)%Z with (-9223372036854775808)%Z. change (2 ^ 64)%Z with 18446744073709551616%Z. lia.
      + assert (X : forall j, ~ int64 (int_form i) j).
        { intros j H. pose proof (int_form_value i j H) as ->. apply int64_range in H. change (- 2 ^ 63)%Z with (-9223372036854775808)%Z in H. change (2 ^ 64)%Z with 18446744073709551616%Z in H. lia. }
        apply number_doc_float; [apply int_form_text|]. split; [exact X|]. apply large; [exact W|exact X].
    - destruct (f64_finite f) eqn:F; [|reflexivity]. cbn [doc_of]. destruct (printer f F) as [P Q]. apply number_doc_float; [exact P|]. split; [exact Q|apply rereads, F].
    - reflexivity.
    - rewrite doc_arr. assert (X : docs float_value (map (fun x => JNum (Endpoints.dec x)) bs) = Some (map (fun x => JInt (Z.of_N x)) bs)).
      { apply docs_spec. destruct W as [W _]. induction W as [|x bs X W IH]; cbn [map]; constructor; [|exact IH]. cbn [doc_of]. apply number_doc_int; [left; apply dec_unsigned|]. apply int64_plain; [apply EndpointsProofs.dec_decimal|]. unfold is_byte in X. change (2 ^ 64) with 18446744073709551616. lia. }
      rewrite X. reflexivity.
    - rewrite doc_arr. assert (X : docs float_value (map shape l) = Some (map (to_json base64 float_reread int_as_float) l)).
      { apply docs_spec. destruct W as [_ W]. rewrite allP_Forall in W. induction l as [|x l IHl]; cbn [map]; constructor; inversion_clear W; inversion_clear IH; auto. }
      rewrite X. reflexivity.
    - rewrite doc_obj. assert (X : fields float_value (map (fun kv => (Some (fst kv), shape (snd kv))) m) = Some (map (fun kv => (fst kv, to_json base64 float_reread int_as_float (snd kv))) m)).
      { apply fields_spec. destruct W as (_ & _ & _ & W). rewrite allP_Forall in W. induction m as [|x m IHm]; cbn [map]; constructor; inversion_clear W; inversion_clear IH; [split; [reflexivity|cbn [snd]; auto]|auto]. }
      rewrite X. reflexivity.
    - reflexivity.
  Qed.
End Write.

(** * Decoding *)
Lemma decode_sound float_value s v : json_decode float_value s = Ok v -> exists p r j, s = p ++ r /\ value_text j p /\ says float_value 127 j v.
Proof.
  unfold json_decode. destruct (value _ s) as [[j r]|] eqn:V; [|discriminate]. destruct (doc_of float_value j) as [x|] eqn:D; [|discriminate]. intros H.
  destruct (proj1 (sound_all _) _ _ _ V) as (p & P & E). exists p, r, j. split; [exact E|]. split; [exact P|]. apply (doc_says float_value j (proj1 text_nums j p P)). eauto.
Qed.
Lemma decode_value float_value p j r : value_text j p -> may_follow j r -> json_decode float_value (p ++ r) = match doc_of float_value j with None => Err JsonErr | Some d => of_json base64_read 128 d end.
Proof.
  intros P R. unfold json_decode. rewrite (proj1 complete_all j p P); [reflexivity|rewrite app_length; lia|]. intros (t & ->). destruct r; [exact Logic.I|exact R].
Qed.
Lemma decode_complete float_value p j r v : value_text j p -> may_follow j r -> says float_value 127 j v -> json_decode float_value (p ++ r) = Ok v.
Proof.
  intros P R S. apply (doc_says float_value j (proj1 text_nums j p P)) in S as (x & X & Y). rewrite (decode_value float_value p j r P R), X. exact Y.
Qed.
Lemma decode_inv float_value p j r v : value_text j p -> may_follow j r -> json_decode float_value (p ++ r) = Ok v -> says float_value 127 j v.
Proof.
  intros P R. rewrite (decode_value float_value p j r P R). destruct (doc_of float_value j) as [x|] eqn:X; [|discriminate]. intros Y. apply (doc_says float_value j (proj1 text_nums j p P)). eauto.
Qed.
Lemma spaces_follow j w : spaces w -> may_follow j w.
Proof. intros W. destruct j; try exact Logic.I. destruct W as [|c w C W]; [exact Logic.I|]. cbn in *. unfold dig. lia. Qed.
Lemma may_end j : may_follow j [].
Proof. destruct j; exact Logic.I. Qed.
