(** Proofs about [Endpoints]. *)
From Coq Require Import Ascii String.
From Verif Require Import Base Wire BTree Cid Text TextProofs FsPathsProofs Addr Resolve RefsHttp RefsHttpSpec RefsHttpProofs HttpOptions HttpOptionsProofs
  HttpPubsub HttpBlockSpec Str Json JsonSpec JsonProofs ConfigProofs Routes Endpoints EndpointsSpec.
Local Open Scope N_scope.

(** * Writing *)
Lemma dec_n_decimal f : forall n, n < 2 ^ N.of_nat f -> (f <> 0)%nat -> decimal (dec_n f n) n.
Proof.
  induction f as [|f IH]; intros n L F; [contradiction|]. cbn [dec_n]. destruct (N.ltb_spec n 10) as [Q|Q].
  - apply decimal_one. split; lia.
  - pose proof (N.div_mod' n 10) as D. pose proof (N.mod_upper_bound n 10 ltac:(lia)) as M.
    assert (X : f <> 0%nat) by (intros ->; cbn in L; lia).
    assert (Y : n / 10 < 2 ^ N.of_nat f).
    { rewrite Nat2N.inj_succ, N.pow_succ_r' in L. apply N.div_lt_upper_bound; lia. }
    replace n with (10 * (n / 10) + n mod 10) at 3 by lia. apply decimal_more; [apply IH; assumption|]. split; lia.
Qed.
Lemma dec_decimal n : decimal (dec n) n.
Proof.
  apply dec_n_decimal; [|discriminate]. pose proof (size_bound n). rewrite Nat2N.inj_succ, N.pow_succ_r'. lia.
Qed.
Lemma dec_n_int f : forall n, n < 2 ^ N.of_nat f -> (f <> 0)%nat -> int_text (dec_n f n) /\ (n <> 0 -> exists c s, dec_n f n = c :: s /\ 49 <= c <= 57 /\ Forall dig s).
Proof.
  induction f as [|f IH]; intros n L F; [contradiction|]. cbn [dec_n]. destruct (N.ltb_spec n 10) as [Q|Q].
  - split; [|intros Z; exists (48 + n), []; repeat split; [lia|lia|constructor]]. destruct (N.eq_dec n 0) as [->|Z]; [apply int_zero|apply int_more; [lia|constructor]].
  - pose proof (N.div_mod' n 10) as D. pose proof (N.mod_upper_bound n 10 ltac:(lia)) as M.
    assert (X : f <> 0%nat) by (intros ->; cbn in L; lia).
    assert (Y : n / 10 < 2 ^ N.of_nat f).
    { rewrite Nat2N.inj_succ, N.pow_succ_r' in L. apply N.div_lt_upper_bound; lia. }
    destruct (IH (n / 10) Y X) as [_ H]. destruct H as (c & s & -> & C & S); [intros Z; rewrite Z in D; lia|].
    assert (T : Forall dig (s ++ [48 + n mod 10])) by (apply Forall_app; split; [exact S|]; constructor; [unfold dig; lia|constructor]).
    split; [apply int_more; assumption|]. intros _. exists c, (s ++ [48 + n mod 10]). repeat split; try lia. exact T.
Qed.
Lemma dec_number n : number_text (dec n).
Proof.
  left. exists (dec n), [], []. split; [|split; [constructor|split; [constructor|rewrite !app_nil_r; reflexivity]]].
  apply dec_n_int; [|discriminate]. pose proof (size_bound n). rewrite Nat2N.inj_succ, N.pow_succ_r'. lia.
Qed.

Fixpoint jval (t : jt) : jv :=
  match t with
  | TNull => JNull
  | TText s => JStr (Some s)
  | TNum n => JNum (dec n)
  | TList l => JArr (map jval l)
  | TMap l => JObj (map (fun x => (Some (fst x), jval (snd x))) l)
  end.
(** All texts in it are UTF-8. *)
Fixpoint good (t : jt) : Prop :=
  match t with
  | TNull | TNum _ => True
  | TText s => utf8 s = true
  | TList l => (fix all (l : list jt) := match l with [] => True | x :: l => good x /\ all l end) l
  | TMap l => (fix all (l : list (bytes * jt)) := match l with [] => True | x :: l => (utf8 (fst x) = true /\ good (snd x)) /\ all l end) l
  end.
Lemma good_list l : good (TList l) <-> Forall good l.
Proof. induction l as [|x l IH]; [split; [constructor|exact (fun _ => Logic.I)]|]. split; [intros [A B]; constructor; [exact A|apply IH, B]|intros H; inversion_clear H; split; [assumption|apply IH; assumption]]. Qed.
Lemma good_map l : good (TMap l) <-> Forall (fun x => utf8 (fst x) = true /\ good (snd x)) l.
Proof. induction l as [|x l IH]; [split; [constructor|exact (fun _ => Logic.I)]|]. split; [intros [A B]; constructor; [exact A|apply IH, B]|intros H; inversion_clear H; split; [assumption|apply IH; assumption]]. Qed.

Lemma jt_induction (P : jt -> Prop) : P TNull -> (forall s, P (TText s)) -> (forall n, P (TNum n)) ->
  (forall l, Forall P l -> P (TList l)) -> (forall l, Forall (fun x => P (snd x)) l -> P (TMap l)) -> forall t, P t.
Proof.
  intros A B C D E. fix IH 1. intros [|s|n|l|l]; [exact A|apply B|apply C|apply D|apply E].
  - induction l as [|x l IHl]; constructor; [apply IH|exact IHl].
  - induction l as [|x l IHl]; constructor; [apply IH|exact IHl].
Qed.
Lemma member_end k v s : utf8 k = true -> value_text v s -> members_text [(Some k, v)] (json_string k ++ 58 :: s ++ [125]).
Proof.
  intros Hk V. replace (Some k) with (string_value (map spell1 k)) by (unfold string_value; rewrite spell_text, Hk; reflexivity). unfold json_string. cbn [app].
  apply (m_last [] (map spell1 k) _ [] v s []); try constructor; try assumption. apply escape_chars.
Qed.
Lemma member_cons k v s l t : utf8 k = true -> value_text v s -> members_text l t -> members_text ((Some k, v) :: l) (json_string k ++ 58 :: s ++ 44 :: t).
Proof.
  intros Hk V M. replace (Some k) with (string_value (map spell1 k)) by (unfold string_value; rewrite spell_text, Hk; reflexivity). unfold json_string. cbn [app].
  apply (m_more [] (map spell1 k) _ [] v s [] l t); try constructor; try assumption. apply escape_chars.
Qed.
Lemma write_text t : good t -> value_text (jval t) (write t).
Proof.
  induction t as [|s|n|l IH|l IH] using jt_induction; intros G.
  - apply v_null.
  - apply json_string_text, G.
  - apply v_number, dec_number.
  - apply good_list in G. destruct l as [|x l]; [exact (v_array_empty [] ltac:(constructor))|]. cbn [write jval map]. apply v_array.
    revert x IH G. induction l as [|y l IHl]; intros x IH G; inversion_clear IH as [|? ? X Y]; inversion_clear G as [|? ? G1 G2].
    + exact (e_last (jval x) _ [] (X G1) ltac:(constructor)).
    + specialize (IHl y Y G2). rewrite <- app_assoc. exact (e_more (jval x) _ [] _ _ (X G1) ltac:(constructor) IHl).
  - apply good_map in G. destruct l as [|x l]; [exact (v_object_empty [] ltac:(constructor))|]. cbn [write jval map]. apply v_object.
    revert x IH G. induction l as [|y l IHl]; intros [k x] IH G; inversion_clear IH as [|? ? X Y]; inversion_clear G as [|? ? [G1 G2] G3]; cbn [fst snd] in *.
    + rewrite <- app_assoc. apply member_end; [exact G1|exact (X G2)].
    + specialize (IHl y Y G3). rewrite <- app_assoc, <- app_comm_cons, <- app_assoc. apply member_cons; [exact G1|exact (X G2)|exact IHl].
Qed.
Lemma jval_reads t : reads_as (jval t) t.
Proof.
  induction t as [|s|n|l IH|l IH] using jt_induction; cbn [jval].
  - constructor.
  - constructor.
  - constructor. apply dec_decimal.
  - constructor. induction IH; constructor; assumption.
  - constructor. induction IH; constructor; [split; [reflexivity|assumption]|assumption].
Qed.
Lemma json_shows t : good t -> shows (json t) t.
Proof.
  intros G. exists (write t), (jval t). split; [reflexivity|]. split; [|apply jval_reads].
  apply document_iff. exists (write t), []. split; [apply write_text, G|]. split; [constructor|rewrite app_nil_r; reflexivity].
Qed.

Lemma decimal_nonempty s n : decimal s n -> s <> [].
Proof. destruct 1; [discriminate|]. intros X. exact (app_cons_not_nil _ _ _ (eq_sym X)). Qed.
Lemma decimal_one_value s n : decimal s n -> forall n', decimal s n' -> n = n'.
Proof.
  induction 1 as [c v D|s n c v H IH D]; intros n' H'.
  - inversion H' as [c' v' D' E|s' m c' v' H2 D' E]; subst; [unfold digit in *; lia|]. exfalso. apply (f_equal (@length N)) in E. rewrite app_length in E. cbn in E. apply decimal_nonempty in H2. destruct s'; [contradiction|cbn in E; lia].
  - inversion H' as [c' v' D' E|s' m c' v' H2 D' E]; subst.
    + exfalso. apply (f_equal (@length N)) in E. rewrite app_length in E. cbn in E. apply decimal_nonempty in H. destruct s; [contradiction|cbn in E; lia].
    + apply app_inj_tail in E as [-> ->]. rewrite (IH m H2). unfold digit in *. lia.
Qed.
Lemma reads_one t : forall j t', reads_as j t -> reads_as j t' -> t = t'.
Proof.
  induction t as [|s|n|l IH|l IH] using jt_induction; intros j t' H H'.
  - inversion H; subst. inversion H'; subst. reflexivity.
  - inversion H; subst. inversion H'; subst. reflexivity.
  - inversion H as [| |? ? D| |]; subst. inversion H' as [| |? ? D'| |]; subst. f_equal. exact (decimal_one_value _ _ D _ D').
  - inversion H as [| | |jl ? F|]; subst. inversion H' as [| | |? m F'|]; subst. f_equal. clear H H'. revert m F'. induction F as [|x y xs ys X F IHF]; intros m F'; inversion F' as [|? z ? zs Z F'']; subst; [reflexivity|].
    inversion_clear IH as [|? ? I1 I2]. f_equal; [exact (I1 _ _ X Z)|exact (IHF I2 _ F'')].
  - inversion H as [| | | |jl ? F]; subst. inversion H' as [| | | |? m F']; subst. f_equal. clear H H'. revert m F'. induction F as [|x [k y] xs ys [X1 X2] F IHF]; intros m F'; inversion F' as [|? [k' z] ? zs [Z1 Z2] F'']; subst; [reflexivity|].
    cbn [fst snd] in *. inversion_clear IH as [|? ? I1 I2]. f_equal; [|exact (IHF I2 _ F'')]. f_equal; [congruence|exact (I1 _ _ X2 Z2)].
Qed.
Lemma shows_one r t t' : shows r t -> shows r t' -> t = t'.
Proof. intros (b & j & -> & D & R) (b' & j' & [= <-] & D' & R'). rewrite D in D'. injection D' as <-. exact (reads_one t j t' R R'). Qed.

(** * Queries *)
Definition linked (p : param) (s : string * bool * (bytes -> Prop)) : Prop :=
  p_name p = text (fst (fst s)) /\ p_required p = snd (fst s) /\ forall v, p_reads p v = true <-> snd s v.
Lemma rules_of_in ps : NoDup (map p_name ps) -> forall p, In p ps -> rules_of ps (p_name p) = Some (mk_rule true (p_reads p)).
Proof.
  induction ps as [|p0 ps IH]; intros N p I; [destruct I|]. cbn [map] in N. inversion_clear N as [|? ? N1 N2]. cbn [rules_of]. destruct (beq_spec (p_name p) (p_name p0)) as [E|E].
  - destruct I as [->|I]; [reflexivity|]. exfalso. apply N1. rewrite <- E. apply in_map, I.
  - destruct I as [->|I]; [contradiction|]. apply IH; assumption.
Qed.
Lemma rules_of_some ps k r : rules_of ps k = Some r -> exists p, In p ps /\ p_name p = k /\ r = mk_rule true (p_reads p).
Proof.
  induction ps as [|p ps IH]; cbn; [discriminate|]. destruct (beq_spec k (p_name p)) as [->|]; intros H.
  - injection H as <-. exists p. repeat split. left. reflexivity.
  - destruct (IH H) as (p' & A & B & C). exists p'. repeat split; [right; exact A|exact B|exact C].
Qed.
Lemma params_read ps ss q : Forall2 linked ps ss -> NoDup (map p_name ps) ->
  match read_params ps q with
  | Some t => fits ss q /\ forall p, In p ps -> one_of (p_name p) t = hd_error (values (p_name p) q)
  | None => ~ fits ss q
  end.
Proof.
  intros L N. unfold read_params. destruct (read_query (rules_of ps) [] q) as [t|e|] eqn:E.
  - assert (O : forall p, In p ps -> (values (p_name p) q = [] /\ one_of (p_name p) t = None) \/ exists v, values (p_name p) q = [v] /\ one_of (p_name p) t = Some v /\ p_reads p v = true).
    { intros p I. exact (read_once (rules_of ps) q t (p_name p) _ E (rules_of_in ps N p I) eq_refl). }
    destruct (forallb _ ps) eqn:F.
    + split.
      * unfold fits. clear N E. induction L as [|p s ps ss (L1 & L2 & L3) L IH]; [constructor|]. constructor.
        -- destruct s as [[name needed] reads]. cbn [fst snd] in *. rewrite <- L1. cbn [forallb] in F. apply andb_prop in F as [F _]. destruct (O p (or_introl eq_refl)) as [[A B]|(v & A & B & C)].
           ++ rewrite B, orb_false_r in F. left. split; [exact A|]. rewrite <- L2. destruct (p_required p); [discriminate|reflexivity].
           ++ right. exists v. split; [exact A|apply L3, C].
        -- cbn [forallb] in F. apply andb_prop in F as [_ F]. apply IH; [intros p' I; apply O; right; exact I|exact F].
      * intros p I. destruct (O p I) as [[A B]|(v & A & B & _)]; rewrite A, B; reflexivity.
    + intros G. enough (X : forallb (fun p => negb (p_required p) || match one_of (p_name p) t with Some _ => true | None => false end) ps = true) by congruence.
      clear N E F. induction L as [|p s ps ss (L1 & L2 & L3) L IH]; [reflexivity|]. inversion_clear G as [|? ? G1 G2]. cbn [forallb]. rewrite IH; [|intros p' I; apply O; right; exact I|exact G2].
      rewrite andb_true_r. destruct s as [[name needed] reads]. cbn [fst snd] in *. rewrite <- L1 in G1. destruct (O p (or_introl eq_refl)) as [[A B]|(v & A & B & C)]; rewrite B; [|apply orb_true_r].
      destruct G1 as [[_ G1]|(v & G1 & _)]; [rewrite L2, G1; reflexivity|congruence].
  - intros G. destruct (read_query_accepts (rules_of ps) q []) as (t & T); [|congruence].
    intros k r R. destruct (rules_of_some ps k r R) as (p & I & <- & ->). cbn [readable once].
    assert (X : (values (p_name p) q = []) \/ exists v, values (p_name p) q = [v] /\ p_reads p v = true).
    { clear N E R. unfold fits in G. induction L as [|p0 s ps ss (L1 & L2 & L3) L IH]; [destruct I|]. inversion_clear G as [|? ? G1 G2]. destruct I as [->|I]; [|apply IH; assumption].
      destruct s as [[name needed] reads]. cbn [fst snd] in *. rewrite <- L1 in G1. destruct G1 as [[G1 _]|(v & G1 & G3)]; [left; exact G1|right]. exists v. split; [exact G1|apply L3, G3]. }
    destruct X as [X|(v & X & Y)]; rewrite X; split; [constructor|left; reflexivity|constructor; [exact Y|constructor]|]. intros _. right. split; [intros []|]. exists v. reflexivity.
  - exfalso. exact (read_query_no_panic _ _ _ E).
Qed.
Lemma query_answers ps ss q f (P : Prop) : Forall2 linked ps ss -> NoDup (map p_name ps) ->
  (forall t, fits ss q -> (forall p, In p ps -> one_of (p_name p) t = hd_error (values (p_name p) q)) -> query ps q f = f t -> P) ->
  answers ss q (query ps q f) P.
Proof.
  intros L N H. pose proof (params_read ps ss q L N) as G. unfold answers, query in *. destruct (read_params ps q) as [t|].
  - destruct G as [A B]. split; [intros _; exact (H t A B eq_refl)|intros X; contradiction].
  - split; [intros X; contradiction|reflexivity].
Qed.
Lemma link_any b name : linked (mk_param (text name) b any_value) ((name, b, anything)).
Proof. split; [reflexivity|]. split; [reflexivity|]. intros v. split; [exact (fun _ => Logic.I)|reflexivity]. Qed.
Lemma link_bool b name : linked (mk_param (text name) b a_bool) ((name, b, yes_or_no)).
Proof. split; [reflexivity|]. split; [reflexivity|]. intros v. apply a_bool_spec. Qed.
Lemma link_peer b name : linked (mk_param (text name) b a_peer) ((name, b, peer_named)).
Proof.
  split; [reflexivity|]. split; [reflexivity|]. intros v. unfold a_peer, peer_named. cbn [snd p_reads].
  destruct (peer_from_text v) as [p|]; split; [exists p; reflexivity|reflexivity|discriminate|intros [p [=]]].
Qed.
Lemma link_cid ob b name : linked (mk_param (text name) b (a_cid ob)) ((name, b, fun v => exists c, cid_from_text ob v = Some c)).
Proof.
  split; [reflexivity|]. split; [reflexivity|]. intros v. unfold a_cid. cbn [snd p_reads].
  destruct (cid_from_text ob v) as [p|]; split; [exists p; reflexivity|reflexivity|discriminate|intros [p [=]]].
Qed.
Lemma link_reads b name r : linked (mk_param (text name) b r) ((name, b, fun v => r v = true)).
Proof. split; [reflexivity|]. split; [reflexivity|]. reflexivity. Qed.
Lemma digits_below s n : digits_val s 0 = Some n -> n < u64_max1.
Proof.
  assert (G : forall s a, a < u64_max1 -> digits_val s a = Some n -> n < u64_max1); [|apply G; reflexivity].
  clear. induction s as [|c s IH]; intros a A; [intros [= <-]; exact A|]. cbn [digits_val]. destruct (_ && _); [|discriminate]. cbv zeta. destruct (N.ltb_spec (10 * a + (c - 48)) u64_max1); [|discriminate]. apply IH. assumption.
Qed.
Lemma parse_usize_spec v n : parse_usize v = Some n <-> unsigned v n /\ n < 18446744073709551616.
Proof.
  change 18446744073709551616 with u64_max1. unfold parse_usize, unsigned. split.
  - destruct v as [|c r]; [discriminate|]. destruct (N.eqb_spec c 43) as [->|].
    + destruct r as [|d r]; [discriminate|]. intros H. split; [right; exists (d :: r); split; [reflexivity|apply digits_decimal; [discriminate|exact H]]|exact (digits_below _ _ H)].
    + intros H. split; [left; apply digits_decimal; [discriminate|exact H]|exact (digits_below _ _ H)].
  - intros [[D|(r & -> & D)] L].
    + pose proof (decimal_first _ _ D) as (c & r & -> & R). destruct (N.eqb_spec c 43) as [->|]; [lia|]. apply decimal_digits; assumption.
    + change (43 =? 43) with true. cbv iota. pose proof (decimal_first _ _ D) as (c & r' & -> & R). apply decimal_digits; assumption.
Qed.
Lemma link_usize b name : linked (mk_param (text name) b a_usize) ((name, b, a_number)).
Proof.
  split; [reflexivity|]. split; [reflexivity|]. intros v. unfold a_usize, a_number. cbn [snd p_reads]. split.
  - destruct (parse_usize v) as [n|] eqn:E; [|discriminate]. intros _. exists n. apply parse_usize_spec, E.
  - intros (n & H). apply parse_usize_spec in H. rewrite H. reflexivity.
Qed.

(** * Texts *)
Lemma peer_utf8 p : utf8 (peer_to_text p) = true.
Proof. apply alnum_utf8, b58_chars. Qed.
Lemma cid_utf8 c : utf8 (cid_to_text c) = true.
Proof. apply alnum_utf8, cid_text_alnum. Qed.
Lemma decimal_ascii s n : decimal s n -> Forall (fun c => c < 128) s.
Proof.
  assert (Z : forall d v, digit d v -> d < 128) by (unfold digit; intros; lia).
  induction 1; [constructor; [eapply Z; eassumption|constructor]|]. apply Forall_app. split; [assumption|]. constructor; [eapply Z; eassumption|constructor].
Qed.
Lemma dec_ms_utf8 n : utf8 (dec n ++ text "ms") = true.
Proof. apply utf8_ascii, Forall_app. split; [exact (decimal_ascii _ _ (dec_decimal n))|]. repeat constructor. Qed.
Lemma good_texts l : Forall (fun s => utf8 s = true) l -> good (texts l).
Proof. intros H. apply good_list. induction H; constructor; assumption. Qed.
Lemma good_texts_map {A} (f : A -> bytes) l : (forall x, utf8 (f x) = true) -> good (texts (map f l)).
Proof. intros H. apply good_texts. induction l; constructor; [apply H|assumption]. Qed.
Lemma good_items {A} (f : A -> jt) l : (forall x, good (f x)) -> good (TList (map f l)).
Proof. intros H. apply good_list. induction l; constructor; [apply H|assumption]. Qed.
Lemma bt_insert_good k v l : utf8 k = true -> good v -> good (TMap l) -> good (TMap (bt_insert k v l)).
Proof.
  intros A B G. apply good_map. apply good_map in G. induction G as [|[k' v'] l [G1 G2] G IH]; cbn [bt_insert]; [repeat constructor; assumption|].
  destruct (bcmp k k'); repeat (constructor; [split; assumption|]); assumption.
Qed.
Lemma bt_good l : good (TMap l) -> good (TMap (bt_of_list l)).
Proof.
  intros G. apply good_map in G. unfold bt_of_list. assert (A : good (TMap [])) by exact Logic.I. revert A. generalize (@nil (bytes * jt)) as m.
  induction G as [|[k v] l [G1 G2] G IH]; intros m M; [exact M|]. cbn [fold_left fst snd]. apply IH, bt_insert_good; assumption.
Qed.
Lemma bt_keeps {V} (l : list (bytes * V)) : NoDup (map fst l) -> forall kv, In kv (bt_of_list l) <-> In kv l.
Proof.
  intros N [k v]. pose proof (bt_of_list_get_acc l [] k Logic.I N) as G. change (fold_left _ l []) with (bt_of_list l) in G. cbn [bt_get] in G. pose proof (bt_of_list_sorted l) as S. split; intros H.
  - apply (nodup_get _ _ _ (bt_sorted_nodup _ S)) in H. rewrite H in G. destruct (bt_get k l) eqn:E; [|discriminate]. injection G as ->. apply bt_get_in, E.
  - apply (nodup_get _ _ _ N) in H. rewrite H in G. apply bt_get_in, G.
Qed.
