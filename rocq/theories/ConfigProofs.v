(** Lemmas about [Config]: the texts. *)
From Verif Require Import Base Wire WireProofs Prost ProstProofs Cid Text TextProofs Addr RefsHttp FsPathsProofs HttpPubsub HttpPubsubSpec HttpPubsubProofs
  Json JsonSpec JsonProofs Config ConfigSpec.
Local Open Scope N_scope.

(** * Base64 *)
Lemma b64_index_digit v : v < 64 -> b64_index (b64_digit v) = Some v.
Proof. exact (b64_value_digit v). Qed.
Lemma digit_stands v : v < 64 -> stands_for (b64_digit v) v.
Proof.
  intros H. unfold stands_for.
  assert (A : forallb (fun v => match nth_error alphabet (N.to_nat v) with Some c => c =? b64_digit v | None => false end) (map N.of_nat (seq 0 64)) = true) by reflexivity.
  rewrite forallb_forall in A. specialize (A v). cbv beta in A.
  destruct (nth_error alphabet (N.to_nat v)) as [c|].
  - f_equal. apply N.eqb_eq. apply A. apply in_map_iff. exists (N.to_nat v). split; [lia|apply in_seq; lia].
  - exfalso. enough (false = true) by discriminate. apply A. apply in_map_iff. exists (N.to_nat v). split; [lia|apply in_seq; lia].
Qed.
Lemma stands_digit c v : stands_for c v -> v < 64 /\ c = b64_digit v.
Proof.
  intros H. assert (L : v < 64).
  { assert (X : (N.to_nat v < length alphabet)%nat) by (apply nth_error_Some; rewrite H; discriminate). change (length alphabet) with 64%nat in X. lia. }
  split; [exact L|]. pose proof (digit_stands v L) as Y. unfold stands_for in *. congruence.
Qed.
Lemma base64_text_decode x s : wf_bytes x -> base64_text x s -> base64_decode s = Some x /\ Forall (fun c => c < 128 /\ c <> 45 /\ 32 < c) s.
Proof.
  assert (D : forall v, v < 64 -> b64_digit v < 128 /\ b64_digit v <> 45 /\ 32 < b64_digit v).
  { intros v L. unfold b64_digit. destruct (N.ltb_spec v 26); [lia|]. destruct (N.ltb_spec v 52); [lia|]. destruct (N.ltb_spec v 62); [lia|]. destruct (N.eqb_spec v 62); lia. }
  intros W H. induction H as [|x a b A B|x y a b c A B C|x y z a b c d l s A B C E H IH].
  - split; [reflexivity|constructor].
  - inversion W as [|? ? Hx _]; subst. unfold is_byte in Hx. apply stands_digit in A, B. destruct A as [LA ->], B as [LB ->]. split.
    + cbn [base64_decode]. rewrite !b64_index_digit by assumption. change (61 =? 61) with true. cbv iota. rewrite N.mod_mul by lia. change (0 =? 0) with true. cbv iota. cbn [option_map]. rewrite N.div_mul by lia. pose proof (N.div_mod x 4 ltac:(lia)). do 2 f_equal. lia.
    + repeat (constructor; [first [apply D; assumption|lia]|]). constructor.
  - inversion W as [|? ? Hx W2]; subst. inversion W2 as [|? ? Hy _]; subst. unfold is_byte in Hx, Hy. destruct (b64_parts x y Hx Hy) as (P1 & P2 & P3 & P4 & P5 & P6 & P7 & P8). apply stands_digit in A, B, C. destruct A as [LA ->], B as [LB ->], C as [LC ->]. split.
    + cbn [base64_decode]. rewrite !b64_index_digit by assumption. change (61 =? 61) with true. cbv iota. rewrite b64_digit_pad. rewrite N.mod_mul by lia. change (0 =? 0) with true. cbv iota. cbn [option_map]. rewrite P1, P2, P6, P5, P8. reflexivity.
    + repeat (constructor; [first [apply D; assumption|lia]|]). constructor.
  - inversion W as [|? ? Hx W2]; subst. inversion W2 as [|? ? Hy W3]; subst. inversion W3 as [|? ? Hz W4]; subst. unfold is_byte in Hx, Hy, Hz. destruct (b64_parts x y Hx Hy) as (P1 & P2 & P3 & P4 & P5 & _ & _ & P8). destruct (b64_last y z Hy Hz) as (Q1 & Q2 & Q3 & Q4 & Q5). apply stands_digit in A, B, C, E. destruct A as [LA ->], B as [LB ->], C as [LC ->], E as [LE ->]. destruct (IH W4) as [IH1 IH2]. split.
    + cbn [base64_decode]. rewrite !b64_index_digit by assumption. rewrite !b64_digit_pad, IH1. cbn [option_map]. rewrite P1, P2, Q1, Q2, P5, P8, Q5. reflexivity.
    + do 4 (constructor; [apply D; assumption|]). exact IH2.
Qed.
Lemma base64_encode_text s : wf_bytes s -> base64_text s (base64 s).
Proof.
  enough (G : forall n s, (length s <= n)%nat -> wf_bytes s -> base64_text s (base64 s)) by (apply (G (length s)); lia).
  clear s. induction n as [|n IH]; intros s L W; [destruct s; [constructor|cbn in L; lia]|]. destruct s as [|a [|b [|c r]]]; [constructor| | |].
  - inversion W as [|? ? Ha _]; subst. unfold is_byte in Ha. cbn [base64]. assert (a mod 4 * 16 < 64) by (pose proof (N.mod_lt a 4 ltac:(lia)); lia). assert (a / 4 < 64) by (apply N.div_lt_upper_bound; lia). constructor; apply digit_stands; assumption.
  - inversion W as [|? ? Ha W2]; subst. inversion W2 as [|? ? Hb _]; subst. destruct (b64_parts a b Ha Hb) as (P1 & P2 & P3 & P4 & P5 & P6 & P7 & P8). cbn [base64]. constructor; apply digit_stands; assumption.
  - inversion W as [|? ? Ha W2]; subst. inversion W2 as [|? ? Hb W3]; subst. inversion W3 as [|? ? Hc W4]; subst. destruct (b64_parts a b Ha Hb) as (P1 & P2 & P3 & P4 & P5 & _ & _ & P8). destruct (b64_last b c Hb Hc) as (Q1 & Q2 & Q3 & Q4 & Q5).
    change (base64 (a :: b :: c :: r)) with (b64_digit (a / 4) :: b64_digit (a mod 4 * 16 + b / 16) :: b64_digit (b mod 16 * 4 + c / 64) :: b64_digit (c mod 64) :: base64 r). constructor; try (apply digit_stands; assumption). apply IH; [cbn [length] in L; lia|exact W4].
Qed.
Lemma base64_decode_encode s : wf_bytes s -> base64_decode (base64 s) = Some s.
Proof. intros W. apply (base64_text_decode s (base64 s) W (base64_encode_text s W)). Qed.

(** * PEM *)
Lemma split_line l s : ~ In 10 l -> split_lines (line l ++ s) = l :: split_lines s.
Proof.
  unfold line. induction l as [|c l IH]; intros H; [reflexivity|]. cbn [app split_lines]. destruct (N.eqb_spec c 10) as [->|]; [exfalso; apply H; left; reflexivity|].
  rewrite <- app_assoc. cbn [app]. rewrite <- app_assoc in IH. cbn [app] in IH. rewrite IH; [reflexivity|]. intros X. apply H. right. exact X.
Qed.
Lemma split_many (ls : list bytes) s : Forall (fun l => ~ In 10 l) ls -> split_lines (concat (map line ls) ++ s) = ls ++ split_lines s.
Proof.
  induction ls as [|l ls IH]; intros H; [reflexivity|]. inversion H; subst. cbn [map concat]. rewrite <- app_assoc, split_line by assumption. rewrite IH by assumption. reflexivity.
Qed.
Lemma chomp_id (l : bytes) : ~ In 13 l -> chomp l = l.
Proof.
  induction l as [|c l IH]; intros H; [reflexivity|]. destruct l as [|d l].
  - cbn [chomp]. destruct (N.eqb_spec c 13) as [->|]; [exfalso; apply H; left; reflexivity|reflexivity].
  - change (chomp (c :: d :: l)) with (c :: chomp (d :: l)). f_equal. apply IH. intros X. apply H. right. exact X.
Qed.
Lemma strip_prefix_app p s : strip_prefix p (p ++ s) = Some s.
Proof. induction p as [|x p IH]; [reflexivity|]. cbn [app strip_prefix]. rewrite N.eqb_refl. exact IH. Qed.
Lemma pem_body_ok tag (ls rest : list bytes) : Forall (fun l => ~ In 45 l) ls -> pem_body tag (ls ++ (end_mark ++ tag) :: rest) = Some (concat ls).
Proof.
  induction ls as [|l ls IH]; intros H.
  - cbn [app]. cbn [pem_body]. change (strip_prefix dashes_end (end_mark ++ tag)) with (strip_prefix dashes_end (dashes_end ++ tag)). rewrite strip_prefix_app, beq_refl. reflexivity.
  - inversion H as [|? ? A B]; subst. cbn [app pem_body]. replace (strip_prefix dashes_end l) with (@None bytes).
    + rewrite IH by assumption. reflexivity.
    + symmetry. destruct l as [|c l]; [reflexivity|]. cbn [strip_prefix dashes_end]. destruct (N.eqb_spec 45 c) as [<-|]; [exfalso; apply A; left; reflexivity|reflexivity].
Qed.
Lemma split_line_text l x s : ~ In 10 l -> ~ In 13 l -> line_text l x -> exists y, split_lines (x ++ s) = y :: split_lines s /\ chomp y = l.
Proof.
  intros A B [->| ->].
  - exists l. split; [exact (split_line l s A)|apply chomp_id, B].
  - exists (l ++ [13]). split.
    + replace ((l ++ [13; 10]) ++ s) with (line (l ++ [13]) ++ s) by (unfold line; rewrite <- !app_assoc; reflexivity). apply split_line. intros X. apply in_app_or in X. destruct X as [X|[X|[]]]; [tauto|discriminate].
    + clear A. induction l as [|c l IH]; [reflexivity|]. cbn [app]. destruct (l ++ [13]) as [|d m] eqn:E; [destruct l; discriminate|]. change (chomp (c :: d :: m)) with (c :: chomp (d :: m)). f_equal. apply IH. intros X. apply B. right. exact X.
Qed.
Lemma split_many_text ls mid s : Forall (fun l => ~ In 10 l /\ ~ In 13 l) ls -> Forall2 line_text ls mid -> map chomp (split_lines (concat mid ++ s)) = ls ++ map chomp (split_lines s).
Proof.
  intros F F2. induction F2 as [|l x ls mid T F2 IH]; [reflexivity|]. inversion F as [|? ? [A B] F']; subst. cbn [concat app]. rewrite <- app_assoc.
  destruct (split_line_text l x (concat mid ++ s) A B T) as (y & -> & C). cbn [map]. rewrite C, (IH F'). reflexivity.
Qed.
Lemma line_text_ascii l x : Forall (fun c => c < 128) l -> line_text l x -> Forall (fun c => c < 128) x.
Proof. intros F [->| ->]; apply Forall_app; split; try assumption; repeat (constructor; [lia|]); constructor. Qed.
Lemma pem_round_trip data pem : wf_bytes data -> pem_text data pem -> pem_to_der pem = Some data.
Proof.
  intros W (label & ls & b & garbage & first & last & mid & L & B & C & G & T1 & T2 & T3 & ->). destruct (base64_text_decode data b W B) as [D F]. subst b.
  assert (F' : Forall (fun l => (~ In 10 l /\ ~ In 13 l) /\ ~ In 45 l /\ Forall (fun c => c < 128) l) ls).
  { apply Forall_forall. intros l Hl. rewrite Forall_forall in F. assert (K : forall c, In c l -> c < 128 /\ c <> 45 /\ 32 < c) by (intros c Hc; apply F; apply in_concat; exists l; tauto).
    repeat split; try (intros X; apply K in X; lia). apply Forall_forall. intros c Hc. apply K, Hc. }
  assert (B1 : forall m, Forall (fun c => 32 <= c < 128) m -> Forall (fun c => 32 <= c < 128) (m ++ label)) by (intros m Hm; apply Forall_app; split; assumption).
  assert (HB : Forall (fun c => 32 <= c < 128) (begin_mark ++ label)) by (apply B1; unfold begin_mark; repeat (constructor; [lia|]); constructor).
  assert (HE : Forall (fun c => 32 <= c < 128) (end_mark ++ label)) by (apply B1; unfold end_mark; repeat (constructor; [lia|]); constructor).
  assert (K : forall l c, Forall (fun c => 32 <= c < 128) l -> c < 32 -> ~ In c l) by (intros l c Hl Hc X; rewrite Forall_forall in Hl; apply Hl in X; lia).
  assert (K2 : forall l, Forall (fun c => 32 <= c < 128) l -> Forall (fun c => c < 128) l) by (intros l Hl; eapply Forall_impl; [|exact Hl]; cbv beta; intros; lia).
  unfold pem_to_der. rewrite utf8_ascii.
  - destruct (split_line_text _ first (concat mid ++ last ++ garbage) (K _ 10 HB ltac:(lia)) (K _ 13 HB ltac:(lia)) T1) as (y & -> & Y). cbn [map]. rewrite Y.
    rewrite split_many_text with (ls := ls); [|eapply Forall_impl; [|exact F']; cbv beta; tauto|exact T2].
    destruct (split_line_text _ last garbage (K _ 10 HE ltac:(lia)) (K _ 13 HE ltac:(lia)) T3) as (z & -> & Z). cbn [map]. rewrite Z.
    change (strip_prefix dashes_begin (begin_mark ++ label)) with (strip_prefix dashes_begin (dashes_begin ++ label)). rewrite strip_prefix_app, pem_body_ok; [exact D|]. eapply Forall_impl; [|exact F']; cbv beta; tauto.
  - rewrite !Forall_app. split; [|split; [|split]].
    + eapply line_text_ascii; [|exact T1]. apply K2, HB.
    + clear -T2 F'. induction T2 as [|l x ls mid T _ IH]; [constructor|]. inversion F' as [|? ? (_ & _ & A) F'']; subst. cbn [concat]. apply Forall_app. split; [exact (line_text_ascii l x A T)|apply IH, F''].
    + eapply line_text_ascii; [|exact T3]. apply K2, HE.
    + exact G.
Qed.
Lemma strip_prefix_some p : forall s t, strip_prefix p s = Some t -> s = p ++ t.
Proof.
  induction p as [|x p IH]; intros s t E; [injection E as <-; reflexivity|]. destruct s as [|c s]; [discriminate|]. cbn [strip_prefix] in E. destruct (N.eqb_spec x c) as [<-|]; [|discriminate]. cbn [app]. f_equal. exact (IH s t E).
Qed.
Lemma pem_body_inv tag : forall ls b, pem_body tag ls = Some b -> exists l r, ls = l ++ (end_mark ++ tag) :: r /\ b = concat l.
Proof.
  induction ls as [|x ls IH]; intros b E; [discriminate|]. cbn [pem_body] in E. destruct (strip_prefix dashes_end x) as [t|] eqn:S.
  - destruct (beq tag t) eqn:Q; [|discriminate]. apply beq_eq in Q. subst t. injection E as <-. apply strip_prefix_some in S. exists [], ls. split; [exact (f_equal (fun x => x :: ls) S)|reflexivity].
  - destruct (pem_body tag ls) as [b'|] eqn:P; [|discriminate]. injection E as <-. destruct (IH b' eq_refl) as (l & r & -> & ->). exists (x :: l), r. split; reflexivity.
Qed.
Lemma pem_inv pem data : pem_to_der pem = Some data ->
  exists label ls garbage, map chomp (split_lines pem) = (begin_mark ++ label) :: ls ++ (end_mark ++ label) :: garbage /\ base64_decode (concat ls) = Some data.
Proof.
  unfold pem_to_der. destruct (utf8 pem); [|discriminate]. destruct (map chomp (split_lines pem)) as [|x r]; [discriminate|]. destruct (strip_prefix dashes_begin x) as [tag|] eqn:S; [|discriminate].
  destruct (pem_body tag r) as [b|] eqn:P; [|discriminate]. intros D. apply strip_prefix_some in S. destruct (pem_body_inv tag r b P) as (l & g & -> & ->). exists tag, l, g. split; [exact (f_equal (fun x => x :: _) S)|exact D].
Qed.

(** * The key message *)
Lemma decode_encode_key data : blen data < u64_max1 -> decode_key (encode_key data) = Some (0%Z, data).
Proof.
  intros H. unfold decode_key, encode_key. change 8 with (1 * 8). change 18 with (2 * 8 + 2). rewrite pb_fields_uint by (unfold u32_max1, u64_max1; lia).
  rewrite <- (app_nil_r (w_bytes (2 * 8 + 2) data)), pb_fields_len by (try (unfold u32_max1; lia); exact H). rewrite pb_fields_nil. reflexivity.
Qed.

Lemma to_i32_small n : n < 2147483648 -> to_i32 n = Z.of_N n.
Proof. intros H. unfold to_i32, u32_max1. rewrite N.mod_small by lia. destruct (Z.ltb_spec (Z.of_N n) 2147483648); [reflexivity|lia]. Qed.
Lemma key_message l s : key_text l s -> decode_key s = Some (Z.of_N (last_type 0 l), last_data [] l).
Proof.
  intros (ts & F & ->). unfold decode_key. assert (G : exists fs, pb_fields 100 (concat ts) = Some fs /\ forall t b, pb_merge key_field (Z.of_N t, b) fs = Some (Z.of_N (last_type t l), last_data b l)).
  { induction F as [|p x l ts P F (fs & E & M)]; [exists []; split; [reflexivity|intros; reflexivity]|]. cbn [concat]. destruct P as [n Hn|d Hd|tag n Ht Hn|tag d Ht Hd].
    - exists ((1, PVarint n) :: fs). split.
      + change (8 :: write_varint n) with (w_uint (1 * 8) n). rewrite pb_fields_uint by (unfold u32_max1, u64_max1; lia). rewrite E. reflexivity.
      + intros t b. cbn [pb_merge key_field N.eqb Pos.eqb snd last_type last_data]. rewrite to_i32_small by exact Hn. apply M.
    - exists ((2, PLen d) :: fs). split.
      + change (18 :: write_varint (blen d) ++ d) with (w_bytes (2 * 8 + 2) d). rewrite pb_fields_len by (try exact Hd; unfold u32_max1; lia). rewrite E. reflexivity.
      + intros t b. cbn [pb_merge key_field N.eqb Pos.eqb fst last_type last_data]. apply M.
    - exists ((tag, PVarint n) :: fs). split.
      + replace (8 * tag) with (tag * 8) by lia. change (write_varint (tag * 8) ++ write_varint n) with (w_uint (tag * 8) n). rewrite pb_fields_uint by (try exact Hn; unfold u32_max1; lia). rewrite E. reflexivity.
      + intros t b. cbn [pb_merge key_field last_type last_data]. replace (tag =? 1) with false by lia. replace (tag =? 2) with false by lia. apply M.
    - exists ((tag, PLen d) :: fs). split.
      + replace (8 * tag + 2) with (tag * 8 + 2) by lia. change (write_varint (tag * 8 + 2) ++ write_varint (blen d) ++ d) with (w_bytes (tag * 8 + 2) d). rewrite pb_fields_len by (try exact Hd; unfold u32_max1; lia). rewrite E. reflexivity.
      + intros t b. cbn [pb_merge key_field last_type last_data]. replace (tag =? 1) with false by lia. replace (tag =? 2) with false by lia. apply M. }
  destruct G as (fs & -> & M). apply (M 0 []).
Qed.

(** * Strings and the file *)
Definition spell1 (c : N) : jchar :=
  if (c =? 8) || (c =? 9) || (c =? 10) || (c =? 12) || (c =? 13) then Raw c else if c <? 32 then Unit c else Raw c.
Lemma hex_digit_hex v : v < 16 -> hex (hex_digit v) v.
Proof. intros H. unfold hex, hex_digit. destruct (N.ltb_spec v 10); lia. Qed.
Lemma escape_chars s : chars (map spell1 s) (concat (map escape s) ++ [34]).
Proof.
  induction s as [|c s IH]; [constructor|]. cbn [map concat]. rewrite <- app_assoc. unfold escape at 1, spell1 at 1.
  destruct (N.eqb_spec c 34) as [->|]; [apply chars_escape; [cbn; tauto|exact IH]|].
  destruct (N.eqb_spec c 92) as [->|]; [apply chars_escape; [cbn; tauto|exact IH]|].
  destruct (N.eqb_spec c 8) as [->|]; [apply chars_escape; [cbn; tauto|exact IH]|].
  destruct (N.eqb_spec c 9) as [->|]; [apply chars_escape; [cbn; tauto|exact IH]|].
  destruct (N.eqb_spec c 10) as [->|]; [apply chars_escape; [cbn; tauto|exact IH]|].
  destruct (N.eqb_spec c 12) as [->|]; [apply chars_escape; [cbn; tauto|exact IH]|].
  destruct (N.eqb_spec c 13) as [->|]; [apply chars_escape; [cbn; tauto|exact IH]|].
  cbn [orb]. destruct (N.ltb_spec c 32) as [L|L]; [|apply chars_plain; assumption].
  cbn [app]. pose proof (N.div_mod c 16 ltac:(lia)). pose proof (N.mod_lt c 16 ltac:(lia)). assert (c / 16 < 16) by (apply N.div_lt_upper_bound; lia).
  replace (Unit c) with (Unit (4096 * 0 + 256 * 0 + 16 * (c / 16) + c mod 16)) by (f_equal; lia).
  apply chars_unit; [left; lia|left; lia|apply hex_digit_hex; lia|apply hex_digit_hex; lia|exact IH].
Qed.
Lemma spell_text s : text_of (map spell1 s) = Some s.
Proof.
  induction s as [|c s IH]; [reflexivity|]. cbn [map]. unfold spell1 at 1. destruct ((c =? 8) || (c =? 9) || (c =? 10) || (c =? 12) || (c =? 13)); [cbn [text_of]; rewrite IH; reflexivity|].
  destruct (N.ltb_spec c 32) as [L|L]; [|cbn [text_of]; rewrite IH; reflexivity]. cbn [text_of]. replace ((55296 <=? c) && (c <? 56320)) with false by lia. replace ((56320 <=? c) && (c <? 57344)) with false by lia. rewrite IH. unfold encode_utf8. replace (c <? 128) with true by lia. reflexivity.
Qed.
Lemma json_string_text s : utf8 s = true -> value_text (JStr (Some s)) (json_string s).
Proof.
  intros H. replace (Some s) with (string_value (map spell1 s)) by (unfold string_value; rewrite spell_text, H; reflexivity). unfold json_string. apply v_string, escape_chars.
Qed.
Lemma spaces_nl n : spaces (nl n).
Proof. unfold nl. constructor; [cbn; tauto|]. induction n; [constructor|]. cbn [repeat]. constructor; [cbn; tauto|assumption]. Qed.
Lemma space_value v s : value_text v s -> value_text v (32 :: s).
Proof. apply v_space. cbn. tauto. Qed.
Lemma member_last k v s n m : utf8 k = true -> value_text v s -> members_text [(Some k, v)] (nl n ++ member k s ++ nl m ++ [125]).
Proof.
  intros K V. replace (Some k) with (string_value (map spell1 k)) by (unfold string_value; rewrite spell_text, K; reflexivity). assert (E : nl n ++ member k s ++ nl m ++ [125] = nl n ++ 34 :: (concat (map escape k) ++ [34]) ++ [] ++ 58 :: (32 :: s) ++ nl m ++ [125]) by (unfold member, json_string; f_equal; cbn [app]; f_equal; rewrite <- !app_assoc; reflexivity). rewrite E.
  exact (m_last (nl n) (map spell1 k) _ [] v (32 :: s) (nl m) (spaces_nl n) (escape_chars k) ltac:(constructor) (space_value v s V) (spaces_nl m)).
Qed.
Lemma member_more k v s n l t : utf8 k = true -> value_text v s -> members_text l t -> members_text ((Some k, v) :: l) (nl n ++ member k s ++ [44] ++ t).
Proof.
  intros K V M. replace (Some k) with (string_value (map spell1 k)) by (unfold string_value; rewrite spell_text, K; reflexivity). assert (E : nl n ++ member k s ++ [44] ++ t = nl n ++ 34 :: (concat (map escape k) ++ [34]) ++ [] ++ 58 :: (32 :: s) ++ [] ++ 44 :: t) by (unfold member, json_string; f_equal; cbn [app]; f_equal; rewrite <- !app_assoc; reflexivity). rewrite E.
  exact (m_more (nl n) (map spell1 k) _ [] v (32 :: s) [] l t (spaces_nl n) (escape_chars k) ltac:(constructor) (space_value v s V) ltac:(constructor) M).
Qed.
Lemma items_text x l : Forall (fun s => utf8 s = true) (x :: l) -> elements_text (map (fun t => JStr (Some t)) (x :: l)) (pretty_items (x :: l) ++ nl 4 ++ [93]).
Proof.
  revert x. induction l as [|y l IH]; intros x H; inversion H as [|? ? A B]; subst.
  - cbn [map pretty_items]. rewrite <- app_assoc. rewrite (app_assoc (nl 6)). apply e_last; [apply value_text_spaces; [apply spaces_nl|apply json_string_text, A]|apply spaces_nl].
  - specialize (IH y B). change (pretty_items (x :: y :: l)) with (nl 6 ++ json_string x ++ 44 :: pretty_items (y :: l)). change (map (fun t => JStr (Some t)) (x :: y :: l)) with (JStr (Some x) :: map (fun t => JStr (Some t)) (y :: l)).
    rewrite (app_assoc (nl 6)), <- app_assoc, <- app_comm_cons. exact (e_more (JStr (Some x)) _ [] _ _ (value_text_spaces _ _ _ (spaces_nl 6) (json_string_text x A)) ltac:(constructor) IH).
Qed.
Lemma list_text l : Forall (fun s => utf8 s = true) l -> value_text (JArr (map (fun t => JStr (Some t)) l)) (pretty_list l).
Proof.
  intros H. destruct l as [|x l]; [exact (v_array_empty [] ltac:(constructor))|]. unfold pretty_list. apply v_array. apply items_text, H.
Qed.
Definition config_value (peer priv : bytes) (swarm : list bytes) (api : bytes) : jv :=
  JObj [(Some k_identity, JObj [(Some k_peer_id, JStr (Some peer)); (Some k_priv_key, JStr (Some priv))]);
        (Some k_addresses, JObj [(Some k_swarm, JArr (map (fun t => JStr (Some t)) swarm)); (Some k_api, JStr (Some api))])].
Lemma config_text_value peer priv swarm api : utf8 peer = true -> utf8 priv = true -> Forall (fun s => utf8 s = true) swarm -> utf8 api = true ->
  value_text (config_value peer priv swarm api) (config_text peer priv swarm api).
Proof.
  intros P K S A. unfold config_text, config_value. apply v_object. apply member_more; [reflexivity| |].
  - apply v_object. apply member_more; [reflexivity|apply json_string_text, P|]. apply member_last; [reflexivity|apply json_string_text, K].
  - apply member_last; [reflexivity|]. apply v_object. apply member_more; [reflexivity|apply list_text, S|]. apply member_last; [reflexivity|apply json_string_text, A].
Qed.

(** * Fields *)
Lemma key_is_spec k m : key_is k m = true <-> fst m = Some k.
Proof. unfold key_is. destruct (fst m) as [x|]; [|split; discriminate]. destruct (beq_spec x k); split; congruence. Qed.
Lemma filter_none {A} (f : A -> bool) l : (forall x, In x l -> f x = false) -> filter f l = [].
Proof. induction l as [|x l IH]; intros H; [reflexivity|]. cbn [filter]. rewrite (H x) by (left; reflexivity). apply IH. intros y Y. apply H. right. exact Y. Qed.
Lemma filter_one {A} (f : A -> bool) l x : filter f l = [x] -> exists l1 l2, l = l1 ++ x :: l2 /\ forall y, In y (l1 ++ l2) -> f y = false.
Proof.
  induction l as [|y l IH]; [discriminate|]. cbn [filter]. destruct (f y) eqn:F.
  - intros H. injection H as -> H. exists [], l. split; [reflexivity|]. intros z Z. cbn [app] in Z. destruct (f z) eqn:G; [|reflexivity]. exfalso. assert (X : In z (filter f l)) by (apply filter_In; tauto). rewrite H in X. destruct X.
  - intros H. destruct (IH H) as (l1 & l2 & -> & K). exists (y :: l1), l2. split; [reflexivity|]. intros z [<-|Z]; [exact F|apply K, Z].
Qed.
Lemma one_field_spec m k v : one_field m k = Some v <-> has_field m k v.
Proof.
  unfold one_field, has_field. split.
  - destruct (filter (key_is k) m) as [|x [|? ?]] eqn:E; [discriminate| |discriminate]. intros H. injection H as <-. destruct (filter_one _ _ _ E) as (m1 & m2 & -> & K).
    assert (X : key_is k x = true) by (apply (proj1 (filter_In (key_is k) x (m1 ++ x :: m2))); rewrite E; left; reflexivity). apply key_is_spec in X. destruct x as [a b]. cbn in X. subst a. exists m1, m2. split; [reflexivity|].
    intros y Y Z. apply key_is_spec in Z. rewrite (K y Y) in Z. discriminate.
  - intros (m1 & m2 & -> & K). assert (F : forall y, In y (m1 ++ m2) -> key_is k y = false) by (intros y Y; destruct (key_is k y) eqn:Z; [|reflexivity]; apply key_is_spec in Z; exfalso; exact (K y Y Z)).
    rewrite filter_app. cbn [filter]. replace (key_is k (Some k, v)) with true by (symmetry; apply key_is_spec; reflexivity). rewrite !filter_none; [reflexivity| |]; intros y Y; apply F, in_app_iff; tauto.
Qed.
Lemma read_struct_spec k1 k2 j v1 v2 : read_struct [k1; k2] j = Some [v1; v2] <-> record_of k1 k2 j v1 v2.
Proof.
  split.
  - destruct j as [|b| |s|l|m]; try discriminate; cbn [read_struct].
    + destruct l as [|a [|b [|? ?]]]; try discriminate. cbn. intros H. injection H as -> ->. constructor.
    + destruct (forallb key_readable m) eqn:R; [|discriminate]. cbn [map all_some]. destruct (one_field m k1) as [a|] eqn:A; [|discriminate]. destruct (one_field m k2) as [b|] eqn:B; [|discriminate]. intros H. injection H as -> ->. apply one_field_spec in A, B. constructor; [|exact A|exact B].
      intros x X. rewrite forallb_forall in R. specialize (R x X). unfold key_readable in R. destruct (fst x); [discriminate|discriminate].
  - intros H. destruct H as [m v1 v2 R A B|v1 v2]; [|reflexivity]. cbn [read_struct map all_some]. apply one_field_spec in A, B. rewrite A, B. replace (forallb key_readable m) with true; [reflexivity|]. symmetry. apply forallb_forall. intros x X. specialize (R x X). unfold key_readable. destruct (fst x); [reflexivity|congruence].
Qed.
Lemma read_struct_two k1 k2 j l : read_struct [k1; k2] j = Some l -> exists v1 v2, l = [v1; v2].
Proof.
  destruct j as [|b| |s|x|m]; try discriminate; cbn [read_struct].
  - destruct x as [|a [|b [|? ?]]]; try discriminate. cbn. intros H. injection H as <-. eauto.
  - destruct (forallb key_readable m); [|discriminate]. cbn [map all_some]. destruct (one_field m k1); [|discriminate]. destruct (one_field m k2); [|discriminate]. intros H. injection H as <-. eauto.
Qed.
Lemma read_config_spec parse s peer priv swarm api : read_config parse s = Some (peer, priv, swarm, api) <-> says parse s peer priv swarm api.
Proof.
  unfold read_config, says. split.
  - destruct (document s) as [doc|] eqn:D; [|discriminate]. apply document_iff in D. destruct (read_struct _ doc) as [l|] eqn:R; [|discriminate]. destruct (read_struct_two _ _ _ _ R) as (i & a & ->). apply read_struct_spec in R.
    destruct (read_struct [k_peer_id; k_priv_key] i) as [l|] eqn:RI; [|discriminate]. destruct (read_struct_two _ _ _ _ RI) as (p & k & ->). apply read_struct_spec in RI.
    destruct (read_struct [k_swarm; k_api] a) as [l|] eqn:RA; [|discriminate]. destruct (read_struct_two _ _ _ _ RA) as (sw & ap & ->). apply read_struct_spec in RA.
    destruct sw as [| | | |sw|]; try discriminate. destruct p as [| | |[p|]| |]; try discriminate. destruct k as [| | |[k|]| |]; try discriminate. cbn [read_text].
    destruct (all_some _) as [xs|] eqn:S; [|discriminate]. destruct ap as [| | |[ap|]| |]; try discriminate. cbn [read_text]. destruct (parse ap) as [x|] eqn:P; [|discriminate]. intros H. injection H as <- <- <- <-.
    assert (E : exists ts, sw = map (fun t => JStr (Some t)) ts /\ Forall2 (fun t x => parse t = Some x) ts xs).
    { clear -S. revert xs S. induction sw as [|j sw IH]; intros xs S; cbn [map all_some] in S; [injection S as <-; exists []; split; [reflexivity|constructor]|].
      destruct j as [| | |[t|]| |]; cbn [read_text] in S; try discriminate. destruct (parse t) as [x|] eqn:P; [|discriminate]. destruct (all_some _) as [ys|] eqn:Q; [|discriminate]. cbn in S. injection S as <-. destruct (IH ys eq_refl) as (ts & -> & F). exists (t :: ts). split; [reflexivity|constructor; assumption]. }
    destruct E as (ts & -> & F). exists doc, i, a, ts, ap. repeat split; assumption.
  - intros (doc & i & a & sw & ap & D & R & RI & RA & F & P). apply document_iff in D. rewrite D. apply (proj2 (read_struct_spec k_identity k_addresses doc i a)) in R. rewrite R.
    apply (proj2 (read_struct_spec k_peer_id k_priv_key _ _ _)) in RI. rewrite RI. apply (proj2 (read_struct_spec k_swarm k_api _ _ _)) in RA. rewrite RA. cbn [read_text]. rewrite P.
    replace (all_some _) with (Some swarm); [reflexivity|]. symmetry. clear -F. induction F as [|t x ts xs H _ IH]; [reflexivity|]. cbn [map all_some read_text]. rewrite H, IH. reflexivity.
Qed.
