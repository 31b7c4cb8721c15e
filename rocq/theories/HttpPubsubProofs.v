(** Lemmas about [HttpPubsub]. *)
From Verif Require Import Base Wire Pubsub RefsHttp RefsHttpSpec RefsHttpProofs HttpPins HttpPinsSpec HttpPinsProofs HttpBlock HttpBlockSpec HttpBlockProofs
  HttpAdd HttpAddSpec HttpAddProofs HttpPubsub HttpPubsubSpec.
Local Open Scope N_scope.

(** * Base64 *)
Lemma b64_value_digit v : v < 64 -> b64_value (b64_digit v) = Some v.
Proof.
  intros H. unfold b64_digit. destruct (N.ltb_spec v 26); [unfold b64_value; replace ((65 <=? 65 + v) && (65 + v <=? 90)) with true by lia; f_equal; lia|].
  destruct (N.ltb_spec v 52); [unfold b64_value; replace ((65 <=? 71 + v) && (71 + v <=? 90)) with false by lia; replace ((97 <=? 71 + v) && (71 + v <=? 122)) with true by lia; f_equal; lia|].
  destruct (N.ltb_spec v 62); [unfold b64_value; replace ((65 <=? v - 4) && (v - 4 <=? 90)) with false by lia; replace ((97 <=? v - 4) && (v - 4 <=? 122)) with false by lia; replace ((48 <=? v - 4) && (v - 4 <=? 57)) with true by lia; f_equal; lia|].
  destruct (N.eqb_spec v 62) as [->|]; [reflexivity|]. replace v with 63 by lia. reflexivity.
Qed.
Lemma b64_digit_pad v : (b64_digit v =? 61) = false.
Proof.
  unfold b64_digit. destruct (N.ltb_spec v 26); [lia|]. destruct (N.ltb_spec v 52); [lia|]. destruct (N.ltb_spec v 62); [lia|]. destruct (N.eqb_spec v 62); lia.
Qed.
Lemma b64_parts a b : a < 256 -> b < 256 -> (a mod 4 * 16 + b / 16) / 16 = a mod 4 /\ (a mod 4 * 16 + b / 16) mod 16 = b / 16 /\ a mod 4 * 16 + b / 16 < 64 /\ a / 4 < 64 /\ a / 4 * 4 + a mod 4 = a /\ (b mod 16 * 4) / 4 = b mod 16 /\ b mod 16 * 4 < 64 /\ b / 16 * 16 + b mod 16 = b.
Proof.
  intros Ha Hb. pose proof (N.div_mod a 4 ltac:(lia)). pose proof (N.mod_lt a 4 ltac:(lia)). pose proof (N.div_mod b 16 ltac:(lia)). pose proof (N.mod_lt b 16 ltac:(lia)).
  assert (b / 16 < 16) by (apply N.div_lt_upper_bound; lia). assert (a / 4 < 64) by (apply N.div_lt_upper_bound; lia).
  rewrite N.div_add_l, (N.div_small (b / 16) 16) by lia. rewrite (N.add_comm (a mod 4 * 16)), N.mod_add, (N.mod_small (b / 16) 16), N.div_mul by lia. repeat split; lia.
Qed.
Lemma b64_last b c : b < 256 -> c < 256 -> (b mod 16 * 4 + c / 64) / 4 = b mod 16 /\ (b mod 16 * 4 + c / 64) mod 4 = c / 64 /\ b mod 16 * 4 + c / 64 < 64 /\ c mod 64 < 64 /\ c / 64 * 64 + c mod 64 = c.
Proof.
  intros Hb Hc. pose proof (N.div_mod c 64 ltac:(lia)). pose proof (N.mod_lt c 64 ltac:(lia)). pose proof (N.mod_lt b 16 ltac:(lia)).
  assert (c / 64 < 4) by (apply N.div_lt_upper_bound; lia). rewrite N.div_add_l, (N.div_small (c / 64) 4) by lia. rewrite (N.add_comm (b mod 16 * 4)), N.mod_add, (N.mod_small (c / 64) 4) by lia. repeat split; lia.
Qed.
Lemma unbase64_ok s : wf_bytes s -> unbase64 (base64 s) = Some s.
Proof.
  enough (G : forall n s, (length s <= n)%nat -> wf_bytes s -> unbase64 (base64 s) = Some s) by (apply (G (length s)); lia).
  clear s. induction n as [|n IH]; intros s Hn W; [destruct s; [reflexivity|cbn in Hn; lia]|]. destruct s as [|a [|b [|c r]]]; [reflexivity| | |].
  - inversion W as [|? ? Ha _]; subst. unfold is_byte in Ha. cbn [base64 unbase64]. assert (a mod 4 * 16 < 64) by (pose proof (N.mod_lt a 4 ltac:(lia)); lia). assert (a / 4 < 64) by (apply N.div_lt_upper_bound; lia). rewrite !b64_value_digit by assumption. cbn [N.eqb Pos.eqb andb].
    rewrite N.div_mul by lia. pose proof (N.div_mod a 4 ltac:(lia)). do 2 f_equal. lia.
  - inversion W as [|? ? Ha W2]; subst. inversion W2 as [|? ? Hb _]; subst. unfold is_byte in Ha, Hb. destruct (b64_parts a b Ha Hb) as (P1 & P2 & P3 & P4 & P5 & P6 & P7 & P8). cbn [base64 unbase64]. rewrite !b64_value_digit by assumption. rewrite b64_digit_pad. cbn [N.eqb Pos.eqb andb].
    rewrite P1, P2, P6, P5, P8. reflexivity.
  - inversion W as [|? ? Ha W2]; subst. inversion W2 as [|? ? Hb W3]; subst. inversion W3 as [|? ? Hc W4]; subst. unfold is_byte in Ha, Hb, Hc. destruct (b64_parts a b Ha Hb) as (P1 & P2 & P3 & P4 & P5 & _ & _ & P8). destruct (b64_last b c Hb Hc) as (Q1 & Q2 & Q3 & Q4 & Q5).
    change (base64 (a :: b :: c :: r)) with (b64_digit (a / 4) :: b64_digit (a mod 4 * 16 + b / 16) :: b64_digit (b mod 16 * 4 + c / 64) :: b64_digit (c mod 64) :: base64 r). cbn [unbase64]. rewrite !b64_value_digit by assumption. rewrite !b64_digit_pad. cbn [andb].
    rewrite IH; [|cbn [length] in Hn; lia|exact W4]. rewrite P1, P2, Q1, Q2, P5, P8, Q5. reflexivity.
Qed.

(** * Lines and lists *)
Lemma json_strings_no_newline l : ~ In 10 (json_strings l).
Proof.
  induction l as [|x l IH]; [intros [X|[]]; discriminate|]. destruct l as [|y l].
  - cbn [json_strings]. rewrite in_app_iff. intros [X|[X|[]]]; [exact (json_no_newline x X)|discriminate].
  - change (json_strings (x :: y :: l)) with (json_string x ++ 44 :: json_strings (y :: l)). rewrite in_app_iff. intros [X|[X|X]]; [exact (json_no_newline x X)|discriminate|exact (IH X)].
Qed.
Lemma read_strings_ok l rest : read_strings (json_strings l ++ rest) = Some (l, rest).
Proof.
  destruct l as [|x l]; [reflexivity|]. assert (H : exists r, json_strings (x :: l) ++ rest = 34 :: r) by (destruct l; eexists; reflexivity). destruct H as (r & H). unfold read_strings. rewrite H. rewrite <- H. apply read_array_ok; [discriminate|]. pose proof (json_strings_length (x :: l)). rewrite app_length. lia.
Qed.
Lemma read_list_ok l : read_list (strings_json l) = Some l.
Proof.
  unfold read_list, strings_json.
  match goal with |- context [expect ?p (123 :: ?x ++ 58 :: 91 :: ?r)] => change (expect p (123 :: x ++ 58 :: 91 :: r)) with (expect p (p ++ r)) end. rewrite expect_app, read_strings_ok. reflexivity.
Qed.
Definition message_text (from data seqno : bytes) (topics : list bytes) : bytes :=
  123 :: json_string k_from ++ 58 :: json_string (base64 from) ++ 44 :: json_string k_data ++ 58 :: json_string (base64 data) ++
  44 :: json_string k_seqno ++ 58 :: json_string (base64 seqno) ++ 44 :: json_string k_topics ++ 58 :: 91 :: json_strings topics ++ [125].
Lemma preformat_text from data seqno topics : preformat from data seqno topics = message_text from data seqno topics ++ [10].
Proof. unfold preformat, message_text. rewrite <- !app_comm_cons. repeat (rewrite <- app_assoc; cbn [app]). reflexivity. Qed.
Lemma message_no_newline from data seqno topics : ~ In 10 (message_text from data seqno topics).
Proof.
  unfold message_text. intros [X|X]; [discriminate|]. repeat (rewrite ?in_app_iff in X; cbn [In] in X).
  repeat match type of X with _ \/ _ => destruct X as [X|X] | In 10 (json_string _) => exact (json_no_newline _ X) | In 10 (json_strings _) => exact (json_strings_no_newline _ X) | _ = 10 => discriminate | False => exact X end.
Qed.
Lemma read_field_ok name t rest : read_field name (name ++ concat (map RefsHttp.escape t) ++ 34 :: rest) = Some (t, rest).
Proof. unfold read_field. rewrite expect_app. apply read_quoted. Qed.
Lemma read_message_ok from data seqno topics : wf_bytes from -> wf_bytes data -> wf_bytes seqno -> read_message (message_text from data seqno topics) = Some (from, data, seqno, topics).
Proof.
  intros W1 W2 W3. unfold read_message, message_text. unfold json_string at 2. unfold json_string at 3. unfold json_string at 4. rewrite <- !app_comm_cons. repeat (rewrite <- app_assoc; cbn [app]).
  match goal with |- context [read_field ?p (123 :: ?x ++ 58 :: 34 :: ?r)] => change (123 :: x ++ 58 :: 34 :: r) with (p ++ r) end. rewrite read_field_ok.
  match goal with |- context [read_field ?p (44 :: ?x ++ 58 :: 34 :: ?r)] => change (44 :: x ++ 58 :: 34 :: r) with (p ++ r) end. rewrite read_field_ok.
  match goal with |- context [read_field ?p (44 :: ?x ++ 58 :: 34 :: ?r)] => change (44 :: x ++ 58 :: 34 :: r) with (p ++ r) end. rewrite read_field_ok.
  match goal with |- context [expect ?p (44 :: ?x ++ 58 :: 91 :: ?r)] => change (44 :: x ++ 58 :: 91 :: r) with (p ++ r) end. rewrite expect_app, read_strings_ok, !unbase64_ok by assumption. reflexivity.
Qed.
Lemma read_sub_ok (l : list (bytes * bytes * bytes * list bytes)) :
  Forall (fun x => match x with (from, data, seqno, _) => wf_bytes from /\ wf_bytes data /\ wf_bytes seqno end) l ->
  read_sub_body (concat (map (fun x => match x with (from, data, seqno, topics) => preformat from data seqno topics end) l)) = Some l.
Proof.
  intros W. unfold read_sub_body.
  assert (H : lines (concat (map (fun x => match x with (from, data, seqno, topics) => preformat from data seqno topics end) l)) = Some (map (fun x => match x with (from, data, seqno, topics) => message_text from data seqno topics end) l)).
  { clear W. induction l as [|[[[f d] q] t] l IH]; [reflexivity|]. cbn [map concat]. rewrite preformat_text, <- app_assoc. cbn [app]. rewrite lines_line by apply message_no_newline. rewrite IH. reflexivity. }
  rewrite H. clear H. induction W as [|[[[f d] q] t] l (W1 & W2 & W3) W IH]; [reflexivity|]. cbn [map read_messages]. rewrite read_message_ok, IH by assumption. reflexivity.
Qed.

(** * Queries *)
Lemma cut_none c s : ~ In c s -> cut c s = (s, []).
Proof. induction s as [|x s IH]; intros H; [reflexivity|]. cbn [cut]. destruct (N.eqb_spec x c) as [->|]; [destruct H; left; reflexivity|]. rewrite IH; [reflexivity|intros X; apply H; right; exact X]. Qed.
Lemma cut_first c a b : ~ In c a -> cut c (a ++ c :: b) = (a, b).
Proof. induction a as [|x a IH]; intros H; cbn [app cut]; [rewrite N.eqb_refl; reflexivity|]. destruct (N.eqb_spec x c) as [->|]; [destruct H; left; reflexivity|]. rewrite IH; [reflexivity|intros X; apply H; right; exact X]. Qed.
Lemma cut_cases c s : (~ In c s /\ cut c s = (s, [])) \/ exists a b, s = a ++ c :: b /\ ~ In c a /\ cut c s = (a, b).
Proof.
  destruct (in_dec N.eq_dec c s) as [X|X]; [right|left; split; [exact X|apply cut_none; exact X]].
  assert (E : exists a b, s = a ++ c :: b /\ ~ In c a).
  { clear -X. induction s as [|x s IH]; [destruct X|]. destruct (N.eq_dec x c) as [->|Hn]; [exists [], s; auto|]. destruct X as [X|X]; [congruence|]. destruct (IH X) as (a & b & -> & Ha). exists (x :: a), b. split; [reflexivity|]. intros [Y|Y]; [congruence|exact (Ha Y)]. }
  destruct E as (a & b & -> & Ha). exists a, b. split; [reflexivity|]. split; [exact Ha|apply cut_first; exact Ha].
Qed.
Lemma cut_pair p : p <> [] -> ~ In 38 p -> pair_text p (fst (cut 61 p)) (snd (cut 61 p)).
Proof.
  intros Hp Ha. destruct (cut_cases 61 p) as [(X & ->)|(a & b & -> & X & ->)]; (split; [exact Hp|]; split; [exact Ha|]); cbn [fst snd]; auto.
Qed.
Lemma pair_cut p k v : pair_text p k v -> cut 61 p = (k, v).
Proof. intros (_ & _ & H & [->|[-> ->]]); [apply cut_first; exact H|apply cut_none; exact H]. Qed.
Lemma raw_parts_is fuel : forall s, (length s <= fuel)%nat -> query_is s (raw_parts fuel s).
Proof.
  induction fuel as [|fuel IH]; intros s Hn; [destruct s; [constructor|cbn in Hn; lia]|]. cbn [raw_parts]. destruct s as [|x s]; [constructor|]. remember (x :: s) as w eqn:Ew.
  destruct (cut_cases 38 w) as [(X & ->)|(a & b & E & X & ->)].
  - rewrite Ew. rewrite Ew in X. assert (Er : raw_parts fuel [] = []) by (destruct fuel; reflexivity). rewrite Er. destruct (cut 61 (x :: s)) as [k v] eqn:Ec. apply query_last. pose proof (cut_pair (x :: s) ltac:(discriminate) X) as H. rewrite Ec in H. exact H.
  - rewrite E. rewrite E, app_length in Hn. cbn [length] in Hn. destruct a as [|y a]; [apply query_empty, IH; cbn [length] in Hn; lia|]. destruct (cut 61 (y :: a)) as [k v] eqn:Ec. apply query_more; [|apply IH; lia]. pose proof (cut_pair (y :: a) ltac:(discriminate) X) as H. rewrite Ec in H. exact H.
Qed.
Lemma query_raw s l : query_is s l -> forall fuel, (length s <= fuel)%nat -> raw_parts fuel s = l.
Proof.
  induction 1 as [|s l H IH|p k v H|p k v s l H H2 IH]; intros fuel Hn.
  - destruct fuel; reflexivity.
  - destruct fuel as [|fuel]; [cbn in Hn; lia|]. cbn [raw_parts]. change (cut 38 (38 :: s)) with (@nil N, s). apply IH. cbn [length] in Hn. lia.
  - pose proof (pair_cut _ _ _ H) as Ec. destruct H as (Hp & Ha & _). destruct fuel as [|fuel]; [destruct p; [contradiction|cbn in Hn; lia]|]. cbn [raw_parts]. destruct p as [|x p]; [contradiction|]. rewrite (cut_none _ _ Ha), Ec. f_equal. destruct fuel; reflexivity.
  - pose proof (pair_cut _ _ _ H) as Ec. destruct H as (Hp & Ha & _). rewrite app_length in Hn. cbn [length] in Hn. destruct fuel as [|fuel]; [lia|]. cbn [raw_parts]. destruct p as [|x p]; [contradiction|]. change ((x :: p) ++ 38 :: s) with (x :: (p ++ 38 :: s)) at 1. cbn iota. rewrite (cut_first 38 (x :: p) s Ha), Ec. f_equal. apply IH. cbn [length] in Hn. lia.
Qed.
Lemma raw_query_spec s l : raw_query s = l <-> query_is s l.
Proof. split; [intros <-; apply raw_parts_is; lia|intros H; apply query_raw; [exact H|lia]]. Qed.
Lemma args_of_spec s l : query_is s l -> args_of s = arg_values l.
Proof. intros H. apply raw_query_spec in H. unfold args_of. rewrite H. reflexivity. Qed.
Lemma decode_spec s d : decodes s d <-> percent_decode s = d.
Proof. split; [intros H; eapply decodes_fun; [exact H|apply (percent_decodes (length s)); lia]|intros <-; apply (percent_decodes (length s)); lia]. Qed.

(** * Values that were written by a client *)
Lemma written_decodes s d : written s d -> decodes s d.
Proof.
  induction 1 as [|c s d H1 H2 H3 H IH|a b x y s d Ha Hb H IH]; [constructor| |constructor; assumption]. apply decodes_byte; [|exact IH]. intros (a & b & x & y & r & E & _). congruence.
Qed.
Lemma hex_not c v k : HttpAddSpec.hex_digit c v -> k < 48 -> c <> k.
Proof. intros [w H|w H|w H]; lia. Qed.
Lemma written_no c s d : written s d -> (c = 38 \/ c = 43) -> ~ In c s.
Proof.
  intros H Hc. induction H as [|x s d H1 H2 H3 H IH|a b x y s d Ha Hb H IH]; [intros []| |].
  - intros [X|X]; [destruct Hc; congruence|exact (IH X)].
  - intros [X|[X|[X|X]]]; [destruct Hc; congruence| | |exact (IH X)]; [apply (hex_not _ _ c Ha)|apply (hex_not _ _ c Hb)]; (lia || congruence).
Qed.
Lemma spaces_none s : ~ In 43 s -> spaces s = s.
Proof.
  induction s as [|c s IH]; intros H; [reflexivity|]. unfold spaces in *. cbn [map]. rewrite IH by (intros X; apply H; right; exact X). destruct (N.eqb_spec c 43) as [->|]; [destruct H; left; reflexivity|reflexivity].
Qed.
Lemma arg_pair v : ~ In 38 v -> pair_text (n_arg ++ 61 :: v) n_arg v.
Proof.
  intros H. split; [discriminate|]. split; [rewrite in_app_iff; intros [X|[X|X]]; [vm_compute in X; intuition discriminate|discriminate|exact (H X)]|]. split; [vm_compute; intuition discriminate|left; reflexivity].
Qed.
