(** C76: dag-json blocks as bytes.  [DagJsonSpec] says what a JSON text stands for; printing and reading of
    floats are parameters. *)
From Verif Require Import Base Wire Cid BTree Ipld Cbor RefsHttpSpec HttpPubsub Codecs CodecsProofs ConfigSpec Json JsonSpec JsonProofs DagJson DagJsonSpec DagJsonProofs PropsCodecs.
From Verif Require Endpoints EndpointsProofs.
Local Open Scope N_scope.

(** What is written is a JSON text. *)
Theorem c76_writes_json (float_text : N -> bytes) (v : ipld) :
  prints_floats f64_finite float_text -> wf_ipld v -> exists j, document_text j (json_encode float_text v).
Proof. intros P W. exists (shape float_text v), (json_encode float_text v), []. split; [apply encode_text; assumption|]. split; [constructor|]. rewrite app_nil_r. reflexivity. Qed.
Print Assumptions c76_writes_json.

(** A JSON document is read as the value it stands for, and only when it stands for one (with arrays and
    objects at most 127 deep). *)
Theorem c76_document (float_value : bytes -> option N) (j : jv) (s : bytes) (v : ipld) :
  document_text j s -> json_decode float_value s = Ok v <-> says float_value 127 j v.
Proof.
  intros (p & w & P & W & ->). pose proof (spaces_follow j w W) as F. split; [apply decode_inv; assumption|apply decode_complete; assumption].
Qed.
Print Assumptions c76_document.

(** A block is read only when a JSON text which stands for the value is at its beginning. *)
Theorem c76_reads (float_value : bytes -> option N) (s : bytes) (v : ipld) :
  json_decode float_value s = Ok v -> exists p r j, s = p ++ r /\ value_text j p /\ says float_value 127 j v.
Proof. apply decode_sound. Qed.
Print Assumptions c76_reads.

(** Every text is read or refused with the same error; reading does not panic. *)
Theorem c76_read_or_refused (float_value : bytes -> option N) (s : bytes) :
  (exists v, json_decode float_value s = Ok v) \/ json_decode float_value s = Err JsonErr.
Proof.
  unfold json_decode. destruct (value _ s) as [[j r]|]; [|right; reflexivity]. destruct (doc_of float_value j) as [x|]; [|right; reflexivity]. clear. generalize 128%nat as d. revert x.
  fix IH 1. intros x d. assert (M : forall (A : Type) (f : A -> kres ipld) l, Forall (fun y => (exists v, f y = Ok v) \/ f y = Err JsonErr) l -> (exists vs, map_all f l = Ok vs) \/ map_all f l = Err JsonErr).
  { clear. intros A f l F. induction F as [|y l [(v & Y)|Y] F IHF]; cbn [map_all]; [left; eauto| |]; rewrite Y; cbn [kbind]; [|right; reflexivity]. destruct IHF as [(vs & E)|E]; rewrite E; cbn [kbind]; [left; eauto|right; reflexivity]. }
  destruct x as [|b|i|f|t|l|m].
  - left. exists Null. destruct d; reflexivity.
  - left. exists (IBool b). destruct d; reflexivity.
  - left. exists (Integer i). destruct d; reflexivity.
  - left. exists (Float f). destruct d; reflexivity.
  - left. exists (Str t). destruct d; reflexivity.
  - destruct d as [|[|d]]; [right; reflexivity|right; reflexivity|]. rewrite of_json_arr.
    assert (F : Forall (fun y => (exists v, of_json base64_read (S d) y = Ok v) \/ of_json base64_read (S d) y = Err JsonErr) l) by (induction l as [|y l IHl]; constructor; [apply IH|exact IHl]).
    destruct (M _ _ _ F) as [(vs & E)|E]; rewrite E; cbn [kbind]; [left; eauto|right; reflexivity].
  - destruct d as [|[|d]]; [right; reflexivity|right; reflexivity|]. rewrite of_json_obj.
    assert (F : Forall (fun kv : bytes * json => (exists v, of_json base64_read (S d) (snd kv) = Ok v) \/ of_json base64_read (S d) (snd kv) = Err JsonErr) m) by (induction m as [|y m IHm]; constructor; [apply IH|exact IHm]).
    destruct (M _ (fun kv : bytes * json => of_json base64_read (S d) (snd kv)) _ F) as [(vs & E)|E]; rewrite E; cbn [kbind]; [|right; reflexivity].
    clear. destruct m as [|[k x] [|]]; [left; eauto| |left; eauto]. destruct vs as [|[] [|]]; try (left; eauto; fail). destruct (beq k [47]); [|left; eauto].
    destruct (base64_read s); [|right; reflexivity]. destruct (cid_from_bytes b); [left; eauto|right; reflexivity].
Qed.
Print Assumptions c76_read_or_refused.

(** A value which survives is read back from the bytes it was written as. *)
Theorem c76_round_trip_partial (float_text : N -> bytes) (float_value : bytes -> option N) (v : ipld) :
  prints_floats f64_finite float_text -> wf_ipld v -> survives float_text float_value f64_finite 127 v ->
  json_decode float_value (json_encode float_text v) = Ok v.
Proof.
  intros P W S. rewrite <- (app_nil_r (json_encode float_text v)). apply (decode_complete float_value _ (shape float_text v)); [apply encode_text; assumption|apply may_end|apply shape_says; assumption].
Qed.
Print Assumptions c76_round_trip_partial.

(** So two values which survive have different blocks. *)
Theorem c76_distinct (float_text : N -> bytes) (float_value : bytes -> option N) (v w : ipld) :
  prints_floats f64_finite float_text -> wf_ipld v -> wf_ipld w ->
  survives float_text float_value f64_finite 127 v -> survives float_text float_value f64_finite 127 w ->
  json_encode float_text v = json_encode float_text w -> v = w.
Proof.
  intros P V W SV SW E. pose proof (c76_round_trip_partial float_text float_value v P V SV) as A. pose proof (c76_round_trip_partial float_text float_value w P W SW) as B. congruence.
Qed.
Print Assumptions c76_distinct.

(** For every value, what is read back from its bytes is what C11 says of the codec. *)
Theorem c76_reread (float_text : N -> bytes) (float_value : bytes -> option N) (float_reread : N -> N) (int_as_float : Z -> N) (v : ipld) :
  prints_floats f64_finite float_text -> wf_ipld v ->
  (forall f, f64_finite f = true -> float_value (float_text f) = Some (float_reread f)) ->
  (forall i, (- 2 ^ 127 <= i < 2 ^ 127)%Z -> (forall j, ~ int64 (int_form i) j) -> float_value (int_form i) = Some (int_as_float i)) ->
  json_decode float_value (json_encode float_text v) = json_reread base64 base64_read float_reread int_as_float v.
Proof.
  intros P W A B. rewrite <- (app_nil_r (json_encode float_text v)), (decode_value float_value _ (shape float_text v)) by (try apply encode_text; try apply may_end; assumption).
  rewrite (shape_doc float_text P float_value float_reread int_as_float A B v W). unfold json_reread. reflexivity.
Qed.
Print Assumptions c76_reread.

(** FINDING: what follows the value is not looked at.  A block with anything behind it is read like the
    block without it, *)
Theorem c76_trailing_refuted (float_value : bytes -> option N) (j : jv) (p r : bytes) (v : ipld) :
  value_text j p -> may_follow j r -> says float_value 127 j v -> json_decode float_value (p ++ r) = Ok v.
Proof. intros. apply (decode_complete float_value p j); assumption. Qed.
Print Assumptions c76_trailing_refuted.
(** for example "nullnull", which is no JSON document. *)
Example c76_trailing_case float_value :
  json_decode float_value (null_text ++ null_text) = Ok Null /\ forall j, ~ document_text j (null_text ++ null_text).
Proof.
  split; [reflexivity|]. intros j H. apply document_iff in H. discriminate.
Qed.

(** FINDING: a key which is given twice is not refused, the later value is taken; the reader tells no
    difference between {"a":1,"a":2} and {"a":2}, *)
Theorem c76_twice_refuted (float_value : bytes -> option N) :
  json_decode float_value [123; 34; 97; 34; 58; 49; 44; 34; 97; 34; 58; 50; 125] = json_decode float_value [123; 34; 97; 34; 58; 50; 125] /\
  json_decode float_value [123; 34; 97; 34; 58; 50; 125] = Ok (IMap [([97], Integer 2)]).
Proof. split; reflexivity. Qed.
Print Assumptions c76_twice_refuted.
(** while the same key twice with "/" is no link any more. *)
Theorem c76_slash_twice_refuted (float_value : bytes -> option N) (c : cid) : wf_cid c ->
  let member := [34; 47; 34; 58; 34] ++ base64 (cid_to_bytes c) ++ [34] in
  json_decode float_value (123 :: member ++ [125]) = Ok (Link c) /\
  json_decode float_value (123 :: member ++ 44 :: member ++ [125]) = Ok (IMap [([47], Str (base64 (cid_to_bytes c)))]).
Proof.
  intros W member. set (b := base64 (cid_to_bytes c)).
  pose proof (CidProofs.cid_to_bytes_wf c W) as B. pose proof (b64_utf8 (cid_to_bytes c) B) as U.
  assert (E : member = RefsHttp.json_string [47] ++ 58 :: RefsHttp.json_string b).
  { unfold member, b, RefsHttp.json_string. rewrite (text_plain _ _ (ConfigProofs.base64_encode_text _ B)). reflexivity. }
  assert (T : base64_of b (cid_to_bytes c)) by (split; [exact B|]; exists []; split; [constructor|rewrite app_nil_r; apply ConfigProofs.base64_encode_text, B]).
  split.
  - rewrite <- (app_nil_r (123 :: member ++ [125])). apply (decode_complete float_value _ (Json.JObj [(Some [47], Json.JStr (Some b))])).
    + apply v_object. rewrite E, <- app_assoc. apply EndpointsProofs.member_end; [reflexivity|apply ConfigProofs.json_string_text, U].
    + exact Logic.I.
    + exact (says_link float_value 126 b (cid_to_bytes c) c T (CidProofs.cid_roundtrip c W)).
  - rewrite <- (app_nil_r (123 :: member ++ 44 :: member ++ [125])). apply (decode_complete float_value _ (Json.JObj [(Some [47], Json.JStr (Some b)); (Some [47], Json.JStr (Some b))])).
    + apply v_object. rewrite E. rewrite <- !app_assoc. cbn [app]. apply EndpointsProofs.member_cons; [reflexivity|apply ConfigProofs.json_string_text, U|]. apply EndpointsProofs.member_end; [reflexivity|apply ConfigProofs.json_string_text, U].
    + exact Logic.I.
    + apply (says_map float_value 126 _ [([47], Str b); ([47], Str b)]).
      * constructor; [split; [reflexivity|constructor]|]. constructor; [split; [reflexivity|constructor]|constructor].
      * intros (s & X). discriminate.
      * split; [constructor|exact Logic.I].
      * intros k. cbn [bt_get last_given]. destruct (beq k [47]); reflexivity.
Qed.
Print Assumptions c76_slash_twice_refuted.

(** FINDING: "-0" is no integer but a float. *)
Theorem c76_minus_zero_refuted (float_value : bytes -> option N) (f : N) :
  float_value [45; 48] = Some f -> json_decode float_value [45; 48] = Ok (Float f).
Proof.
  intros H. apply (decode_complete float_value [45; 48] (JNum [45; 48]) []); [|exact Logic.I|].
  - apply v_number. right. exists [48]. split; [|reflexivity]. exists [48], [], []. repeat split; constructor.
  - apply says_float; [|exact H]. intros i X. inversion X as [t n D L E|t n D L E]; subst.
    + apply decimal_digs in D as [_ D]. inversion_clear D as [|? ? D1 _]. unfold dig in D1. lia.
    + assert (Z : decimal [48] 0) by (apply decimal_one; split; lia). rewrite (EndpointsProofs.decimal_one_value _ _ D _ Z) in L. lia.
Qed.
Print Assumptions c76_minus_zero_refuted.

(** FINDING: the bytes of a value come back as a list of numbers, a float which is not finite as null. *)
Theorem c76_bytes_refuted (float_text : N -> bytes) (float_value : bytes -> option N) (b : bytes) :
  wf_bytes b -> json_decode float_value (json_encode float_text (IBytes b)) = Ok (IList (map (fun x => Integer (Z.of_N x)) b)).
Proof.
  intros W. rewrite <- (app_nil_r (json_encode float_text (IBytes b))). apply (decode_complete float_value _ (Json.JArr (map (fun x => JNum (Endpoints.dec x)) b))).
  - apply array_text. apply Forall_forall. intros x _. apply v_number. left. apply dec_unsigned.
  - exact Logic.I.
  - apply says_list. induction W as [|x b X W IH]; cbn [map]; constructor; [|exact IH]. apply says_int, int64_plain; [apply EndpointsProofs.dec_decimal|]. unfold is_byte in X. change (2 ^ 64) with 18446744073709551616. lia.
Qed.
Print Assumptions c76_bytes_refuted.
Theorem c76_nonfinite_refuted (float_text : N -> bytes) (float_value : bytes -> option N) (f : N) :
  CborSpec.is_finite f = false -> json_decode float_value (json_encode float_text (Float f)) = Ok Null.
Proof. intros H. change (f64_finite f = false) in H. cbn [json_encode]. rewrite H. reflexivity. Qed.
Print Assumptions c76_nonfinite_refuted.

(** Links: the padding of the base64 may be missing. *)
Theorem c76_padding (s x : bytes) :
  base64_read s = Some x <-> base64_of s x.
Proof. apply base64_read_iff. Qed.
Print Assumptions c76_padding.

(** * Cases *)
Definition one_and_a_half : bytes := [49; 46; 53].
Example c76_printer : prints_floats f64_finite (fun _ => one_and_a_half).
Proof.
  intros f _. split.
  - left. exists [49], [46; 53], []. split; [apply int_more; [lia|constructor]|]. split; [apply frac_some; split; [discriminate|constructor; [unfold dig; lia|constructor]]|]. split; [constructor|reflexivity].
  - intros i H. inversion H as [t n D L|t n D L]. apply decimal_digs in D as [_ D]. inversion_clear D as [|? ? _ D']. inversion_clear D' as [|? ? D1 _]. unfold dig in D1. lia.
Qed.
Example c76_case :
  let v := IMap [([97], IList [Integer (-5); Str [34; 10]; Link a_cid; Float 4609434218613702656]); ([98], IMap [([47], Integer 1)])] in
  wf_ipld v /\ survives (fun _ => one_and_a_half) (fun _ => Some 4609434218613702656) f64_finite 127 v /\
  json_decode (fun _ => Some 4609434218613702656) (json_encode (fun _ => one_and_a_half) v) = Ok v.
Proof.
  intros v. assert (W : wf_ipld v).
  { assert (B : wf_bytes [97] /\ wf_bytes [98] /\ wf_bytes [47] /\ wf_bytes [34; 10]) by (repeat split; repeat constructor; unfold is_byte; lia).
    assert (C : wf_cid a_cid) by (split; [reflexivity|repeat constructor; unfold is_byte; lia]).
    subst v. cbn [wf_ipld allP fst snd]. repeat split; try apply B; try apply C; try reflexivity; try discriminate. all: repeat constructor. }
  assert (S : survives (fun _ => one_and_a_half) (fun _ => Some 4609434218613702656) f64_finite 127 v).
  { apply survives_map; [discriminate|]. constructor; [|constructor; [|constructor]].
    - apply survives_list. constructor; [apply survives_int; lia|]. constructor; [constructor|]. constructor; [constructor|]. constructor; [apply survives_float; reflexivity|constructor].
    - apply survives_map; [discriminate|]. constructor; [apply survives_int; cbn; lia|constructor]. }
  split; [exact W|]. split; [exact S|]. apply c76_round_trip_partial; [exact c76_printer|exact W|exact S].
Qed.
