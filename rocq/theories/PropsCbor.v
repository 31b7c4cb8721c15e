(** Properties C08, C09, C10 and C56: the dag-cbor codec. *)
From Verif Require Import Base Wire Cid BTree Ipld Cbor CborSpec CborProofs CborRound CborMore.
Local Open Scope N_scope.

(** ** C08: round trip.

    [ipld_size] is [size_of::<Ipld>()], whatever the compiler makes of it; [stack] the number of
    nested reads the thread's stack has room for. *)

(** Encoding succeeds exactly when every integer has a 64 bit magnitude, and never panics. *)
Theorem c08_encode_total (v : ipld) :
  ((exists b, cbor_encode v = Ok b) <-> encodable v) /\ cbor_encode v <> Panic.
Proof.
  split; [|apply write_never_panics].
  split; [intros [b H]; eapply write_encodable; eauto|apply write_ok].
Qed.
Print Assumptions c08_encode_total.

(** The encoded value reads back as itself exactly when it is within the decoder's limits, and is
    an error otherwise: it never reads back as a different value.  The full property would have
    this without the limits; see the refutations below. *)
Theorem c08_round_trip_partial (ipld_size : N) (stack : nat) (v : ipld) (b : bytes) :
  wf_ipld v -> (height v <= stack)%nat -> cbor_encode v = Ok b ->
  (within_limits ipld_size v = true -> cbor_decode ipld_size stack b = Ok v) /\
  (within_limits ipld_size v = false -> exists e, cbor_decode ipld_size stack b = Err e).
Proof.
  intros Hwf Hh Hb. pose proof (read_back ipld_size v stack b [] Hwf Hh Hb) as H.
  rewrite app_nil_r in H. unfold cbor_decode. split; intros Hl; rewrite Hl in H.
  - rewrite H. reflexivity.
  - destruct H as [e ->]. exists e. reflexivity.
Qed.
Print Assumptions c08_round_trip_partial.

Definition sample_cid : cid := CidV1 codec_dagcbor {| mh_code := sha2_256; mh_digest := repeat 7 32 |}.
(** 1.5, 0.1 (not an f32), text, a link, and a map whose key order differs from the sorted order. *)
Definition sample : ipld :=
  IMap [([97; 97], IList [Integer (-18446744073709551616); Integer 18446744073709551615;
                          Float 4609434218613702656; Float 4591870180066957722; Null]);
        ([98], IMap [([], IBool true); ([99], Link sample_cid)])].

Example sample_wf : wf_ipld sample.
Proof.
  cbn. repeat split; try reflexivity; try (unfold u64_max1; lia); try (repeat constructor; fail);
    try (repeat constructor; unfold is_byte; lia).
Qed.

Example c08_sample_meets_hypotheses :
  (height sample <= 5)%nat /\ within_limits 64 sample = true /\ encodable sample /\
  exists b, cbor_encode sample = Ok b /\ length b = 86%nat.
Proof.
  split; [cbn; lia|]. split; [vm_compute; reflexivity|]. split; [cbn; repeat split; lia|].
  eexists. split; [vm_compute; reflexivity|]. reflexivity.
Qed.

(** Values the encoder accepts and the decoder then rejects. *)
Theorem c08_infinity_refuted (ipld_size : N) :
  exists b, cbor_encode (Float (2047 * 2 ^ 52)) = Ok b /\
            cbor_decode ipld_size 9 b = Err UnexpectedCode.
Proof. eexists. split; [vm_compute; reflexivity|]. vm_compute. reflexivity. Qed.
Print Assumptions c08_infinity_refuted.

Theorem c08_nan_refuted (ipld_size : N) :
  exists b, cbor_encode (Float (2047 * 2 ^ 52 + 1)) = Ok b /\
            cbor_decode ipld_size 9 b = Err UnexpectedCode.
Proof. eexists. split; [vm_compute; reflexivity|]. vm_compute. reflexivity. Qed.
Print Assumptions c08_nan_refuted.

(** Every string or byte string over 64 KiB. *)
Theorem c08_long_bytes_refuted (ipld_size : N) (s : bytes) (stack : nat) :
  (1 <= stack)%nat -> wf_bytes s -> 65536 < blen s < u64_max1 ->
  exists b e, cbor_encode (IBytes s) = Ok b /\ cbor_decode ipld_size stack b = Err e.
Proof.
  intros Hs Hwf Hl. exists (write_bytes s).
  destruct (c08_round_trip_partial ipld_size stack (IBytes s) (write_bytes s)) as [_ H]; auto.
  - cbn [wf_ipld]. tauto.
  - destruct H as [e H]; [|exists e; auto]. cbn [within_limits]. destruct (N.leb_spec (blen s) 65536); [lia|reflexivity].
Qed.
Print Assumptions c08_long_bytes_refuted.

Example c08_long_bytes_exist : exists s, wf_bytes s /\ 65536 < blen s < u64_max1.
Proof.
  exists (repeat 0 (N.to_nat 65537)). unfold blen. rewrite repeat_length, N2Nat.id. split.
  - apply Forall_forall. intros x Hx. apply repeat_spec in Hx. subst. unfold is_byte. lia.
  - unfold u64_max1. lia.
Qed.

(** Every list whose elements take more than 64 KiB in memory: with the 80 bytes an [Ipld] takes on
    common targets, 820 nulls. *)
Theorem c08_long_list_refuted (ipld_size : N) (n : nat) (stack : nat) :
  (2 <= stack)%nat -> 65536 < N.of_nat n * ipld_size -> N.of_nat n < u64_max1 ->
  exists b e, cbor_encode (IList (repeat Null n)) = Ok b /\ cbor_decode ipld_size stack b = Err e.
Proof.
  intros Hs Hn Hu.
  assert (He : encodable (IList (repeat Null n))).
  { cbn. clear. induction n; cbn; auto. }
  destruct (write_ok _ He) as [b Hb]. exists b.
  destruct (c08_round_trip_partial ipld_size stack (IList (repeat Null n)) b) as [_ H]; auto.
  - cbn. unfold blen. rewrite repeat_length. split; [exact Hu|]. clear. induction n; cbn; auto.
  - cbn [height]. assert (list_max (map height (repeat Null n)) <= 1)%nat; [|lia].
    apply list_max_le, Forall_forall. intros x Hx. apply in_map_iff in Hx as (y & <- & Hy).
    apply repeat_spec in Hy. subst. reflexivity.
  - destruct H as [e H]; [|exists e; auto]. cbn [within_limits]. unfold blen. rewrite repeat_length.
    destruct (N.leb_spec (N.of_nat n * ipld_size) 65536); [lia|reflexivity].
Qed.
Print Assumptions c08_long_list_refuted.

Example c08_long_list_exists : 65536 < N.of_nat 820 * 80 /\ N.of_nat 820 < u64_max1.
Proof. unfold u64_max1. lia. Qed.

(** A link with an inline (identity) hash of a few bytes. *)
Theorem c08_short_link_refuted (ipld_size : N) :
  let c := CidV1 codec_raw {| mh_code := 0; mh_digest := [104; 105] |} in
  wf_ipld (Link c) /\
  exists b, cbor_encode (Link c) = Ok b /\ cbor_decode ipld_size 9 b = Err UnknownTag.
Proof.
  cbv zeta. split.
  - cbn. repeat split; try (unfold u64_max1; lia). repeat constructor; unfold is_byte; lia.
  - eexists. split; [vm_compute; reflexivity|]. vm_compute. reflexivity.
Qed.
Print Assumptions c08_short_link_refuted.

(** The four byte form is chosen for every value an f32 represents exactly, subnormals included:
    [f32_bits] ranges over all bit patterns of finite f32 values. *)
Theorem c08_float_takes_short_form (f32_bits : N) :
  f32_bits < 2 ^ 32 -> (f32_bits / 2 ^ 23) mod 256 <> 255 -> is_finite (widen f32_bits) = true ->
  cbor_encode (Float (widen f32_bits)) = Ok (250 :: be_bytes 4 f32_bits).
Proof.
  intros Hb He Hf. unfold cbor_encode. cbn [write_ipld]. unfold write_f64.
  change (f64_finite (widen f32_bits)) with (is_finite (widen f32_bits)). rewrite Hf.
  rewrite narrow_widen by exact He. reflexivity.
Qed.
Print Assumptions c08_float_takes_short_form.

Example c08_float_case : (* the smallest subnormal f32 *)
  (1 / 2 ^ 23) mod 256 <> 255 /\ is_finite (widen 1) = true.
Proof. split; vm_compute; congruence. Qed.

(** ** C09: the encoding is injective and a prefix code.

    Values are compared with their float bits; NaN, which is not equal to itself in the code, is
    left out.  [r1], [r2] are arbitrary continuations: with both empty this is injectivity, with
    one empty it says that no encoding is a proper prefix of another. *)
Theorem c09_prefix_code (v1 v2 : ipld) (b1 b2 r1 r2 : bytes) :
  wf_ipld v1 -> wf_ipld v2 -> nan_free v1 -> nan_free v2 ->
  cbor_encode v1 = Ok b1 -> cbor_encode v2 = Ok b2 ->
  b1 ++ r1 = b2 ++ r2 -> v1 = v2 /\ b1 = b2 /\ r1 = r2.
Proof.
  intros W1 W2 N1 N2 E1 E2 E. unfold cbor_encode in *.
  destruct (prefix_injective v1 v2 b1 b2 r1 r2) as [-> ->]; auto.
  rewrite E1 in E2. inversion E2. auto.
Qed.
Print Assumptions c09_prefix_code.

Example c09_sample : nan_free sample.
Proof. cbn. repeat split; vm_compute; reflexivity. Qed.

(** Map entries are written shortest key first, ties in byte order: the strict dag-cbor order. *)
Fixpoint canonical_keys (ks : list bytes) : Prop :=
  match ks with
  | k1 :: (k2 :: _) as r =>
      (length k1 < length k2 \/ length k1 = length k2 /\ bcmp k1 k2 = Lt)%nat /\ canonical_keys r
  | _ => True
  end.

Lemma kcmp_spec a b :
  kcmp a b = Lt <-> (length a < length b \/ length a = length b /\ bcmp a b = Lt)%nat.
Proof.
  unfold kcmp. destruct (Nat.compare_spec (length a) (length b)) as [E|E|E]; split; intros H; try lia; auto.
  - destruct H; [lia|tauto].
  - discriminate.
Qed.

Lemma kcmp_gt a b : kcmp a b = Gt -> kcmp b a = Lt.
Proof.
  unfold kcmp. rewrite (Nat.compare_antisym (length a) (length b)).
  destruct (Nat.compare (length a) (length b)); cbn; try congruence.
  rewrite (bcmp_antisym a b). destruct (bcmp a b); cbn; congruence.
Qed.

Lemma kcmp_eq a b : kcmp a b = Eq -> a = b.
Proof.
  unfold kcmp. destruct (Nat.compare (length a) (length b)); try discriminate. apply bcmp_eq.
Qed.

Lemma ksort_insert_canonical {V} (kv : bytes * V) l :
  ~ In (fst kv) (map fst l) -> canonical_keys (map fst l) -> canonical_keys (map fst (ksort_insert kv l)).
Proof.
  induction l as [|x l IH]; intros Hn Hc; [exact I|]. cbn [ksort_insert].
  destruct (kcmp (fst kv) (fst x)) eqn:E.
  - apply kcmp_eq in E. exfalso. apply Hn. left. auto.
  - split; [apply kcmp_spec; exact E|exact Hc].
  - assert (Hc' : canonical_keys (map fst l)) by (destruct l; [exact I|destruct Hc; assumption]).
    specialize (IH ltac:(intros Hi; apply Hn; right; exact Hi) Hc').
    apply kcmp_gt in E. destruct l as [|y l]; cbn [ksort_insert map] in *.
    + split; [apply kcmp_spec; exact E|exact I].
    + destruct (kcmp (fst kv) (fst y)); cbn [map] in *; (split; [|exact IH]);
        try (apply kcmp_spec; exact E). exact (proj1 Hc).
Qed.

Theorem c09_map_order (m : list (bytes * ipld)) (b : bytes) :
  wf_ipld (IMap m) -> cbor_encode (IMap m) = Ok b ->
  exists entries encs,
    (forall kv, In kv entries <-> In kv m) /\ length entries = length m /\
    canonical_keys (map fst entries) /\
    Forall2 (fun kv e => exists c, cbor_encode (snd kv) = Ok c /\ e = write_str (fst kv) ++ c) entries encs /\
    b = write_u64 5 (blen m) ++ concat encs.
Proof.
  intros Hwf Hb. unfold cbor_encode in Hb. rewrite write_map in Hb.
  apply prepend_inv in Hb as (c & Hb & ->). apply write_all_inv in Hb as (bs & HF & ->).
  cbn [wf_ipld] in Hwf. destruct Hwf as (_ & Hs & _).
  exists (ksort m), bs. split; [|split; [apply ksort_length|split; [|split; [|reflexivity]]]].
  - intros kv. split; apply Permutation.Permutation_in; [|symmetry]; apply ksort_perm.
  - pose proof (bt_sorted_nodup m Hs) as Hn. clear - Hn. induction m as [|x m IH]; [exact I|].
    change (ksort (x :: m)) with (ksort_insert x (ksort m)). inversion Hn; subst.
    apply ksort_insert_canonical; [|auto]. intros Hi. apply H1.
    eapply Permutation.Permutation_in; [|exact Hi]. apply Permutation.Permutation_map, ksort_perm.
  - clear - HF. induction HF as [|kv e l es He HF IH]; constructor; [|exact IH].
    unfold write_entry in He. apply prepend_inv in He as (c & Hc & ->). exists c. auto.
Qed.
Print Assumptions c09_map_order.

(** ** C10: decoding arbitrary bytes. *)

(** With one stack frame per byte, decoding any byte string returns a value or an error. *)
Theorem c10_decode_total_partial (ipld_size : N) (stack : nat) (data : bytes) :
  (length data < stack)%nat ->
  (exists v, cbor_decode ipld_size stack data = Ok v) \/
  (exists e, cbor_decode ipld_size stack data = Err e).
Proof.
  intros H. pose proof (read_ipld_np ipld_size stack data H) as Hn. unfold cbor_decode.
  destruct (read_ipld ipld_size stack data) as [[v r]|e|]; cbn; [left|right|congruence]; eauto.
Qed.
Print Assumptions c10_decode_total_partial.

(** What is missing: the stack is bounded in reality, and for every bound there is a block of that
    many bytes that overflows it (0x81 repeated), which aborts the process. *)
Theorem c10_deep_nesting_refuted (ipld_size : N) (stack : nat) :
  ipld_size <= 65536 ->
  exists data, length data = stack /\ wf_bytes data /\ cbor_decode ipld_size stack data = Panic.
Proof.
  intros Hs. exists (repeat 129 stack). split; [apply repeat_length|]. split.
  - apply Forall_forall. intros x Hx. apply repeat_spec in Hx. subst. unfold is_byte. lia.
  - unfold cbor_decode. pose proof (nested_overflow ipld_size stack [] Hs) as H.
    rewrite app_nil_r in H. rewrite H. reflexivity.
Qed.
Print Assumptions c10_deep_nesting_refuted.

(** A successful read consumes a non-empty prefix of the input and its result depends on nothing
    else. *)
Theorem c10_reads_only_its_item (ipld_size : N) (stack : nat) (data r : bytes) (v : ipld) :
  read_ipld ipld_size stack data = Ok (v, r) ->
  exists used, data = used ++ r /\ used <> [] /\
    forall r', read_ipld ipld_size stack (used ++ r') = Ok (v, r') /\
               cbor_decode ipld_size stack (used ++ r') = Ok v.
Proof.
  intros H. destruct (read_ipld_local ipld_size stack _ _ _ H) as (u & -> & Hn & Hu).
  exists u. split; [reflexivity|]. split; [exact Hn|]. intros r'. split; [apply Hu|].
  unfold cbor_decode. rewrite Hu. reflexivity.
Qed.
Print Assumptions c10_reads_only_its_item.

Example c10_case : exists v, read_ipld 64 9 [130; 1; 97; 104; 99; 99] = Ok (v, [99; 99]).
Proof. eexists. vm_compute. reflexivity. Qed.

(** ** C56: re-encoding a decoded block gives the block back.  False for dag-cbor: *)
Definition reencode (data : bytes) : option bytes :=
  match cbor_decode 64 9 data with
  | Ok v => match cbor_encode v with Ok b => Some b | _ => None end
  | _ => None
  end.

(** bytes after the first item are dropped, *)
Theorem c56_trailing_bytes_refuted : reencode [1; 2] = Some [1].
Proof. vm_compute. reflexivity. Qed.
Print Assumptions c56_trailing_bytes_refuted.
(** longer forms of an integer are shortened, *)
Theorem c56_long_integer_refuted : reencode [24; 1] = Some [1].
Proof. vm_compute. reflexivity. Qed.
Print Assumptions c56_long_integer_refuted.
(** duplicate keys lose all but the last value, *)
Theorem c56_duplicate_key_refuted : reencode [162; 97; 97; 1; 97; 97; 2] = Some [161; 97; 97; 2].
Proof. vm_compute. reflexivity. Qed.
Print Assumptions c56_duplicate_key_refuted.
(** and maps in another key order are reordered. *)
Theorem c56_key_order_refuted :
  reencode [162; 97; 98; 1; 97; 97; 2] = Some [162; 97; 97; 2; 97; 98; 1].
Proof. vm_compute. reflexivity. Qed.
Print Assumptions c56_key_order_refuted.

(** It does hold of every block that is the encoding of a value within the limits. *)
Theorem c56_reencode_partial (ipld_size : N) (stack : nat) (v : ipld) (b : bytes) :
  wf_ipld v -> (height v <= stack)%nat -> within_limits ipld_size v = true -> cbor_encode v = Ok b ->
  exists v', cbor_decode ipld_size stack b = Ok v' /\ cbor_encode v' = Ok b.
Proof.
  intros Hwf Hh Hl Hb. exists v. split; [|exact Hb].
  apply (c08_round_trip_partial ipld_size stack v b Hwf Hh Hb). exact Hl.
Qed.
Print Assumptions c56_reencode_partial.
