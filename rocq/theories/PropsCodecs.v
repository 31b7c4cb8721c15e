(** C11 (dag-pb and dag-json codecs) and C56 for dag-pb. *)
From Verif Require Import Base Wire WireProofs Cid CidProofs BTree Ipld Cbor CborSpec Codecs CodecsProofs.
Local Open Scope N_scope.

(** * Specification *)

(** The values of the dag-pb data model: a map with exactly "Data" (bytes) and "Links", a list of maps
    with exactly "Hash" (a link), "Name" (a string) and "Tsize" (an integer). *)
Definition pb_link_value (c : cid) (name : bytes) (tsize : N) : ipld :=
  IMap [(kHash, Link c); (kName, Str name); (kTsize, Integer (Z.of_N tsize))].
Definition pb_value (links : list (cid * bytes * N)) (data : bytes) : ipld :=
  IMap [(kData, IBytes data);
        (kLinks, IList (map (fun l => pb_link_value (fst (fst l)) (snd (fst l)) (snd l)) links))].
(** Sizes: names and data below a gibibyte, Tsize an unsigned 64 bit number. *)
Definition pb_sizes (links : list (cid * bytes * N)) (data : bytes) : Prop :=
  blen data < 2 ^ 30 /\
  Forall (fun l => wf_cid (fst (fst l)) /\ blen (cid_to_bytes (fst (fst l))) < 2 ^ 30 /\
                   utf8 (snd (fst l)) = true /\ blen (snd (fst l)) < 2 ^ 30 /\ snd l < 2 ^ 64) links.

(** * dag-pb *)
Definition node_of (links : list (cid * bytes * N)) (data : bytes) : PbNode :=
  mk_PbNode (map (fun l => mk_PbLink (fst (fst l)) (snd (fst l)) (snd l)) links) data.

Lemma ipld_of_node_value links data : ipld_of_node (node_of links data) = pb_value links data.
Proof.
  unfold ipld_of_node, pb_value, node_of. cbn [n_links n_data]. rewrite map_map. reflexivity.
Qed.

Lemma node_of_wf links data : pb_sizes links data -> wf_PbNode (node_of links data).
Proof.
  intros [Hd Hl]. split; cbn.
  - rewrite Forall_map. eapply Forall_impl; [|exact Hl]. intros [[c nm] t] (H1 & H2 & H3 & H4 & H5).
    cbn in *. unfold wf_PbLink. cbn. repeat split; auto.
    change (2 ^ 30) with 1073741824 in H2. change (2 ^ 31) with 2147483648. lia.
  - change (2 ^ 30) with 1073741824 in Hd. unfold u32_max1. lia.
Qed.

(** Encoding and decoding gives every dag-pb value back. *)
Theorem c11_dagpb_round_trip (links : list (cid * bytes * N)) (data : bytes) :
  pb_sizes links data ->
  exists block, dagpb_encode (pb_value links data) = Ok block /\
                dagpb_decode block = Ok (pb_value links data).
Proof.
  intros H. apply node_of_wf in H. rewrite <- ipld_of_node_value. apply dagpb_roundtrip. exact H.
Qed.
Print Assumptions c11_dagpb_round_trip.

(** Whatever is decoded from a block has the dag-pb shape, can be encoded again, and decodes to the
    same value. *)
Theorem c11_dagpb_decoded_is_stable (block : bytes) (v : ipld) :
  wf_bytes block -> blen block <= 2 ^ 30 - 64 -> dagpb_decode block = Ok v ->
  (exists links data, v = pb_value links data) /\
  exists block', dagpb_encode v = Ok block' /\ dagpb_decode block' = Ok v.
Proof.
  intros Hw Hl. unfold dagpb_decode at 1.
  destruct (pbnode_from_bytes block) as [n|e|] eqn:E; cbn [kbind]; try discriminate. intros [= <-]. split.
  - exists (map (fun l => (l_cid l, l_name l, l_size l)) (n_links n)), (n_data n).
    rewrite <- ipld_of_node_value. unfold node_of. rewrite map_map. cbn [fst snd].
    f_equal. destruct n as [ls d]; cbn. f_equal. rewrite <- (map_id ls) at 1. apply map_ext. intros []; reflexivity.
  - apply dagpb_roundtrip. eapply pbnode_from_bytes_wf; [split; eassumption|exact E].
Qed.
Print Assumptions c11_dagpb_decoded_is_stable.

Definition a_cid : cid := CidV0 [1; 2; 3; 4; 5; 6; 7; 8; 9; 10; 11; 12; 13; 14; 15; 16; 17; 18; 19; 20; 21; 22; 23; 24; 25; 26; 27; 28; 29; 30; 31; 32].
Example c11_dagpb_case :
  exists block, dagpb_encode (pb_value [(a_cid, [102; 111; 111], 300); (a_cid, [], 0)] [8; 1]) = Ok block /\
  dagpb_decode block = Ok (pb_value [(a_cid, [102; 111; 111], 300); (a_cid, [], 0)] [8; 1]) /\ blen block = 88.
Proof. eexists. split; [vm_compute; reflexivity|]. split; vm_compute; reflexivity. Qed.
Example c11_dagpb_sizes_met : pb_sizes [(a_cid, [102; 111; 111], 300); (a_cid, [], 0)] [8; 1].
Proof.
  split; [reflexivity|]. repeat constructor; cbn; try reflexivity; try (unfold is_byte; lia).
Qed.

(** Encoding drops every other key silently, *)
Theorem c11_dagpb_extra_key_refuted :
  exists v v' block, wf_ipld v /\ dagpb_encode v = Ok block /\ dagpb_decode block = Ok v' /\ v' <> v.
Proof.
  exists (IMap [(kData, IBytes []); (kLinks, IList []); ([76; 111], Null)]). eexists. eexists.
  split; [cbn; unfold u64_max1, is_byte, wf_bytes; repeat split; repeat constructor; unfold is_byte; try lia|].
  split; [vm_compute; reflexivity|]. split; [vm_compute; reflexivity|]. discriminate.
Qed.
Print Assumptions c11_dagpb_extra_key_refuted.
(** and keeps only the low 64 bits of a Tsize that does not fit, so a negative one comes back large. *)
Theorem c11_dagpb_tsize_refuted :
  exists block, dagpb_encode (IMap [(kData, IBytes []); (kLinks, IList [IMap
      [(kHash, Link a_cid); (kName, Str []); (kTsize, Integer (-1))]])]) = Ok block /\
    dagpb_decode block = Ok (IMap [(kData, IBytes []); (kLinks, IList [IMap
      [(kHash, Link a_cid); (kName, Str []); (kTsize, Integer 18446744073709551615)]])]).
Proof. eexists. split; [vm_compute; reflexivity|]. vm_compute. reflexivity. Qed.
Print Assumptions c11_dagpb_tsize_refuted.

(** ** C56 for dag-pb: the encoder writes Data before Links while other implementations, and the unixfs
    part of this one, write Links first; re-encoding such a block changes its bytes and so its cid. *)
Theorem c56_dagpb_field_order_refuted :
  exists block v block', dagpb_decode block = Ok v /\ dagpb_encode v = Ok block' /\ block' <> block /\
    firstn 1 block = [18] /\ firstn 1 block' = [10].
Proof.
  exists (w_bytes 18 (w_bytes 10 (cid_to_bytes a_cid) ++ w_bytes 18 [] ++ w_uint 24 7) ++ w_bytes 10 [8; 1]).
  eexists. eexists. split; [vm_compute; reflexivity|]. split; [vm_compute; reflexivity|].
  split; [vm_compute; discriminate|]. split; vm_compute; reflexivity.
Qed.
Print Assumptions c56_dagpb_field_order_refuted.

(** * dag-json *)

(** A value survives when: integers fit 64 bits (signed or unsigned), floats are finite and
    survive serde_json's printing and parsing (which is inexact for some), there are no
    byte strings, no map has "/" with a string value as its only entry, and arrays and objects nest
    less than 128 deep ([json_safe], [json_depth] in CodecsProofs). *)
Theorem c11_dagjson_round_trip_partial
    (b64_encode : bytes -> bytes) (b64_decode : bytes -> option bytes)
    (float_reread : N -> N) (int_as_float : Z -> N) (v : ipld) :
  (forall b, b64_decode (b64_encode b) = Some b) ->
  wf_ipld v -> json_safe float_reread v -> (json_depth v < 128)%nat ->
  json_reread b64_encode b64_decode float_reread int_as_float v = Ok v.
Proof. intros Hb Hw Hs Hd. apply json_roundtrip; assumption. Qed.
Print Assumptions c11_dagjson_round_trip_partial.

Example c11_dagjson_case :
  let v := IMap [([97], IList [Integer (-5); Str [47]; Link a_cid; Null]);
                 ([98], IMap [([47], Integer 1)])] in
  wf_ipld v /\ json_safe (fun f => f) v /\ (json_depth v < 128)%nat.
Proof.
  intros v.
  assert (W : wf_bytes [97] /\ wf_bytes [98] /\ wf_bytes [47]) by (repeat split; repeat constructor; unfold is_byte; lia).
  assert (C : wf_cid a_cid) by (split; [reflexivity|repeat constructor; unfold is_byte; lia]).
  subst v. split; [|split].
  - cbn [wf_ipld allP fst snd]. repeat split; try apply W; try apply C; try reflexivity; try discriminate.
    all: repeat constructor.
  - cbn [json_safe allP snd]. repeat split; try discriminate.
  - apply PeanoNat.Nat.ltb_lt. reflexivity.
Qed.

(** What does not survive, whatever base64 and the number printer do. *)
Section Refuted.
  Variables (b64_encode : bytes -> bytes) (b64_decode : bytes -> option bytes)
            (float_reread : N -> N) (int_as_float : Z -> N).
  Let reread := json_reread b64_encode b64_decode float_reread int_as_float.

  (** byte strings come back as lists of integers, *)
  Theorem c11_dagjson_bytes_refuted (b : bytes) :
    reread (IBytes b) = Ok (IList (map (fun x => Integer (Z.of_N x)) b)).
  Proof.
    unfold reread, json_reread. change 128%nat with (S (S 126)). cbn [to_json]. rewrite of_json_arr.
    rewrite (map_all_spec _ _ (map (fun x => Integer (Z.of_N x)) b)); [reflexivity|].
    induction b as [|x b IH]; cbn [map]; constructor; [reflexivity|exact IH].
  Qed.
  (** infinities and NaN as null, *)
  Theorem c11_dagjson_nonfinite_refuted (f : N) : is_finite f = false -> reread (Float f) = Ok Null.
  Proof.
    intros H. change (f64_finite f = false) in H. unfold reread, json_reread. cbn [to_json]. rewrite H. reflexivity.
  Qed.
  (** integers outside 64 bits as floats, *)
  Theorem c11_dagjson_big_integer_refuted (i : Z) :
    (i < - 2 ^ 63 \/ 2 ^ 64 <= i)%Z -> reread (Integer i) = Ok (Float (int_as_float i)).
  Proof.
    change (2 ^ 63)%Z with 9223372036854775808%Z. change (2 ^ 64)%Z with 18446744073709551616%Z.
    intros H. unfold reread, json_reread. cbn [to_json].
    destruct (Z.leb_spec (-9223372036854775808) i), (Z.ltb_spec i 18446744073709551616); try lia; reflexivity.
  Qed.
  (** a map with the only key "/" and a string value as a link or an error, *)
  Theorem c11_dagjson_slash_refuted (s : bytes) :
    reread (IMap [([47], Str s)]) = Err JsonErr \/ exists c, reread (IMap [([47], Str s)]) = Ok (Link c).
  Proof.
    unfold reread, json_reread. change 128%nat with (S (S 126)). cbn [to_json map fst snd]. rewrite of_json_obj.
    cbn [map_all snd of_json kbind]. rewrite beq_refl. destruct (b64_decode s) as [b|]; [|left; reflexivity].
    destruct (cid_from_bytes b) as [c|]; [right; eauto|left; reflexivity].
  Qed.
  (** and values nested 128 deep or more are written and then refused. *)
  Fixpoint nest (n : nat) : ipld := match n with O => Null | S n => IList [nest n] end.
  Lemma nest_json n : forall d, (d <= n)%nat -> (0 < d)%nat ->
    of_json b64_decode d (to_json b64_encode float_reread int_as_float (nest n)) = Err JsonErr.
  Proof.
    induction n as [|n IH]; intros d H1 H2; [lia|]. destruct d as [|[|d]]; [lia|reflexivity|].
    cbn [nest to_json map]. rewrite of_json_arr. cbn [map_all]. rewrite IH by lia. reflexivity.
  Qed.
  Theorem c11_dagjson_deep_refuted (n : nat) : (128 <= n)%nat -> reread (nest n) = Err JsonErr.
  Proof. intros H. apply nest_json; lia. Qed.
End Refuted.
Print Assumptions c11_dagjson_bytes_refuted.
Print Assumptions c11_dagjson_nonfinite_refuted.
Print Assumptions c11_dagjson_big_integer_refuted.
Print Assumptions c11_dagjson_slash_refuted.
Print Assumptions c11_dagjson_deep_refuted.
