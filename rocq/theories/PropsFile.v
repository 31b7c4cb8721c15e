(** Properties C01-C05, C07 and C55: adding and reading UnixFS files.

    [sha] is the digest function (32 bytes out), [get] any block source holding the blocks the
    adder returned, [fuel] any bound on the number of blocks a reader may load that is at least the
    number of blocks returned. *)
From Coq Require Import Permutation.
From Verif Require Import Base Wire WireProofs Cid CidProofs Pb PbProofs FileSpec FileAdder
  FileAdderProofs FileTreeProofs FileVisit FileVisitProofs FileProps.
Local Open Scope N_scope.

Definition digest_fn (sha : bytes -> bytes) : Prop :=
  forall b, length (sha b) = 32%nat /\ wf_bytes (sha b).

(** A chunk of at most 2 GiB, at most 2^28 links per block: a block then stays below the 4 GiB that
    the wire format can describe. *)
Definition config_ok (chunk bf : nat) : Prop :=
  (0 < chunk)%nat /\ (2 <= bf)%nat
  /\ N.of_nat chunk <= 2147483648 /\ N.of_nat bf <= 268435456.

Definition holds (get : cid -> option bytes) (blocks : list (cid * bytes)) : Prop :=
  forall c b, In (c, b) blocks -> get c = Some b.

(** A digest function and a block source for the examples. *)
Definition toy_sha (b : bytes) : bytes :=
  le_bytes 32 (fold_left (fun acc x => (acc * 257 + x + 1) mod (2 ^ 256)) b 0).
Fixpoint assoc (l : list (cid * bytes)) (c : cid) : option bytes :=
  match l with
  | [] => None
  | (k, v) :: r => if beq (cid_to_bytes k) (cid_to_bytes c) then Some v else assoc r c
  end.
Definition added (r : add_res (list (cid * bytes))) : list (cid * bytes) :=
  match r with Added l => l | _ => [] end.

Lemma toy_sha_ok : digest_fn toy_sha.
Proof.
  intros b. unfold toy_sha. generalize (fold_left (fun acc x => (acc * 257 + x + 1) mod (2 ^ 256)) b 0).
  assert (H : forall n v, length (le_bytes n v) = n /\ wf_bytes (le_bytes n v)).
  { induction n as [|n IH]; intros v; cbn [le_bytes]; [split; [reflexivity|constructor]|].
    destruct (IH (v / 256)) as [H1 H2]. split; [cbn; rewrite H1; reflexivity|].
    constructor; [apply N.mod_lt; lia|exact H2]. }
  intros v. apply H.
Qed.

Lemma last_root sha chunk bf slices out :
  (0 < chunk)%nat -> (2 <= bf)%nat -> add_file sha chunk bf slices = Added out ->
  exists t front, out = front ++ [tblock sha t] /\ Permutation out (tblocks sha t)
    /\ tcontent t = concat slices /\ shaped chunk bf true t.
Proof.
  intros Hc Hb E. destruct (add_file_tree sha chunk bf slices ltac:(lia) Hb) as (t & o & E' & HP & [f Hf] & HC & HS).
  rewrite E in E'. injection E' as ->. exists t, f. auto.
Qed.

(** ** C05: the adder terminates without panicking *)

Theorem c05_adder_completes_partial :
  forall sha chunk bf slices, (0 < chunk)%nat -> (2 <= bf)%nat ->
  exists out, add_file sha chunk bf slices = Added out.
Proof.
  intros sha chunk bf slices Hc Hb.
  destruct (add_file_tree sha chunk bf slices ltac:(lia) Hb) as (t & out & E & _). eauto.
Qed.
Print Assumptions c05_adder_completes_partial.

Example c05_case : exists out,
  add_file toy_sha 2 2 [[1; 2; 3]; []; [4; 5; 6; 7; 8; 9]] = Added out /\ length out = 11%nat.
Proof. eexists. split; [vm_compute; reflexivity|]. vm_compute. reflexivity. Qed.

(** The builder accepts a branching factor of one, with which [finish] never returns for any
    content longer than one chunk: it keeps adding levels whatever bound is put on their number. *)
Theorem c05_branching_one_refuted :
  forall sha chunk slices, (0 < chunk)%nat -> (chunk < length (concat slices))%nat ->
  exists s bs, push_slices sha chunk 1 adder0 slices = Added (s, bs)
    /\ forall fuel, finish_within sha fuel 1 s = AddFuel.
Proof. exact finish_one_diverges. Qed.
Print Assumptions c05_branching_one_refuted.

(** It also accepts chunks of size zero, with which the first push panics. *)
Theorem c05_chunk_zero_refuted :
  forall sha bf slices, concat slices <> [] -> add_file sha 0 bf slices = AddPanic.
Proof.
  intros sha bf slices H. unfold add_file. rewrite push_slices_zero by reflexivity.
  destruct (concat slices); [congruence|reflexivity].
Qed.
Print Assumptions c05_chunk_zero_refuted.

(** [finish] and [finish_within] are the same function when the bound is generous. *)
Theorem c05_finish_within_agrees :
  forall sha bf s, finish sha bf s
    = finish_within sha (S (length (fst (flush_leaf sha (a_buf s) (a_links s) true)))) bf s.
Proof.
  intros. unfold finish, finish_within, flush_links.
  destruct (flush_leaf sha (a_buf s) (a_links s) true) as [l o]. reflexivity.
Qed.
Print Assumptions c05_finish_within_agrees.

(** ** C01 and C03: reading back *)

Theorem c01_added_file_reads_back :
  forall sha chunk bf slices out get fuel,
  digest_fn sha -> config_ok chunk bf ->
  add_file sha chunk bf slices = Added out -> blocks_size out < u64_max1 ->
  holds get out -> (length out <= fuel)%nat ->
  exists front root block, out = front ++ [(root, block)]
    /\ read_file fuel get None root = ReadOk (concat slices).
Proof.
  intros sha chunk bf slices out get fuel Hsha (Hc & Hb & Hcs & Hbs) E Hsz Hget Hf.
  destruct (last_root _ _ _ _ _ Hc Hb E) as (t & front & Eo & HP & HC & HS).
  exists front, (fst (tblock sha t)), (snd (tblock sha t)).
  split; [rewrite <- surjective_pairing; exact Eo|].
  assert (Hsz' : blocks_size (tblocks sha t) < u64_max1) by (rewrite <- (blocks_size_perm _ _ HP); exact Hsz).
  rewrite (read_tree sha Hsha get fuel None t).
  - cbn [cut_target]. rewrite HC. reflexivity.
  - rewrite <- (nodes_blocks sha), <- (Permutation_length HP). exact Hf.
  - apply (shaped_good sha Hsha chunk bf Hcs Hbs true); assumption.
  - intros c b Hin. apply Hget. eapply Permutation_in; [symmetry; exact HP|exact Hin].
  - pose proof (content_le_blocks sha t). lia.
Qed.
Print Assumptions c01_added_file_reads_back.

(** Starting the walk at the root reports the length of the content as the file size. *)
Theorem c01_reported_file_size :
  forall sha chunk bf slices out front root block target,
  digest_fn sha -> config_ok chunk bf ->
  add_file sha chunk bf slices = Added out -> blocks_size out < u64_max1 ->
  out = front ++ [(root, block)] ->
  exists content rest,
    visit_start target block = Ok (content, blen (concat slices), mk_meta None None, rest).
Proof.
  intros sha chunk bf slices out front root block target Hsha (Hc & Hb & Hcs & Hbs) E Hsz Eo.
  destruct (last_root _ _ _ _ _ Hc Hb E) as (t & front' & Eo' & HP & HC & HS).
  rewrite Eo in Eo'. apply app_inj_tail in Eo' as [_ Et].
  assert (Hsz' : blocks_size (tblocks sha t) < u64_max1) by (rewrite <- (blocks_size_perm _ _ HP); exact Hsz).
  destruct (start_reports sha t target Hsha) as (c & v & EV).
  - apply (shaped_good sha Hsha chunk bf Hcs Hbs true); assumption.
  - pose proof (content_le_blocks sha t). lia.
  - exists c, v. rewrite <- Et, HC in EV. exact EV.
Qed.
Print Assumptions c01_reported_file_size.

Theorem c03_range_read :
  forall sha chunk bf slices out get fuel a b,
  digest_fn sha -> config_ok chunk bf ->
  add_file sha chunk bf slices = Added out -> blocks_size out < u64_max1 ->
  holds get out -> (length out <= fuel)%nat ->
  exists front root block, out = front ++ [(root, block)]
    /\ read_file fuel get (Some (mk_range a b)) root = ReadOk (part a b (concat slices)).
Proof.
  intros sha chunk bf slices out get fuel a b Hsha (Hc & Hb & Hcs & Hbs) E Hsz Hget Hf.
  destruct (last_root _ _ _ _ _ Hc Hb E) as (t & front & Eo & HP & HC & HS).
  exists front, (fst (tblock sha t)), (snd (tblock sha t)).
  split; [rewrite <- surjective_pairing; exact Eo|].
  assert (Hsz' : blocks_size (tblocks sha t) < u64_max1) by (rewrite <- (blocks_size_perm _ _ HP); exact Hsz).
  rewrite (read_tree sha Hsha get fuel (Some (mk_range a b)) t).
  - cbn [cut_target r_start r_end]. rewrite HC, !N.sub_0_r. reflexivity.
  - rewrite <- (nodes_blocks sha), <- (Permutation_length HP). exact Hf.
  - apply (shaped_good sha Hsha chunk bf Hcs Hbs true); assumption.
  - intros c b0 Hin. apply Hget. eapply Permutation_in; [symmetry; exact HP|exact Hin].
  - pose proof (content_le_blocks sha t). lia.
Qed.
Print Assumptions c03_range_read.

(** What [part] is: byte [i] of the answer is byte [a + i] of the content, for [a + i < b]. *)
Theorem c03_part_is_slice :
  forall a b content i, nth_error (part a b content) i
    = if N.of_nat i + a <? b then nth_error content (i + N.to_nat a) else None.
Proof.
  intros a b content i. unfold part.
  assert (H1 : forall n (l : bytes) i, nth_error (skipn n l) i = nth_error l (i + n)).
  { induction n as [|n IH]; intros l j; [rewrite Nat.add_0_r; reflexivity|].
    destruct l as [|x l]; [destruct j; reflexivity|]. cbn [skipn]. rewrite IH.
    replace (j + S n)%nat with (S (j + n)) by lia. reflexivity. }
  assert (H2 : forall n (l : bytes) i, nth_error (firstn n l) i = if (i <? n)%nat then nth_error l i else None).
  { induction n as [|n IH]; intros l j; [destruct j; reflexivity|].
    destruct l as [|x l]; [destruct j; cbn [firstn]; destruct (_ <? _)%nat; reflexivity|].
    destruct j as [|j]; [reflexivity|]. cbn [firstn nth_error]. rewrite IH. reflexivity. }
  rewrite H1, H2.
  destruct (N.ltb_spec (N.of_nat i + a) b), (Nat.ltb_spec (i + N.to_nat a) (N.to_nat b)); try lia; reflexivity.
Qed.
Print Assumptions c03_part_is_slice.

(** Hypotheses of C01, C03 and C04 are met, here by a three-level tree of nine bytes. *)
Definition case_slices : list bytes := [[1; 2; 3]; []; [4; 5; 6; 7; 8; 9]].
Definition case_blocks : list (cid * bytes) := added (add_file toy_sha 2 2 case_slices).
Example c01_case :
  digest_fn toy_sha /\ config_ok 2 2 /\ add_file toy_sha 2 2 case_slices = Added case_blocks
  /\ blocks_size case_blocks < u64_max1 /\ holds (assoc case_blocks) case_blocks
  /\ length case_blocks = 11%nat.
Proof.
  split; [apply toy_sha_ok|]. split; [repeat split; lia|].
  split; [vm_compute; reflexivity|]. split; [vm_compute; reflexivity|]. split; [|vm_compute; reflexivity].
  intros c b Hin.
  assert (HF : forallb (fun p => match assoc case_blocks (fst p) with Some v => beq v (snd p) | None => false end)
                 case_blocks = true) by (vm_compute; reflexivity).
  rewrite forallb_forall in HF. specialize (HF _ Hin). cbn [fst snd] in HF.
  destruct (assoc case_blocks c) as [v|]; [|discriminate]. apply beq_eq in HF. congruence.
Qed.
Example c03_case :
  exists front root block, case_blocks = front ++ [(root, block)]
    /\ read_file 11 (assoc case_blocks) (Some (mk_range 3 7)) root = ReadOk [4; 5; 6; 7].
Proof.
  destruct c01_case as (H1 & H2 & H3 & H4 & H5 & H6).
  destruct (c03_range_read toy_sha 2 2 case_slices case_blocks (assoc case_blocks) 11 3 7 H1 H2 H3 H4 H5)
    as (f & r & b & E & R); [rewrite H6; lia|]. exists f, r, b. split; [exact E|]. exact R.
Qed.

(** ** C02: the blocks do not depend on how the input was cut *)

Theorem c02_blocks_independent_of_cuts :
  forall sha chunk bf slices1 slices2,
  concat slices1 = concat slices2 ->
  add_file sha chunk bf slices1 = add_file sha chunk bf slices2.
Proof. exact add_file_cuts. Qed.
Print Assumptions c02_blocks_independent_of_cuts.

(** Pushing nothing changes nothing. *)
Theorem c02_empty_push :
  forall sha chunk bf s, (length (a_buf s) < chunk)%nat ->
  push sha chunk bf s [] = Added (s, [], 0%nat).
Proof.
  intros sha chunk bf s H. unfold push, accept.
  destruct (Nat.ltb_spec chunk (length (a_buf s))); [lia|]. cbn [length Nat.min firstn].
  destruct (Nat.leb_spec chunk (length (a_buf s) + 0)); [lia|]. rewrite andb_false_r. cbn [orb].
  rewrite app_nil_r. destruct s; reflexivity.
Qed.
Print Assumptions c02_empty_push.

Example c02_case : concat case_slices = concat [[1]; [2; 3; 4; 5; 6]; [7; 8; 9]].
Proof. reflexivity. Qed.

(** ** C04: the shape of the produced tree *)

Theorem c04_tree_shape :
  forall sha chunk bf slices out get,
  digest_fn sha -> config_ok chunk bf ->
  add_file sha chunk bf slices = Added out -> blocks_size out < u64_max1 -> holds get out ->
  exists front root block height, out = front ++ [(root, block)]
    /\ stored_file get chunk bf true root height (concat slices) (blocks_size out).
Proof.
  intros sha chunk bf slices out get Hsha (Hc & Hb & Hcs & Hbs) E Hsz Hget.
  destruct (last_root _ _ _ _ _ Hc Hb E) as (t & front & Eo & HP & HC & HS).
  exists front, (fst (tblock sha t)), (snd (tblock sha t)), (height t).
  split; [rewrite <- surjective_pairing; exact Eo|].
  rewrite (blocks_size_perm _ _ HP) in *. rewrite <- HC.
  apply (shaped_stored sha Hsha chunk bf Hcs Hbs get); auto.
  intros c b Hin. apply Hget. eapply Permutation_in; [symmetry; exact HP|exact Hin].
Qed.
Print Assumptions c04_tree_shape.

(** ** C07: arbitrary blocks *)

(** Starting panics only on a leaf without a file size, or on declared sizes adding up to 2^64. *)
Theorem c07_start_partial :
  forall target block, visit_start target block = Panic ->
  exists f, flat_parse block = inl f /\ (lacks_filesize f \/ sizes_overflow 0 f).
Proof. exact visit_start_panic. Qed.
Print Assumptions c07_start_partial.

(** Continuing with a pending link panics only in those cases, and, for range reads, when the block
    does not hold as many bytes as its parent declared. *)
Theorem c07_continue_partial :
  forall v c rg rest block, v_pending v = (c, rg) :: rest -> visit_continue v block = Panic ->
  exists f, flat_parse block = inl f
    /\ (lacks_filesize f \/ sizes_overflow (r_start rg) f
        \/ (v_range v <> None /\ wrong_length rg f)).
Proof. exact visit_continue_panic. Qed.
Print Assumptions c07_continue_partial.

(** A 7-byte block: a file with the content "a" and no declared size. *)
Definition hostile_leaf : bytes :=
  flat_write (mk_flat [] (mk_unixfs TFile (Some [97]) None [] None None None None)).
Theorem c07_missing_filesize_refuted : exists block, visit_start None block = Panic.
Proof. exists hostile_leaf. vm_compute. reflexivity. Qed.
Print Assumptions c07_missing_filesize_refuted.

(** Declared sizes that overflow. *)
Definition hostile_sizes : bytes :=
  flat_write (mk_flat [mk_pblink (Some (18 :: 32 :: repeat 7 32)) None None;
                       mk_pblink (Some (18 :: 32 :: repeat 7 32)) None None]
                (mk_unixfs TFile None (Some 5) [18446744073709551615; 1] None None None None)).
Theorem c07_sizes_overflow_refuted : exists block, visit_start None block = Panic.
Proof. exists hostile_sizes. vm_compute. reflexivity. Qed.
Print Assumptions c07_sizes_overflow_refuted.

(** A root declaring one 10-byte child, whose block holds three bytes: a range read panics, a full
    read yields three bytes where ten were declared. *)
Definition hostile_root : bytes :=
  flat_write (mk_flat [mk_pblink (Some (18 :: 32 :: repeat 7 32)) None None]
                (mk_unixfs TFile None (Some 10) [10] None None None None)).
Definition short_leaf : bytes :=
  flat_write (mk_flat [] (mk_unixfs TFile (Some [1; 2; 3]) (Some 3) [] None None None None)).
Theorem c07_wrong_length_refuted :
  exists root leaf v,
    visit_start (Some (mk_range 0 8)) root = Ok ([], 10, mk_meta None None, Some v)
    /\ visit_continue v leaf = Panic.
Proof. exists hostile_root, short_leaf. eexists. split; [vm_compute; reflexivity|]. vm_compute. reflexivity. Qed.
Print Assumptions c07_wrong_length_refuted.

Theorem c07_content_length_refuted :
  exists root leaf v c, visit_start None root = Ok ([], 10, mk_meta None None, Some v)
    /\ v_pending v = [(c, mk_range 0 10)] /\ visit_continue v leaf = Ok ([1; 2; 3], None).
Proof. exists hostile_root, short_leaf. eexists _, _. split; [vm_compute; reflexivity|]. split; [vm_compute; reflexivity|].
  vm_compute. reflexivity. Qed.
Print Assumptions c07_content_length_refuted.

(** An inner block whose only link is outside of the target: the walk continues with no pending
    link, and asking for the next one panics. *)
Definition hostile_inner : bytes :=
  flat_write (mk_flat [mk_pblink (Some (18 :: 32 :: repeat 7 32)) None None]
                (mk_unixfs TFile None (Some 1) [1] None None None None)).
Theorem c07_empty_pending_refuted :
  exists root inner v v',
    visit_start (Some (mk_range 5 8)) root = Ok ([], 10, mk_meta None None, Some v)
    /\ visit_continue v inner = Ok ([], Some v') /\ next_link v' = None.
Proof. exists hostile_root, hostile_inner. eexists _, _. split; [vm_compute; reflexivity|]. split; [vm_compute; reflexivity|].
  vm_compute. reflexivity. Qed.
Print Assumptions c07_empty_pending_refuted.

(** ** C55: HTTP add reports what it stored *)

(** Whenever the content is not exactly one chunk long, the reported cid is that of the last block
    stored (the root, by C01) and the reported size is that of all blocks stored. *)
Theorem c55_http_add_partial :
  forall sha chunk bf slices, (0 < chunk)%nat -> (2 <= bf)%nat -> length (concat slices) <> chunk ->
  exists out front root block,
    add_file sha chunk bf slices = Added out /\ out = front ++ [(root, block)]
    /\ http_add sha chunk bf slices = Added (root, blocks_size out).
Proof. exact http_add_spec. Qed.
Print Assumptions c55_http_add_partial.

Example c55_case : exists r, http_add toy_sha 2 2 [[1; 2]; [3; 4]] = Added r.
Proof. eexists. vm_compute. reflexivity. Qed.

(** A file of exactly one chunk makes the handler panic: nothing is left for [finish]. *)
Theorem c55_http_add_refuted :
  forall sha chunk bf slices, (0 < chunk)%nat -> (2 <= bf)%nat -> length (concat slices) = chunk ->
  http_add sha chunk bf slices = AddPanic.
Proof. exact http_add_one_chunk. Qed.
Print Assumptions c55_http_add_refuted.
