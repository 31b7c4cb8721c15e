(** C12, C13 and C58: ipfs paths. *)
From Verif Require Import Base Wire WireProofs Cid CidProofs Text TextProofs CodecsProofs IpfsPath PathSpec IpfsPathProofs.
Local Open Scope N_scope.

(** * C12 *)

(** Parsing accepts exactly the texts which spell a path, and yields that path.  [ob] stands for the
    multibase decoders other than base 32. *)
Theorem c12_grammar (ob : N -> bytes -> option bytes) (s : bytes) (p : ipfs_path) :
  path_from_str ob s = Some p <-> spells ob s p.
Proof. apply parse_spec. Qed.
Print Assumptions c12_grammar.

(** Parsed segments are not empty and contain no '/'. *)
Theorem c12_segments_good ob s p : path_from_str ob s = Some p -> Forall good_seg (p_segs p).
Proof. intros H. apply parse_spec in H as (prefix & key & trail & _ & _ & H & _). exact H. Qed.
Print Assumptions c12_segments_good.

(** Parsing, printing and parsing again gives the same path.  The decoders yield bytes. *)
Theorem c12_parse_print ob s p : (forall k t b, ob k t = Some b -> wf_bytes b) ->
  path_from_str ob s = Some p -> path_from_str ob (path_to_str p) = Some p.
Proof.
  intros Hob H. apply parse_spec in H. destruct (spells_good ob s p Hob H) as [Hp Hw]. apply parse_spec. apply print_spells; assumption.
Qed.
Print Assumptions c12_parse_print.

(** Paths which the public api can build: [IpfsPath::new], parsing and [sub_path]. *)
Inductive built (ob : N -> bytes -> option bytes) : ipfs_path -> Prop :=
| built_new r : built ob (mk_path r [])
| built_parse s p : path_from_str ob s = Some p -> built ob p
| built_sub p s q : built ob p -> sub_path p s = Some q -> built ob q.
Lemma built_good ob p : built ob p -> Forall good_seg (p_segs p).
Proof.
  induction 1 as [r|s p H|p s q _ IH H]; [constructor|eapply c12_segments_good; exact H|].
  apply sub_path_spec in H as [_ [[_ ->]|(x & l & t & -> & Hg & _)]]; [exact IH|]. apply Forall_app. auto.
Qed.

(** Every path built through the api round trips, if its root is the cid or the peer id it was
    made with, or a dns name without '/' which is not the text of a peer id. *)
Theorem c12_print_parse_partial ob p : built ob p ->
  match p_root p with
  | Ipld c => wf_cid c
  | Ipns q => wf_peer q
  | Dns n => plain n /\ peer_from_text n = None
  end ->
  path_from_str ob (path_to_str p) = Some p.
Proof.
  intros Hb Hr. apply parse_spec. apply print_spells; [|destruct (p_root p); auto]. split; [exact (built_good ob p Hb)|].
  destruct (p_root p); auto.
Qed.
Print Assumptions c12_print_parse_partial.

(** And only those: a dns root with a '/' or spelling a peer id does not come back. *)
Theorem c12_dns_exact ob n segs : path_from_str ob (path_to_str (mk_path (Dns n) segs)) = Some (mk_path (Dns n) segs) ->
  plain n /\ peer_from_text n = None /\ Forall good_seg segs.
Proof.
  intros H. apply parse_spec in H as (prefix & key & trail & _ & Hk & Hg & _ & _ & -> & Hn). auto.
Qed.
Print Assumptions c12_dns_exact.
Definition no_base : N -> bytes -> option bytes := fun _ _ => None.
Theorem c12_dns_refuted : exists p, built no_base p /\
  exists q, path_from_str no_base (path_to_str p) = Some q /\ q <> p.
Proof.
  exists (mk_path (Dns [97; 47; 98]) []). split; [constructor|]. exists (mk_path (Dns [97]) [[98]]). split; [vm_compute; reflexivity|discriminate].
Qed.
Print Assumptions c12_dns_refuted.

(** Different paths print differently. *)
Theorem c12_print_injective_partial ob p q : built ob p -> built ob q -> printable p -> printable q ->
  match p_root p with Ipld c => wf_cid c | Ipns x => wf_peer x | Dns _ => True end ->
  match p_root q with Ipld c => wf_cid c | Ipns x => wf_peer x | Dns _ => True end ->
  path_to_str p = path_to_str q -> p = q.
Proof.
  intros _ _ Hp Hq Wp Wq E. pose proof (proj2 (parse_spec ob _ _) (print_spells ob p Hp Wp)) as H1.
  pose proof (proj2 (parse_spec ob _ _) (print_spells ob q Hq Wq)) as H2. rewrite E in H1. congruence.
Qed.
Print Assumptions c12_print_injective_partial.

(** One trailing slash is ignored, two are rejected. *)
Theorem c12_trailing_slash ob s p : path_from_str ob s = Some p -> no_end_slash s ->
  path_from_str ob (s ++ [47]) = Some p /\ path_from_str ob (s ++ [47; 47]) = None.
Proof.
  intros H He. split.
  - rewrite (parse_join ob s p [] H He). destruct p. reflexivity.
  - rewrite (parse_join ob s p [47] H He). reflexivity.
Qed.
Print Assumptions c12_trailing_slash.

(** "/ipns/" is accepted: the dns name may be empty, although segments may not. *)
Theorem c12_empty_name_accepted : path_from_str no_base (47 :: s_ipns ++ [47]) = Some (mk_path (Dns []) []) /\
  path_from_str no_base (47 :: s_ipns ++ [47; 47; 97]) = Some (mk_path (Dns []) [[97]]).
Proof. split; vm_compute; reflexivity. Qed.
Print Assumptions c12_empty_name_accepted.

Definition ex_path : ipfs_path := mk_path (Ipld (CidV1 113 {| mh_code := sha2_256; mh_digest := repeat 7 32 |})) [[97]; [98; 99]].
Example c12_example : printable ex_path /\ (match p_root ex_path with Ipld c => wf_cid c | _ => False end) /\
  built no_base ex_path /\ path_from_str no_base (path_to_str ex_path ++ [47]) = Some ex_path /\ no_end_slash (path_to_str ex_path).
Proof.
  assert (Hg : Forall good_seg [[97]; [98; 99]]).
  { repeat constructor; try discriminate; intros H; repeat destruct H as [H|H]; try discriminate; exact H. }
  split; [split; [exact Hg|exact I]|]. split.
  { cbn. unfold is_byte. repeat split; try (repeat constructor; lia); vm_compute; reflexivity. }
  split; [eapply built_parse with (s := path_to_str ex_path); vm_compute; reflexivity|]. split; [vm_compute; reflexivity|].
  intros b E. assert (X : last (path_to_str ex_path) 0 = 47) by (rewrite E; apply last_last). revert X. vm_compute. discriminate.
Qed.
Example c12_example_ipns : path_from_str no_base (at_ipns ++ [97; 46; 98; 47; 99]) = Some (mk_path (Dns [97; 46; 98]) [[99]]) /\
  path_from_str no_base (at_ipns ++ [97; 46; 98; 47; 47; 99]) = None /\ path_from_str no_base [47; 105; 112; 120; 115; 47; 97] = None.
Proof. repeat split; vm_compute; reflexivity. Qed.

(** * C13 *)

(** What appending a text gives: nothing for the empty text; otherwise the text consists of
    segments separated by '/', at most one more '/' at the end, and they come after the old ones. *)
Theorem c13_sub_path (p : ipfs_path) (s : bytes) (q : ipfs_path) :
  sub_path p s = Some q <->
  p_root q = p_root p /\
  (s = [] /\ p_segs q = p_segs p \/
   exists x l trail, p_segs q = p_segs p ++ x :: l /\ Forall good_seg (x :: l) /\
     (trail = [] \/ trail = [47]) /\ s = x ++ slashed l ++ trail).
Proof. apply sub_path_spec. Qed.
Print Assumptions c13_sub_path.

(** Appending [a/b] is appending [a] and then [b], success or failure alike. *)
Theorem c13_associative_partial p a b : a <> [] -> (forall x, a <> x ++ [47]) ->
  sub_path p (a ++ 47 :: b) = match sub_path p a with Some q => sub_path q b | None => None end.
Proof. apply sub_path_join. Qed.
Print Assumptions c13_associative_partial.

(** Appending to a parsed path is parsing the longer text. *)
Theorem c13_parse_join ob s p b : path_from_str ob s = Some p -> (forall x, s <> x ++ [47]) ->
  path_from_str ob (s ++ 47 :: b) = sub_path p b.
Proof. apply parse_join. Qed.
Print Assumptions c13_parse_join.

(** Printing what was appended: the old text, '/', and the new one without a trailing slash. *)
Theorem c13_print p x l trail q : sub_path p (x ++ slashed l ++ trail) = Some q -> Forall good_seg (x :: l) ->
  (trail = [] \/ trail = [47]) -> path_to_str q = path_to_str p ++ 47 :: x ++ slashed l.
Proof.
  intros H Hg Ht. assert (E : sub_path p (x ++ slashed l ++ trail) = Some (mk_path (p_root p) (p_segs p ++ x :: l))).
  { apply sub_path_spec. split; [reflexivity|]. right. exists x, l, trail. auto. }
  rewrite H in E. injection E as ->. unfold path_to_str. cbn [p_root p_segs]. rewrite !join_slashed, slashed_app, slashed_cons, app_assoc. reflexivity.
Qed.
Print Assumptions c13_print.

(** False at the edges: with [a] empty or ending in '/' the two sides differ. *)
Theorem c13_associative_refuted : exists p a b,
  sub_path p (a ++ 47 :: b) <> match sub_path p a with Some q => sub_path q b | None => None end /\ a = [].
Proof. exists ex_path, [], [97]. split; [vm_compute; discriminate|reflexivity]. Qed.
Print Assumptions c13_associative_refuted.
Theorem c13_associative_refuted_trailing : exists p a b,
  sub_path p (a ++ 47 :: b) <> match sub_path p a with Some q => sub_path q b | None => None end /\ a <> [] /\ sub_path p a <> None.
Proof. exists ex_path, [97; 47], [98]. split; [vm_compute; discriminate|]. split; [discriminate|vm_compute; discriminate]. Qed.
Print Assumptions c13_associative_refuted_trailing.

Example c13_example : sub_path ex_path [100; 47; 101; 47] = Some (mk_path (p_root ex_path) [[97]; [98; 99]; [100]; [101]]) /\
  sub_path ex_path [100; 47; 47; 101] = None /\ sub_path ex_path [47; 100] = None /\ sub_path ex_path [] = Some ex_path.
Proof. repeat split; vm_compute; reflexivity. Qed.

(** * C58: comparing a remaining path with a list of segments *)

(** As many segments: equality. *)
Theorem c58_equal_length_partial a b : length a = length b -> (segs_eq_slice a b = true <-> a = b).
Proof.
  revert b. induction a as [|x a IH]; intros [|y b]; cbn [length segs_eq_slice]; try discriminate; [intros _; split; auto|].
  intros [= H]. destruct (beq_spec x y) as [->|Hn]; cbn [andb].
  - rewrite (IH b H). split; [intros ->; reflexivity|congruence].
  - split; [discriminate|congruence].
Qed.
Print Assumptions c58_equal_length_partial.
(** What the comparison tells in general: one is a prefix of the other. *)
Theorem c58_is_prefix a b : segs_eq_slice a b = true <-> (exists r, b = a ++ r) \/ (exists r, a = b ++ r).
Proof.
  revert b. induction a as [|x a IH]; intros b; [cbn; split; [intros _; left; exists b; reflexivity|reflexivity]|].
  destruct b as [|y b]; [cbn; split; [intros _; right; exists (x :: a); reflexivity|reflexivity]|].
  cbn [segs_eq_slice]. destruct (beq_spec x y) as [->|Hn]; cbn [andb].
  - rewrite IH. split; (intros [[r E]|[r E]]; [left|right]; exists r; cbn in *; congruence).
  - split; [discriminate|]. intros [[r E]|[r E]]; cbn in E; congruence.
Qed.
Print Assumptions c58_is_prefix.
Theorem c58_refuted : exists a b, segs_eq_slice a b = true /\ a <> b.
Proof. exists [[97]], []. split; [reflexivity|discriminate]. Qed.
Print Assumptions c58_refuted.
Example c58_example : segs_eq_slice [[97]; [98]] [[97]; [98]] = true /\ segs_eq_slice [[97]; [98]] [[97]; [99]] = false.
Proof. split; reflexivity. Qed.

(** Splitting a path at [n]: the first [n] segments and the others, a panic if there are fewer. *)
Theorem c13_split p n :
  ((n <= length (p_segs p))%nat -> exists a b, p_segs p = a ++ b /\ length a = n /\ into_truncated p n = Ok a /\ into_shifted p n = Ok b) /\
  ((length (p_segs p) < n)%nat -> into_truncated p n = Panic /\ into_shifted p n = Panic).
Proof.
  unfold into_truncated, into_shifted. split; intros H.
  - apply Nat.leb_le in H as H'. rewrite H'. exists (firstn n (p_segs p)), (skipn n (p_segs p)). rewrite firstn_skipn, firstn_length_le by exact H. auto.
  - apply Nat.leb_gt in H. rewrite H. auto.
Qed.
Print Assumptions c13_split.
