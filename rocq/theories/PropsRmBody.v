(** C81, continued: what a client of /block/rm learns from a body, whole or cut. *)
From Coq Require Import Permutation.
From Verif Require Import Base Wire Cid Text FsPaths FsPins RefsHttp RefsHttpSpec HttpOptions NodePins HttpBlock HttpBlockSpec
  Bodies BodiesSpec RmBody PropsHttpBlock PropsBodies.
Local Open Scope N_scope.

Lemma rm_stream_body ob se query order s s' body : block_rm ob se query order s = (s', Content body) ->
  exists l, rm_stream ob se query order s = (s', Some (map Bytes l)) /\ concat l = body.
Proof.
  unfold block_rm, rm_stream. destruct (read_query rm_rules [] query) as [q|e|]; try discriminate. destruct (parse_cids ob (all_of k_arg q)) as [cs|]; [|discriminate].
  destruct (rm_run ob se s cs order) as [s1 [l|e|]]; try discriminate. intros [= <- <-]. eexists. split; [rewrite map_map; reflexivity|reflexivity].
Qed.
Lemma flat_bytes l : flat_map (fun i => match i with Bytes b => b | Error => [] end) (map Bytes l) = concat l.
Proof. induction l as [|x l IH]; [reflexivity|]. cbn. rewrite IH. reflexivity. Qed.
Lemma bytes_only l : forall i, In i (map Bytes l) -> i <> Error.
Proof. intros i H. apply in_map_iff in H as (x & <- & _). discriminate. Qed.

(** However little of the answer arrives, the unpinned blocks which were named are gone, and nothing
    else; all of it is a whole body.  If a whole body arrives and "quiet" is not given, it has the line for
    each argument, in their order; if less arrives, what does is the beginning of these lines; with
    "quiet" there is never anything in it. *)
Theorem c81_rm ob storage_error query cs force quiet s order : storage_error <> [] ->
  arguments ob query cs -> Forall wf_cid cs -> flag (values k_force query) force -> flag (values k_quiet query) quiet ->
  Permutation order (seq 0 (length cs)) ->
  exists s' items, rm_stream ob storage_error query order s = (s', Some items) /\ snd s' = snd s /\
    (forall x, wf_cid x ->
      (f_get (fst s') x = None <-> f_get (fst s) x = None \/ exists c, In c cs /\ fs_is_pinned ob (snd s) c = Some false /\ to_v1 c = to_v1 x) /\
      (forall data, f_get (fst s') x = Some data -> f_get (fst s) x = Some data)) /\
    (exists b, chunked (on_wire items AtEnd) b []) /\
    if quiet then forall w b, arrives w (on_wire items AtEnd) -> so_far w b \/ (exists fs, chunked w b fs) -> b = []
    else exists lines, line_for ob storage_error force s cs lines /\
      forall w b, arrives w (on_wire items AtEnd) ->
        (forall fs, chunked w b fs -> read_rm_body b = Some lines) /\
        (so_far w b -> exists rest, read_rm_body (b ++ rest) = Some lines).
Proof.
  intros Hse Ha Hw Hf Hq Hp. destruct (c65_rm ob storage_error Hse query cs force quiet s order Ha Hw Hf Hq Hp) as (s' & body & E & E1 & E2 & E3).
  destruct (rm_stream_body _ _ _ _ _ _ _ E) as (l & El & Eb). exists s', (map Bytes l). split; [exact El|]. split; [exact E1|]. split; [exact E2|].
  split; [eexists; apply c81_whole, bytes_only|].
  assert (W : forall w b fs, arrives w (on_wire (map Bytes l) AtEnd) -> chunked w b fs -> b = body).
  { intros w b fs A C. destruct (c81_only _ _ _ _ _ A C) as (_ & _ & _ & -> & _). rewrite flat_bytes. exact Eb. }
  assert (F : forall w b, arrives w (on_wire (map Bytes l) AtEnd) -> so_far w b -> exists rest, body = b ++ rest).
  { intros w b A C. destruct (c81_first_bytes _ _ _ _ A C) as (before & after & rest & X & Y). exists (rest ++ flat_map (fun i => match i with Bytes b => b | Error => [] end) after).
    rewrite <- Eb, <- flat_bytes, X, flat_map_app, flat_bytes, Y, <- app_assoc. reflexivity. }
  destruct quiet.
  - intros w b A [C|[fs C]]; [|rewrite (W _ _ _ A C); exact E3]. destruct (F _ _ A C) as (rest & X). rewrite E3 in X. symmetry in X. apply app_eq_nil in X. tauto.
  - destruct E3 as (lines & R & L). exists lines. split; [exact L|]. intros w b A. split; [intros fs C; rewrite (W _ _ _ A C); exact R|].
    intros C. destruct (F _ _ A C) as (rest & X). exists rest. rewrite <- X. exact R.
Qed.
Print Assumptions c81_rm.

(** A bad request removes nothing, and is refused. *)
Theorem c81_rm_refused ob storage_error query order s :
  (exists cs force quiet, arguments ob query cs /\ flag (values k_force query) force /\ flag (values k_quiet query) quiet) \/ rm_stream ob storage_error query order s = (s, None).
Proof.
  destruct (c65_rm_refused ob storage_error query order s) as [H|H]; [left; exact H|right]. revert H. unfold block_rm, rm_stream.
  destruct (read_query rm_rules [] query) as [q|e|]; try reflexivity. destruct (parse_cids ob (all_of k_arg q)) as [cs|]; [|reflexivity].
  destruct (rm_run ob storage_error s cs order) as [s1 [l|e|]]; discriminate.
Qed.
Print Assumptions c81_rm_refused.

(** A case: four arguments of which two are one block, one is missing and one pinned (C65), in four
    parts. *)
Example c81_case_rm : arguments no_base (map (fun c => (k_arg, cid_to_text c)) rm_cids) rm_cids /\
  match rm_stream no_base [63] (map (fun c => (k_arg, cid_to_text c)) rm_cids) [3; 0; 2; 1]%nat rm_state2 with
  | (s', Some items) => (length items =? 4)%nat = true /\ snd s' = snd rm_state2
  | _ => False
  end.
Proof. split; [exact (proj1 c65_rm_example)|]. vm_compute. split; reflexivity. Qed.
