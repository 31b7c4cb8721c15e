(** C33 and C34: looking up a name in plain and sharded directories. *)
From Coq Require Import Permutation.
From Verif Require Import Base Wire Cid Pb DirLookup DirSpec DirLookupProofs.
Local Open Scope N_scope.

(** * C33 *)

(** The entry is found exactly when one link, and only one, has the name and its cid is valid. *)
Theorem c33_found (block : bytes) (links : list pblink) (name : bytes) (ca : cache) (c : cid) :
  plain_dir block links ->
  (resolve block name ca = Ok (Found c, ca) <-> exists i l, only_named links name i l /\ link_cid l = Some c).
Proof.
  intros H. rewrite (plain_dir_resolve block links name ca H). pose proof (find_link_spec links name) as HF.
  split.
  - destruct (find_link links name) as [[d|q|]|e|]; try discriminate. intros [= ->]. exact HF.
  - intros (i & l & (H1 & H2 & H3) & Hc). destruct (find_link links name) as [[d|q|]|e|]; try contradiction.
    + destruct HF as (j & l' & (G1 & G2 & G3) & Gc). assert (i = j) by (eapply G3; eassumption). subst. rewrite H1 in G1. injection G1 as ->. congruence.
    + exfalso. apply (HF l); [eapply nth_error_In; exact H1|exact H2].
    + exfalso. destruct e as [i' c' j' o|i'|t| |b]; try contradiction.
      * destruct HF as (Hne & l1 & l2 & N1 & N2 & E1 & E2 & _). apply Hne. rewrite (H3 i' l1 N1 E1), (H3 j' l2 N2 E2). reflexivity.
      * destruct HF as (l1 & N1 & E1 & Ec). assert (i' = i) by (eapply H3; eassumption). subst. rewrite H1 in N1. injection N1 as ->. congruence.
Qed.
Print Assumptions c33_found.

(** Not found exactly when no link has the name. *)
Theorem c33_not_found block links name ca : plain_dir block links ->
  (resolve block name ca = Ok (NotFound, ca) <-> forall l, In l links -> link_name l <> name).
Proof.
  intros H. rewrite (plain_dir_resolve block links name ca H). pose proof (find_link_spec links name) as HF.
  split.
  - destruct (find_link links name) as [[d|q|]|e|]; try discriminate. intros _. exact HF.
  - intros Hno. destruct (find_link links name) as [[d|q|]|e|]; try contradiction; [| reflexivity|].
    + destruct HF as (i & l & (H1 & H2 & _) & _). exfalso. apply (Hno l); [eapply nth_error_In; exact H1|exact H2].
    + exfalso. destruct e as [i c j o|i|t| |b]; try contradiction.
      * destruct HF as (_ & l & l' & H1 & _ & H2 & _). apply (Hno l); [eapply nth_error_In; exact H1|exact H2].
      * destruct HF as (l & H1 & H2 & _). apply (Hno l); [eapply nth_error_In; exact H1|exact H2].
Qed.
Print Assumptions c33_not_found.

(** Several links with the name: an error.  It tells two of them, or that the first has no valid cid. *)
Theorem c33_several block links name ca i j l l' : plain_dir block links ->
  nth_error links i = Some l -> nth_error links j = Some l' -> i <> j -> link_name l = name -> link_name l' = name ->
  exists e, resolve block name ca = Err (Lookup e) /\
    match e with
    | Multiple a c b o => a <> b /\ exists l1 l2, nth_error links a = Some l1 /\ nth_error links b = Some l2 /\
        link_name l1 = name /\ link_name l2 = name /\ link_cid l1 = Some c /\ link_cid l2 = o
    | InvalidCid a => exists l1, nth_error links a = Some l1 /\ link_name l1 = name /\ link_cid l1 = None
    | _ => False
    end.
Proof.
  intros H H1 H2 Hij E1 E2. rewrite (plain_dir_resolve block links name ca H). pose proof (find_link_spec links name) as HF.
  destruct (find_link links name) as [[d|q|]|e|]; try contradiction.
  - destruct HF as (k & lk & (_ & _ & G3) & _). exfalso. apply Hij. rewrite (G3 i l H1 E1), (G3 j l' H2 E2). reflexivity.
  - exfalso. apply (HF l); [eapply nth_error_In; exact H1|exact E1].
  - exists e. split; [reflexivity|]. destruct e; auto.
Qed.
Print Assumptions c33_several.

(** One link with the name but no valid cid: an error. *)
Theorem c33_invalid block links name ca i l : plain_dir block links -> only_named links name i l -> link_cid l = None ->
  resolve block name ca = Err (Lookup (InvalidCid i)).
Proof.
  intros H (H1 & H2 & H3) Hc. rewrite (plain_dir_resolve block links name ca H). pose proof (find_link_spec links name) as HF.
  destruct (find_link links name) as [[d|q|]|e|]; try contradiction.
  - destruct HF as (k & lk & (G1 & G2 & _) & Gc). assert (k = i) by (eapply H3; eassumption). subst. rewrite H1 in G1. injection G1 as ->. congruence.
  - exfalso. apply (HF l); [eapply nth_error_In; exact H1|exact H2].
  - destruct e as [a c b o|a|t| |r]; try contradiction.
    + destruct HF as (Hne & l1 & l2 & N1 & N2 & E1 & E2 & _). exfalso. apply Hne. rewrite (H3 a l1 N1 E1), (H3 b l2 N2 E2). reflexivity.
    + destruct HF as (l1 & N1 & E1 & _). rewrite (H3 a l1 N1 E1). reflexivity.
Qed.
Print Assumptions c33_invalid.

(** What happens for any other block. *)
Theorem c33_other_blocks block name ca :
  (exists links, plain_dir block links) \/ (exists links, shard block links) \/ (exists e, resolve block name ca = Err e).
Proof.
  unfold resolve, flat_parse. destruct (pbnode_read block) as [n|] eqn:En; [|right; right; eexists; reflexivity].
  destruct (n_data n) as [[|b d]|] eqn:Ed.
  - left. exists (n_links n), n. rewrite Ed. auto.
  - destruct (unixfs_read (b :: d)) as [u|] eqn:Eu; [|left; exists (n_links n), n; rewrite Ed, Eu; auto]. cbn [f_data f_links].
    destruct (u_type u) eqn:Et; try (right; right; eexists; reflexivity).
    + destruct (check_directory_supported u) eqn:Ec; [|right; right; eexists; reflexivity].
      left. exists (n_links n), n. rewrite Ed, Eu. split; [exact En|]. split; [reflexivity|]. unfold check_directory_supported in Ec.
      destruct (u_filesize u), (u_blocksizes u), (u_hashtype u), (u_fanout u), (u_data u) as [[|]|]; try discriminate; auto.
      all: repeat split; auto.
    + unfold lookup_or_start. cbn [f_data f_links]. destruct (check_supported u) eqn:Ec; [|right; right; eexists; reflexivity].
      right. left. exists (n_links n). apply shard_parse. exists (mk_flat (n_links n) u). unfold flat_parse. rewrite En, Ed, Eu. auto.
  - left. exists (n_links n), n. rewrite Ed. auto.
Qed.
Print Assumptions c33_other_blocks.

(** An example: a directory with two entries and one name used twice. *)
Definition cid_of (x : N) : cid := CidV0 (repeat x 32).
Definition mk_link (name : bytes) (c : cid) : pblink := mk_pblink (Some (cid_to_bytes c)) (Some name) (Some 5).
Definition dir_unixfs : unixfs := mk_unixfs TDirectory None None [] None None None None.
Definition hamt_unixfs : unixfs := mk_unixfs THAMTShard (Some [1]) None [] (Some 34) (Some 256) None None.
Definition ex_links : list pblink := [mk_link [97] (cid_of 1); mk_link [98] (cid_of 2); mk_link [98] (cid_of 3)].
Definition ex_dir : bytes := flat_write (mk_flat ex_links dir_unixfs).
Example c33_example : plain_dir ex_dir ex_links /\ resolve ex_dir [97] None = Ok (Found (cid_of 1), None) /\
  resolve ex_dir [99] None = Ok (NotFound, None) /\
  resolve ex_dir [98] None = Err (Lookup (Multiple 1 (cid_of 2) 2 (Some (cid_of 3)))).
Proof.
  split; [|repeat split; vm_compute; reflexivity].
  exists (mk_pbnode ex_links (Some (unixfs_write dir_unixfs))). split; [vm_compute; reflexivity|]. split; [reflexivity|].
  vm_compute. repeat split; auto.
Qed.

(** * C34 *)

(** Whatever is found is an entry of that name in some shard. *)
Theorem c34_found_is_entry get t block name ca fuel loads c : shard block (h_links t) -> stored get t -> ca = None \/ ca = Some [] ->
  (length (below t) <= fuel)%nat -> lookup_name get fuel block name ca = Some (loads, Ok (Some c)) ->
  exists links l, In links (shards t) /\ In l links /\ entry_named name l /\ link_cid l = Some c.
Proof.
  intros H1 H2 H3 H4 E. destruct (lookup_spec get t block name ca H1 H2 H3 fuel H4) as (lo & rest & o & E' & _ & Ho).
  rewrite E in E'. injection E' as <- <-. destruct Ho as (links & Hl & l & Hl' & He). exists links, l. tauto.
Qed.
Print Assumptions c34_found_is_entry.

(** If nothing is found there is no entry of that name in any shard. *)
Theorem c34_not_found_means_absent get t block name ca fuel loads : shard block (h_links t) -> stored get t -> ca = None \/ ca = Some [] ->
  (length (below t) <= fuel)%nat -> lookup_name get fuel block name ca = Some (loads, Ok None) ->
  forall links l, In links (shards t) -> In l links -> ~ entry_named name l.
Proof.
  intros H1 H2 H3 H4 E. destruct (lookup_spec get t block name ca H1 H2 H3 fuel H4) as (lo & rest & o & E' & _ & Ho).
  rewrite E in E'. injection E' as <- <-. exact Ho.
Qed.
Print Assumptions c34_not_found_means_absent.

(** In a directory of tidy shards: found exactly when there is an entry, with no error or panic. *)
Theorem c34_complete_partial get t block name ca fuel : shard block (h_links t) -> stored get t -> ca = None \/ ca = Some [] ->
  (length (below t) <= fuel)%nat -> (forall links, In links (shards t) -> tidy name links) ->
  exists loads r, lookup_name get fuel block name ca = Some (loads, Ok r) /\
    (r <> None <-> exists links l, In links (shards t) /\ In l links /\ entry_named name l).
Proof.
  intros H1 H2 H3 H4 Ht. destruct (lookup_spec get t block name ca H1 H2 H3 fuel H4) as (loads & rest & o & E & _ & Ho).
  destruct o as [[c|]|e|].
  - exists loads, (Some c). split; [exact E|]. split; [|discriminate]. intros _. destruct Ho as (links & Hl & l & Hl' & He & _). eauto.
  - exists loads, None. split; [exact E|]. split; [congruence|]. intros (links & l & Hl & Hl' & He). exfalso. eapply Ho; eassumption.
  - exfalso. destruct Ho as (links & Hl & Hn). auto.
  - exfalso. destruct Ho as (links & l & Hl & Hl' & Hu). destruct (Ht links Hl) as [H _]. exact (H l Hl' Hu).
Qed.
Print Assumptions c34_complete_partial.

(** Each shard is loaded at most once, when no two of them are the same block; in any case at most
    once per place where it occurs in the directory. *)
Theorem c34_loads get t block name ca fuel : shard block (h_links t) -> stored get t -> ca = None \/ ca = Some [] ->
  (length (below t) <= fuel)%nat ->
  exists loads rest o, lookup_name get fuel block name ca = Some (loads, o) /\ Permutation (loads ++ rest) (map fst (below t)).
Proof.
  intros H1 H2 H3 H4. destruct (lookup_spec get t block name ca H1 H2 H3 fuel H4) as (loads & rest & o & E & Hp & _). eauto.
Qed.
Print Assumptions c34_loads.
Theorem c34_loads_once_partial get t block name ca fuel loads o : shard block (h_links t) -> stored get t -> ca = None \/ ca = Some [] ->
  (length (below t) <= fuel)%nat -> NoDup (map fst (below t)) ->
  lookup_name get fuel block name ca = Some (loads, o) -> NoDup loads /\ incl loads (map fst (below t)).
Proof.
  intros H1 H2 H3 H4 Hnd E. destruct (lookup_spec get t block name ca H1 H2 H3 fuel H4) as (lo & rest & o' & E' & Hp & _).
  rewrite E in E'. injection E' as <- <-. split.
  - apply (Permutation_NoDup (Permutation_sym Hp)) in Hnd. clear - Hnd. induction loads as [|x l IH]; [constructor|]. inversion Hnd as [|? ? Hx Hl]; subst. constructor; [|auto].
    intros X. apply Hx. apply in_or_app. left. exact X.
  - intros x Hx. eapply Permutation_in; [exact Hp|]. apply in_or_app. left. exact Hx.
Qed.
Print Assumptions c34_loads_once_partial.

(** A panic comes from a name which cannot be cut after two bytes. *)
Theorem c34_panic_only_uncuttable get t block name ca fuel loads : shard block (h_links t) -> stored get t -> ca = None \/ ca = Some [] ->
  (length (below t) <= fuel)%nat -> lookup_name get fuel block name ca = Some (loads, Panic) ->
  exists links l, In links (shards t) /\ In l links /\ uncuttable l.
Proof.
  intros H1 H2 H3 H4 E. destruct (lookup_spec get t block name ca H1 H2 H3 fuel H4) as (lo & rest & o & E' & _ & Ho).
  rewrite E in E'. injection E' as <- <-. exact Ho.
Qed.
Print Assumptions c34_panic_only_uncuttable.

(** The same without assuming anything about the rest of the store: when an answer is given, what it
    says is true of all shards which can be reached from the first one. *)
Theorem c34_answers_true get fuel block links name ca loads o : shard block links -> ca = None \/ ca = Some [] ->
  lookup_name get fuel block name ca = Some (loads, o) ->
  match o with
  | Ok (Some c) => exists links' l, sub_shard get links links' /\ In l links' /\ entry_named name l /\ link_cid l = Some c
  | Ok None => forall links', sub_shard get links links' ->
      (forall l, In l links' -> ~ entry_named name l) /\
      (forall l, In l links' -> is_bucket l -> exists c b links'', link_cid l = Some c /\ get c = Some b /\ shard b links'')
  | Err _ => exists links', sub_shard get links links' /\
      (~ tidy name links' \/ exists l, In l links' /\ is_bucket l /\
         forall c b links'', link_cid l = Some c -> get c = Some b -> ~ shard b links'')
  | Panic => exists links' l, sub_shard get links links' /\ In l links' /\ uncuttable l
  end.
Proof. intros H1 H2 H3. apply (lookup_sound get fuel block links name ca loads o H1 H2 H3). Qed.
Print Assumptions c34_answers_true.

(** An example: the name is in the second of two sub shards. *)
Definition sub1 : hamt := Hamt [mk_link [65; 65; 120] (cid_of 7)] [].
Definition sub2 : hamt := Hamt [mk_link [66; 66; 121; 122] (cid_of 8)] [].
Definition ex_hamt : hamt := Hamt [mk_link [48; 48] (cid_of 1); mk_link [48; 49; 97] (cid_of 9); mk_link [48; 50] (cid_of 2)]
                                  [(cid_of 1, sub1); (cid_of 2, sub2)].
Definition shard_block (links : list pblink) : bytes := flat_write (mk_flat links hamt_unixfs).
Definition ex_get (c : cid) : option bytes :=
  match c with
  | CidV0 (1 :: _) => Some (shard_block (h_links sub1))
  | CidV0 (2 :: _) => Some (shard_block (h_links sub2))
  | _ => None
  end.
Lemma shard_block_ok links : flat_parse (shard_block links) = inl (mk_flat links hamt_unixfs) -> shard (shard_block links) links.
Proof. intros H. apply shard_parse. eexists. split; [exact H|]. repeat split. Qed.
Ltac solve_shard := apply shard_block_ok; vm_compute; reflexivity.
Example c34_example : shard (shard_block (h_links ex_hamt)) (h_links ex_hamt) /\ stored ex_get ex_hamt /\
  (forall links, In links (shards ex_hamt) -> tidy [121; 122] links) /\ NoDup (map fst (below ex_hamt)) /\
  lookup_name ex_get 2 (shard_block (h_links ex_hamt)) [121; 122] None = Some ([cid_of 1; cid_of 2], Ok (Some (cid_of 8))) /\
  lookup_name ex_get 2 (shard_block (h_links ex_hamt)) [97] None = Some ([], Ok (Some (cid_of 9))) /\
  lookup_name ex_get 2 (shard_block (h_links ex_hamt)) [98] None = Some ([cid_of 1; cid_of 2], Ok None).
Proof.
  split; [solve_shard|]. split.
  { cbn [stored ex_hamt sub1 sub2]. split; [vm_compute; reflexivity|]. split; [eexists; split; [reflexivity|solve_shard]|].
    split; [split; vm_compute; auto|]. split; [eexists; split; [reflexivity|solve_shard]|]. split; [split; vm_compute; auto|exact I]. }
  split.
  { intros links H.
    assert (Hcut : forall l, In l links -> ~ uncuttable l).
    { intros l Hl (x & y & c & rest & E & Hc). destruct H as [<-|[<-|[<-|[]]]]; cbn in Hl; repeat destruct Hl as [<-|Hl]; try contradiction; cbn in E; try discriminate E; injection E; intros; subst; lia. }
    split; [exact Hcut|]. split.
    - intros l Hl _. destruct H as [<-|[<-|[<-|[]]]]; cbn in Hl; repeat destruct Hl as [<-|Hl]; try contradiction; vm_compute; discriminate.
    - intros i j l l' Hi Hj (x & y & E & _) (x' & y' & E' & _).
      destruct H as [<-|[<-|[<-|[]]]]; cbn [h_links ex_hamt snd sub1 sub2] in *;
        repeat (destruct i as [|i]; cbn [nth_error] in Hi; [injection Hi as <-|]); try (destruct i; discriminate);
        repeat (destruct j as [|j]; cbn [nth_error] in Hj; [injection Hj as <-|]); try (destruct j; discriminate); try reflexivity;
        cbn in E, E'; congruence. }
  split; [repeat constructor; cbn; intuition discriminate|]. repeat split; vm_compute; reflexivity.
Qed.

(** False as stated.  A name cut inside a character panics. *)
Definition bad_hamt : hamt := Hamt [mk_link [65; 195; 169] (cid_of 1)] [].
Theorem c34_panic_refuted : shard (shard_block (h_links bad_hamt)) (h_links bad_hamt) /\ stored ex_get bad_hamt /\
  lookup_name ex_get 0 (shard_block (h_links bad_hamt)) [97] None = Some ([], Panic).
Proof. split; [solve_shard|]. split; [split; vm_compute; auto|vm_compute; reflexivity]. Qed.
Print Assumptions c34_panic_refuted.
(** The same shard behind two bucket links is loaded twice. *)
Definition twice_hamt : hamt := Hamt [mk_link [48; 48] (cid_of 1); mk_link [48; 49] (cid_of 1)] [(cid_of 1, sub1); (cid_of 1, sub1)].
Theorem c34_once_refuted : shard (shard_block (h_links twice_hamt)) (h_links twice_hamt) /\ stored ex_get twice_hamt /\
  lookup_name ex_get 2 (shard_block (h_links twice_hamt)) [97] None = Some ([cid_of 1; cid_of 1], Ok None).
Proof.
  split; [solve_shard|]. split; [|vm_compute; reflexivity]. cbn [stored twice_hamt sub1]. split; [vm_compute; reflexivity|].
  assert (exists b, ex_get (cid_of 1) = Some b /\ shard b (h_links sub1)) by (eexists; split; [reflexivity|solve_shard]).
  assert (stored ex_get sub1) by (split; vm_compute; auto). auto.
Qed.
Print Assumptions c34_once_refuted.
(** Two shards with the name: the first one met is returned, although two in one shard are an error. *)
Definition dup_hamt : hamt := Hamt [mk_link [48; 48] (cid_of 1); mk_link [48; 49; 120] (cid_of 9)] [(cid_of 1, sub1)].
Theorem c34_duplicates_unnoticed : shard (shard_block (h_links dup_hamt)) (h_links dup_hamt) /\ stored ex_get dup_hamt /\
  has_entry [120] (h_links dup_hamt) (cid_of 9) /\ has_entry [120] (h_links sub1) (cid_of 7) /\
  lookup_name ex_get 1 (shard_block (h_links dup_hamt)) [120] None = Some ([], Ok (Some (cid_of 9))).
Proof.
  split; [solve_shard|]. split.
  { cbn [stored dup_hamt sub1]. split; [vm_compute; reflexivity|]. split; [eexists; split; [reflexivity|solve_shard]|].
    split; [split; vm_compute; auto|exact I]. }
  split; [eexists; split; [right; left; reflexivity|]; split; [eexists _, _; split; [reflexivity|discriminate]|vm_compute; reflexivity]|].
  split; [eexists; split; [left; reflexivity|]; split; [eexists _, _; split; [reflexivity|discriminate]|vm_compute; reflexivity]|].
  vm_compute; reflexivity.
Qed.
Print Assumptions c34_duplicates_unnoticed.
(** A shard which (against its hash) reaches itself is searched for ever. *)
Definition loop_links : list pblink := [mk_link [48; 48] (cid_of 5)].
Definition loop_get (c : cid) : option bytes := Some (shard_block loop_links).
Theorem c34_cycle_diverges : forall fuel, lookup_name loop_get fuel (shard_block loop_links) [97] None = None.
Proof.
  intros fuel. unfold lookup_name.
  assert (E : resolve (shard_block loop_links) [97] None = Ok (NeedToLoadMore [cid_of 5], None)) by (vm_compute; reflexivity). rewrite E. clear E.
  assert (H : forall ca, walk_shards loop_get fuel [cid_of 5] [97] ca = None); [|rewrite H; reflexivity].
  induction fuel as [|n IH]; intros ca; [reflexivity|]. cbn [walk_shards]. unfold loop_get at 1.
  assert (E : forall ca, continue_walk [cid_of 5] [97] (shard_block loop_links) ca = Ok (NeedToLoadMore [cid_of 5], ca)) by (intros x; vm_compute; reflexivity).
  rewrite E. rewrite IH. reflexivity.
Qed.
Print Assumptions c34_cycle_diverges.
