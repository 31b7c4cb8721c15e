(** C30 and C31: following a path through documents. *)
From Verif Require Import Base Wire Cid BTree Ipld Cbor Codecs Pb DirLookup DirSpec DirLookupProofs PropsDir Resolve ResolveSpec ResolveProofs ResolveMore.
Local Open Scope N_scope.

Lemma clean0 : clean None.
Proof. left. reflexivity. Qed.

(** * C30 *)

(** What is returned is what following the path arrives at.  The path returned is the rest of the
    path inside the last document, but with [h] segments too many, [h] being the number of sharded
    directories crossed whose entry was not in the first shard. *)
Theorem c30_resolve_partial get decode fuel hfuel root p n rest :
  dag_resolve get decode fuel hfuel root p true = Some (Ok (n, rest)) ->
  exists h d q a b, leads get decode root p h d q /\ ends get decode d q n /\
    p = a ++ b ++ q /\ length b = h /\ rest = b ++ q.
Proof.
  unfold dag_resolve. destruct (resolve0 get decode fuel hfuel root p true 0 None) as [[[docs shs] o]|] eqn:E; [|discriminate].
  pose proof (resolve0_spec get decode _ _ _ _ _ _ _ _ _ _ clean0 E) as H. destruct o as [[n' k]|e|]; [| destruct e; cbn [with_path]; try discriminate; destruct (truncated _ _); discriminate |discriminate].
  destruct H as [(h & d & q & H1 & H2 & H3 & _)|(X & _)]; [|discriminate].
  assert (Hk : (k <=? length p)%nat = true) by (apply Nat.leb_le; lia). rewrite Hk. intros [= -> <-].
  destruct (leads_suffix get decode _ _ _ _ _ H1) as (a & -> & Ha). rewrite app_length in H3.
  exists h, d, q, (firstn k a), (skipn k a). split; [exact H1|]. split; [exact H2|].
  rewrite app_assoc, firstn_skipn. split; [reflexivity|]. split; [rewrite skipn_length; lia|]. rewrite skipn_app.
  replace (k - length a)%nat with 0%nat by lia. reflexivity.
Qed.
Print Assumptions c30_resolve_partial.

(** In particular, when no entry is in a shard other than the first, the path returned is exactly the
    part of the path which is inside the last document. *)
Theorem c30_remaining_path_partial get decode fuel hfuel root p n rest :
  (forall c b s d, directory get c b -> ~ dir_entry get b s true d) ->
  dag_resolve get decode fuel hfuel root p true = Some (Ok (n, rest)) ->
  exists d a, leads get decode root p 0 d rest /\ ends get decode d rest n /\ p = a ++ rest.
Proof.
  intros Hno H. apply c30_resolve_partial in H as (h & d & q & a & b & H1 & H2 & -> & H3 & ->).
  assert (h = 0%nat).
  { clear - Hno H1. induction H1 as [|c p deep d q h e r Hs _ IH]; [reflexivity|]. subst h. destruct deep; [|reflexivity].
    inversion Hs; subst. exfalso. eapply Hno; eassumption. }
  subst h. destruct b; [|discriminate]. exists d, a. auto.
Qed.
Print Assumptions c30_remaining_path_partial.

(** Without following links: the node in the first document, or the first link met, and the path
    after it. *)
Theorem c30_no_follow_partial get decode fuel hfuel root p n rest :
  dag_resolve get decode fuel hfuel root p false = Some (Ok (n, rest)) ->
  (ends get decode root p n /\ rest = p) \/
  (exists d, n = NLink root d /\ link_step get decode root p false d rest) \/
  (exists d s, n = NLink root d /\ link_step get decode root p true d (tl rest) /\ rest = s :: tl rest).
Proof.
  unfold dag_resolve. destruct (resolve0 get decode fuel hfuel root p false 0 None) as [[[docs shs] o]|] eqn:E; [|discriminate].
  pose proof (resolve0_spec get decode _ _ _ _ _ _ _ _ _ _ clean0 E) as H. destruct o as [[n' k]|e|]; [| destruct e; cbn [with_path]; try discriminate; destruct (truncated _ _); discriminate |discriminate].
  assert (Hk : (k <= length p)%nat) by (destruct H as [(h & d & q & H1 & H2 & H3 & _)|(_ & deep & d & q & _ & _ & H3)]; lia).
  apply Nat.leb_le in Hk. rewrite Hk. intros [= -> <-].
  destruct H as [(h & d & q & H1 & H2 & H3 & H4)|(_ & deep & d & q & H1 & -> & H3)].
  - destruct (H4 eq_refl) as (-> & -> & ->). assert (k = 0%nat) by lia. subst k. left. auto.
  - right. pose proof (step_suffix get decode _ _ _ _ _ H1) as (a & -> & Ha). rewrite app_length in H3. destruct deep.
    + right. inversion H1 as [c0 b s r deep d0 Hd He| |]; subst. destruct a as [|x a]; [cbn [length] in Ha; lia|]. injection H0 as -> E'.
      assert (length a = 0%nat) by (assert (length (a ++ q) = length q) by congruence; rewrite app_length in *; lia).
      destruct a; [|discriminate]. cbn [length] in H3. assert (k = 0%nat) by lia. subst k. cbn [app skipn tl] in *. exists d, x. auto.
    + left. exists d. split; [reflexivity|]. rewrite skipn_app. assert (k = length a) by lia. subst k. rewrite skipn_all, Nat.sub_diag. exact H1.
Qed.
Print Assumptions c30_no_follow_partial.

(** What an error says is true.  The path it names ends with the segment which could not be followed
    (again [h] segments short after [h] sharded directories). *)
Definition failed_at get decode (root : cid) (p : list seg) (d : cid) (named : list seg) (t : trouble) : Prop :=
  exists h a s r, leads get decode root p h d (a ++ s :: r) /\ fails get decode d a s t /\
    (exists z, p = named ++ z /\ length z = (length r + h)%nat).
Theorem c30_error_partial get decode fuel hfuel root p follow e :
  dag_resolve get decode fuel hfuel root p follow = Some (Err e) ->
  match e with
  | ELoading d => exists h q, leads get decode root p h d q /\ get d = None
  | EUnsupported d => exists h s r, leads get decode root p h d (s :: r) /\ (unsupported get decode d s \/ absent_in_shards get d s)
  | EListIndex d named i n => failed_at get decode root p d named (OutOfRange i n)
  | ENoLinks d named => failed_at get decode root p d named Leaf
  | ENotFound d named => failed_at get decode root p d named Missing
  end.
Proof.
  unfold dag_resolve. destruct (resolve0 get decode fuel hfuel root p follow 0 None) as [[[docs shs] o]|] eqn:E; [|discriminate].
  pose proof (resolve0_spec get decode _ _ _ _ _ _ _ _ _ _ clean0 E) as H. destruct o as [[n k]|e'|]; [destruct (k <=? length p)%nat; discriminate| |discriminate].
  intros [= Hw]. destruct H as (h & d & q & H1 & _ & H2).
  assert (G : forall t i, (exists a s r, q = a ++ s :: r /\ fails get decode d a s t /\ (i + h + length (s :: r) = 0 + length p)%nat) ->
     exists x, truncated p (i + 1) = Some x /\ failed_at get decode root p d x t).
  { intros t i (a & s & r & -> & Hf & Hlen). cbn [length] in Hlen. unfold truncated. assert ((i + 1 <=? length p)%nat = true) as -> by (apply Nat.leb_le; lia).
    eexists. split; [reflexivity|]. exists h, a, s, r. split; [exact H1|]. split; [exact Hf|]. exists (skipn (i + 1) p). split; [symmetry; apply firstn_skipn|]. rewrite skipn_length. lia. }
  destruct e' as [x|x|x i j n|x i|x i|x i]; cbn [with_path] in Hw.
  - injection Hw as <-. destruct H2 as [-> H2]. eauto.
  - injection Hw as <-. destruct H2 as (-> & s & r & -> & H2). eauto.
  - destruct H2 as [-> H2]. destruct (G _ _ H2) as (y & Ey & Hy). rewrite Ey in Hw. injection Hw as <-. exact Hy.
  - destruct H2 as [-> H2]. destruct (G _ _ H2) as (y & Ey & Hy). rewrite Ey in Hw. injection Hw as <-. exact Hy.
  - destruct H2 as [-> H2]. destruct (G _ _ H2) as (y & Ey & Hy). rewrite Ey in Hw. injection Hw as <-. exact Hy.
  - destruct H2 as [-> H2]. destruct (G _ _ H2) as (y & Ey & Hy). rewrite Ey in Hw. injection Hw as <-. exact Hy.
Qed.
Print Assumptions c30_error_partial.

(** The only panics: decoding, a shard with a name which cannot be cut, and "Data" of a node whose
    data is empty.  In particular the assertions on lengths hold. *)
Theorem c30_panic_partial get decode fuel hfuel root p follow :
  dag_resolve get decode fuel hfuel root p follow = Some Panic ->
  exists h d q, leads get decode root p h d q /\ panics get decode d q.
Proof.
  unfold dag_resolve. destruct (resolve0 get decode fuel hfuel root p follow 0 None) as [[[docs shs] o]|] eqn:E; [|discriminate].
  pose proof (resolve0_spec get decode _ _ _ _ _ _ _ _ _ _ clean0 E) as H. destruct o as [[n k]|e|]; [| |intros _; exact H].
  - intros X. exfalso. destruct (k <=? length p)%nat eqn:Ek; [discriminate|]. apply Nat.leb_gt in Ek.
    destruct H as [(h & d & q & H1 & H2 & H3 & _)|(_ & deep & d & q & _ & _ & H3)]; lia.
  - intros [= X]. exfalso. destruct H as (h & d & q & H1 & _ & H2). unfold truncated in X.
    assert (G : forall i, (exists y : trouble, exists a s r, q = a ++ s :: r /\ fails get decode d a s y /\ (i + h + length (s :: r) = 0 + length p)%nat) -> (i + 1 <=? length p)%nat = true).
    { intros i (y & a & s & r & _ & _ & Hl). cbn [length] in Hl. apply Nat.leb_le. lia. }
    destruct e as [x|x|x i j n|x i|x i|x i]; cbn [with_path] in X; unfold truncated in X; try discriminate;
      destruct H2 as [_ H2]; rewrite (G i (ex_intro _ _ H2)) in X; discriminate.
Qed.
Print Assumptions c30_panic_partial.

(** Conversely whatever following the path arrives at is returned, when sharded directories are
    complete and without duplicates, and the walk has [hfuel] loads for each of them. *)
Theorem c30_complete_partial get decode hfuel root p h d q n :
  sound_dirs get hfuel -> leads get decode root p h d q -> ends get decode d q n -> ~ empty_data get n ->
  exists fuel0, forall fuel, (fuel0 <= fuel)%nat ->
    dag_resolve get decode fuel hfuel root p true = Some (Ok (n, skipn (length p - length q - h) p)).
Proof.
  intros Hsd Hl He Hnp. destruct (leads_complete get decode hfuel root p h d q Hsd Hl None clean0) as (k & docs & shs & ca' & m & Hca & Hm & E).
  exists (k + 1)%nat. intros fuel Hf. unfold dag_resolve. replace fuel with (k + S (fuel - k - 1))%nat by lia.
  rewrite E, (ends_complete get decode hfuel d q n ca' Hsd He Hnp Hca). cbn [option_map Nat.add].
  assert ((m <=? length p)%nat = true) as -> by (apply Nat.leb_le; lia). replace (length p - length q - h)%nat with m by lia. reflexivity.
Qed.
Print Assumptions c30_complete_partial.

(** And when a segment cannot be followed, the error says so. *)
Theorem c30_error_complete_partial get decode hfuel root p h d a s r t :
  sound_dirs get hfuel -> leads get decode root p h d (a ++ s :: r) -> fails get decode d a s t ->
  (cid_codec d = codec_dagpb -> s = data_seg -> r <> [] \/ file get d) ->
  exists fuel0, forall fuel, (fuel0 <= fuel)%nat ->
    dag_resolve get decode fuel hfuel root p true =
      Some (Err (let named := firstn (length p - length r - h) p in
                 match t with
                 | Missing => ENotFound d named
                 | OutOfRange i n => EListIndex d named i n
                 | Leaf => ENoLinks d named
                 end)).
Proof.
  intros Hsd Hl Hf Hdata. destruct (leads_complete get decode hfuel root p h d _ Hsd Hl None clean0) as (k & docs & shs & ca' & m & Hca & Hm & E).
  destruct (fails_complete get decode hfuel d a s t r ca' Hsd Hf Hca Hdata) as (bi & Ef). exists (k + 1)%nat. intros fuel Hfu. unfold dag_resolve.
  replace fuel with (k + S (fuel - k - 1))%nat by lia. rewrite E, Ef. cbn [option_map Nat.add]. rewrite app_length in Hm. cbn [length] in Hm.
  assert (HT : truncated p (m + length a + 1) = Some (firstn (length p - length r - h) p)).
  { unfold truncated. assert ((m + length a + 1 <=? length p)%nat = true) as -> by (apply Nat.leb_le; lia). do 2 f_equal. lia. }
  destruct t; cbn [raw_of with_path]; [destruct bi; cbn [with_path]| |]; rewrite HT; reflexivity.
Qed.
Print Assumptions c30_error_complete_partial.

(** There is one answer, however much may be loaded. *)
Theorem c30_one_answer get decode root p follow f1 h1 f2 h2 o1 o2 :
  dag_resolve get decode f1 h1 root p follow = Some o1 -> dag_resolve get decode f2 h2 root p follow = Some o2 -> o1 = o2.
Proof.
  unfold dag_resolve. intros H1 H2.
  destruct (resolve0 get decode f1 h1 root p follow 0 None) as [r1|] eqn:E1; [|discriminate].
  destruct (resolve0 get decode f2 h2 root p follow 0 None) as [r2|] eqn:E2; [|discriminate].
  apply (resolve0_more get decode f1 (f1 + f2) h1 (h1 + h2)) in E1; [|lia|lia]. apply (resolve0_more get decode f2 (f1 + f2) h2 (h1 + h2)) in E2; [|lia|lia].
  assert (r1 = r2) by congruence. subst r2. congruence.
Qed.
Print Assumptions c30_one_answer.

(** [get] returns the value found, the decoded block, or the data of the node. *)
Theorem c30_get get decode fuel hfuel root p v :
  dag_get get decode fuel hfuel root p = Some (Ok v) ->
  exists h d q, leads get decode root p h d q /\
    ((exists b, q = [] /\ get d = Some b /\ decode d b = Ok v) \/
     (exists w, document get decode d w /\ q <> [] /\ at_path w q v /\ (forall e, v <> Link e)) \/
     (exists b n, q = [data_seg] /\ directory get d b /\ no_entry get d data_seg /\ pbnode_read b = Some n /\
        v = IBytes (match n_data n with Some x => x | None => [] end))).
Proof.
  unfold dag_get. destruct (resolve0 get decode fuel hfuel root p true 0 None) as [[[docs shs] o]|] eqn:E; [|discriminate].
  pose proof (resolve0_spec get decode _ _ _ _ _ _ _ _ _ _ clean0 E) as H. destruct o as [[n k]|e|]; [| destruct e; cbn [with_path]; try discriminate; destruct (truncated _ _); discriminate |discriminate].
  intros [= Hv]. destruct H as [(h & d & q & H1 & H2 & _)|(X & _)]; [|discriminate]. exists h, d, q. split; [exact H1|].
  inversion H2 as [c0 b Hg|c0 w q0 v' Hdoc Hq Hat Hl|c0 b nd Hd Hno Hr]; subst; cbn [node_ipld] in Hv.
  - left. exists b. destruct (decode d b) as [w|e|]; try discriminate. injection Hv as ->. auto.
  - right. left. injection Hv as ->. exists w. auto.
  - right. right. injection Hv as <-. exists b, nd. repeat split; auto; apply Hd.
Qed.
Print Assumptions c30_get.

(** The value of a block depends on the format its cid names; a raw block is its bytes. *)
Theorem c30_formats cbor json c data v :
  decode_ipld cbor json c data = Ok v ->
  (cid_codec c = codec_dagcbor /\ cbor data = Ok v) \/
  (cid_codec c = codec_dagpb /\ dagpb_decode data = Ok v) \/
  (cid_codec c = codec_dagjson /\ json data = Some v) \/
  (cid_codec c = codec_raw /\ v = IBytes data).
Proof.
  unfold decode_ipld. destruct (N.eqb_spec (cid_codec c) codec_dagcbor); [auto|]. destruct (N.eqb_spec (cid_codec c) codec_dagpb).
  { destruct (dagpb_decode data); try discriminate. intros H. injection H as ->. auto. }
  destruct (N.eqb_spec (cid_codec c) codec_dagjson). { destruct (json data); try discriminate. intros H. injection H as ->. auto 6. }
  destruct (N.eqb_spec (cid_codec c) codec_raw); [|discriminate]. intros H. injection H as <-. auto 6.
Qed.
Print Assumptions c30_formats.
(** A node is converted to: the decoded block, the data, the value found, the link's destination. *)
Theorem c30_node_value get decode fuel hfuel root p n rest v :
  dag_resolve get decode fuel hfuel root p false = Some (Ok (n, rest)) -> node_ipld decode n = Ok v ->
  (forall src d, n = NLink src d -> v = Link d /\ src = root) /\ (forall src b, n = NDagPbData src b -> v = IBytes b) /\
  (forall src x, n = NProjection src x -> v = x) /\ (forall c b, n = NBlock c b -> get c = Some b /\ decode c b = Ok v).
Proof.
  intros H Hv. assert (X := c30_no_follow_partial _ _ _ _ _ _ _ _ H). repeat split; intros; subst; cbn [node_ipld] in Hv; try congruence.
  - destruct X as [[X _]|[(d' & E & _)|(d' & s & E & _)]]; [inversion X|congruence..].
  - destruct X as [[X _]|[(d' & E & _)|(d' & s & E & _)]]; [inversion X; subst; assumption|discriminate..].
  - destruct (decode c b); congruence.
Qed.
Print Assumptions c30_node_value.

(** ** A store: a dag-cbor document, a directory, a sharded directory of two shards. *)
Definition cbor_of (x : N) : cid := CidV1 codec_dagcbor {| mh_code := sha2_256; mh_digest := repeat x 32 |}.
Definition raw_of_n (x : N) : cid := CidV1 codec_raw {| mh_code := sha2_256; mh_digest := repeat x 32 |}.
Definition real_decode : cid -> bytes -> outcome ipld unit :=
  decode_ipld (fun b => match cbor_decode 72 64 b with Ok v => Ok v | Err _ => Err tt | Panic => Panic end) (fun _ => None).
Definition cbor_block (v : ipld) : bytes := match cbor_encode v with Ok b => b | _ => [] end.
(* {"a": [7, link to the directory]} *)
Definition demo_doc : ipld := IMap [([97], IList [Integer 7; Link (cid_of 10)])].
(* "b" is the sharded directory, "d" a node without data, "e" one with empty data *)
Definition demo_dir : list pblink := [mk_link [98] (cid_of 20); mk_link [100] (cid_of 30); mk_link [101] (cid_of 40)].
Definition demo_shard : list pblink := [mk_link [48; 48] (cid_of 21); mk_link [48; 49; 121] (cid_of 10)].
Definition demo_sub : list pblink := [mk_link [65; 65; 120] (cid_of 10)].
Definition demo_dir_block : bytes := flat_write (mk_flat demo_dir dir_unixfs).
Definition demo_get (c : cid) : option bytes :=
  match c with
  | CidV1 113 {| mh_digest := 1 :: _ |} => Some (cbor_block demo_doc)
  | CidV0 (10 :: _) => Some demo_dir_block
  | CidV0 (20 :: _) => Some (shard_block demo_shard)
  | CidV0 (21 :: _) => Some (shard_block demo_sub)
  | CidV0 (30 :: _) => Some (pbnode_write (mk_pbnode [] None))
  | CidV0 (40 :: _) => Some (pbnode_write (mk_pbnode [] (Some [])))
  | _ => None
  end.
Definition demo_resolve p follow := dag_resolve demo_get real_decode 9 9 (cbor_of 1) p follow.
Definition one : seg := [49].

Lemma demo_leads_dir p : p <> [] -> not_dot p -> link_step demo_get real_decode (cbor_of 1) ([97] :: one :: p) false (cid_of 10) p.
Proof.
  intros Hp Hd. apply (step_doc demo_get real_decode (cbor_of 1) demo_doc [[97]; one] p (cid_of 10)).
  - split; [discriminate|]. exists (cbor_block demo_doc). split; [reflexivity|]. vm_compute. reflexivity.
  - eapply at_key; [reflexivity|]. eapply (at_index _ one 1); [|reflexivity|constructor].
    exists [49]. split; [left; reflexivity|]. split; [discriminate|]. split; [repeat constructor; discriminate|]. split; reflexivity.
  - discriminate.
  - exact Hd.
Qed.
Lemma demo_plain : plain_dir demo_dir_block demo_dir.
Proof.
  exists (mk_pbnode demo_dir (Some (unixfs_write dir_unixfs))). split; [vm_compute; reflexivity|]. split; [reflexivity|]. vm_compute. repeat split; auto.
Qed.
Lemma demo_is_dir x b : demo_get (cid_of x) = Some b -> directory demo_get (cid_of x) b.
Proof. intros H. split; [reflexivity|exact H]. Qed.
Lemma demo_step_b p : link_step demo_get real_decode (cid_of 10) ([98] :: p) false (cid_of 20) p.
Proof.
  apply (step_dir _ _ _ demo_dir_block); [apply demo_is_dir; reflexivity|]. apply (in_plain _ _ _ demo_dir 0 (mk_link [98] (cid_of 20))); [exact demo_plain| |vm_compute; reflexivity].
  split; [reflexivity|]. split; [reflexivity|]. intros j l' Hj E. destruct j as [|[|[|j]]]; [reflexivity| | |destruct j; discriminate]; cbn in Hj; injection Hj as <-; discriminate.
Qed.
Lemma demo_step_x p : link_step demo_get real_decode (cid_of 20) ([120] :: p) true (cid_of 10) p.
Proof.
  apply (step_dir _ _ _ (shard_block demo_shard)); [apply demo_is_dir; reflexivity|]. apply (in_sub_shard _ _ _ demo_shard demo_sub (mk_link [65; 65; 120] (cid_of 10))); [solve_shard| | |left; reflexivity|exists 65, 65; split; [reflexivity|discriminate]|vm_compute; reflexivity].
  - intros l [<-|[<-|[]]] (x & y & E & _); discriminate E.
  - apply (ss_step demo_get demo_shard demo_shard (mk_link [48; 48] (cid_of 21)) (cid_of 21) (shard_block demo_sub)); [constructor|left; reflexivity|reflexivity|vm_compute; reflexivity|reflexivity|solve_shard].
Qed.

(** Through the document, the directory and the second shard, with the answers. *)
Example c30_example :
  leads demo_get real_decode (cbor_of 1) [[97]; one; [98]; [121]; [100]] 0 (cid_of 30) [] /\
  demo_resolve [[97]; one; [98]; [121]; [100]] true = Some (Ok (NBlock (cid_of 30) (pbnode_write (mk_pbnode [] None)), [])) /\
  demo_resolve [[97]; [48]] true = Some (Ok (NProjection (cbor_of 1) (Integer 7), [[97]; [48]])) /\
  demo_resolve [[97]; one; [98]; [121]] false = Some (Ok (NLink (cbor_of 1) (cid_of 10), [[98]; [121]])) /\
  demo_resolve [[97]; [53]; [98]] true = Some (Err (EListIndex (cbor_of 1) [[97]; [53]] 5 2)) /\
  demo_resolve [[97]; one; [99]; [98]] true = Some (Err (ENotFound (cid_of 10) [[97]; one; [99]])) /\
  demo_resolve [[97]; one; [100]; data_seg] true = Some (Ok (NDagPbData (cid_of 30) [], [data_seg])).
Proof.
  split; [|repeat split; vm_compute; reflexivity].
  apply (leads_step demo_get real_decode _ _ false (cid_of 10) [[98]; [121]; [100]]); [apply demo_leads_dir; [discriminate|intros r; discriminate]|].
  apply (leads_step demo_get real_decode _ _ false (cid_of 20) [[121]; [100]]); [apply demo_step_b|].
  apply (leads_step demo_get real_decode _ _ false (cid_of 10) [[100]]).
  - apply (step_dir _ _ _ (shard_block demo_shard)); [apply demo_is_dir; reflexivity|]. apply (in_root_shard _ _ _ demo_shard (mk_link [48; 49; 121] (cid_of 10))); [solve_shard|right; left; reflexivity|exists 48, 49; split; [reflexivity|discriminate]|vm_compute; reflexivity].
  - apply (leads_step demo_get real_decode _ _ false (cid_of 30) []); [|constructor].
    apply (step_dir _ _ _ demo_dir_block); [apply demo_is_dir; reflexivity|]. apply (in_plain _ _ _ demo_dir 1 (mk_link [100] (cid_of 30))); [exact demo_plain| |vm_compute; reflexivity].
    split; [reflexivity|]. split; [reflexivity|]. intros j l' Hj E. destruct j as [|[|[|j]]]; [|reflexivity| |destruct j; discriminate]; cbn in Hj; injection Hj as <-; discriminate.
Qed.

(** The store meets the hypotheses of the completeness theorems. *)
Lemma demo_shards c b links : directory demo_get c b -> shard b links -> links = demo_shard \/ links = demo_sub.
Proof.
  intros [Hcd Hg] Hs. destruct c as [d|k m]; [|cbn [cid_codec] in Hcd; subst k; unfold demo_get in Hg; cbn in Hg; discriminate].
  assert (Hn : forall b', b = b' -> match flat_parse b' with inl f => match u_type (f_data f) with THAMTShard => false | _ => true end | _ => true end = true -> False).
  { intros b' -> H. apply shard_parse in Hs as (f & E & _ & E' & _). rewrite E, E' in H. discriminate. }
  assert (Hcases : b = demo_dir_block \/ b = shard_block demo_shard \/ b = shard_block demo_sub \/
     b = pbnode_write (mk_pbnode [] None) \/ b = pbnode_write (mk_pbnode [] (Some []))).
  { clear - Hg. unfold demo_get in Hg. destruct d as [|x d]; [discriminate|].
    do 6 (try (destruct x as [|x]; try discriminate Hg)); repeat (destruct x as [x|x|]; try discriminate Hg); injection Hg as <-; auto. }
  destruct Hcases as [E|[E|[E|[E|E]]]].
  - exfalso. apply (Hn _ E). vm_compute. reflexivity.
  - left. subst b. eapply shard_unique; [exact Hs|solve_shard].
  - right. subst b. eapply shard_unique; [exact Hs|solve_shard].
  - exfalso. apply (Hn _ E). vm_compute. reflexivity.
  - exfalso. apply (Hn _ E). vm_compute. reflexivity.
Qed.
Example c30_sound_dirs_example : sound_dirs demo_get 1.
Proof.
  assert (Hsub : exists b, demo_get (cid_of 21) = Some b /\ shard b demo_sub) by (exists (shard_block demo_sub); split; [reflexivity|solve_shard]).
  assert (Hts : forall s, tidy s demo_sub).
  { intros s. split; [|split].
    - intros l [<-|[]] (x & y & c & r & E & Hc). injection E as _ _ <- _. lia.
    - intros l [<-|[]] _. vm_compute. discriminate.
    - intros [|i] [|j] l l' H1 H2; try reflexivity; try (destruct i; discriminate); destruct j; discriminate. }
  assert (Htr : forall s, tidy s demo_shard).
  { intros s. split; [|split].
    - intros l [<-|[<-|[]]] (x & y & c & r & E & Hc); [discriminate E|]. injection E as _ _ <- _. lia.
    - intros l [<-|[<-|[]]] _; vm_compute; discriminate.
    - intros i j l l' H1 H2 (x & y & E & Hne) (x' & y' & E' & _).
      destruct i as [|[|i]]; [injection H1 as <-; injection E as _ _ <-; congruence| |destruct i; discriminate].
      destruct j as [|[|j]]; [injection H2 as <-; injection E' as _ _ <-; congruence|reflexivity|destruct j; discriminate]. }
  assert (Hnb : forall s l, In l [mk_link [48; 48] (cid_of 21)] -> ~ entry_named s l) by (intros s l [<-|[]] (x & y & E & Hne); injection E as _ _ <-; congruence).
  intros c b links Hd Hs. destruct (demo_shards c b links Hd Hs) as [->| ->].
  - exists (Hamt demo_shard [(cid_of 21, Hamt demo_sub [])]). split; [reflexivity|]. split; [|split; [cbn; lia|split]].
    + cbn [stored h_links]. split; [vm_compute; reflexivity|]. split; [exact Hsub|]. split; [split; [vm_compute; reflexivity|exact I]|exact I].
    + intros s x [<-|[<-|[]]]; [apply Htr|apply Hts].
    + intros s x y l l' [<-|[<-|[]]] [<-|[<-|[]]] Hl Hl' (a & a' & E & Hne) (a2 & a2' & E' & _); cbn in Hl, Hl';
        repeat destruct Hl as [<-|Hl]; repeat destruct Hl' as [<-|Hl']; try contradiction; cbn in E, E'; try reflexivity; exfalso; congruence.
  - exists (Hamt demo_sub []). split; [reflexivity|]. split; [split; [vm_compute; reflexivity|exact I]|]. split; [cbn; lia|]. split.
    + intros s x [<-|[]]. apply Hts.
    + intros s x y l l' [<-|[]] [<-|[]] [<-|[]] [<-|[]] _ _. reflexivity.
Qed.

(** As stated it is false.  Through a sharded directory of several shards the path which is returned
    still has the segment which was followed... *)
Theorem c30_remaining_path_refuted :
  leads demo_get real_decode (cbor_of 1) [[97]; one; [98]; [120]; [100]] 1 (cid_of 30) [] /\
  demo_resolve [[97]; one; [98]; [120]; [100]] true = Some (Ok (NBlock (cid_of 30) (pbnode_write (mk_pbnode [] None)), [[100]])).
Proof.
  split; [|vm_compute; reflexivity].
  apply (leads_step demo_get real_decode _ _ false (cid_of 10) [[98]; [120]; [100]]); [apply demo_leads_dir; [discriminate|intros r; discriminate]|].
  apply (leads_step demo_get real_decode _ _ false (cid_of 20) [[120]; [100]]); [apply demo_step_b|].
  apply (leads_step demo_get real_decode _ _ true (cid_of 10) [[100]]); [apply demo_step_x|].
  apply (leads_step demo_get real_decode _ _ false (cid_of 30) []); [|constructor].
  apply (step_dir _ _ _ demo_dir_block); [apply demo_is_dir; reflexivity|]. apply (in_plain _ _ _ demo_dir 1 (mk_link [100] (cid_of 30))); [exact demo_plain| |vm_compute; reflexivity].
  split; [reflexivity|]. split; [reflexivity|]. intros j l' Hj E. destruct j as [|[|[|j]]]; [|reflexivity| |destruct j; discriminate]; cbn in Hj; injection Hj as <-; discriminate.
Qed.
Print Assumptions c30_remaining_path_refuted.
(** ... an error names a shorter path than the one which failed: a/1/b/x was followed, the missing
    name is "zz", the path named ends before it ... *)
Theorem c30_error_path_refuted :
  demo_resolve [[97]; one; [98]; [120]; [122; 122]] true = Some (Err (ENotFound (cid_of 10) [[97]; one; [98]; [120]])).
Proof. vm_compute. reflexivity. Qed.
Print Assumptions c30_error_path_refuted.
(** ... and a name which is in none of several shards is not reported as missing but as an
    unsupported document, unlike one which is not in a single shard or plain directory. *)
Theorem c30_missing_in_shards_refuted :
  demo_resolve [[97]; one; [98]; [122; 122]] true = Some (Err (EUnsupported (cid_of 20))) /\
  demo_resolve [[97]; one; [122; 122]] true = Some (Err (ENotFound (cid_of 10) [[97]; one; [122; 122]])).
Proof. split; vm_compute; reflexivity. Qed.
Print Assumptions c30_missing_in_shards_refuted.
(** The data of a node which has an empty data field at its end: a panic. *)
Theorem c30_panic_refuted : demo_resolve [[97]; one; [101]; data_seg] true = Some Panic.
Proof. vm_compute. reflexivity. Qed.
Print Assumptions c30_panic_refuted.

(** * C31 *)

Lemma list_sum_cons x l : list_sum (x :: l) = (x + list_sum l)%nat.
Proof. reflexivity. Qed.
Lemma buckets_weight w links cs : map link_cid (buckets links) = map Some cs -> list_sum (map (bucket_weight w) links) = list_sum (map w cs).
Proof.
  revert cs. induction links as [|l r IH]; intros cs E; [destruct cs; [reflexivity|discriminate]|]. unfold buckets in *. cbn [filter map] in *. rewrite list_sum_cons.
  unfold bucket_weight at 1. destruct (link_name l) as [|x [|y [|z t]]]; cbn [length Nat.eqb] in E; try (rewrite (IH cs E); reflexivity).
  cbn [map] in E. destruct cs as [|c cs]; [discriminate|]. cbn [map] in E. injection E as E1 E2. rewrite E1, (IH cs E2). cbn [map]. rewrite list_sum_cons. reflexivity.
Qed.
Lemma finite_walk get w hfuel : finite_dirs get w hfuel ->
  forall fuel q s ca, (list_sum (map w q) <= fuel)%nat -> walk_shards get fuel q s ca <> None.
Proof.
  intros [Hw Hstep]. induction fuel as [|fuel IH]; intros q s ca Hq H; (destruct q as [|x q]; [discriminate|]); cbn [map] in Hq; rewrite list_sum_cons in Hq; pose proof (Hw x) as Hx; [lia|].
  cbn [walk_shards] in H. destruct (get x) as [b|] eqn:Eg; [|discriminate]. unfold continue_walk in H.
  destruct (flat_parse b) as [f|pf] eqn:Ef; [|destruct pf; discriminate]. destruct (u_type (f_data f)) eqn:Et; try discriminate.
  destruct (check_supported (f_data f)) eqn:Ec; [|discriminate].
  assert (Hs : shard b (f_links f)) by (apply shard_parse; exists f; auto). specialize (Hstep _ _ _ Eg Hs).
  destruct (partition 0 (f_links f) s None q) as [[r work]|e|] eqn:Ep; cbn [after_partition] in H; try discriminate.
  destruct (partition_buckets _ _ _ _ _ _ _ Ep) as [cs Hcs]. pose proof (partition_spec s (f_links f) 0 None q cs Hcs) as HP. rewrite Ep in HP. destruct HP as (-> & _).
  rewrite (buckets_weight w _ _ Hcs) in Hstep. destruct r as [c|]; [discriminate|]. destruct (q ++ cs) as [|y ys] eqn:Eq; [discriminate|].
  destruct (walk_shards get fuel (y :: ys) s ca) as [[t o]|] eqn:Ew; [discriminate|]. apply IH in Ew; [exact Ew|]. rewrite <- Eq, map_app, list_sum_app. lia.
Qed.
Lemma finite_walks get w hfuel : finite_dirs get w hfuel ->
  forall c b s q ca ca', clean ca -> directory get c b -> (exists links, shard b links) -> resolve b s ca = Ok (NeedToLoadMore q, ca') -> walk_shards get hfuel q s ca' <> None.
Proof.
  intros Hf c b s q ca ca' Hca [_ Hg] [links Hs] Er. apply (finite_walk get w hfuel Hf). destruct Hf as [Hw Hstep]. specialize (Hstep _ _ _ Hg Hs). specialize (Hw c).
  apply shard_parse in Hs as (f & Hp & Hl & Ht & Hc). unfold resolve in Er. rewrite Hp, Ht in Er. unfold lookup_or_start in Er. rewrite Hc, Hl in Er.
  assert (Hnil : match ca with Some l => l | None => [] end = []) by (destruct Hca as [->| ->]; reflexivity). rewrite Hnil in Er.
  destruct (partition 0 links s None []) as [[r work]|e|] eqn:Ep; cbn [after_partition] in Er; try discriminate.
  destruct (partition_buckets _ _ _ _ _ _ _ Ep) as [cs Hcs]. pose proof (partition_spec s links 0 None [] cs Hcs) as HP. rewrite Ep in HP. destruct HP as (-> & _).
  rewrite (buckets_weight w _ _ Hcs) in Hstep. destruct r as [d|]; [discriminate|]. cbn [app] in Er. destruct cs as [|y ys]; [discriminate|].
  injection Er as <- _. lia.
Qed.

(** When documents which are nothing but a link are followed at most [R] in a row, resolving loads at
    most [R + 1] documents for each segment and [R + 1] more, and ends. *)
Theorem c31_ends_partial get decode (rank w : cid -> nat) (R hfuel : nat) root p follow :
  (forall c, (rank c <= R)%nat) -> (forall c d, document get decode c (Link d) -> (rank d < rank c)%nat) -> finite_dirs get w hfuel ->
  exists docs shs o, forall fuel, ((length p + 1) * (R + 1) <= fuel)%nat ->
    resolve0 get decode fuel hfuel root p follow 0 None = Some (docs, shs, o) /\ (length docs <= (length p + 1) * (R + 1))%nat.
Proof.
  intros HR Hrank Hf. pose proof (HR root) as Hr.
  destruct (resolve0_ends get decode rank R HR Hrank ((length p + 1) * (R + 1)) hfuel root p follow 0 None clean0 ltac:(nia) (finite_walks get w hfuel Hf)) as (docs & shs & o & E & Hl).
  exists docs, shs, o. intros fuel Hfuel. split; [|nia]. eapply resolve0_more; [exact Hfuel|apply Nat.le_refl|exact E].
Qed.
Print Assumptions c31_ends_partial.

(** In particular without such documents: one document for each segment, and the last. *)
Theorem c31_one_per_segment_partial get decode (w : cid -> nat) (hfuel : nat) root p follow :
  (forall c d, ~ document get decode c (Link d)) -> finite_dirs get w hfuel ->
  exists docs shs o, forall fuel, (length p + 1 <= fuel)%nat ->
    resolve0 get decode fuel hfuel root p follow 0 None = Some (docs, shs, o) /\ (length docs <= length p + 1)%nat.
Proof.
  intros Hno Hf. destruct (c31_ends_partial get decode (fun _ => 0%nat) w 0 hfuel root p follow (fun _ => Nat.le_refl 0) (fun c d H => False_ind _ (Hno c d H)) Hf) as (docs & shs & o & H).
  exists docs, shs, o. intros fuel Hfuel. destruct (H fuel ltac:(lia)) as [H1 H2]. split; [exact H1|]. lia.
Qed.
Print Assumptions c31_one_per_segment_partial.

(** Any number of shards of one directory may be loaded, but each only as often as it is linked: see
    [c34_loads]. *)

(** A document which is nothing but a link costs a load and no segment: here one segment, three
    documents and the one which is resolved in. *)
Definition chain_get (c : cid) : option bytes :=
  match c with
  | CidV1 113 {| mh_digest := 1 :: _ |} => Some (cbor_block (Link (cbor_of 2)))
  | CidV1 113 {| mh_digest := 2 :: _ |} => Some (cbor_block (Link (cbor_of 3)))
  | CidV1 113 {| mh_digest := 3 :: _ |} => Some (cbor_block (Link (cbor_of 4)))
  | CidV1 113 {| mh_digest := 4 :: _ |} => Some (cbor_block (IMap [([97], Integer 5)]))
  | _ => None
  end.
Theorem c31_one_per_segment_refuted :
  resolve0 chain_get real_decode 9 9 (cbor_of 1) [[97]] true 0 None =
    Some ([cbor_of 1; cbor_of 2; cbor_of 3; cbor_of 4], [], Ok (NProjection (cbor_of 4) (Integer 5), 0%nat)).
Proof. vm_compute. reflexivity. Qed.
Print Assumptions c31_one_per_segment_refuted.
(** And such documents which lead to each other are followed for ever, whatever is loaded.  (With a
    secure hash no such documents can be found; nothing in the resolution relies on that.) *)
Definition loop_get (c : cid) : option bytes := Some (cbor_block (Link (cbor_of 1))).
Theorem c31_loop_refuted : forall fuel hfuel, resolve0 loop_get real_decode fuel hfuel (cbor_of 1) [[97]] true 0 None = None.
Proof.
  intros fuel hfuel. induction fuel as [|fuel IH]; [reflexivity|].
  assert (E : resolve_local real_decode (cbor_of 1) (cbor_block (Link (cbor_of 1))) [[97]] None = Ok (Complete (NLink (cbor_of 1) (cbor_of 1)), 0%nat, [[97]], None)) by (vm_compute; reflexivity).
  cbn [resolve0]. unfold loop_get at 1. rewrite E. cbn [Nat.add]. rewrite IH. reflexivity.
Qed.
Print Assumptions c31_loop_refuted.

(** The hypotheses are met by the stores above. *)
Lemma real_decode_codec c c' b : cid_codec c = cid_codec c' -> real_decode c b = real_decode c' b.
Proof. intros H. unfold real_decode, decode_ipld. rewrite H. reflexivity. Qed.
Lemma chain_doc c v : document chain_get real_decode c v -> exists n m, c = CidV1 codec_dagcbor m /\ hd 0 (mh_digest m) = n /\
  ((n = 1 /\ v = Link (cbor_of 2)) \/ (n = 2 /\ v = Link (cbor_of 3)) \/ (n = 3 /\ v = Link (cbor_of 4)) \/ (n = 4 /\ v = IMap [([97], Integer 5)])).
Proof.
  intros (_ & b & Hg & Hd). destruct c as [d|k [mc [|x d]]]; [discriminate| |].
  - exfalso. unfold chain_get in Hg. repeat (destruct k as [|k]; try discriminate Hg). repeat (destruct k as [k|k|]; try discriminate Hg).
  - assert (k = 113 /\ ((x = 1 /\ b = cbor_block (Link (cbor_of 2))) \/ (x = 2 /\ b = cbor_block (Link (cbor_of 3))) \/ (x = 3 /\ b = cbor_block (Link (cbor_of 4))) \/ (x = 4 /\ b = cbor_block (IMap [([97], Integer 5)])))) as [-> Hx].
    { unfold chain_get in Hg. destruct k as [|k]; [discriminate|]. repeat (destruct k as [k|k|]; try discriminate Hg). split; [reflexivity|].
      destruct x as [|x]; [discriminate|]. repeat (destruct x as [x|x|]; try discriminate Hg); injection Hg as <-; auto 6. }
    exists x, {| mh_code := mc; mh_digest := x :: d |}. split; [reflexivity|]. split; [reflexivity|].
    rewrite (real_decode_codec (CidV1 113 {| mh_code := mc; mh_digest := x :: d |}) (cbor_of 1) b eq_refl) in Hd. clear Hg.
    destruct Hx as [[-> ->]|[[-> ->]|[[-> ->]|[-> ->]]]]; vm_compute in Hd; injection Hd as <-; [left|right; left|right; right; left|right; right; right]; (split; [reflexivity|]); reflexivity.
Qed.
Definition chain_rank (c : cid) : nat := match c with CidV1 _ m => N.to_nat (4 - hd 0 (mh_digest m)) | _ => 0%nat end.
Example c31_example : (forall c, chain_rank c <= 4)%nat /\ (forall c d, document chain_get real_decode c (Link d) -> (chain_rank d < chain_rank c)%nat).
Proof.
  split; [intros [d|k m]; cbn [chain_rank]; lia|].
  intros c d H. apply chain_doc in H as (n & m & -> & Hn & H). unfold chain_rank at 2. rewrite Hn.
  destruct H as [[-> [= ->]]|[[-> [= ->]]|[[-> [= ->]]|[-> [=]]]]]; cbn; lia.
Qed.

Example c31_dirs_example : finite_dirs demo_get (fun c => match c with CidV0 (20 :: _) => 2%nat | _ => 1%nat end) 2.
Proof.
  split; [intros [[|x d]|k m]; try lia; repeat (destruct x as [|x]; try lia); repeat (destruct x as [x|x|]; try lia)|].
  intros c b links Hg Hs. assert (Hd : directory demo_get c b).
  { split; [|exact Hg]. destruct c as [d|k m]; [reflexivity|]. exfalso. destruct m as [mc [|x d]].
    - unfold demo_get in Hg. destruct k as [|k]; [discriminate|]. repeat (destruct k as [k|k|]; try discriminate Hg).
    - assert (b = cbor_block demo_doc) as ->.
      { unfold demo_get in Hg. destruct k as [|k]; [discriminate|]. repeat (destruct k as [k|k|]; try discriminate Hg). destruct x as [|x]; [discriminate|]. repeat (destruct x as [x|x|]; try discriminate Hg). injection Hg as <-. reflexivity. }
      destruct Hs as (n & dd & u & H & _). vm_compute in H. discriminate H. }
  destruct (demo_shards c b links Hd Hs) as [->| ->].
  - assert (Hb : b = shard_block demo_shard).
    { destruct Hd as [Hcd _]. destruct c as [d|k m]; [|cbn [cid_codec] in Hcd; subst k; discriminate Hg].
      assert (Hn : forall b', b = b' -> (match pbnode_read b' with Some n => length (n_links n) | None => 0%nat end) <> 2%nat -> False).
      { intros b' -> X. destruct Hs as (n & dd & u & Hr & Hl & _). rewrite Hr, <- Hl in X. apply X. reflexivity. }
      unfold demo_get in Hg. destruct d as [|x d]; [discriminate|]. destruct x as [|x]; [discriminate|]. repeat (destruct x as [x|x|]; try discriminate Hg); injection Hg as E; try (symmetry; exact E); exfalso; apply (Hn _ (eq_sym E)); vm_compute; discriminate. }
    assert (Hc : exists d, c = CidV0 (20 :: d)).
    { subst b. clear - Hg. destruct c as [[|x d]|k m].
      - discriminate.
      - destruct (N.eqb_spec x 20) as [->|Hx]; [eauto|]. exfalso. unfold demo_get in Hg. destruct x as [|x]; [discriminate|]. repeat (destruct x as [x|x|]; try discriminate Hg); try congruence; vm_compute in Hg; discriminate Hg.
      - exfalso. destruct m as [mc [|x d]]; [unfold demo_get in Hg; destruct k as [|k]; [discriminate|]; repeat (destruct k as [k|k|]; try discriminate Hg)|].
        unfold demo_get in Hg. destruct k as [|k]; [discriminate|]. repeat (destruct k as [k|k|]; try discriminate Hg). destruct x as [|x]; [discriminate|]. repeat (destruct x as [x|x|]; try discriminate Hg). }
    destruct Hc as [d ->]. vm_compute. lia.
  - assert (E : list_sum (map (bucket_weight (fun c => match c with CidV0 (20 :: _) => 2%nat | _ => 1%nat end)) demo_sub) = 0%nat) by (vm_compute; reflexivity). rewrite E.
    destruct c as [[|x d]|k m]; try lia; repeat (destruct x as [|x]; try lia); repeat (destruct x as [x|x|]; try lia).
Qed.
