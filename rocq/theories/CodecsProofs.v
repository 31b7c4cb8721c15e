(** Lemmas about [Codecs]. *)
From Verif Require Import Base Wire WireProofs Cid CidProofs BTree Ipld Cbor CborSpec CborRound Pb PbProofs Codecs.
Local Open Scope N_scope.

(** * Parsed cids are well formed *)
Lemma wf_app_r a b : wf_bytes (a ++ b) -> wf_bytes b.
Proof. intros H. apply wf_bytes_app in H. tauto. Qed.

Lemma read_varint_n_suffix f m s a bs v r :
  read_varint_n f m s a bs = Some (v, r) -> exists u, bs = u ++ r.
Proof.
  revert s a bs. induction f as [|f IH]; intros s a bs; [discriminate|].
  destruct bs as [|b bs]; [discriminate|]. cbn [read_varint_n].
  destruct (b <? 128).
  - intros [= _ <-]. exists [b]. reflexivity.
  - intros H. apply IH in H as [u ->]. exists (b :: u). reflexivity.
Qed.

Lemma mh_from_bytes_wf bs m :
  wf_bytes bs -> mh_from_bytes bs = Some m ->
  mh_code m < u64_max1 /\ wf_bytes (mh_digest m) /\ blen (mh_digest m) < u64_max1 /\
  blen (mh_digest m) <= blen bs.
Proof.
  intros Hb. unfold mh_from_bytes. destruct (read_varint64 bs) as [[code r]|] eqn:E1; [|discriminate].
  destruct (read_varint64 r) as [[n d]|] eqn:E2; [|discriminate].
  destruct (N.eqb_spec n (blen d)) as [->|]; [|discriminate]. intros [= <-]. cbn.
  pose proof (read_varint64_bound _ _ _ E1). pose proof (read_varint64_bound _ _ _ E2).
  apply read_varint_n_suffix in E1 as [u ->]. apply read_varint_n_suffix in E2 as [u' ->].
  repeat split; auto.
  - apply wf_app_r in Hb. apply wf_app_r in Hb. exact Hb.
  - rewrite !blen_app. lia.
Qed.

Lemma cid_from_bytes_wf bs c :
  wf_bytes bs -> cid_from_bytes bs = Some c ->
  wf_cid c /\ blen (cid_to_bytes c) <= 40 + blen bs /\ bs <> [].
Proof.
  intros Hb.
  assert (K : forall v r codec r' mh, read_varint64 bs = Some (v, r) -> read_varint64 r = Some (codec, r') ->
     mh_from_bytes r' = Some mh -> codec_known codec = true ->
     wf_cid (CidV1 codec mh) /\ blen (cid_to_bytes (CidV1 codec mh)) <= 40 + blen bs /\
     wf_bytes (mh_digest mh)).
  { intros v r codec r' mh E1 E2 E3 Hk.
    apply read_varint_n_suffix in E1 as [u ->]. apply read_varint_n_suffix in E2 as [u' ->].
    pose proof (wf_app_r _ _ Hb) as Hr. apply wf_app_r in Hr.
    destruct (mh_from_bytes_wf _ _ Hr E3) as (H1 & H2 & H3 & H4).
    split; [cbn; auto|]. split; [|exact H2].
    cbn [cid_to_bytes]. unfold mh_to_bytes. rewrite !blen_app.
    rewrite !blen_write_varint by (auto using codec_known_small; unfold u64_max1; lia).
    pose proof (sizeof_varint_le 1). pose proof (sizeof_varint_le codec).
    pose proof (sizeof_varint_le (mh_code mh)). pose proof (sizeof_varint_le (blen (mh_digest mh))). lia. }
  assert (G : cid_explicit bs = Some c -> wf_cid c /\ blen (cid_to_bytes c) <= 40 + blen bs /\ bs <> []).
  { unfold cid_explicit. intros H. destruct (read_varint64 bs) as [[v r]|] eqn:E1; [|discriminate].
    assert (Hne : bs <> []) by (intros ->; discriminate E1).
    destruct (read_varint64 r) as [[codec r']|] eqn:E2; [|discriminate].
    destruct (mh_from_bytes r') as [mh|] eqn:E3; [|discriminate].
    destruct (codec_known codec) eqn:Hk; [|discriminate].
    destruct (K _ _ _ _ _ eq_refl E2 E3 Hk) as (W & L & D).
    destruct (v =? 1); [injection H as <-; auto|].
    destruct ((v =? 0) && (codec =? codec_dagpb) && (mh_code mh =? 18) && (blen (mh_digest mh) =? 32)) eqn:C; [|discriminate].
    injection H as <-. apply andb_true_iff in C as [_ C]. apply N.eqb_eq in C.
    split; [|split; [|exact Hne]].
    - split; [unfold blen in C; lia|exact D].
    - cbn [cid_to_bytes]. rewrite !blen_cons, C. lia. }
  unfold cid_from_bytes. destruct bs as [|b1 [|b2 d]]; [exact G|exact G|].
  destruct ((b1 =? 18) && (b2 =? 32)); [|exact G].
  destruct (Nat.eqb_spec (length d) 32); [|discriminate]. intros [= <-].
  apply wf_bytes_cons in Hb as [_ Hb]. apply wf_bytes_cons in Hb as [_ Hb].
  split; [split; assumption|]. split; [|discriminate]. cbn [cid_to_bytes]. rewrite !blen_cons. lia.
Qed.

(** * dag-pb *)
Definition wf_PbLink (l : PbLink) : Prop :=
  wf_cid (l_cid l) /\ blen (cid_to_bytes (l_cid l)) < 2 ^ 31 /\
  utf8 (l_name l) = true /\ blen (l_name l) < 2 ^ 30 /\ l_size l < u64_max1.
Definition wf_PbNode (n : PbNode) : Prop :=
  Forall wf_PbLink (n_links n) /\ blen (n_data n) < u32_max1.

Ltac consume_prost :=
  repeat match goal with
  | H : context [if ?c then _ else _] |- _ => destruct c
  | H : (match read_bytes ?x with _ => _ end) = Some _ |- _ =>
      destruct (read_bytes x) as [[? ?]|] eqn:?; [|discriminate]
  | H : (match read_string ?x with _ => _ end) = Some _ |- _ =>
      destruct (read_string x) as [[? ?]|] eqn:?; [|discriminate]
  | H : (match read_varint64 ?x with _ => _ end) = Some _ |- _ =>
      destruct (read_varint64 x) as [[? ?]|] eqn:?; [|discriminate]
  | H : (match plink_read ?x with _ => _ end) = Some _ |- _ =>
      destruct (plink_read x) as [?|] eqn:?; [|discriminate]
  | H : (match read_unknown ?x ?y with _ => _ end) = Some _ |- _ =>
      destruct (read_unknown x y) as [?|] eqn:?; [|discriminate]
  end; try discriminate;
  repeat match goal with H : Some _ = Some _ |- _ => injection H as ? ?; subst end.

Lemma plink_consuming : consuming plink_field.
Proof. intros tag m bs m' r H. unfold plink_field in H. consume_prost; consume_field. Qed.
Lemma pnode_consuming : consuming pnode_field.
Proof. intros tag m bs m' r H. unfold pnode_field in H. consume_prost; consume_field. Qed.

Definition plink_of (l : PbLink) : plink := mk_plink (cid_to_bytes (l_cid l)) (l_name l) (l_size l).

Lemma cid_to_bytes_nonempty c : blen (cid_to_bytes c) =? 0 = false.
Proof.
  apply N.eqb_neq. destruct c; cbn [cid_to_bytes]; [rewrite !blen_cons; lia|].
  rewrite blen_app. change (blen (write_varint 1)) with 1. lia.
Qed.

Lemma p231 : 2 ^ 31 < u32_max1. Proof. reflexivity. Qed.
Lemma p230 : 2 ^ 30 < 2 ^ 31. Proof. reflexivity. Qed.

Lemma plink_roundtrip l : wf_PbLink l -> plink_read (plink_write (plink_of l)) = Some (plink_of l).
Proof.
  intros (Hc & Hcl & Hu & Hn & Hs). pose proof p231. pose proof p230. unfold plink_read, plink_write, plink_of. cbn [pl_hash pl_name pl_tsize].
  rewrite cid_to_bytes_nonempty. unfold w_bytes at 1. rewrite <- !app_assoc.
  rewrite (app_assoc (write_varint (blen (cid_to_bytes (l_cid l))))).
  rewrite (read_message_field plink_field _ 10 _ _ (mk_plink (cid_to_bytes (l_cid l)) [] 0));
    [|exact plink_consuming|unfold u32_max1; lia|].
  2:{ unfold plink_field. change (10 / 8 =? 1) with true. change (10 mod 8 =? 2) with true. cbn iota.
      rewrite read_bytes_w by lia. reflexivity. }
  transitivity (read_message plink_field (mk_plink (cid_to_bytes (l_cid l)) (l_name l) 0)
                  (if l_size l =? 0 then [] else w_uint 24 (l_size l))).
  { destruct (N.eqb_spec (blen (l_name l)) 0) as [E|E].
    - destruct (l_name l); [reflexivity|rewrite blen_cons in E; lia].
    - unfold w_bytes. rewrite <- !app_assoc. rewrite (app_assoc (write_varint (blen (l_name l)))).
      rewrite (read_message_field plink_field _ 18 _ _ (mk_plink (cid_to_bytes (l_cid l)) (l_name l) 0));
        [reflexivity|exact plink_consuming|unfold u32_max1; lia|].
      unfold plink_field. change (18 / 8 =? 1) with false. change (18 / 8 =? 2) with true. change (18 mod 8 =? 2) with true. cbn iota.
      rewrite read_string_w by (auto; lia). reflexivity. }
  destruct (N.eqb_spec (l_size l) 0) as [->|E]; [reflexivity|].
  unfold w_uint. rewrite <- (app_nil_r (write_varint (l_size l))).
  rewrite (read_message_field plink_field _ 24 _ _ (mk_plink (cid_to_bytes (l_cid l)) (l_name l) (l_size l)));
    [reflexivity|exact plink_consuming|unfold u32_max1; lia|].
  unfold plink_field. change (24 / 8 =? 1) with false. change (24 / 8 =? 2) with false.
  change (24 / 8 =? 3) with true. change (24 mod 8 =? 0) with true. cbn iota.
  rewrite read_write_varint64 by exact Hs. reflexivity.
Qed.

Lemma plink_write_small l : wf_PbLink l -> blen (plink_write (plink_of l)) < u32_max1.
Proof.
  intros (Hc & Hcl & Hu & Hn & Hs). unfold plink_write, plink_of. cbn [pl_hash pl_name pl_tsize].
  change (2 ^ 31) with 2147483648 in Hcl. change (2 ^ 30) with 1073741824 in Hn.
  assert (K : forall x, sizeof_len x <= x + 10) by (intros x; unfold sizeof_len; pose proof (sizeof_varint_le x); lia).
  assert (A : blen (if blen (cid_to_bytes (l_cid l)) =? 0 then [] else w_bytes 10 (cid_to_bytes (l_cid l))) <= 2147483648 + 11).
  { destruct (_ =? 0); [unfold blen; cbn [length N.of_nat]; lia|]. rewrite blen_w_bytes by (unfold u64_max1; lia).
    specialize (K (blen (cid_to_bytes (l_cid l)))). lia. }
  assert (B : blen (if blen (l_name l) =? 0 then [] else w_bytes 18 (l_name l)) <= 1073741824 + 11).
  { destruct (blen (l_name l) =? 0); [unfold blen; cbn [length N.of_nat]; lia|]. rewrite blen_w_bytes by (unfold u64_max1; lia).
    specialize (K (blen (l_name l))). lia. }
  assert (C : blen (if l_size l =? 0 then [] else w_uint 24 (l_size l)) <= 11).
  { destruct (l_size l =? 0); [unfold blen; cbn [length N.of_nat]; lia|]. rewrite blen_w_uint by (auto; lia).
    pose proof (sizeof_varint_le (l_size l)). lia. }
  rewrite !blen_app. unfold u32_max1. lia.
Qed.

Lemma pnode_links_read ls : forall d acc,
  Forall wf_PbLink ls ->
  read_message pnode_field (mk_pnode d acc) (concat (map (fun l => w_bytes 18 (plink_write l)) (map plink_of ls)))
  = Some (mk_pnode d (acc ++ map plink_of ls)).
Proof.
  induction ls as [|l ls IH]; intros d acc HF; cbn [map concat].
  - rewrite app_nil_r. reflexivity.
  - inversion HF; subst. unfold w_bytes at 1. rewrite <- !app_assoc.
    rewrite (app_assoc (write_varint (blen (plink_write (plink_of l))))).
    rewrite (read_message_field pnode_field _ 18 _ _ (mk_pnode d (acc ++ [plink_of l])));
      [|exact pnode_consuming|unfold u32_max1; lia|].
    + rewrite IH by assumption. rewrite <- app_assoc. reflexivity.
    + unfold pnode_field. change (18 / 8 =? 1) with false. change (18 / 8 =? 2) with true. change (18 mod 8 =? 2) with true. cbn iota.
      rewrite read_bytes_w by (apply plink_write_small; assumption).
      rewrite plink_roundtrip by assumption. reflexivity.
Qed.

Lemma parse_links_of ls : Forall wf_PbLink ls -> parse_links (map plink_of ls) = Ok ls.
Proof.
  induction ls as [|l ls IH]; intros HF; [reflexivity|]. inversion HF; subst. cbn [map parse_links].
  cbn [plink_of pl_hash]. rewrite cid_roundtrip by apply H1. rewrite IH by assumption. destruct l; reflexivity.
Qed.

Lemma pbnode_bytes_roundtrip n : wf_PbNode n -> pbnode_from_bytes (pbnode_into_bytes n) = Ok n.
Proof.
  intros [Hl Hd]. unfold pbnode_from_bytes, pbnode_into_bytes, pnode_read, pnode_write. cbn [pn_data pn_links].
  change (fun l : PbLink => mk_plink (cid_to_bytes (l_cid l)) (l_name l) (l_size l)) with plink_of.
  assert (E : read_message pnode_field (mk_pnode [] [])
     ((if blen (n_data n) =? 0 then [] else w_bytes 10 (n_data n)) ++
      concat (map (fun l => w_bytes 18 (plink_write l)) (map plink_of (n_links n))))
    = Some (mk_pnode (n_data n) (map plink_of (n_links n)))).
  { destruct (N.eqb_spec (blen (n_data n)) 0) as [E|E].
    - destruct (n_data n); [|rewrite blen_cons in E; lia]. cbn [app]. apply pnode_links_read. exact Hl.
    - unfold w_bytes at 1. rewrite <- !app_assoc. rewrite (app_assoc (write_varint (blen (n_data n)))).
      rewrite (read_message_field pnode_field _ 10 _ _ (mk_pnode (n_data n) []));
        [apply pnode_links_read; exact Hl|exact pnode_consuming|unfold u32_max1; lia|].
      unfold pnode_field. change (10 / 8 =? 1) with true. change (10 mod 8 =? 2) with true. cbn iota.
      rewrite read_bytes_w by exact Hd. reflexivity. }
  rewrite E. cbn [pn_links pn_data]. rewrite parse_links_of by exact Hl. destruct n; reflexivity.
Qed.

Lemma link_of_ipld_of l : l_size l < u64_max1 -> link_of_ipld (ipld_of_link l) = Ok l.
Proof.
  intros H. unfold link_of_ipld, ipld_of_link.
  cbn [bt_insert bcmp kTsize kName kHash N.compare Pos.compare Pos.compare_cont ipld_get bt_get beq N.eqb Pos.eqb andb].
  rewrite Z.mod_small by (unfold u64_max1 in H; lia). rewrite N2Z.id. destruct l; reflexivity.
Qed.

Lemma links_of_iplds_of ls :
  Forall (fun l => l_size l < u64_max1) ls -> links_of_iplds (map ipld_of_link ls) = Ok ls.
Proof.
  induction ls as [|l ls IH]; intros HF; [reflexivity|]. inversion HF; subst. cbn [map links_of_iplds].
  rewrite link_of_ipld_of by assumption. cbn [kbind]. rewrite IH by assumption. reflexivity.
Qed.

Lemma node_of_ipld_of n :
  Forall (fun l => l_size l < u64_max1) (n_links n) -> node_of_ipld (ipld_of_node n) = Ok n.
Proof.
  intros H. unfold node_of_ipld, ipld_of_node.
  cbn [bt_insert bcmp kData kLinks N.compare Pos.compare Pos.compare_cont ipld_get bt_get beq N.eqb Pos.eqb andb].
  rewrite links_of_iplds_of by exact H. destruct n; reflexivity.
Qed.

Lemma dagpb_roundtrip n :
  wf_PbNode n ->
  exists b, dagpb_encode (ipld_of_node n) = Ok b /\ dagpb_decode b = Ok (ipld_of_node n).
Proof.
  intros Hw. exists (pbnode_into_bytes n). unfold dagpb_encode, dagpb_decode.
  rewrite node_of_ipld_of.
  - split; [reflexivity|]. rewrite pbnode_bytes_roundtrip by exact Hw. reflexivity.
  - destruct Hw as [Hw _]. eapply Forall_impl; [|exact Hw]. intros l Hl. apply Hl.
Qed.

(** ** Everything decoded from a block of less than a gibibyte is well formed *)
Definition part_of (K : N) (r : bytes) : Prop := wf_bytes r /\ blen r <= K.

Lemma part_suffix K u r : part_of K (u ++ r) -> part_of K r.
Proof. intros [H1 H2]. apply wf_bytes_app in H1. rewrite blen_app in H2. split; [tauto|lia]. Qed.

Lemma part_read_bytes K bs b r : part_of K bs -> read_bytes bs = Some (b, r) -> part_of K b /\ part_of K r.
Proof.
  intros Hp. unfold read_bytes. destruct (read_varint32 bs) as [[n q]|] eqn:E; [|discriminate].
  apply read_varint_n_suffix in E as [u ->]. apply part_suffix in Hp.
  destruct (n <=? blen q); [|discriminate]. intros [= <- <-].
  rewrite <- (firstn_skipn (N.to_nat n) q) in Hp. split; [|apply part_suffix in Hp; exact Hp].
  destruct Hp as [H1 H2]. apply wf_bytes_app in H1. rewrite blen_app in H2. split; [tauto|lia].
Qed.

Lemma part_read_string K bs b r :
  part_of K bs -> read_string bs = Some (b, r) -> part_of K b /\ part_of K r /\ utf8 b = true.
Proof.
  intros Hp. unfold read_string. destruct (read_bytes bs) as [[s q]|] eqn:E; [|discriminate].
  destruct (utf8 s) eqn:Hu; [|discriminate]. intros [= <- <-].
  destruct (part_read_bytes _ _ _ _ Hp E). auto.
Qed.

Lemma part_read_varint64 K bs v r :
  part_of K bs -> read_varint64 bs = Some (v, r) -> part_of K r /\ v < u64_max1.
Proof.
  intros Hp E. split; [|eapply read_varint64_bound; eauto].
  apply read_varint_n_suffix in E as [u ->]. apply part_suffix in Hp. exact Hp.
Qed.

Lemma part_read_unknown K tag bs r : part_of K bs -> read_unknown tag bs = Some r -> part_of K r.
Proof.
  intros Hp. unfold read_unknown.
  assert (T : forall n x y, take_exact n bs = Some (x, y) -> part_of K y).
  { intros n x y. unfold take_exact. destruct (n <=? length bs)%nat; [|discriminate]. intros [= <- <-].
    rewrite <- (firstn_skipn n bs) in Hp. apply part_suffix in Hp. exact Hp. }
  assert (V : forall x y, read_varint64 bs = Some (x, y) -> part_of K y).
  { intros x y E. destruct (part_read_varint64 _ _ _ _ Hp E). assumption. }
  intros H.
  assert (C : (exists x, read_varint64 bs = Some (x, r)) \/ (exists n x, take_exact n bs = Some (x, r)) \/
    (exists n q, read_varint64 bs = Some (n, q) /\ r = skipn (N.to_nat n) q)).
  { destruct (tag mod 8) as [|p]; [apply option_map_inv in H as ([a b] & H & ->); left; eauto|].
    repeat (destruct p as [p|p|]; try discriminate).
    - apply option_map_inv in H as ([a b] & H & ->). right; left; eauto.
    - destruct (read_varint64 bs) as [[n q]|]; [|discriminate]. destruct (n <=? blen q); [|discriminate].
      injection H as <-. right; right; eauto.
    - apply option_map_inv in H as ([a b] & H & ->). right; left; eauto. }
  destruct C as [[x C]|[(n & x & C)|(n & q & C & ->)]]; eauto.
  apply V in C. rewrite <- (firstn_skipn (N.to_nat n) q) in C. apply part_suffix in C. exact C.
Qed.

Lemma read_loop_inv {M} (field : N -> M -> bytes -> option (M * bytes)) K (Inv : M -> Prop) :
  (forall tag m bs m' r, part_of K bs -> Inv m -> field tag m bs = Some (m', r) -> Inv m' /\ part_of K r) ->
  forall fuel m bs m', part_of K bs -> Inv m -> read_loop fuel field m bs = Some m' -> Inv m'.
Proof.
  intros Hf. induction fuel as [|fuel IH]; intros m bs m' Hp Hi H.
  - destruct bs; cbn in H; [|discriminate]. injection H as <-. exact Hi.
  - destruct bs as [|b bs]; cbn [read_loop] in H; [injection H as <-; exact Hi|].
    destruct (read_varint32 (b :: bs)) as [[t r]|] eqn:E; [|discriminate].
    apply read_varint_n_suffix in E as [u Eu]. rewrite Eu in Hp. apply part_suffix in Hp.
    destruct (field t m r) as [[m1 r1]|] eqn:Ef; [|discriminate].
    destruct (Hf _ _ _ _ _ Hp Hi Ef). eapply IH; eauto.
Qed.

Definition small_plink (K : N) (l : plink) : Prop :=
  part_of K (pl_hash l) /\ part_of K (pl_name l) /\ utf8 (pl_name l) = true /\ pl_tsize l < u64_max1.
Definition small_pnode (K : N) (n : pnode) : Prop :=
  part_of K (pn_data n) /\ Forall (small_plink K) (pn_links n).

Lemma plink_read_small K bs l : part_of K bs -> plink_read bs = Some l -> small_plink K l.
Proof.
  intros Hp H. unfold plink_read, read_message in H. revert H.
  apply (read_loop_inv plink_field K (small_plink K)); [|exact Hp|].
  - intros tag m r0 m' r Hp0 (I1 & I2 & I3 & I4) H. unfold plink_field in H. consume_prost.
    + destruct (part_read_bytes _ _ _ _ Hp0 Heqo). unfold small_plink; cbn; auto.
    + destruct (part_read_string _ _ _ _ Hp0 Heqo) as (? & ? & ?). unfold small_plink; cbn; auto.
    + destruct (part_read_varint64 _ _ _ _ Hp0 Heqo). unfold small_plink; cbn; auto.
    + split; [unfold small_plink; auto|]. exact (part_read_unknown _ _ _ _ Hp0 Heqo).
  - unfold small_plink, part_of, u64_max1, blen, wf_bytes; cbn; repeat split; auto; lia.
Qed.

Lemma pnode_read_small K bs n : part_of K bs -> pnode_read bs = Some n -> small_pnode K n.
Proof.
  intros Hp H. unfold pnode_read, read_message in H. revert H.
  apply (read_loop_inv pnode_field K (small_pnode K)); [|exact Hp|].
  - intros tag m r0 m' r Hp0 (I1 & I2) H. unfold pnode_field in H. consume_prost.
    + destruct (part_read_bytes _ _ _ _ Hp0 Heqo). unfold small_pnode; cbn; auto.
    + destruct (part_read_bytes _ _ _ _ Hp0 Heqo) as [Hb Hr]. split; [|exact Hr].
      split; [exact I1|]. cbn. apply Forall_app. split; [exact I2|]. constructor; [|constructor].
      exact (plink_read_small _ _ _ Hb Heqo0).
    + split; [split; auto|]. exact (part_read_unknown _ _ _ _ Hp0 Heqo).
  - unfold small_pnode, part_of, blen, wf_bytes; cbn; repeat split; auto; lia.
Qed.

Lemma pbnode_from_bytes_wf bs n :
  part_of (2 ^ 30 - 64) bs -> pbnode_from_bytes bs = Ok n -> wf_PbNode n.
Proof.
  change (2 ^ 30 - 64) with 1073741760.
  intros Hp. unfold pbnode_from_bytes. destruct (pnode_read bs) as [p|] eqn:E; [|discriminate].
  destruct (pnode_read_small _ _ _ Hp E) as [Hd Hl].
  destruct (parse_links (pn_links p)) as [ls|e|] eqn:El; cbn [kbind]; try discriminate. intros [= <-].
  split; cbn.
  - clear E Hd. revert ls El. induction Hl as [|x xs Hx Hxs IH]; intros ls El; cbn [parse_links] in El.
    + injection El as <-. constructor.
    + destruct (cid_from_bytes (pl_hash x)) as [c|] eqn:Ec; [|discriminate].
      destruct (parse_links xs) as [r|e|]; cbn [kbind] in El; try discriminate. injection El as <-.
      destruct Hx as ([H1 H2] & [H3 H4] & H5 & H6).
      destruct (cid_from_bytes_wf _ _ H1 Ec) as (W & L & _).
      constructor; [|apply IH; reflexivity]. unfold wf_PbLink; cbn.
      change (2 ^ 31) with 2147483648. change (2 ^ 30) with 1073741824. repeat split; auto; lia.
  - destruct Hd. unfold u32_max1. lia.
Qed.

(** * dag-json *)
Section Json.
  Variable b64_encode : bytes -> bytes.
  Variable b64_decode : bytes -> option bytes.
  Variable float_reread : N -> N.
  Variable int_as_float : Z -> N.

  (** Values that survive: integers in the i64 or u64 range, finite floats that survive printing and
      parsing, no bytes, no map with the single key "/" and a string value. *)
  Fixpoint json_safe (v : ipld) : Prop :=
    match v with
    | Integer i => (- 2 ^ 63 <= i < 2 ^ 64)%Z
    | Float f => is_finite f = true /\ float_reread f = f
    | IBytes _ => False
    | IList l => allP json_safe l
    | IMap m => (forall s, m <> [([47], Str s)]) /\ allP (fun kv => json_safe (snd kv)) m
    | _ => True
    end.
  (** Number of JSON arrays and objects around the innermost value. *)
  Fixpoint json_depth (v : ipld) : nat :=
    match v with
    | IList l => S (list_max (map json_depth l))
    | IMap m => S (list_max (map (fun kv => json_depth (snd kv)) m))
    | Link _ => 1
    | IBytes _ => 1
    | _ => 0
    end%nat.

  Lemma map_all_spec {A} (f : A -> kres ipld) l vs :
    Forall2 (fun x v => f x = Ok v) l vs -> map_all f l = Ok vs.
  Proof. induction 1 as [|x v l vs H HF IH]; [reflexivity|]. cbn. rewrite H. cbn. rewrite IH. reflexivity. Qed.

  Lemma bt_of_sorted {V} (m : list (bytes * V)) : bt_sorted m -> bt_of_list m = m.
  Proof. intros H. apply bt_of_perm; [exact H|apply bt_sorted_nodup; exact H|reflexivity]. Qed.

  Lemma of_json_arr d l :
    of_json b64_decode (S (S d)) (JArr l) =
    kbind (map_all (of_json b64_decode (S d)) l) (fun vs => Ok (IList vs)).
  Proof. reflexivity. Qed.
  Lemma of_json_obj d m :
    of_json b64_decode (S (S d)) (JObj m) =
    kbind (map_all (fun kv => of_json b64_decode (S d) (snd kv)) m) (fun vs =>
      match m, vs with
      | [(k, _)], [Str s] =>
          if beq k [47] then
            match b64_decode s with
            | None => Err JsonErr
            | Some b => match cid_from_bytes b with Some c => Ok (Link c) | None => Err JsonErr end
            end
          else Ok (IMap (bt_of_list (combine (map fst m) vs)))
      | _, _ => Ok (IMap (bt_of_list (combine (map fst m) vs)))
      end).
  Proof. reflexivity. Qed.

  Hypothesis b64_inverse : forall b, b64_decode (b64_encode b) = Some b.

  Lemma json_roundtrip v : forall d,
    wf_ipld v -> json_safe v -> (json_depth v < d)%nat ->
    of_json b64_decode d (to_json b64_encode float_reread int_as_float v) = Ok v.
  Proof.
    induction v as [|b|i|f|s|bs|l IH|m IH|c] using ipld_ind'; intros d Hw Hs Hd.
    - destruct d; reflexivity.
    - destruct d; reflexivity.
    - cbn [to_json]. cbn [json_safe] in Hs. change (2 ^ 63)%Z with 9223372036854775808%Z in Hs.
      change (2 ^ 64)%Z with 18446744073709551616%Z in Hs.
      destruct (Z.leb_spec (-9223372036854775808) i); [|lia].
      destruct (Z.ltb_spec i 18446744073709551616); [|lia]. destruct d; reflexivity.
    - cbn [to_json]. destruct Hs as [Hf Hr]. change (is_finite f) with (f64_finite f) in Hf.
      rewrite Hf, Hr. destruct d; reflexivity.
    - destruct d; reflexivity.
    - destruct Hs.
    - cbn [to_json]. cbn [json_depth] in Hd. destruct d as [|[|d]]; [lia|lia|].
      assert (H : map_all (of_json b64_decode (S d)) (map (to_json b64_encode float_reread int_as_float) l) = Ok l).
      { apply map_all_spec. cbn [wf_ipld json_safe] in *. destruct Hw as [_ Hw]. rewrite allP_Forall in *.
        assert (Hd' : forall x, In x l -> (json_depth x < S d)%nat).
        { intros x Hx. assert (json_depth x <= list_max (map json_depth l))%nat by (apply list_max_in, in_map; exact Hx). lia. }
        clear Hd. induction l as [|x l IHl]; cbn [map]; constructor.
        - inversion IH; inversion Hw; inversion Hs; subst. apply H1; auto. apply Hd'. left; reflexivity.
        - inversion IH; inversion Hw; inversion Hs; subst. apply IHl; auto. intros y Hy. apply Hd'. right; exact Hy. }
      rewrite of_json_arr, H. reflexivity.
    - cbn [to_json]. cbn [json_depth] in Hd. destruct d as [|[|d]]; [lia|lia|].
      cbn [wf_ipld json_safe] in *. destruct Hw as (_ & Hsort & _ & Hw). destruct Hs as [Hn Hs].
      set (jm := map (fun kv => (fst kv, to_json b64_encode float_reread int_as_float (snd kv))) m).
      assert (H : map_all (fun kv => of_json b64_decode (S d) (snd kv)) jm = Ok (map snd m)).
      { apply map_all_spec. subst jm. rewrite allP_Forall in *.
        assert (Hd' : forall x, In x m -> (json_depth (snd x) < S d)%nat).
        { intros x Hx. assert (json_depth (snd x) <= list_max (map (fun kv => json_depth (snd kv)) m))%nat; [|lia].
          apply list_max_in. apply (in_map (fun kv => json_depth (snd kv))). exact Hx. }
        clear Hd Hn Hsort. induction m as [|x m IHm]; cbn [map]; constructor.
        - inversion IH; inversion Hw; inversion Hs; subst. apply H1; auto. apply Hd'. left; reflexivity.
        - inversion IH; inversion Hw; inversion Hs; subst. apply IHm; auto. intros y Hy. apply Hd'. right; exact Hy. }
      rewrite of_json_obj, H. cbn [kbind].
      assert (Hc : combine (map fst jm) (map snd m) = m).
      { subst jm. rewrite map_map. cbn [fst]. clear. induction m as [|[k v] m IH]; cbn; [reflexivity|]. rewrite IH. reflexivity. }
      destruct jm as [|[k0 j0] [|x jm']] eqn:Ejm; try (rewrite Hc, bt_of_sorted by exact Hsort; reflexivity).
      destruct m as [|[k v] [|y m']]; try discriminate Ejm. cbn [map snd]. injection Ejm as E0 E1. subst k0.
      destruct v as [|b|i|f|s|bs|l'|m'|c]; try (cbn [map snd] in Hc; rewrite Hc, bt_of_sorted by exact Hsort; reflexivity).
      cbn [fst]. destruct (beq_spec k [47]) as [->|_].
      + exfalso. exact (Hn s eq_refl).
      + cbn [map snd fst] in *. rewrite Hc, bt_of_sorted by exact Hsort. reflexivity.
    - cbn [to_json]. cbn [json_depth] in Hd. destruct d as [|[|d]]; [lia|lia|].
      rewrite of_json_obj. cbn [map_all snd kbind of_json]. rewrite beq_refl, b64_inverse. cbn [wf_ipld] in Hw.
      rewrite cid_roundtrip by apply Hw. reflexivity.
  Qed.

End Json.
