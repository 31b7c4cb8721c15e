(** Lemmas about [Cid]. *)
From Verif Require Import Base Wire WireProofs Cid.
Local Open Scope N_scope.

Lemma mh_roundtrip m :
  mh_code m < u64_max1 -> blen (mh_digest m) < u64_max1 -> mh_from_bytes (mh_to_bytes m) = Some m.
Proof.
  intros H1 H2. unfold mh_from_bytes, mh_to_bytes.
  rewrite read_write_varint64 by exact H1. rewrite read_write_varint64 by exact H2.
  rewrite N.eqb_refl. destruct m; reflexivity.
Qed.

Lemma codec_known_small k : codec_known k = true -> k < u64_max1.
Proof.
  unfold codec_known. intros H. apply existsb_exists in H. destruct H as (x & Hx & E).
  apply N.eqb_eq in E. subst x. cbn [In] in Hx. unfold u64_max1.
  repeat (destruct Hx as [<-|Hx]; [lia|]). destruct Hx.
Qed.

Lemma cid_roundtrip c : wf_cid c -> cid_from_bytes (cid_to_bytes c) = Some c.
Proof.
  destruct c as [d|k m]; intros H.
  - destruct H as [Hl _]. cbn [cid_to_bytes cid_from_bytes]. rewrite Hl. reflexivity.
  - destruct H as (Hk & Hc & _ & Hd). cbn [cid_to_bytes].
    change (write_varint 1) with [1]. cbn [app].
    assert (E : cid_explicit (write_varint 1 ++ write_varint k ++ mh_to_bytes m) = Some (CidV1 k m)).
    { unfold cid_explicit. rewrite read_write_varint64 by (unfold u64_max1; lia).
      rewrite read_write_varint64 by (apply codec_known_small; exact Hk).
      rewrite mh_roundtrip by assumption. rewrite Hk. reflexivity. }
    change (write_varint 1) with [1] in E. cbn [app] in E. unfold cid_from_bytes. rewrite E.
    destruct (write_varint k ++ mh_to_bytes m); reflexivity.
Qed.

Lemma cid_to_bytes_inj c1 c2 :
  wf_cid c1 -> wf_cid c2 -> cid_to_bytes c1 = cid_to_bytes c2 -> c1 = c2.
Proof.
  intros H1 H2 E. apply cid_roundtrip in H1, H2. rewrite E in H1. congruence.
Qed.

Lemma cid_to_bytes_wf c : wf_cid c -> wf_bytes (cid_to_bytes c).
Proof.
  destruct c as [d|k m]; cbn [cid_to_bytes]; intros H.
  - destruct H. apply wf_bytes_cons. split; [reflexivity|]. apply wf_bytes_cons. split; [reflexivity|assumption].
  - destruct H as (_ & _ & Hd & _). unfold mh_to_bytes. rewrite !wf_bytes_app.
    repeat split; auto using write_varint_wf.
Qed.
