(** Property C06: dag-pb and UnixFS messages survive serialization; the computed size is the number
    of bytes written.  The side conditions [wf_*] only say that values fit their Rust types and
    that no length-prefixed part reaches 4 GiB. *)
From Verif Require Import Base Wire WireProofs Pb PbProofs Cid CidProofs.
Local Open Scope N_scope.

Theorem c06_link_roundtrip :
  forall l, wf_pblink l -> pblink_read (pblink_write l) = Some l.
Proof. exact pblink_roundtrip. Qed.
Print Assumptions c06_link_roundtrip.

Theorem c06_link_size :
  forall l, wf_pblink l -> blen (pblink_write l) = pblink_size l.
Proof. exact pblink_write_size. Qed.
Print Assumptions c06_link_size.

Example c06_link_case :
  wf_pblink (mk_pblink (Some [18; 32; 7]) (Some [97; 195; 164]) (Some 18446744073709551615)).
Proof. repeat split; vm_compute; auto. Qed.

Theorem c06_node_roundtrip :
  forall n, wf_pbnode n -> pbnode_read (pbnode_write n) = Some n.
Proof. exact pbnode_roundtrip. Qed.
Print Assumptions c06_node_roundtrip.

Theorem c06_node_size :
  forall n, wf_pbnode n -> blen (pbnode_write n) = pbnode_size n.
Proof. exact pbnode_write_size. Qed.
Print Assumptions c06_node_size.

Example c06_node_case :
  wf_pbnode (mk_pbnode [mk_pblink (Some [1; 2]) None (Some 300); mk_pblink None (Some []) None]
                       (Some [8; 1])).
Proof. repeat split; repeat constructor; vm_compute; auto. Qed.

Theorem c06_unixfs_roundtrip :
  forall u, wf_unixfs u -> unixfs_read (unixfs_write u) = Some u.
Proof. exact unixfs_roundtrip. Qed.
Print Assumptions c06_unixfs_roundtrip.

Theorem c06_unixfs_size :
  forall u, wf_unixfs u -> blen (unixfs_write u) = unixfs_size u.
Proof. exact unixfs_write_size. Qed.
Print Assumptions c06_unixfs_size.

Example c06_unixfs_case :
  wf_unixfs (mk_unixfs TFile (Some [1; 2; 3]) (Some 3) [5; 18446744073709551615] (Some 34) (Some 256)
               (Some 420) (Some (mk_time 18446744073709551615 (Some 999999999)))).
Proof. repeat split; repeat constructor; vm_compute; auto. Qed.

(** The block form used by files and directories: the node carrying a UnixFS message. *)
Theorem c06_block_roundtrip :
  forall f, wf_flat f -> flat_parse (flat_write f) = inl f.
Proof. exact flat_roundtrip. Qed.
Print Assumptions c06_block_roundtrip.

Theorem c06_block_size :
  forall f, wf_flat f -> blen (flat_write f) = flat_size f.
Proof. exact flat_write_size. Qed.
Print Assumptions c06_block_size.

Example c06_block_case :
  wf_flat (mk_flat [mk_pblink (Some [1; 2]) (Some []) (Some 300)]
             (mk_unixfs TFile None (Some 3) [3] None None None None)).
Proof. repeat split; repeat constructor; vm_compute; auto. Qed.

(** Two different messages never serialize to the same bytes. *)
Theorem c06_block_injective :
  forall f g, wf_flat f -> wf_flat g -> flat_write f = flat_write g -> f = g.
Proof.
  intros f g Hf Hg E. apply flat_roundtrip in Hf, Hg. rewrite E in Hf. congruence.
Qed.
Print Assumptions c06_block_injective.

(** The cids carried in links survive their binary form. *)
Theorem c06_cid_roundtrip :
  forall c, wf_cid c -> cid_from_bytes (cid_to_bytes c) = Some c.
Proof. exact cid_roundtrip. Qed.
Print Assumptions c06_cid_roundtrip.

Theorem c06_cid_injective :
  forall c1 c2, wf_cid c1 -> wf_cid c2 -> cid_to_bytes c1 = cid_to_bytes c2 -> c1 = c2.
Proof. exact cid_to_bytes_inj. Qed.
Print Assumptions c06_cid_injective.

Example c06_cid_case :
  wf_cid (CidV1 codec_dagcbor {| mh_code := 18; mh_digest := repeat 7 32 |}).
Proof. repeat split; repeat constructor; vm_compute; auto. Qed.
