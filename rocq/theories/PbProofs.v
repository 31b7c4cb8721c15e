(** Lemmas about [Pb]: round trips and sizes. *)
From Verif Require Import Base Wire WireProofs Pb.
Local Open Scope N_scope.

(** Values the Rust types can hold ([u64], [u32], valid UTF-8), with every length-prefixed part
    below 4 GiB (quick-protobuf reads lengths as 32-bit values). *)
Definition opt_all {A} (P : A -> Prop) (o : option A) : Prop :=
  match o with Some x => P x | None => True end.

Definition wf_pblink (l : pblink) : Prop :=
  pblink_size l < u32_max1 /\ opt_all (fun s => utf8 s = true) (l_name l)
  /\ opt_all (fun t => t < u64_max1) (l_tsize l).
Definition wf_pbnode (n : pbnode) : Prop :=
  Forall wf_pblink (n_links n) /\ opt_all (fun d => blen d < u32_max1) (n_data n).
Definition wf_time (t : unixtime) : Prop :=
  t_secs t < u64_max1 /\ opt_all (fun n => n < u32_max1) (t_nanos t).
Definition wf_unixfs (u : unixfs) : Prop :=
  opt_all (fun d => blen d < u32_max1) (u_data u)
  /\ opt_all (fun t => t < u64_max1) (u_filesize u)
  /\ Forall (fun t => t < u64_max1) (u_blocksizes u)
  /\ opt_all (fun t => t < u64_max1) (u_hashtype u)
  /\ opt_all (fun t => t < u64_max1) (u_fanout u)
  /\ opt_all (fun t => t < u32_max1) (u_mode u)
  /\ opt_all wf_time (u_mtime u).
Definition wf_flat (f : flat) : Prop :=
  Forall wf_pblink (f_links f) /\ wf_unixfs (f_data f) /\ unixfs_size (f_data f) < u32_max1.

Lemma option_map_inv {A B} (f : A -> B) o y :
  option_map f o = Some y -> exists x, o = Some x /\ y = f x.
Proof. destruct o; cbn; intros [= <-]; eauto. Qed.

Ltac consume_field :=
  repeat match goal with
  | H : context [if ?c then _ else _] |- _ => destruct c
  | H : option_map _ _ = Some _ |- _ =>
      apply option_map_inv in H; let x := fresh "x" in destruct H as (x & H & ?)
  | x : _ * _ |- _ => destruct x
  | H : (_, _) = (_, _) |- _ => injection H as ? ?; subst
  | H : (match read_bytes ?x with _ => _ end) = Some _ |- _ =>
      destruct (read_bytes x) as [[? ?]|] eqn:?; [|discriminate]
  end;
  repeat match goal with
  | H : read_bytes _ = Some _ |- _ => apply read_bytes_consume in H
  | H : read_string _ = Some _ |- _ => apply read_string_consume in H
  | H : read_varint64 _ = Some _ |- _ => apply read_varint64_consume in H
  | H : read_varint32 _ = Some _ |- _ => apply read_varint32_consume in H
  | H : take_exact _ _ = Some _ |- _ => apply take_exact_consume in H
  | H : read_unknown _ _ = Some _ |- _ => apply read_unknown_consume in H
  end; try lia.

Lemma pblink_consuming : consuming pblink_field.
Proof. intros tag m bs m' r H. unfold pblink_field in H. consume_field. Qed.
Lemma pbnode_consuming : consuming pbnode_field.
Proof. intros tag m bs m' r H. unfold pbnode_field in H. consume_field. Qed.
Lemma unixtime_consuming : consuming unixtime_field.
Proof. intros tag m bs m' r H. unfold unixtime_field in H. consume_field. Qed.
Lemma unixfs_consuming : consuming unixfs_field.
Proof. intros tag m bs m' r H. unfold unixfs_field in H. destruct m. consume_field. Qed.

Ltac tag_ok := unfold u32_max1; lia.

Lemma w_bytes_assoc tag b r :
  w_bytes tag b ++ r = write_varint tag ++ (write_varint (blen b) ++ b) ++ r.
Proof. unfold w_bytes. rewrite <- !app_assoc. reflexivity. Qed.
Lemma w_uint_assoc tag b r :
  w_uint tag b ++ r = write_varint tag ++ write_varint b ++ r.
Proof. unfold w_uint. rewrite <- !app_assoc. reflexivity. Qed.
Lemma w_msg_assoc tag n b r :
  w_msg tag n b ++ r = write_varint tag ++ (write_varint n ++ b) ++ r.
Proof. unfold w_msg. rewrite <- !app_assoc. reflexivity. Qed.

(** ** PBLink *)

Lemma sizeof_len_ge n : n <= sizeof_len n.
Proof. unfold sizeof_len. lia. Qed.

Lemma wf_pblink_parts l :
  wf_pblink l ->
  opt_all (fun h => blen h < u32_max1) (l_hash l) /\ opt_all (fun h => blen h < u32_max1) (l_name l).
Proof.
  intros (Hs & _ & _). unfold pblink_size in Hs.
  destruct l as [[h|] [n|] t]; cbn [l_hash l_name l_tsize opt_all opt_size] in *;
    repeat match goal with
    | H : context [sizeof_len ?a] |- _ =>
        lazymatch goal with
        | _ : a <= sizeof_len a |- _ => fail
        | _ => pose proof (sizeof_len_ge a)
        end
    end; split; try exact I; lia.
Qed.

Lemma pblink_write_size l : wf_pblink l -> blen (pblink_write l) = pblink_size l.
Proof.
  intros H. pose proof (wf_pblink_parts l H) as [Hh Hn]. destruct H as (_ & _ & Ht).
  pose proof u32_u64.
  unfold pblink_write, pblink_size. destruct l as [[h|] [n|] [t|]];
    cbn [l_hash l_name l_tsize opt_all opt_size opt_write] in *;
    rewrite ?blen_app, ?blen_w_bytes, ?blen_w_uint by lia; change (blen (@nil N)) with 0; lia.
Qed.

Lemma pblink_roundtrip l : wf_pblink l -> pblink_read (pblink_write l) = Some l.
Proof.
  intros H. pose proof (wf_pblink_parts l H) as [Hh Hn]. destruct H as (_ & Hu & Ht).
  unfold pblink_read, pblink_write, pblink0. destruct l as [h n t].
  cbn [l_hash l_name l_tsize opt_all] in *.
  assert (S1 : read_message pblink_field (mk_pblink None None None)
                 (opt_write (w_bytes 10) h ++ opt_write (w_bytes 18) n ++ opt_write (w_uint 24) t)
               = read_message pblink_field (mk_pblink h None None)
                 (opt_write (w_bytes 18) n ++ opt_write (w_uint 24) t)).
  { destruct h as [h|]; cbn [opt_write app]; [|reflexivity].
    rewrite w_bytes_assoc.
    apply read_message_field; [apply pblink_consuming|tag_ok|].
    unfold pblink_field. cbn [N.eqb Pos.eqb]. rewrite read_bytes_w by exact Hh. reflexivity. }
  rewrite S1. clear S1.
  assert (S2 : read_message pblink_field (mk_pblink h None None)
                 (opt_write (w_bytes 18) n ++ opt_write (w_uint 24) t)
               = read_message pblink_field (mk_pblink h n None) (opt_write (w_uint 24) t)).
  { destruct n as [n|]; cbn [opt_write app]; [|reflexivity].
    rewrite w_bytes_assoc.
    apply read_message_field; [apply pblink_consuming|tag_ok|].
    unfold pblink_field. cbn [N.eqb Pos.eqb]. rewrite read_string_w by assumption. reflexivity. }
  rewrite S2. clear S2.
  destruct t as [t|]; cbn [opt_write]; [|reflexivity].
  rewrite <- (app_nil_r (w_uint 24 t)), w_uint_assoc.
  erewrite read_message_field; [apply read_message_nil|apply pblink_consuming|tag_ok|].
  unfold pblink_field. cbn [N.eqb Pos.eqb].
  rewrite read_write_varint64 by exact Ht. reflexivity.
Qed.

(** ** PBNode *)

Lemma pbnode_links_read ls acc d rest :
  Forall wf_pblink ls ->
  read_message pbnode_field (mk_pbnode acc d)
    (concat (map (fun l => w_msg 18 (pblink_size l) (pblink_write l)) ls) ++ rest)
  = read_message pbnode_field (mk_pbnode (acc ++ ls) d) rest.
Proof.
  intros H. revert acc. induction H as [|l ls Hl _ IH]; intros acc.
  - cbn. rewrite app_nil_r. reflexivity.
  - cbn [map concat]. rewrite <- app_assoc, w_msg_assoc.
    rewrite (read_message_field _ _ _ _ _ (mk_pbnode (acc ++ [l]) d));
      [|apply pbnode_consuming|tag_ok|].
    + rewrite IH, <- app_assoc. reflexivity.
    + unfold pbnode_field. cbn [N.eqb Pos.eqb].
      rewrite <- (pblink_write_size l Hl).
      rewrite read_bytes_w.
      * rewrite (pblink_roundtrip l Hl). reflexivity.
      * rewrite (pblink_write_size l Hl). apply Hl.
Qed.

Lemma pbnode_roundtrip n : wf_pbnode n -> pbnode_read (pbnode_write n) = Some n.
Proof.
  intros [Hl Hd]. destruct n as [ls d]. cbn [n_links n_data] in *.
  unfold pbnode_read, pbnode_write, pbnode0. cbn [n_links n_data].
  rewrite pbnode_links_read by exact Hl. cbn [app].
  destruct d as [d|]; cbn [opt_write]; [|reflexivity].
  rewrite <- (app_nil_r (w_bytes 10 d)), w_bytes_assoc.
  erewrite read_message_field; [apply read_message_nil|apply pbnode_consuming|tag_ok|].
  unfold pbnode_field. cbn [N.eqb Pos.eqb]. rewrite read_bytes_w by exact Hd. reflexivity.
Qed.

Lemma links_write_size ls :
  Forall wf_pblink ls ->
  blen (concat (map (fun l => w_msg 18 (pblink_size l) (pblink_write l)) ls))
  = sumN (map (fun l => 1 + sizeof_len (pblink_size l)) ls).
Proof.
  intros H. pose proof u32_u64. induction H as [|l ls Hl _ IH]; [reflexivity|].
  cbn [map concat sumN]. rewrite blen_app, IH.
  rewrite blen_w_msg; [reflexivity|lia| |apply pblink_write_size; exact Hl].
  destruct Hl as (? & _). lia.
Qed.

Lemma pbnode_write_size n : wf_pbnode n -> blen (pbnode_write n) = pbnode_size n.
Proof.
  intros [Hl Hd]. destruct n as [ls d]. cbn [n_links n_data] in *. pose proof u32_u64.
  unfold pbnode_write, pbnode_size. cbn [n_links n_data].
  rewrite blen_app, links_write_size by exact Hl.
  destruct d as [d|]; cbn [opt_write opt_size opt_all] in *; [|reflexivity].
  rewrite blen_w_bytes by lia. reflexivity.
Qed.

(** ** UnixTime and UnixFS data *)

Lemma unixtime_write_size t : wf_time t -> blen (unixtime_write t) = unixtime_size t.
Proof.
  intros [Hs Hn]. unfold unixtime_write, unixtime_size. rewrite blen_app, blen_w_uint by lia.
  destruct (t_nanos t) as [n|]; cbn [opt_write opt_size]; [|change (blen (@nil N)) with 0; lia].
  rewrite blen_app, blen_write_varint by (unfold u64_max1; lia).
  unfold blen at 1. rewrite le_bytes_length. cbn. lia.
Qed.

Lemma unixtime_roundtrip t : wf_time t -> unixtime_read (unixtime_write t) = Some t.
Proof.
  intros [Hs Hn]. destruct t as [s n]. cbn [t_secs t_nanos opt_all] in *.
  unfold unixtime_read, unixtime_write, unixtime0. cbn [t_secs t_nanos].
  rewrite w_uint_assoc.
  rewrite (read_message_field _ _ _ _ _ (mk_time s None)); [|apply unixtime_consuming|tag_ok|].
  2:{ unfold unixtime_field. cbn [N.eqb Pos.eqb]. rewrite read_write_varint64 by exact Hs. reflexivity. }
  destruct n as [n|]; cbn [opt_write]; [|reflexivity].
  rewrite <- (app_nil_r (le_bytes 4 n)).
  erewrite read_message_field; [apply read_message_nil|apply unixtime_consuming|tag_ok|].
  unfold unixtime_field. cbn [N.eqb Pos.eqb].
  rewrite take_exact_app by apply le_bytes_length. cbn [option_map].
  rewrite le_val_bytes by exact Hn. reflexivity.
Qed.

Lemma dtype_of_n t : dtype_of (dtype_n t) = t.
Proof. destruct t; reflexivity. Qed.

Lemma dtype_n_small t : dtype_n t <= 5.
Proof. destruct t; cbn [dtype_n]; lia. Qed.

Lemma unixtime_size_small t : unixtime_size t <= 16.
Proof.
  unfold unixtime_size. pose proof (sizeof_varint_le (t_secs t)).
  destruct (t_nanos t); cbn [opt_size]; lia.
Qed.

Lemma blocksizes_read ty da fs acc ht fo mo mt l rest :
  Forall (fun t => t < u64_max1) l ->
  read_message unixfs_field (mk_unixfs ty da fs acc ht fo mo mt) (concat (map (w_uint 32) l) ++ rest)
  = read_message unixfs_field (mk_unixfs ty da fs (acc ++ l) ht fo mo mt) rest.
Proof.
  intros H. revert acc. induction H as [|x l Hx _ IH]; intros acc.
  - cbn. rewrite app_nil_r. reflexivity.
  - cbn [map concat]. rewrite <- app_assoc, w_uint_assoc.
    rewrite (read_message_field _ _ _ _ _ (mk_unixfs ty da fs (acc ++ [x]) ht fo mo mt));
      [|apply unixfs_consuming|tag_ok|].
    + rewrite IH, <- app_assoc. reflexivity.
    + unfold unixfs_field. cbn [N.eqb Pos.eqb]. rewrite read_write_varint64 by exact Hx. reflexivity.
Qed.

Lemma unixfs_roundtrip u : wf_unixfs u -> unixfs_read (unixfs_write u) = Some u.
Proof.
  destruct u as [ty da fs bl ht fo mo mt]. unfold wf_unixfs.
  cbn [u_type u_data u_filesize u_blocksizes u_hashtype u_fanout u_mode u_mtime].
  intros (Hda & Hfs & Hbl & Hht & Hfo & Hmo & Hmt).
  unfold unixfs_read, unixfs_write, unixfs0.
  cbn [u_type u_data u_filesize u_blocksizes u_hashtype u_fanout u_mode u_mtime].
  (* type *)
  rewrite w_uint_assoc.
  rewrite (read_message_field _ _ _ _ _ (mk_unixfs ty None None [] None None None None));
    [|apply unixfs_consuming|tag_ok|].
  2:{ unfold unixfs_field. cbn [N.eqb Pos.eqb].
      rewrite read_write_varint32 by (pose proof (dtype_n_small ty); unfold u32_max1; lia).
      cbn [option_map]. rewrite dtype_of_n. reflexivity. }
  (* data *)
  match goal with |- read_message _ _ (opt_write (w_bytes 18) da ++ ?r) = _ =>
    replace (read_message unixfs_field (mk_unixfs ty None None [] None None None None)
               (opt_write (w_bytes 18) da ++ r))
      with (read_message unixfs_field (mk_unixfs ty da None [] None None None None) r) end.
  2:{ symmetry. destruct da as [da|]; cbn [opt_write app]; [|reflexivity].
      rewrite w_bytes_assoc. apply read_message_field; [apply unixfs_consuming|tag_ok|].
      unfold unixfs_field. cbn [N.eqb Pos.eqb]. rewrite read_bytes_w by exact Hda. reflexivity. }
  (* filesize *)
  match goal with |- read_message _ _ (opt_write (w_uint 24) fs ++ ?r) = _ =>
    replace (read_message unixfs_field (mk_unixfs ty da None [] None None None None)
               (opt_write (w_uint 24) fs ++ r))
      with (read_message unixfs_field (mk_unixfs ty da fs [] None None None None) r) end.
  2:{ symmetry. destruct fs as [fs|]; cbn [opt_write app]; [|reflexivity].
      rewrite w_uint_assoc. apply read_message_field; [apply unixfs_consuming|tag_ok|].
      unfold unixfs_field. cbn [N.eqb Pos.eqb]. rewrite read_write_varint64 by exact Hfs. reflexivity. }
  rewrite blocksizes_read by exact Hbl. cbn [app].
  match goal with |- read_message _ _ (opt_write (w_uint 40) ht ++ ?r) = _ =>
    replace (read_message unixfs_field (mk_unixfs ty da fs bl None None None None)
               (opt_write (w_uint 40) ht ++ r))
      with (read_message unixfs_field (mk_unixfs ty da fs bl ht None None None) r) end.
  2:{ symmetry. destruct ht as [ht|]; cbn [opt_write app]; [|reflexivity].
      rewrite w_uint_assoc. apply read_message_field; [apply unixfs_consuming|tag_ok|].
      unfold unixfs_field. cbn [N.eqb Pos.eqb]. rewrite read_write_varint64 by exact Hht. reflexivity. }
  match goal with |- read_message _ _ (opt_write (w_uint 48) fo ++ ?r) = _ =>
    replace (read_message unixfs_field (mk_unixfs ty da fs bl ht None None None)
               (opt_write (w_uint 48) fo ++ r))
      with (read_message unixfs_field (mk_unixfs ty da fs bl ht fo None None) r) end.
  2:{ symmetry. destruct fo as [fo|]; cbn [opt_write app]; [|reflexivity].
      rewrite w_uint_assoc. apply read_message_field; [apply unixfs_consuming|tag_ok|].
      unfold unixfs_field. cbn [N.eqb Pos.eqb]. rewrite read_write_varint64 by exact Hfo. reflexivity. }
  match goal with |- read_message _ _ (opt_write (w_uint 56) mo ++ ?r) = _ =>
    replace (read_message unixfs_field (mk_unixfs ty da fs bl ht fo None None)
               (opt_write (w_uint 56) mo ++ r))
      with (read_message unixfs_field (mk_unixfs ty da fs bl ht fo mo None) r) end.
  2:{ symmetry. destruct mo as [mo|]; cbn [opt_write app]; [|reflexivity].
      rewrite w_uint_assoc. apply read_message_field; [apply unixfs_consuming|tag_ok|].
      unfold unixfs_field. cbn [N.eqb Pos.eqb]. rewrite read_write_varint32 by exact Hmo. reflexivity. }
  destruct mt as [mt|]; cbn [opt_write]; [|reflexivity].
  match goal with |- context [w_msg 66 ?n ?b] =>
    rewrite <- (app_nil_r (w_msg 66 n b)), w_msg_assoc end.
  erewrite read_message_field; [apply read_message_nil|apply unixfs_consuming|tag_ok|].
  unfold unixfs_field. cbn [N.eqb Pos.eqb].
  rewrite <- (unixtime_write_size mt Hmt).
  rewrite read_bytes_w.
  - rewrite (unixtime_roundtrip mt Hmt). reflexivity.
  - rewrite (unixtime_write_size mt Hmt). pose proof (unixtime_size_small mt). unfold u32_max1. lia.
Qed.

Lemma blocksizes_write_size l :
  Forall (fun t => t < u64_max1) l ->
  blen (concat (map (w_uint 32) l)) = sumN (map (fun s => 1 + sizeof_varint s) l).
Proof.
  intros H. induction H as [|x l Hx _ IH]; [reflexivity|].
  cbn [map concat sumN]. rewrite blen_app, IH, blen_w_uint by lia. reflexivity.
Qed.

Lemma opt_w_uint_size tag o :
  tag <= 127 -> opt_all (fun t => t < u64_max1) o ->
  blen (opt_write (w_uint tag) o) = opt_size sizeof_varint o.
Proof. destruct o; cbn; intros; [apply blen_w_uint; assumption|reflexivity]. Qed.

Lemma opt_w_bytes_size tag o :
  tag <= 127 -> opt_all (fun d : bytes => blen d < u32_max1) o ->
  blen (opt_write (w_bytes tag) o) = opt_size (fun h => sizeof_len (blen h)) o.
Proof.
  pose proof u32_u64. destruct o; cbn; intros; [apply blen_w_bytes; [assumption|lia]|reflexivity].
Qed.

Lemma unixfs_write_size u : wf_unixfs u -> blen (unixfs_write u) = unixfs_size u.
Proof.
  intros (Hda & Hfs & Hbl & Hht & Hfo & Hmo & Hmt). unfold unixfs_write, unixfs_size.
  pose proof u32_u64. pose proof (dtype_n_small (u_type u)).
  assert (opt_all (fun t => t < u64_max1) (u_mode u)) by (destruct (u_mode u); cbn in *; lia).
  rewrite !blen_app, blen_w_uint, opt_w_bytes_size, !opt_w_uint_size, blocksizes_write_size
    by (assumption || (unfold u64_max1; lia)).
  assert (blen (opt_write (fun t => w_msg 66 (unixtime_size t) (unixtime_write t)) (u_mtime u))
          = opt_size (fun t => sizeof_len (unixtime_size t)) (u_mtime u)) as ->.
  { destruct (u_mtime u) as [t|]; cbn [opt_write opt_size opt_all] in *; [|reflexivity].
    apply blen_w_msg; [lia| |apply unixtime_write_size; exact Hmt].
    pose proof (unixtime_size_small t). unfold u64_max1. lia. }
  lia.
Qed.

Lemma unixfs_write_nonempty u : exists b d, unixfs_write u = b :: d.
Proof.
  unfold unixfs_write, w_uint. pose proof (write_varint_nonempty 8).
  destruct (write_varint 8) as [|b l]; [congruence|]. cbn. eauto.
Qed.

(** ** Flat *)

Lemma flat_node_read f :
  wf_flat f ->
  pbnode_read (flat_write f) = Some (mk_pbnode (f_links f) (Some (unixfs_write (f_data f)))).
Proof.
  intros (Hl & Hu & Hs). unfold pbnode_read, flat_write, pbnode0.
  rewrite pbnode_links_read by exact Hl. cbn [app].
  match goal with |- context [w_msg 10 ?n ?b] =>
    rewrite <- (app_nil_r (w_msg 10 n b)), w_msg_assoc end.
  erewrite read_message_field; [apply read_message_nil|apply pbnode_consuming|tag_ok|].
  unfold pbnode_field. cbn [N.eqb Pos.eqb].
  rewrite <- (unixfs_write_size _ Hu), read_bytes_w by (rewrite (unixfs_write_size _ Hu); exact Hs).
  reflexivity.
Qed.

Lemma flat_roundtrip f : wf_flat f -> flat_parse (flat_write f) = inl f.
Proof.
  intros H. pose proof (flat_node_read f H) as Hn. destruct H as (Hl & Hu & Hs).
  unfold flat_parse. rewrite Hn. cbn [n_data n_links].
  destruct (unixfs_write_nonempty (f_data f)) as (b & d & E). rewrite E. rewrite <- E.
  rewrite (unixfs_roundtrip _ Hu). destruct f; reflexivity.
Qed.

Lemma flat_write_size f : wf_flat f -> blen (flat_write f) = flat_size f.
Proof.
  intros (Hl & Hu & Hs). unfold flat_write, flat_size. pose proof u32_u64.
  rewrite blen_app, links_write_size by exact Hl.
  rewrite blen_w_msg; [reflexivity|lia|lia|apply unixfs_write_size; exact Hu].
Qed.
