(** Dag-pb and UnixFS messages: unixfs/src/pb/merkledag.rs, unixfs/src/pb/unixfs.rs and
    unixfs/src/pb.rs.  Definitions only. *)
From Verif Require Import Base Wire.
Local Open Scope N_scope.

(** unixfs/src/pb/merkledag.rs:18-23 [PBLink]; [Cow] becomes the bytes themselves. *)
Record pblink := mk_pblink { l_hash : option bytes; l_name : option bytes; l_tsize : option N }.
Definition pblink0 : pblink := mk_pblink None None None.

(** merkledag.rs:24-40 [PBLink::from_reader]: one field. *)
Definition pblink_field (tag : N) (m : pblink) (r : bytes) : option (pblink * bytes) :=
  if tag =? 10 then
    option_map (fun '(v, r') => (mk_pblink (Some v) (l_name m) (l_tsize m), r')) (read_bytes r)
  else if tag =? 18 then
    option_map (fun '(v, r') => (mk_pblink (l_hash m) (Some v) (l_tsize m), r')) (read_string r)
  else if tag =? 24 then
    option_map (fun '(v, r') => (mk_pblink (l_hash m) (l_name m) (Some v), r')) (read_varint64 r)
  else option_map (fun r' => (m, r')) (read_unknown tag r).
Definition pblink_read (bs : bytes) : option pblink := read_message pblink_field pblink0 bs.

Definition opt_size {A} (f : A -> N) (o : option A) : N :=
  match o with Some x => 1 + f x | None => 0 end.
Definition opt_write {A} (f : A -> bytes) (o : option A) : bytes :=
  match o with Some x => f x | None => [] end.

(** merkledag.rs:42-49 [PBLink::get_size]. *)
Definition pblink_size (m : pblink) : N :=
  opt_size (fun h => sizeof_len (blen h)) (l_hash m)
  + opt_size (fun h => sizeof_len (blen h)) (l_name m)
  + opt_size sizeof_varint (l_tsize m).
(** merkledag.rs:50-61 [PBLink::write_message]. *)
Definition pblink_write (m : pblink) : bytes :=
  opt_write (w_bytes 10) (l_hash m) ++ opt_write (w_bytes 18) (l_name m)
  ++ opt_write (w_uint 24) (l_tsize m).

(** merkledag.rs:63-67 [PBNode]. *)
Record pbnode := mk_pbnode { n_links : list pblink; n_data : option bytes }.
Definition pbnode0 : pbnode := mk_pbnode [] None.

(** merkledag.rs:68-83 [PBNode::from_reader]: one field. *)
Definition pbnode_field (tag : N) (m : pbnode) (r : bytes) : option (pbnode * bytes) :=
  if tag =? 18 then
    match read_bytes r with
    | Some (v, r') =>
        option_map (fun l => (mk_pbnode (n_links m ++ [l]) (n_data m), r')) (pblink_read v)
    | None => None
    end
  else if tag =? 10 then
    option_map (fun '(v, r') => (mk_pbnode (n_links m) (Some v), r')) (read_bytes r)
  else option_map (fun r' => (m, r')) (read_unknown tag r).
Definition pbnode_read (bs : bytes) : option pbnode := read_message pbnode_field pbnode0 bs.

(** merkledag.rs:85-92 [PBNode::get_size]. *)
Definition pbnode_size (m : pbnode) : N :=
  sumN (map (fun l => 1 + sizeof_len (pblink_size l)) (n_links m))
  + opt_size (fun h => sizeof_len (blen h)) (n_data m).
(** merkledag.rs:93-101 [PBNode::write_message]. *)
Definition pbnode_write (m : pbnode) : bytes :=
  concat (map (fun l => w_msg 18 (pblink_size l) (pblink_write l)) (n_links m))
  ++ opt_write (w_bytes 10) (n_data m).

(** unixfs/src/pb/unixfs.rs:111-136 [DataType] and its conversions from and to [i32]. *)
Inductive dtype := TRaw | TDirectory | TFile | TMetadata | TSymlink | THAMTShard.
Definition dtype_of (n : N) : dtype :=
  if n =? 0 then TRaw else if n =? 1 then TDirectory else if n =? 2 then TFile else
  if n =? 3 then TMetadata else if n =? 4 then TSymlink else if n =? 5 then THAMTShard else TRaw.
Definition dtype_n (t : dtype) : N :=
  match t with TRaw => 0 | TDirectory => 1 | TFile => 2 | TMetadata => 3 | TSymlink => 4
             | THAMTShard => 5 end.
Definition dtype_eqb (a b : dtype) : bool := dtype_n a =? dtype_n b.

(** unixfs.rs [UnixTime]: the seconds ([i64]) are kept as their 64-bit two's complement pattern. *)
Record unixtime := mk_time { t_secs : N; t_nanos : option N }.
Definition unixtime0 : unixtime := mk_time 0 None.
Definition unixtime_field (tag : N) (m : unixtime) (r : bytes) : option (unixtime * bytes) :=
  if tag =? 8 then
    option_map (fun '(v, r') => (mk_time v (t_nanos m), r')) (read_varint64 r)
  else if tag =? 21 then
    option_map (fun '(v, r') => (mk_time (t_secs m) (Some (le_val v)), r')) (take_exact 4 r)
  else option_map (fun r' => (m, r')) (read_unknown tag r).
Definition unixtime_read (bs : bytes) : option unixtime := read_message unixtime_field unixtime0 bs.
Definition unixtime_size (m : unixtime) : N :=
  1 + sizeof_varint (t_secs m) + opt_size (fun _ => 4) (t_nanos m).
Definition unixtime_write (m : unixtime) : bytes :=
  w_uint 8 (t_secs m) ++ opt_write (fun v => write_varint 21 ++ le_bytes 4 v) (t_nanos m).

(** unixfs.rs:19-29 [Data], aliased [UnixFs] in pb.rs:12. *)
Record unixfs := mk_unixfs {
  u_type : dtype; u_data : option bytes; u_filesize : option N; u_blocksizes : list N;
  u_hashtype : option N; u_fanout : option N; u_mode : option N; u_mtime : option unixtime }.
Definition unixfs0 : unixfs := mk_unixfs TRaw None None [] None None None None.

(** unixfs.rs:30-51 [Data::from_reader]: one field. *)
Definition unixfs_field (tag : N) (m : unixfs) (r : bytes) : option (unixfs * bytes) :=
  let '(mk_unixfs ty da fs bl ht fo mo mt) := m in
  if tag =? 8 then
    option_map (fun '(v, r') => (mk_unixfs (dtype_of v) da fs bl ht fo mo mt, r')) (read_varint32 r)
  else if tag =? 18 then
    option_map (fun '(v, r') => (mk_unixfs ty (Some v) fs bl ht fo mo mt, r')) (read_bytes r)
  else if tag =? 24 then
    option_map (fun '(v, r') => (mk_unixfs ty da (Some v) bl ht fo mo mt, r')) (read_varint64 r)
  else if tag =? 32 then
    option_map (fun '(v, r') => (mk_unixfs ty da fs (bl ++ [v]) ht fo mo mt, r')) (read_varint64 r)
  else if tag =? 40 then
    option_map (fun '(v, r') => (mk_unixfs ty da fs bl (Some v) fo mo mt, r')) (read_varint64 r)
  else if tag =? 48 then
    option_map (fun '(v, r') => (mk_unixfs ty da fs bl ht (Some v) mo mt, r')) (read_varint64 r)
  else if tag =? 56 then
    option_map (fun '(v, r') => (mk_unixfs ty da fs bl ht fo (Some v) mt, r')) (read_varint32 r)
  else if tag =? 66 then
    match read_bytes r with
    | Some (v, r') =>
        option_map (fun t => (mk_unixfs ty da fs bl ht fo mo (Some t), r')) (unixtime_read v)
    | None => None
    end
  else option_map (fun r' => (m, r')) (read_unknown tag r).
Definition unixfs_read (bs : bytes) : option unixfs := read_message unixfs_field unixfs0 bs.

(** unixfs.rs:53-82 [Data::get_size]. *)
Definition unixfs_size (m : unixfs) : N :=
  1 + sizeof_varint (dtype_n (u_type m))
  + opt_size (fun h => sizeof_len (blen h)) (u_data m)
  + opt_size sizeof_varint (u_filesize m)
  + sumN (map (fun s => 1 + sizeof_varint s) (u_blocksizes m))
  + opt_size sizeof_varint (u_hashtype m)
  + opt_size sizeof_varint (u_fanout m)
  + opt_size sizeof_varint (u_mode m)
  + opt_size (fun t => sizeof_len (unixtime_size t)) (u_mtime m).
(** unixfs.rs:83-107 [Data::write_message]. *)
Definition unixfs_write (m : unixfs) : bytes :=
  w_uint 8 (dtype_n (u_type m))
  ++ opt_write (w_bytes 18) (u_data m)
  ++ opt_write (w_uint 24) (u_filesize m)
  ++ concat (map (w_uint 32) (u_blocksizes m))
  ++ opt_write (w_uint 40) (u_hashtype m)
  ++ opt_write (w_uint 48) (u_fanout m)
  ++ opt_write (w_uint 56) (u_mode m)
  ++ opt_write (fun t => w_msg 66 (unixtime_size t) (unixtime_write t)) (u_mtime m).

(** pb.rs:79-83 [FlatUnixFs]. *)
Record flat := mk_flat { f_links : list pblink; f_data : unixfs }.
(** pb.rs:86-97 [FlatUnixFs::get_size]. *)
Definition flat_size (m : flat) : N :=
  sumN (map (fun l => 1 + sizeof_len (pblink_size l)) (f_links m))
  + (1 + sizeof_len (unixfs_size (f_data m))).
(** pb.rs:99-112 [FlatUnixFs::write_message]. *)
Definition flat_write (m : flat) : bytes :=
  concat (map (fun l => w_msg 18 (pblink_size l) (pblink_write l)) (f_links m))
  ++ w_msg 10 (unixfs_size (f_data m)) (unixfs_write (f_data m)).

(** pb.rs:16-21 [ParsingFailed]. *)
Inductive parse_failed :=
| InvalidDagPb
| NoData (n : pbnode)
| InvalidUnixFs (n : pbnode).
(** pb.rs:121-142 [FlatUnixFs::try_from]: the outer node, then its non-empty [Data]. *)
Definition flat_parse (bs : bytes) : flat + parse_failed :=
  match pbnode_read bs with
  | None => inr InvalidDagPb
  | Some node =>
      match n_data node with
      | Some (b :: d) =>
          match unixfs_read (b :: d) with
          | Some u => inl (mk_flat (n_links node) u)
          | None => inr (InvalidUnixFs node)
          end
      | Some [] | None => inr (NoData node)
      end
  end.
