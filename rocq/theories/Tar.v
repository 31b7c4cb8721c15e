(** The archive of /get: http/src/v0/root_files/tar_helper.rs and [walk] in
    http/src/v0/root_files.rs l.128-208.  Definitions only.

    The header fields are written by the tar crate (0.4, [Header::set_path], [set_size], …), modelled
    here because the archive consists of them; the crate is not part of /repo. *)
From Verif Require Import Base Wire Cid Pb FileVisit IpfsPath StdPath Walk.
Local Open Scope N_scope.

(** * The tar crate *)

(** A gnu header: the fields which are ever written; the others are constant. *)
Record header := mk_header {
  h_name : bytes; h_mode : bytes; h_uid : bytes; h_gid : bytes; h_size : bytes; h_mtime : bytes; h_cksum : bytes;
  h_type : N; h_link : bytes }.
Definition zeros (n : nat) : bytes := repeat 0 n.
(** "ustar  " and a zero. *)
Definition gnu_magic : bytes := [117; 115; 116; 97; 114; 32; 32; 0].
Definition header_bytes (h : header) : bytes :=
  h_name h ++ h_mode h ++ h_uid h ++ h_gid h ++ h_size h ++ h_mtime h ++ h_cksum h ++ [h_type h] ++ h_link h ++ gnu_magic ++ zeros 247.

(** [octal_into]: octal digits into all but the last byte, which stays. *)
Definition octal_into (dst : bytes) (v : N) : bytes :=
  let k := (length dst - 1)%nat in
  map (fun i => 48 + (v / 8 ^ N.of_nat i) mod 8) (rev (seq 0 k)) ++ skipn k dst.
(** [numeric_extended_into]: big endian with the first bit set. *)
Definition extended_into (dst : bytes) (v : N) : bytes :=
  match zeros (length dst - 8) ++ map (fun i => (v / 256 ^ N.of_nat i) mod 256) (rev (seq 0 8)) with
  | [] => []
  | b :: r => N.lor b 128 :: r
  end.
(** [num_field_wrapper_into]. *)
Definition num_into (dst : bytes) (v : N) : bytes :=
  if (8589934592 <=? v) || ((2097152 <=? v) && (length dst =? 8)%nat) then extended_into dst v else octal_into dst v.

(** [copy_into]: at a position of the field; a zero follows if there is room.  [None] for an error,
    which changes nothing. *)
Definition put (slot : bytes) (pos : nat) (b : bytes) : option bytes :=
  if (length slot <? pos + length b)%nat || existsb (N.eqb 0) b then None
  else
    let b := b ++ (if (pos + length b <? length slot)%nat then [0] else []) in
    Some (firstn pos slot ++ b ++ skipn (pos + length b) slot).
Definition ends_with_slash (p : bytes) : bool := match rev p with c :: _ => c =? 47 | [] => false end.

(** The loop of [copy_path_into] over the components; [alone]: there is just one component.  The field
    afterwards, and the position reached unless there was an error; [emitted] is [Some]. *)
Fixpoint copy_comps (link alone : bool) (l : list bytes) (slash : bool) (slot : bytes) (pos : nat) (emitted : bool) : bytes * option (nat * bool) :=
  match l with
  | [] => (slot, Some (pos, emitted))
  | c :: l =>
      if negb link && beq c [46; 46] then (slot, None)
      else if negb link && beq c [46] && negb alone then copy_comps link alone l slash slot pos emitted
      else
        match (if slash then put slot pos [47] else Some slot) with
        | None => (slot, None)
        | Some slot =>
            let pos := if slash then S pos else pos in
            match put slot pos c with
            | None => (slot, None)
            | Some slot => copy_comps link alone l true slot (pos + length c) true
            end
        end
  end.
(** [copy_path_into]: the field afterwards and whether it succeeded. *)
Definition copy_path (link : bool) (slot p : bytes) : bytes * bool :=
  let l := comps p in
  let start :=
    if is_absolute p then
      if link then match put slot 0 [47] with Some slot => (slot, Some (1%nat, true)) | None => (slot, None) end else (slot, None)
    else (slot, Some (0%nat, false)) in
  match start with
  | (slot, None) => (slot, false)
  | (slot, Some (pos, emitted)) =>
      match copy_comps link (negb (is_absolute p) && (length l =? 1)%nat) l false slot pos emitted with
      | (slot, None) => (slot, false)
      | (slot, Some (pos, emitted)) =>
          if negb emitted then (slot, false)
          else if ends_with_slash p then match put slot pos [47] with Some slot => (slot, true) | None => (slot, false) end
          else (slot, true)
      end
  end.

Definition set_name (h : header) (v : bytes) : header := mk_header v (h_mode h) (h_uid h) (h_gid h) (h_size h) (h_mtime h) (h_cksum h) (h_type h) (h_link h).
Definition set_link (h : header) (v : bytes) : header := mk_header (h_name h) (h_mode h) (h_uid h) (h_gid h) (h_size h) (h_mtime h) (h_cksum h) (h_type h) v.
Definition set_type (h : header) (v : N) : header := mk_header (h_name h) (h_mode h) (h_uid h) (h_gid h) (h_size h) (h_mtime h) (h_cksum h) v (h_link h).
Definition set_mode (h : header) (v : N) : header := mk_header (h_name h) (octal_into (h_mode h) v) (h_uid h) (h_gid h) (h_size h) (h_mtime h) (h_cksum h) (h_type h) (h_link h).
Definition set_size (h : header) (v : N) : header := mk_header (h_name h) (h_mode h) (h_uid h) (h_gid h) (num_into (h_size h) v) (h_mtime h) (h_cksum h) (h_type h) (h_link h).
Definition set_mtime (h : header) (v : N) : header := mk_header (h_name h) (h_mode h) (h_uid h) (h_gid h) (h_size h) (num_into (h_mtime h) v) (h_cksum h) (h_type h) (h_link h).
Definition set_ids (h : header) (v : N) : header := mk_header (h_name h) (h_mode h) (num_into (h_uid h) v) (num_into (h_gid h) v) (h_size h) (h_mtime h) (h_cksum h) (h_type h) (h_link h).
(** [calculate_cksum], [set_cksum]: the field itself counts as spaces. *)
Definition total (b : bytes) : N := fold_right N.add 0 b.
Definition set_cksum (h : header) : header :=
  let b := header_bytes h in
  mk_header (h_name h) (h_mode h) (h_uid h) (h_gid h) (h_size h) (h_mtime h)
    (octal_into (h_cksum h) (total (firstn 148 b) + 256 + total (skipn 156 b))) (h_type h) (h_link h).
(** [Header::new_gnu]. *)
Definition new_gnu : header :=
  set_mtime (mk_header (zeros 100) (zeros 8) (zeros 8) (zeros 8) (zeros 12) (zeros 12) (zeros 8) 0 (zeros 100)) 0.

(** * tar_helper.rs *)

(** l.49-83, and [TarHelper] l.18-24 without its buffers, which are always emptied. *)
Definition default_header : header := set_ids (set_mtime new_gnu 0) 0.
(** "././@LongLink". *)
Definition long_link : bytes := [46; 47; 46; 47; 64; 76; 111; 110; 103; 76; 105; 110; 107].
Definition long_header : header := set_ids (set_mtime (set_name (set_mode new_gnu 420) (long_link ++ zeros 87)) 0) 0.
Record helper := mk_helper { t_header : header; t_long : header }.
Definition helper_new : helper := mk_helper default_header long_header.

Inductive get_err := NonUtf8Symlink | InvalidFileName (b : bytes) | InvalidLinkName (b : bytes).

(** l.211-219: at most 511 zeros. *)
Definition pad (size : N) : list bytes :=
  let padding := 512 - size mod 512 in
  if padding <? 512 then [zeros (N.to_nat padding)] else [].
(** l.221-241; seconds from 2^63 are the negative ones. *)
Definition set_metadata (h : header) (m : metadata) (default : N) : header :=
  set_mtime (set_mode h (match m_mode m with Some mode => N.land mode 4095 | None => default end))
    (match m_mtime m with Some u => if t_secs u <? 2 ^ 63 then t_secs u else 0 | None => 0 end).

(** The "long name" entries: l.93-103 and the same in the other two, with l.245-318
    [prepare_long_header]; [Panic] is the [expect] of l.313-315. *)
Definition apply_name (t : helper) (p : bytes) : outcome (helper * list bytes) get_err :=
  match copy_path false (h_name (t_header t)) p with
  | (name, true) => Ok (mk_helper (set_name (t_header t) name) (t_long t), [])
  | (name, false) =>
      if (length p <? 100)%nat then Err (InvalidFileName p)
      else
        let l := set_cksum (set_type (set_size (t_long t) (blen p + 1)) 76) in
        match copy_path false name (firstn 100 p) with
        | (_, false) => Panic
        | (name, true) => Ok (mk_helper (set_name (t_header t) name) l, (header_bytes l ++ p ++ [0]) :: pad (blen p + 1))
        end
  end.

(** The header of the entry itself, l.105-112, l.145-152, l.200-206. *)
Definition finish (t : helper) (type size : N) (m : metadata) (default : N) : helper * bytes :=
  let h := set_cksum (set_metadata (set_type (set_size (t_header t) size) type) m default) in
  (mk_helper h (t_long t), header_bytes h).

(** l.85-114. *)
Definition apply_file (t : helper) (p : bytes) (m : metadata) (size : N) : outcome (helper * list bytes) get_err :=
  match apply_name t p with
  | Ok (t, l) => let (t, b) := finish t 48 size m 420 in Ok (t, l ++ [b])
  | Err e => Err e
  | Panic => Panic
  end.
(** l.127-155. *)
Definition apply_directory (t : helper) (p : bytes) (m : metadata) : outcome (helper * list bytes) get_err :=
  match apply_name t p with
  | Ok (t, l) => let (t, b) := finish t 53 0 m 493 in Ok (t, l ++ [b])
  | Err e => Err e
  | Panic => Panic
  end.
(** l.157-209. *)
Definition apply_symlink (t : helper) (p target : bytes) (m : metadata) : outcome (helper * list bytes) get_err :=
  match apply_name t p with
  | Ok (t, l) =>
      match copy_path true (h_link (t_header t)) target with
      | (link, true) =>
          let (t, b) := finish (mk_helper (set_link (t_header t) link) (t_long t)) 50 0 m 420 in Ok (t, l ++ [b])
      | (link, false) =>
          if (length target <? 100)%nat then Err (InvalidLinkName target)
          else
            let k := set_cksum (set_type (set_size (t_long t) (blen target + 1)) 75) in
            let (t, b) := finish (mk_helper (set_link (t_header t) link) k) 50 0 m 420 in
            Ok (t, l ++ (header_bytes k ++ target ++ [0]) :: pad (blen target + 1) ++ [b])
      end
  | Err e => Err e
  | Panic => Panic
  end.

(** l.116-125 with the loop of root_files.rs l.171-179: pieces of at most 16 KiB. *)
Definition bufsize : nat := N.to_nat 16384.
Fixpoint pieces (fuel : nat) (b : bytes) : list bytes :=
  match fuel, b with
  | S fuel, _ :: _ => firstn bufsize b :: pieces fuel (skipn bufsize b)
  | _, _ => []
  end.

(** * root_files.rs *)

(** The body of the loop, l.156-205, for one report of the walker: what is yielded. *)
Definition put_walked (t : helper) (o : walked) : outcome (helper * list bytes) get_err :=
  match o with
  | OBucket _ _ => Ok (t, [])
  | OFile seg first last _ p m size =>
      match (if first then apply_file t p m size else Ok (t, [])) with
      | Ok (t, l) => Ok (t, l ++ pieces (length seg) seg ++ (if last then pad size else []))
      | Err e => Err e
      | Panic => Panic
      end
  | ODirectory _ p m | ORootDirectory _ p m => apply_directory t p m
  | OSymlink target _ p m => if utf8 target then apply_symlink t p target m else Err NonUtf8Symlink
  end.
Inductive tar_end := TarDone | TarFailed (e : get_err) | TarPanicked.
Fixpoint tar (t : helper) (os : list walked) : list bytes * tar_end :=
  match os with
  | [] => ([], TarDone)
  | o :: os =>
      match put_walked t o with
      | Ok (t, l) => let (r, e) := tar t os in (l ++ r, e)
      | Err e => ([], TarFailed e)
      | Panic => ([], TarPanicked)
      end
  end.
(** l.128-208: the walk of the tree named by its cid, and the archive of what it shows. *)
Inductive get_end := Archived (e : tar_end) | Walked (e : walk_end).
Definition get_stream (dbg : bool) (fuel : nat) (get : cid -> option bytes) (root : cid) (name : bytes) : list bytes * get_end :=
  let (os, e) := walk dbg fuel get (walker_new root name) in
  let (l, te) := tar helper_new os in
  (l, match te, e with TarDone, e => Walked e | te, _ => Archived te end).
