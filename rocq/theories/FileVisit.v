(** Reading UnixFS files: unixfs/src/file/reader.rs and unixfs/src/file/visit.rs.
    Definitions only.

    [u64] additions that can overflow (reader.rs:137,140, pb.rs:181-182) are modelled with an
    explicit panic ([overflow checks] on, as in debug builds and the test suite). *)
From Verif Require Import Base Wire Cid Pb.
Local Open Scope N_scope.

(** unixfs/src/file.rs:73-104 [FileError] and file.rs:22-33 [FileReadFailed]. *)
Inductive file_error :=
| LinksAndBlocksizesMismatch
| NoLinksNoContent
| NonRootDefinesMetadata
| IntermediateNodeWithoutFileSize
| TreeExpandsOnLinks
| TreeOverlapsBetweenLinks
| EarlierLink
| TreeJumpsBetweenLinks
| UnexpectedRawOrFileProperties
| UnexpectedType (t : dtype)
| ReadFailed
| InvalidCidInLink (nth : nat).

Notation vres A := (outcome A file_error).

(** unixfs/src/lib.rs [Metadata]: mode and mtime of the root. *)
Record metadata := mk_meta { m_mode : option N; m_mtime : option unixtime }.
Definition meta_of (u : unixfs) : metadata := mk_meta (u_mode u) (u_mtime u).

(** Half-open ranges of file offsets ([Range<u64>]). *)
Record range := mk_range { r_start : N; r_end : N }.

(** reader.rs:38-43 [Ending]. *)
Inductive ending := TreeCoverage (e : N) | Chunk (e : N).

(** reader.rs:47-71 [check_is_suitable_next]. *)
Definition check_next (e : ending) (offset : N) (next : range) : option file_error :=
  match e with
  | TreeCoverage c =>
      if (r_start next <=? offset) && (c <? r_end next) then Some TreeExpandsOnLinks else
      if (r_start next <? c) && (c <? r_end next) then Some TreeOverlapsBetweenLinks else
      if r_start next <? offset then Some EarlierLink else None
  | Chunk c => if r_start next =? c then None else Some TreeJumpsBetweenLinks
  end.

(** [u64] addition with overflow check. *)
Definition add64 (a b : N) : option N := if a + b <? u64_max1 then Some (a + b) else None.

(** reader.rs:19-27 [FileReader]; [content()] (159-184) is folded in: the content is the data when
    there are no links. *)
Record reader := mk_reader {
  fr_offset : N; fr_end : ending; fr_links : list pblink; fr_data : bytes;
  fr_blocksizes : list N; fr_meta : metadata; fr_size : N }.

(** reader.rs:103-155 [from_parts]. *)
Definition from_parts (inner : flat) (offset : N) (md : metadata) : vres reader :=
  let u := f_data inner in
  let empty_or_no_content := match u_data u with Some (_ :: _) => false | _ => true end in
  let is_zero_bytes := (match u_filesize u with Some n => n | None => 0 end) =? 0 in
  let no_links := match f_links inner with [] => true | _ => false end in
  if negb (dtype_eqb (u_type u) TFile) && negb (dtype_eqb (u_type u) TRaw) then
    Err (UnexpectedType (u_type u))
  else if negb (length (f_links inner) =? length (u_blocksizes u))%nat then
    Err LinksAndBlocksizesMismatch
  else if empty_or_no_content && negb is_zero_bytes && no_links then
    Err NoLinksNoContent
  else
    let data := match u_data u with Some d => d | None => [] end in
    match u_hashtype u, u_fanout u with
    | None, None =>
        let finish e :=
          match u_filesize u with
          | Some fs => Ok (mk_reader offset e (f_links inner) data (u_blocksizes u) md fs)
          | None => Panic                    (* reader.rs:152 filesize.unwrap() *)
          end in
        if no_links then
          match add64 offset (match u_filesize u with Some n => n | None => blen data end) with
          | Some e => finish (Chunk e)
          | None => Panic
          end
        else
          match u_filesize u with
          | Some fs => match add64 offset fs with
                       | Some e => finish (TreeCoverage e)
                       | None => Panic
                       end
          | None => Err IntermediateNodeWithoutFileSize
          end
    | _, _ => Err UnexpectedRawOrFileProperties
    end.

(** reader.rs:76-80 [from_block]. *)
Definition from_block (bs : bytes) : vres reader :=
  match flat_parse bs with
  | inl f => from_parts f 0 (meta_of (f_data f))
  | inr _ => Err ReadFailed
  end.

(** reader.rs:189-195 [Traversal]. *)
Record traversal := mk_trav { tr_ending : ending; tr_offset : N; tr_size : N; tr_meta : metadata }.
Definition traversal_of (r : reader) : traversal :=
  mk_trav (fr_end r) (fr_offset r) (fr_size r) (fr_meta r).

(** reader.rs:88-101 [from_continued] and reader.rs:205-213 [Traversal::continue_walk]. *)
Definition trav_continue (t : traversal) (bs : bytes) (rg : range) : vres reader :=
  match check_next (tr_ending t) (tr_offset t) rg with
  | Some e => Err e
  | None =>
      match flat_parse bs with
      | inr _ => Err ReadFailed
      | inl f =>
          match u_mode (f_data f), u_mtime (f_data f) with
          | None, None => from_parts f (r_start rg) (tr_meta t)
          | _, _ => Err NonRootDefinesMetadata
          end
      end
  end.

(** visit.rs:227-235 [block_is_in_target_range]. *)
Definition in_target (b : range) (t : option range) : bool :=
  match t with
  | Some t => N.max (r_start b) (r_start t) <=? N.min (r_end b) (r_end t)
  | None => true
  end.

(** Rust slice indexing [&content[start..end]]: panics unless start <= end <= len. *)
Definition slice (content : bytes) (s e : N) : option bytes :=
  if (s <=? e) && (e <=? blen content)
  then Some (firstn (N.to_nat (e - s)) (skipn (N.to_nat s) content)) else None.

(** [u64] subtraction with overflow check. *)
Definition sub64 (a b : N) : option N := if b <=? a then Some (a - b) else None.

(** visit.rs:251-278 [target_slice]. *)
Definition target_slice (content : bytes) (b t : range) : vres bytes :=
  if negb (in_target b (Some t)) then Ok []
  else
    let se :=
      if r_start t <? r_start b then
        match sub64 (N.min (r_end t) (r_end b)) (r_start b) with
        | Some e => Some (0, e) | None => None end
      else if r_end b <? r_end t then
        match sub64 (r_start t) (r_start b), sub64 (N.min (r_end t) (r_end b)) (r_start b) with
        | Some s, Some e => Some (s, e) | _, _ => None end
      else
        match sub64 (r_start t) (r_start b), sub64 (r_end t) (r_start t) with
        | Some s, Some d => Some (s, s + d) | _, _ => None end in
    match se with
    | None => Panic
    | Some (s, e) => match slice content s e with Some c => Ok c | None => Panic end
    end.

(** visit.rs:239-249 [maybe_target_slice]. *)
Definition maybe_slice (content : bytes) (b : range) (t : option range) : vres bytes :=
  match t with Some t => target_slice content b t | None => Ok content end.

(** visit.rs:122-132 [FileVisit]; [pending] is kept here with the next link first (the code keeps
    it reversed and pops from the end). *)
Record visit := mk_visit {
  v_pending : list (cid * range); v_range : option range; v_state : traversal }.

(** pb.rs:168-185 [RangeLinks], visit.rs:210-223 [to_pending] and the filter of visit.rs:65-75 and
    visit.rs:181-187: pair links with their ranges from [base], keep those in range. *)
Fixpoint to_pending (nth : nat) (base : N) (links : list pblink) (sizes : list N)
         (t : option range) : vres (list (cid * range)) :=
  match links, sizes with
  | l :: links', sz :: sizes' =>
      match add64 base sz with
      | None => Panic
      | Some e =>
          let rg := mk_range base e in
          if in_target rg t then
            match cid_from_bytes (match l_hash l with Some h => h | None => [] end) with
            | None => Err (InvalidCidInLink nth)
            | Some c =>
                match to_pending (S nth) e links' sizes' t with
                | Ok r => Ok ((c, rg) :: r)
                | Err x => Err x
                | Panic => Panic
                end
            end
          else to_pending (S nth) e links' sizes' t
      end
  | _, _ => Ok []
  end.

(** visit.rs:28-98 [IdleFileVisit::start]: content, file size, metadata and possibly a visit. *)
Definition visit_start (t : option range) (block : bytes)
  : vres (bytes * N * metadata * option visit) :=
  match from_block block with
  | Err e => Err e
  | Panic => Panic
  | Ok fr =>
      match fr_links fr with
      | [] =>
          match maybe_slice (fr_data fr) (mk_range 0 (blen (fr_data fr))) t with
          | Ok c => Ok (c, fr_size fr, fr_meta fr, None)
          | Err e => Err e
          | Panic => Panic
          end
      | _ :: _ =>
          match to_pending 0 (fr_offset fr) (fr_links fr) (fr_blocksizes fr) t with
          | Err e => Err e
          | Panic => Panic
          | Ok [] => Ok ([], fr_size fr, fr_meta fr, None)
          | Ok p => Ok ([], fr_size fr, fr_meta fr, Some (mk_visit p t (traversal_of fr)))
          end
      end
  end.

(** visit.rs:140-146 [pending_links]: the first pending cid; panics when there is none. *)
Definition next_link (v : visit) : option cid :=
  match v_pending v with [] => None | (c, _) :: _ => Some c end.

(** visit.rs:152-196 [FileVisit::continue_walk]. *)
Definition visit_continue (v : visit) (block : bytes) : vres (bytes * option visit) :=
  match v_pending v with
  | [] => Panic
  | (_, rg) :: rest =>
      match trav_continue (v_state v) block rg with
      | Err e => Err e
      | Panic => Panic
      | Ok fr =>
          match fr_links fr with
          | [] =>
              match maybe_slice (fr_data fr) rg (v_range v) with
              | Err e => Err e
              | Panic => Panic
              | Ok c =>
                  match rest with
                  | [] => Ok (c, None)
                  | _ :: _ => Ok (c, Some (mk_visit rest (v_range v) (traversal_of fr)))
                  end
              end
          | _ :: _ =>
              match to_pending 0 (fr_offset fr) (fr_links fr) (fr_blocksizes fr) (v_range v) with
              | Err e => Err e
              | Panic => Panic
              | Ok p => Ok ([], Some (mk_visit (p ++ rest) (v_range v) (traversal_of fr)))
              end
          end
      end
  end.

(** The loop of a reader over a block store, as in unixfs/src/file.rs:263-279 [collect_bytes] and
    src/unixfs/cat.rs:84-114: take the next pending link, load it, continue; collect the bytes. *)
Inductive read_res :=
| ReadOk (content : bytes)
| ReadErr (e : file_error)
| ReadMissing (c : cid)
| ReadPanic
| ReadFuel.

Fixpoint visit_loop (fuel : nat) (get : cid -> option bytes) (v : visit) : read_res :=
  match fuel with
  | O => ReadFuel
  | S f =>
      match next_link v with
      | None => ReadPanic
      | Some c =>
          match get c with
          | None => ReadMissing c
          | Some block =>
              match visit_continue v block with
              | Err e => ReadErr e
              | Panic => ReadPanic
              | Ok (content, None) => ReadOk content
              | Ok (content, Some v') =>
                  match visit_loop f get v' with
                  | ReadOk rest => ReadOk (content ++ rest)
                  | other => other
                  end
              end
          end
      end
  end.

Definition read_file (fuel : nat) (get : cid -> option bytes) (t : option range) (root : cid)
  : read_res :=
  match get root with
  | None => ReadMissing root
  | Some block =>
      match visit_start t block with
      | Err e => ReadErr e
      | Panic => ReadPanic
      | Ok (content, _, _, None) => ReadOk content
      | Ok (content, _, _, Some v) =>
          match visit_loop fuel get v with
          | ReadOk rest => ReadOk (content ++ rest)
          | other => other
          end
      end
  end.
