(** Looking a name up in a directory: unixfs/src/dir.rs, unixfs/src/dir/directory.rs and
    unixfs/src/dir/sharded_lookup.rs.  Definitions only. *)
From Verif Require Import Base Wire Cid Pb.
Local Open Scope N_scope.

(** [link.Name.as_deref().unwrap_or_default()]. *)
Definition link_name (l : pblink) : bytes := match l_name l with Some n => n | None => [] end.
(** [try_convert_cid], dir.rs l.80-83; the error keeps the index. *)
Definition link_cid (l : pblink) : option cid :=
  cid_from_bytes (match l_hash l with Some h => h | None => [] end).

(** [LookupError] (sharded_lookup.rs l.263-275), [ResolveError] (dir.rs l.101-113).  Errors carry the
    indices and cids which the Rust values show; the [ParsingFailed] inside is not kept. *)
Inductive lookup_err :=
| Multiple (i : nat) (first : cid) (j : nat) (second : option cid)   (* [MultipleMatchingLinks] *)
| InvalidCid (i : nat)
| UnexpectedBucketType (t : dtype)
| Shard                                                              (* [ShardError] *)
| Read (e : bool).                                                   (* [Read(Some)] or [Read(None)] *)
Inductive dir_err :=
| UnexpectedType (t : dtype)
| UnexpectedDirProperties
| ReadDagPb
| Lookup (e : lookup_err).

(** [Cache], sharded_lookup.rs l.12-21: a queue kept for its allocation, cleared when stored. *)
Definition cache := option (list cid).
Definition to_cache (l : list cid) : cache := Some [].

(** [ShardedLookup]: the queue of buckets; the needle is an argument here. *)
Inductive maybe_resolved := Found (c : cid) | NeedToLoadMore (queue : list cid) | NotFound.

(** [check_supported], l.140-157. *)
Definition check_supported (u : unixfs) : bool :=
  match u_fanout u, u_hashtype u, u_filesize u, u_blocksizes u with
  | Some f, Some h, None, [] => (f =? 256) && (h =? 34)
  | _, _, _, _ => false
  end.

(** [partition], l.163-191.  [&name[2..]] panics when byte 2 continues a character. *)
Fixpoint partition (i : nat) (links : list pblink) (needle : bytes) (found : option (nat * cid)) (work : list cid)
  : outcome (option cid * list cid) lookup_err :=
  match links with
  | [] => Ok (option_map snd found, work)
  | l :: r =>
      match link_name l with
      | _ :: _ :: c :: rest =>
          if cont c then Panic
          else if beq (c :: rest) needle then
            match found with
            | Some (k, first) => Err (Multiple k first i (link_cid l))
            | None =>
                match link_cid l with
                | None => Err (InvalidCid i)
                | Some d => partition (S i) r needle (Some (i, d)) work
                end
            end
          else partition (S i) r needle found work
      | [_; _] =>
          match link_cid l with
          | None => Err (InvalidCid i)
          | Some d => partition (S i) r needle found (work ++ [d])
          end
      | _ => partition (S i) r needle found work
      end
  end.

(** The end of [lookup_or_start] (l.117-135) and of [continue_walk] (l.83-96). *)
Definition after_partition (o : outcome (option cid * list cid) lookup_err)
  : outcome (maybe_resolved * cache) lookup_err :=
  match o with
  | Ok (Some c, work) => Ok (Found c, to_cache work)
  | Ok (None, []) => Ok (NotFound, to_cache [])
  | Ok (None, work) => Ok (NeedToLoadMore work, None)
  | Err e => Err e
  | Panic => Panic
  end.

(** [lookup_or_start], l.109-135: the queue starts as the cached one. *)
Definition lookup_or_start (f : flat) (needle : bytes) (ca : cache) : outcome (maybe_resolved * cache) lookup_err :=
  if check_supported (f_data f) then
    after_partition (partition 0 (f_links f) needle None (match ca with Some l => l | None => [] end))
  else Err Shard.

(** [continue_walk], l.57-97, for the block of the first link of the queue.  The caller's cache is
    replaced only when the walk ends; the queue must not be empty. *)
Definition continue_walk (queue : list cid) (needle : bytes) (next : bytes) (ca : cache)
  : outcome (maybe_resolved * cache) lookup_err :=
  match queue with
  | [] => Panic
  | _ :: queue =>
      match flat_parse next with
      | inl f =>
          match u_type (f_data f) with
          | THAMTShard =>
              if check_supported (f_data f) then
                match after_partition (partition 0 (f_links f) needle None queue) with
                | Ok (NeedToLoadMore q, _) => Ok (NeedToLoadMore q, ca)
                | o => o
                end
              else Err Shard
          | t => Err (UnexpectedBucketType t)
          end
      | inr (InvalidDagPb) | inr (InvalidUnixFs _) => Err (Read true)
      | inr (NoData _) => Err (Read false)
      end
  end.

(** [check_directory_supported], directory.rs l.5-26. *)
Definition check_directory_supported (u : unixfs) : bool :=
  match u_filesize u, u_blocksizes u, u_hashtype u, u_fanout u, u_data u with
  | None, [], None, None, (None | Some []) => true
  | _, _, _, _, _ => false
  end.

(** The links named [needle] with their indices: the [filter_map] of dir.rs l.59-64. *)
Fixpoint matching (i : nat) (links : list pblink) (needle : bytes) : list (nat * pblink) :=
  match links with
  | [] => []
  | l :: r => if beq (link_name l) needle then (i, l) :: matching (S i) r needle else matching (S i) r needle
  end.
(** dir.rs l.66-77. *)
Definition find_link (links : list pblink) (needle : bytes) : outcome maybe_resolved lookup_err :=
  match matching 0 links needle with
  | [] => Ok NotFound
  | (i, l) :: r =>
      match link_cid l with
      | None => Err (InvalidCid i)
      | Some c =>
          match r with
          | [] => Ok (Found c)
          | (j, l2) :: _ => Err (Multiple i c j (link_cid l2))
          end
      end
  end.

(** [resolve], dir.rs l.36-78.  On an error the cache is left empty or as it was; no caller looks at
    it then. *)
Definition resolve (block : bytes) (needle : bytes) (ca : cache) : outcome (maybe_resolved * cache) dir_err :=
  let plain (links : list pblink) :=
    match find_link links needle with
    | Ok m => Ok (m, ca)
    | Err e => Err (Lookup e)
    | Panic => Panic
    end in
  match flat_parse block with
  | inl f =>
      match u_type (f_data f) with
      | THAMTShard =>
          match lookup_or_start f needle ca with
          | Ok x => Ok x
          | Err e => Err (Lookup e)
          | Panic => Panic
          end
      | TDirectory => if check_directory_supported (f_data f) then plain (f_links f) else Err UnexpectedDirProperties
      | t => Err (UnexpectedType t)
      end
  | inr (InvalidUnixFs n) | inr (NoData n) => plain (n_links n)
  | inr InvalidDagPb => Err ReadDagPb
  end.

(** The walk of a caller: one block at a time, as [IpldDag::resolve_hamt] (src/dag.rs l.320-339).
    [get] is the block store; a block which is not there is an error.  Also returned are the blocks
    loaded.  Each load takes one unit of [fuel]; [None] when it runs out. *)
Inductive walk_err := Load (c : cid) | LookupE (e : lookup_err) | KeyNotFound.
Section Walk.
  Variable get : cid -> option bytes.
  Fixpoint walk_shards (fuel : nat) (queue : list cid) (needle : bytes) (ca : cache)
    : option (list cid * outcome (cid * cache) walk_err) :=
    match queue with
    | [] => Some ([], Panic)                          (* [pending_links], l.51: [expect] *)
    | next :: _ =>
        match fuel with
        | O => None
        | S fuel =>
            match get next with
            | None => Some ([next], Err (Load next))
            | Some b =>
                match continue_walk queue needle b ca with
                | Ok (NeedToLoadMore q, ca) =>
                    option_map (fun '(t, o) => (next :: t, o)) (walk_shards fuel q needle ca)
                | Ok (Found c, ca) => Some ([next], Ok (c, ca))
                | Ok (NotFound, _) => Some ([next], Err KeyNotFound)
                | Err e => Some ([next], Err (LookupE e))
                | Panic => Some ([next], Panic)
                end
            end
        end
    end.
End Walk.

(** The whole lookup: [resolve] on the root block, and the walk while more is needed (src/dag.rs
    l.297, l.471-509). *)
Definition lookup_name (get : cid -> option bytes) (fuel : nat) (block needle : bytes) (ca : cache)
  : option (list cid * outcome (option cid) (dir_err + walk_err)) :=
  match resolve block needle ca with
  | Ok (Found c, _) => Some ([], Ok (Some c))
  | Ok (NotFound, _) => Some ([], Ok None)
  | Ok (NeedToLoadMore q, ca) =>
      option_map (fun '(t, o) =>
        (t, match o with
            | Ok (c, _) => Ok (Some c)
            | Err KeyNotFound => Ok None
            | Err e => Err (inr e)
            | Panic => Panic
            end)) (walk_shards get fuel q needle ca)
  | Err e => Some ([], Err (inl e))
  | Panic => Some ([], Panic)
  end.
