(** Reading a file by path: src/unixfs/cat.rs and the /cat endpoint, http/src/v0/root_files.rs
    l.44-90.  Definitions only. *)
From Verif Require Import Base Wire Cid Pb Ipld Text IpfsPath DirLookup FileVisit Resolve.
Local Open Scope N_scope.

(** [UnexpectedResolved], src/dag.rs l.60-66, and [TraversalFailed], cat.rs l.139-158. *)
Inductive unexpected := UnexpectedCodec (n : node) | NonBlock (n : node).
Inductive traversal_failed :=
| Resolving (e : resolve_err) | BadPath (u : unexpected) | Loading (c : cid) | Walking (c : cid) (e : file_error).

(** [ResolvedNode::source], dag.rs l.361-368, and [into_unixfs_block], l.372-384. *)
Definition source_of (n : node) : cid :=
  match n with NBlock c _ => c | NDagPbData c _ => c | NProjection c _ => c | NLink c _ => c end.
Definition into_unixfs_block (n : node) : outcome (cid * bytes) unexpected :=
  if cid_codec (source_of n) =? codec_dagpb then
    match n with NBlock c b => Ok (c, b) | _ => Err (NonBlock n) end
  else Err (UnexpectedCodec n).

(** The stream: pieces, at most one error at the end, and whether it ended or panicked ([None]: not
    within the given number of blocks). *)
Inductive cat_item := Piece (b : bytes) | Trouble (e : traversal_failed).
Inductive cat_end := Ended | Panicked.
Definition cat_stream : Type := list cat_item * option cat_end.
Definition piece (b : bytes) : list cat_item := match b with [] => [] | _ => [Piece b] end.

Section Cat.
  Variable get : cid -> option bytes.

  (** The loop of l.82-115. *)
  Fixpoint cat_loop (fuel : nat) (v : visit) : cat_stream :=
    match fuel with
    | O => ([], None)
    | S fuel =>
        match next_link v with
        | None => ([], Some Panicked)
        | Some next =>
            match get next with
            | None => ([Trouble (Loading next)], Some Ended)
            | Some data =>
                match visit_continue v data with
                | Panic => ([], Some Panicked)
                | Err e => ([Trouble (Walking next e)], Some Ended)
                | Ok (b, None) => (piece b, Some Ended)
                | Ok (b, Some v) => let (l, e) := cat_loop fuel v in (piece b ++ l, e)
                end
            end
        end
    end.

  (** From the root block, l.49-70: an error before the stream, or the stream. *)
  Definition cat_block (fuel : nat) (range : option range) (c : cid) (data : bytes) : outcome cat_stream traversal_failed :=
    match visit_start range data with
    | Panic => Panic
    | Err e => Err (Walking c e)
    | Ok (b, _, _, None) => Ok (piece b, Some Ended)
    | Ok (b, _, _, Some v) => let (l, e) := cat_loop fuel v in Ok (piece b ++ l, e)
    end.

  Variable decode : cid -> bytes -> outcome ipld unit.
  (** [cat], l.19-117, from a path with a cid root; [fuel] bounds the documents and the blocks of the
      file, [hfuel] the shards of a directory.  [None] when they run out. *)
  Definition cat (fuel hfuel : nat) (root : cid) (path : list seg) (range : option range) : option (outcome cat_stream traversal_failed) :=
    match dag_resolve get decode fuel hfuel root path true with
    | None => None
    | Some Panic => Some Panic
    | Some (Err e) => Some (Err (Resolving e))
    | Some (Ok (n, _)) =>
        match into_unixfs_block n with
        | Ok (c, data) => Some (cat_block fuel range c data)
        | Err u => Some (Err (BadPath u))
        | Panic => Some Panic
        end
    end.

  (** The endpoint, root_files.rs l.58-90, without the timeout: the range from the options [offset] and
      [length]; the errors become texts of responses. *)
  Inductive cat_failed := NotAPath | NotImplemented | NameRoot | NotFoundPath (e : resolve_err) | IsDirectory | OtherTrouble (e : traversal_failed).
  Definition range_of (offset length : option N) : outcome (option FileVisit.range) cat_failed :=
    match offset, length with
    | Some s, Some l => match add64 s l with Some e => Ok (Some (mk_range s e)) | None => Panic end
    | Some _, None => Err NotImplemented
    | None, Some l => Ok (Some (mk_range 0 l))
    | None, None => Ok None
    end.
  Definition failed_as (e : traversal_failed) : cat_failed :=
    match e with
    | Resolving (ENotFound c p) => NotFoundPath (ENotFound c p)
    | Walking _ (UnexpectedType TDirectory) | Walking _ (UnexpectedType THAMTShard) => IsDirectory
    | e => OtherTrouble e
    end.
  Variable other_base : N -> bytes -> option bytes.
  (** Names as roots ([NameRoot]) are left to [Ipns]. *)
  Definition http_cat (fuel hfuel : nat) (arg : bytes) (offset length : option N) : option (outcome cat_stream cat_failed) :=
    match path_from_str other_base arg with
    | None => Some (Err NotAPath)
    | Some p =>
        match range_of offset length with
        | Panic => Some Panic
        | Err e => Some (Err e)
        | Ok range =>
            match p_root p with
            | IpfsPath.Ipld c =>
                match cat fuel hfuel c (p_segs p) range with
                | None => None
                | Some (Ok s) => Some (Ok s)
                | Some (Err e) => Some (Err (failed_as e))
                | Some Panic => Some Panic
                end
            | _ => Some (Err NameRoot)
            end
        end
    end.
End Cat.
