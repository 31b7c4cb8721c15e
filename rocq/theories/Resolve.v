(** Resolving paths through documents (src/dag.rs).  Definitions only. *)
From Verif Require Import Base Wire Cid BTree Ipld Cbor Codecs Pb DirLookup.
Local Open Scope N_scope.

Definition seg := bytes.
Definition dot : seg := [46].                       (* "." *)
Definition data_seg : seg := [68; 97; 116; 97].     (* "Data" *)

(** [str::parse::<usize>]: an optional '+', at least one digit, below 2^64. *)
Fixpoint digits_val (s : bytes) (acc : N) : option N :=
  match s with
  | [] => Some acc
  | c :: r =>
      if (48 <=? c) && (c <=? 57) then
        let v := 10 * acc + (c - 48) in
        if v <? u64_max1 then digits_val r v else None
      else None
  end.
Definition parse_usize (s : bytes) : option N :=
  match s with
  | [] => None
  | c :: r => if c =? 43 then match r with [] => None | _ => digits_val r 0 end else digits_val s 0
  end.

(** [decode_ipld], src/ipld/mod.rs l.286-295.  [cbor] is [Cbor.cbor_decode]; [json] stands for
    serde_json reading a text. *)
Definition decode_ipld (cbor : bytes -> outcome ipld unit) (json : bytes -> option ipld) (c : cid) (data : bytes)
  : outcome ipld unit :=
  if cid_codec c =? codec_dagcbor then cbor data
  else if cid_codec c =? codec_dagpb then
    match dagpb_decode data with Ok v => Ok v | Err _ => Err tt | Panic => Panic end
  else if cid_codec c =? codec_dagjson then match json data with Some v => Ok v | None => Err tt end
  else if cid_codec c =? codec_raw then Ok (IBytes data)
  else Err tt.

(** [ResolvedNode], l.346-359. *)
Inductive node :=
| NBlock (c : cid) (data : bytes)
| NDagPbData (c : cid) (data : bytes)
| NProjection (c : cid) (v : ipld)
| NLink (src dest : cid).

(** [RawResolveLocalError], l.68-91. *)
Inductive raw_err :=
| RLoading (c : cid)
| RUnsupported (c : cid)
| RListIndex (c : cid) (segment : nat) (index elements : N)
| RInvalidIndex (c : cid) (segment : nat)
| RNoLinks (c : cid) (segment : nat)
| RNotFound (c : cid) (segment : nat).
(** [add_starting_point_in_path], l.97-121. *)
Definition add_start (start : nat) (e : raw_err) : raw_err :=
  match e with
  | RListIndex c i x n => RListIndex c (i + start) x n
  | RInvalidIndex c i => RInvalidIndex c (i + start)
  | RNoLinks c i => RNoLinks c (i + start)
  | RNotFound c i => RNotFound c (i + start)
  | e => e
  end.

(** [LocallyResolved], l.411-419; the segments left in the iterator are kept with it. *)
Inductive local := Complete (n : node) | Incomplete (c : cid) (queue : list cid) (needle : seg).

(** [resolve_local_ipld], l.521-596: the resolution, the count of matched segments and the segments
    left. *)
Fixpoint local_ipld (doc : cid) (v : ipld) (segs : list seg) (matched : nat) {struct segs}
  : outcome (local * nat * list seg) raw_err :=
  match v with
  | Link d =>
      match segs with
      | s :: r => if beq s dot then Ok (Complete (NLink doc d), S matched, r)
                  else Ok (Complete (NLink doc d), matched, segs)
      | [] => Ok (Complete (NLink doc d), matched, [])
      end
  | _ =>
      match segs with
      | [] => Ok (Complete (NProjection doc v), matched, [])
      | s :: r =>
          match v with
          | IMap m =>
              match bt_get s m with
              | Some f => local_ipld doc f r (S matched)
              | None => Err (RNotFound doc matched)
              end
          | IList l =>
              match parse_usize s with
              | Some i =>
                  if i <? blen l then
                    match nth_error l (N.to_nat i) with
                    | Some f => local_ipld doc f r (S matched)
                    | None => Panic
                    end
                  else Err (RListIndex doc matched i (blen l))
              | None => Err (RInvalidIndex doc matched)
              end
          | _ => Err (RNoLinks doc matched)
          end
      end
  end.

(** [dagpb::wrap_node_data] (unixfs/src/dagpb.rs l.22-56): the [Data] field of a node, found again as
    a range of the block.  The range of an empty field at the very end of the block starts at the
    length of the block, which [subslice_to_range] takes for being outside: [expect] panics. *)
Definition data_field (tag : N) (m : pbnode * option (bytes * bytes)) (r : bytes)
  : option ((pbnode * option (bytes * bytes)) * bytes) :=
  match pbnode_field tag (fst m) r with
  | Some (n, r') =>
      Some ((n, if tag =? 10 then match n_data n with Some d => Some (d, r') | None => None end else snd m), r')
  | None => None
  end.
Definition wrap_node_data (block : bytes) : outcome bytes unit :=
  match read_message data_field (pbnode0, None) block with
  | None => Err tt
  | Some (_, None) => Ok []
  | Some (_, Some ([], [])) => Panic
  | Some (_, Some (d, _)) => Ok d
  end.

(** [resolve_local_dagpb], l.471-510.  The needle is kept for the walk. *)
Definition local_dagpb (c : cid) (data : bytes) (s : seg) (is_last : bool) (ca : cache)
  : outcome (local * nat * cache) raw_err :=
  match resolve data s ca with
  | Ok (NeedToLoadMore q, ca) => Ok (Incomplete c q s, 0%nat, ca)
  | Ok (Found d, ca) => Ok (Complete (NLink c d), 1%nat, ca)
  | Ok (NotFound, ca) =>
      if beq s data_seg && is_last then
        match wrap_node_data data with
        | Ok d => Ok (Complete (NDagPbData c d), 1%nat, ca)
        | _ => Panic
        end
      else Err (RNotFound c 0)
  | Err (UnexpectedType TFile) => Err (RNotFound c 0)
  | Err _ => Err (RUnsupported c)
  | Panic => Panic
  end.

Section Resolve.
  (** The block store (a block which cannot be had is an error) and [decode_ipld]. *)
  Variable get : cid -> option bytes.
  Variable decode : cid -> bytes -> outcome ipld unit.

  (** [resolve_local], l.434-466. *)
  Definition resolve_local (c : cid) (data : bytes) (segs : list seg) (ca : cache)
    : outcome (local * nat * list seg * cache) raw_err :=
    match segs with
    | [] => Ok (Complete (NBlock c data), 0%nat, [], ca)
    | s :: r =>
        if cid_codec c =? codec_dagpb then
          match local_dagpb c data s (match r with [] => true | _ => false end) ca with
          | Ok (l, n, ca) => Ok (l, n, r, ca)
          | Err e => Err e
          | Panic => Panic
          end
        else
          match decode c data with
          | Ok v =>
              match local_ipld c v segs 0 with
              | Ok (l, n, r) => Ok (l, n, r, ca)
              | Err e => Err e
              | Panic => Panic
              end
          | Err _ => Err (RUnsupported c)
          | Panic => Panic
          end
    end.

  (** [resolve0], l.266-316, with [resolve_hamt], l.320-339, as [walk_shards].  One unit of [fuel] per
      document, [hfuel] loads in each sharded directory; [None] when either runs out.  Also returned:
      the documents loaded and the shards loaded. *)
  Fixpoint resolve0 (fuel hfuel : nat) (current : cid) (segs : list seg) (follow : bool) (total : nat) (ca : cache)
    : option (list cid * list cid * outcome (node * nat) raw_err) :=
    match fuel with
    | O => None
    | S fuel =>
        match get current with
        | None => Some ([current], [], Err (RLoading current))
        | Some data =>
            let start := total in
            let next src dest rest total ca shards :=
              if follow then
                option_map (fun '(docs, shs, o) => (current :: docs, shards ++ shs, o))
                  (resolve0 fuel hfuel dest rest follow total ca)
              else Some ([current], shards, Ok (NLink src dest, total)) in
            match resolve_local current data segs ca with
            | Err e => Some ([current], [], Err (add_start start e))
            | Panic => Some ([current], [], Panic)
            | Ok (Complete (NLink src dest), matched, rest, ca) => next src dest rest (total + matched)%nat ca []
            | Ok (Incomplete src q needle, matched, rest, ca) =>
                match walk_shards get hfuel q needle ca with
                | None => None
                | Some (shs, Ok (dest, ca)) => next src dest rest (total + matched)%nat ca shs
                | Some (shs, Err _) => Some ([current], shs, Err (RUnsupported src))
                | Some (shs, Panic) => Some ([current], shs, Panic)
                end
            | Ok (Complete other, _, _, _) => Some ([current], [], Ok (other, start))
            end
        end
    end.

  (** [ResolveError], l.19-57 (without the ipns variants), and [with_path], l.126-158; the assertion
      of [into_truncated] is explicit. *)
  Inductive resolve_err :=
  | ELoading (c : cid)
  | EUnsupported (c : cid)
  | EListIndex (c : cid) (path : list seg) (index elements : N)
  | ENoLinks (c : cid) (path : list seg)
  | ENotFound (c : cid) (path : list seg).
  Definition truncated (path : list seg) (n : nat) : option (list seg) :=
    if (n <=? length path)%nat then Some (firstn n path) else None.
  Definition with_path {A} (path : list seg) (e : raw_err) : outcome A resolve_err :=
    match e with
    | RLoading c => Err (ELoading c)
    | RUnsupported c => Err (EUnsupported c)
    | RListIndex c i x n => match truncated path (i + 1) with Some p => Err (EListIndex c p x n) | None => Panic end
    | RNoLinks c i => match truncated path (i + 1) with Some p => Err (ENoLinks c p) | None => Panic end
    | RInvalidIndex c i | RNotFound c i =>
        match truncated path (i + 1) with Some p => Err (ENotFound c p) | None => Panic end
    end.

  (** [IpldDag::resolve], l.227-263, for a path with a cid root: the node and the remaining path;
      [into_shifted] asserts. *)
  Definition dag_resolve (fuel hfuel : nat) (root : cid) (path : list seg) (follow : bool)
    : option (outcome (node * list seg) resolve_err) :=
    match resolve0 fuel hfuel root path follow 0 None with
    | None => None
    | Some (_, _, Ok (n, k)) => Some (if (k <=? length path)%nat then Ok (n, skipn k path) else Panic)
    | Some (_, _, Err e) => Some (with_path path e)
    | Some (_, _, Panic) => Some Panic
    end.

  (** [TryFrom<ResolvedNode> for Ipld], l.389-402, and [IpldDag::get], l.190-213. *)
  Definition node_ipld (n : node) : outcome ipld resolve_err :=
    match n with
    | NBlock c data => match decode c data with Ok v => Ok v | Err _ => Err (EUnsupported c) | Panic => Panic end
    | NDagPbData _ d => Ok (IBytes d)
    | NProjection _ v => Ok v
    | NLink _ c => Ok (Link c)
    end.
  Definition dag_get (fuel hfuel : nat) (root : cid) (path : list seg) : option (outcome ipld resolve_err) :=
    match resolve0 fuel hfuel root path true 0 None with
    | None => None
    | Some (_, _, Ok (n, _)) => Some (node_ipld n)
    | Some (_, _, Err e) => Some (with_path path e)
    | Some (_, _, Panic) => Some Panic
    end.
End Resolve.
