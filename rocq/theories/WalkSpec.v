(** What a walk over a stored tree should show (independent of the walker).  The relation reads the
    tree off the parsed blocks; paths are lists of names. *)
From Verif Require Import Base Wire Cid Pb FileVisit DirLookup IpfsPath PathSpec Walk.
Local Open Scope N_scope.

(** A name that can be one step of a path: not empty, no '/', not ".". *)
Definition step_name (n : bytes) : Prop := n <> [] /\ plain n /\ n <> [46].

(** The pieces of content that remain in a file visit, one per block, in order, as the blocks of the
    store give them. *)
Inductive segments (get : cid -> option bytes) : visit -> list bytes -> Prop :=
| seg_last : forall v c b content,
    next_link v = Some c -> get c = Some b -> visit_continue v b = Ok (content, None) ->
    segments get v [content]
| seg_more : forall v c b content v' rest,
    next_link v = Some c -> get c = Some b -> visit_continue v b = Ok (content, Some v') ->
    segments get v' rest -> segments get v (content :: rest).

(** The reports for the blocks after the first one of a file: only the last one is marked last. *)
Fixpoint later_segments (c : cid) (path : bytes) (m : metadata) (size : N) (segs : list bytes) : list walked :=
  match segs with
  | [] => []
  | [s] => [OFile s false true c path m size]
  | s :: rest => OFile s false false c path m size :: later_segments c path m size rest
  end.

(** [entry_at get top path c os]: the entry stored under [c], placed at [path], is shown as [os].
    [top] marks the start of the walk.
    - a directory: itself, then its entries in the order of the links;
    - a sharded directory: the same, where links with two-letter names lead to further buckets of
      the same directory;
    - a file: one report for each block;
    - a symlink: one report. *)
Inductive entry_at (get : cid -> option bytes) : bool -> list bytes -> cid -> list walked -> Prop :=
| at_directory : forall top path c b f os,
    get c = Some b -> flat_parse b = inl f -> u_type (f_data f) = TDirectory ->
    check_directory_supported (f_data f) = true ->
    links_at get path (f_links f) os ->
    entry_at get top path c
      ((if top then ORootDirectory c (join path) (meta_of (f_data f))
        else ODirectory c (join path) (meta_of (f_data f))) :: os)
| at_shard : forall top path c b f os,
    get c = Some b -> flat_parse b = inl f -> u_type (f_data f) = THAMTShard ->
    check_supported (f_data f) = true ->
    shard_at get path (f_links f) os ->
    entry_at get top path c (ORootDirectory c (join path) (meta_of (f_data f)) :: os)
| at_small_file : forall top path c b f content size m,
    get c = Some b -> flat_parse b = inl f -> u_type (f_data f) = TFile \/ u_type (f_data f) = TRaw ->
    visit_start None b = Ok (content, size, m, None) ->
    entry_at get top path c [OFile content true true c (join path) m size]
| at_file : forall top path c b f content size m v segs,
    get c = Some b -> flat_parse b = inl f -> u_type (f_data f) = TFile \/ u_type (f_data f) = TRaw ->
    visit_start None b = Ok (content, size, m, Some v) ->
    segments get v segs ->
    entry_at get top path c (OFile content true false c (join path) m size
                               :: later_segments c (join path) m size segs)
| at_symlink : forall top path c b f,
    get c = Some b -> flat_parse b = inl f -> u_type (f_data f) = TSymlink ->
    entry_at get top path c
      [OSymlink (match u_data (f_data f) with Some d => d | None => [] end) c (join path) (meta_of (f_data f))]
(** The links of a directory at [path]. *)
with links_at (get : cid -> option bytes) : list bytes -> list pblink -> list walked -> Prop :=
| no_links : forall path, links_at get path [] []
| link_entry : forall path l ls c os os',
    link_cid l = Some c -> step_name (link_name l) ->
    entry_at get false (path ++ [link_name l]) c os -> links_at get path ls os' ->
    links_at get path (l :: ls) (os ++ os')
(** The links of a bucket of the sharded directory at [path]: two letters and the name of an entry,
    or just two letters for a further bucket. *)
with shard_at (get : cid -> option bytes) : list bytes -> list pblink -> list walked -> Prop :=
| no_shard_links : forall path, shard_at get path [] []
| shard_entry : forall path l ls c a b n os os',
    link_cid l = Some c -> link_name l = a :: b :: n -> step_name n ->
    (forall x n', n = x :: n' -> cont x = false) ->
    entry_at get false (path ++ [n]) c os -> shard_at get path ls os' ->
    shard_at get path (l :: ls) (os ++ os')
| shard_bucket : forall path l ls c a b blk f os os',
    link_cid l = Some c -> link_name l = [a; b] ->
    get c = Some blk -> flat_parse blk = inl f -> u_type (f_data f) = THAMTShard ->
    check_supported (f_data f) = true ->
    shard_at get path (f_links f) os -> shard_at get path ls os' ->
    shard_at get path (l :: ls) ((OBucket c (join path) :: os) ++ os').

Scheme entry_ind := Induction for entry_at Sort Prop
  with links_ind := Induction for links_at Sort Prop
  with shard_ind := Induction for shard_at Sort Prop.
Combined Scheme walk_ind from entry_ind, links_ind, shard_ind.

(** What the walker really says about buckets, given what it said last:
    - [AtRoot c]: only the root bucket [c] and buckets so far; a bucket is reported with the cid of
      the root;
    - [AfterDirectory]: the walker stops with a panic at a bucket;
    - [Elsewhere]: a bucket is reported as it is. *)
Inductive last_seen := AtRoot (c : cid) | AfterDirectory | Elsewhere.
Fixpoint reported (l : last_seen) (os : list walked) : list walked * bool :=
  match os with
  | [] => ([], false)
  | OBucket c p :: r =>
      match l with
      | AtRoot rc => let (o, x) := reported l r in (OBucket rc p :: o, x)
      | AfterDirectory => ([], true)
      | Elsewhere => let (o, x) := reported Elsewhere r in (OBucket c p :: o, x)
      end
  | ODirectory c p m :: r => let (o, x) := reported AfterDirectory r in (ODirectory c p m :: o, x)
  | d :: r => let (o, x) := reported Elsewhere r in (d :: o, x)
  end.

(** The same for a whole walk. *)
Definition walk_report (os : list walked) : list walked * bool :=
  match os with
  | ORootDirectory c p m :: r => let (o, x) := reported (AtRoot c) r in (ORootDirectory c p m :: o, x)
  | _ => reported Elsewhere os
  end.

(** The path of the start of the walk. *)
Definition root_path (name : bytes) : list bytes := match name with [] => [] | _ => [name] end.

(** No bucket is reported right after a plain directory, nor before the first entry. *)
Fixpoint no_bucket_after_dir (os : list walked) : Prop :=
  match os with
  | ODirectory _ _ _ :: ((OBucket _ _ :: _) as r) => False
  | _ :: r => no_bucket_after_dir r
  | [] => True
  end.
Definition starts_with_bucket (os : list walked) : Prop :=
  match os with OBucket _ _ :: _ => True | _ => False end.

(** ** Stores without the blocks that make the walker panic *)

(** File visits over blocks of the store. *)
Inductive visits (get : cid -> option bytes) : visit -> Prop :=
| visit_begun : forall c b content size m v,
    get c = Some b -> visit_start None b = Ok (content, size, m, Some v) -> visits get v
| visit_goes_on : forall v c b content v',
    visits get v -> next_link v = Some c -> get c = Some b -> visit_continue v b = Ok (content, Some v') ->
    visits get v'.

(** - links of directories have names that can be steps of a path;
    - links of shards have two letters and nothing more, and lead to shards, or two letters and such
      a name;
    - reading a file of the store does not panic, and all its blocks parse as UnixFS. *)
Record safe_store (get : cid -> option bytes) : Prop := {
  safe_dirs : forall c b f, get c = Some b -> flat_parse b = inl f -> u_type (f_data f) = TDirectory ->
    Forall (fun l => step_name (link_name l)) (f_links f);
  safe_shards : forall c b f, get c = Some b -> flat_parse b = inl f -> u_type (f_data f) = THAMTShard ->
    Forall (fun l => exists x y n, link_name l = x :: y :: n /\
      match n with
      | [] => forall c' b' f', link_cid l = Some c' -> get c' = Some b' -> flat_parse b' = inl f' ->
              u_type (f_data f') = THAMTShard
      | z :: _ => step_name n /\ cont z = false
      end) (f_links f);
  safe_starts : forall c b, get c = Some b -> visit_start None b <> Panic;
  safe_visits : forall v c b, visits get v -> next_link v = Some c -> get c = Some b ->
    visit_continue v b <> Panic /\ visit_continue v b <> Err ReadFailed;
  safe_pending : forall v, visits get v -> next_link v <> None }.

(** ** Names *)

(** The names in a sharded directory, over all its buckets. *)
Inductive shard_names (get : cid -> option bytes) : list pblink -> list bytes -> Prop :=
| names_nil : shard_names get [] []
| names_entry : forall l ls a b x n names,
    link_name l = a :: b :: x :: n -> shard_names get ls names ->
    shard_names get (l :: ls) ((x :: n) :: names)
| names_bucket : forall l ls a b c blk f inside names,
    link_name l = [a; b] -> link_cid l = Some c -> get c = Some blk -> flat_parse blk = inl f ->
    shard_names get (f_links f) inside -> shard_names get ls names ->
    shard_names get (l :: ls) (inside ++ names).

(** No directory holds two entries of the same name. *)
Definition names_distinct (get : cid -> option bytes) : Prop :=
  forall c b f, get c = Some b -> flat_parse b = inl f ->
    (u_type (f_data f) = TDirectory -> NoDup (map link_name (f_links f))) /\
    (u_type (f_data f) = THAMTShard -> forall names, shard_names get (f_links f) names -> NoDup names).

(** The paths of the entries in a report: one for each directory, symlink and file. *)
Fixpoint entry_paths (os : list walked) : list bytes :=
  match os with
  | [] => []
  | OBucket _ _ :: r => entry_paths r
  | ODirectory _ p _ :: r | ORootDirectory _ p _ :: r | OSymlink _ _ p _ :: r => p :: entry_paths r
  | OFile _ first _ _ p _ _ :: r => if first then p :: entry_paths r else entry_paths r
  end.

(** The bytes of all file segments of a report. *)
Fixpoint file_bytes (os : list walked) : bytes :=
  match os with
  | [] => []
  | OFile s _ _ _ _ _ _ :: r => s ++ file_bytes r
  | _ :: r => file_bytes r
  end.

(** ** Links which wait to be loaded *)

(** The cids loaded by the steps of a walk, in order, up to its end. *)
Inductive loads (dbg : bool) (get : cid -> option bytes) : walker -> list cid -> Prop :=
| loads_end : forall w, w_continue w = false -> loads dbg get w []
| loads_step : forall w c b w' o cs, w_continue w = true -> first_pending w = Some c -> get c = Some b ->
    walk_next dbg w b = Ok (w', o) -> loads dbg get w' cs -> loads dbg get w (c :: cs).
(** What [pending_links] shows: the block to load next and all others known so far. *)
Definition pending_links (w : walker) : list cid :=
  match first_pending w with Some c => c :: rest_pending w | None => [] end.
Inductive in_order {A} : list A -> list A -> Prop :=
| in_order_nil : in_order [] []
| in_order_skip : forall x l l', in_order l l' -> in_order l (x :: l')
| in_order_take : forall x l l', in_order l l' -> in_order (x :: l) (x :: l').
(** The walkers which come up during a walk. *)
Inductive comes_up (dbg : bool) (get : cid -> option bytes) (start : walker) : walker -> Prop :=
| comes_first : comes_up dbg get start start
| comes_next : forall w c b w' o, comes_up dbg get start w -> w_continue w = true -> first_pending w = Some c ->
    get c = Some b -> walk_next dbg w b = Ok (w', o) -> comes_up dbg get start w'.
