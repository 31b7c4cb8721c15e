(** What a path means (independent of the resolution code). *)
From Verif Require Import Base Wire Cid BTree Ipld Pb DirLookup DirSpec Resolve.
Local Open Scope N_scope.

(** The segments which are list indices: decimal digits, possibly after a '+', below 2^64. *)
Definition decimal (ds : bytes) : N := fold_left (fun a c => 10 * a + (c - 48)) ds 0.
Definition index_of (s : seg) (i : N) : Prop :=
  exists ds, (s = ds \/ s = 43 :: ds) /\ ds <> [] /\ Forall (fun c => 48 <= c <= 57) ds /\ i = decimal ds /\ i < 2 ^ 64.

(** [v'] is inside the value [v] at the path: map keys and list indices, one per segment. *)
Inductive at_path : ipld -> list seg -> ipld -> Prop :=
| at_here v : at_path v [] v
| at_key m k v p v' : bt_get k m = Some v -> at_path v p v' -> at_path (IMap m) (k :: p) v'
| at_index l s i v p v' : index_of s i -> nth_error l (N.to_nat i) = Some v -> at_path v p v' ->
    at_path (IList l) (s :: p) v'.

(** The entry of a directory.  [deep]: it is not in the first shard of a sharded directory. *)
Inductive dir_entry (get : cid -> option bytes) (block : bytes) (s : seg) : bool -> cid -> Prop :=
| in_plain links i l d : plain_dir block links -> only_named links s i l -> link_cid l = Some d ->
    dir_entry get block s false d
| in_root_shard links l d : shard block links -> In l links -> entry_named s l -> link_cid l = Some d ->
    dir_entry get block s false d
| in_sub_shard links links' l d : shard block links -> (forall l, In l links -> ~ entry_named s l) ->
    sub_shard get links links' -> In l links' ->
    entry_named s l -> link_cid l = Some d -> dir_entry get block s true d.

(** How a segment can fail: no such key, entry or index; an index past the end; a value which has
    nothing inside. *)
Inductive trouble := Missing | OutOfRange (index elements : N) | Leaf.

Section Spec.
  Variable get : cid -> option bytes.
  Variable decode : cid -> bytes -> outcome ipld unit.

  (** The value of a document, and the blocks read as directories. *)
  Definition document (c : cid) (v : ipld) : Prop :=
    cid_codec c <> codec_dagpb /\ exists b, get c = Some b /\ decode c b = Ok v.
  Definition directory (c : cid) (b : bytes) : Prop := cid_codec c = codec_dagpb /\ get c = Some b.
  Definition not_dot (p : list seg) : Prop := forall r, p <> dot :: r.

  (** From block [c] one link leads to block [d]; the segments [p] become [r]: one name of a
      directory, or a path inside the document to a link, followed by "." or not. *)
  Inductive link_step : cid -> list seg -> bool -> cid -> list seg -> Prop :=
  | step_dir c b s r deep d : directory c b -> dir_entry get b s deep d -> link_step c (s :: r) deep d r
  | step_doc c v q r d : document c v -> at_path v q (Link d) -> q ++ r <> [] -> not_dot r -> link_step c (q ++ r) false d r
  | step_dot c v q r d : document c v -> at_path v q (Link d) -> link_step c (q ++ dot :: r) false d r.

  (** Following links from [c] with segments [p] arrives at [d] with segments [q] left; [h] counts
      the directory entries found in a shard other than the first. *)
  Inductive leads : cid -> list seg -> nat -> cid -> list seg -> Prop :=
  | leads_here c p : leads c p 0 c p
  | leads_step c p deep d q h e r : link_step c p deep d q -> leads d q h e r ->
      leads c p (if deep then S h else h) e r.

  (** The block [c] has no entry [s]: no link of that name in a directory, nothing of that name in a
      single shard, or not a directory but a file. *)
  Definition no_entry (c : cid) (s : seg) : Prop :=
    exists b, directory c b /\
      ((exists links, plain_dir b links /\ forall l, In l links -> link_name l <> s) \/
       (exists links, shard b links /\ (forall l, In l links -> ~ is_bucket l /\ ~ entry_named s l))).
  Definition file (c : cid) : Prop :=
    exists b n d u, directory c b /\ pbnode_read b = Some n /\ n_data n = Some d /\ d <> [] /\
      unixfs_read d = Some u /\ u_type u = TFile.

  (** What is at [q], a path without links to follow, in block [c]: the block, a value, or the data
      of a dag-pb node. *)
  Inductive ends : cid -> list seg -> node -> Prop :=
  | end_block c b : get c = Some b -> ends c [] (NBlock c b)
  | end_value c v q v' : document c v -> q <> [] -> at_path v q v' -> (forall d, v' <> Link d) -> ends c q (NProjection c v')
  | end_data c b n : directory c b -> no_entry c data_seg -> pbnode_read b = Some n ->
      ends c [data_seg] (NDagPbData c (match n_data n with Some x => x | None => [] end)).

  (** Why a path cannot be followed in block [c]: [q] was followed, the segment after it could not. *)
  Inductive fails : cid -> list seg -> seg -> trouble -> Prop :=
  | fail_key c v q m s : document c v -> at_path v q (IMap m) -> bt_get s m = None -> fails c q s Missing
  | fail_index c v q l s : document c v -> at_path v q (IList l) -> (forall i, ~ index_of s i) -> fails c q s Missing
  | fail_range c v q l s i : document c v -> at_path v q (IList l) -> index_of s i -> blen l <= i ->
      fails c q s (OutOfRange i (blen l))
  | fail_leaf c v q w s : document c v -> at_path v q w ->
      match w with IMap _ | IList _ | Link _ => False | _ => True end -> fails c q s Leaf
  | fail_entry c s : no_entry c s -> fails c [] s Missing
  | fail_file c s : file c -> fails c [] s Missing.

  (** Blocks which cannot be searched for [s]. *)
  Inductive unsupported : cid -> seg -> Prop :=
  | bad_document c b s : cid_codec c <> codec_dagpb -> get c = Some b -> decode c b = Err tt -> unsupported c s
  | bad_directory c b s : directory c b -> (forall links, ~ plain_dir b links) -> (forall links, ~ shard b links) -> ~ file c ->
      unsupported c s
  | bad_links c b links s : directory c b -> plain_dir b links ->
      (exists i j l l', i <> j /\ nth_error links i = Some l /\ nth_error links j = Some l' /\ link_name l = s /\ link_name l' = s) \/
      (exists l, In l links /\ link_name l = s /\ link_cid l = None) -> unsupported c s
  | bad_shard c b links links' s : directory c b -> shard b links -> sub_shard get links links' ->
      ~ tidy s links' \/
      (exists l, In l links' /\ is_bucket l /\ forall d b' links'', link_cid l = Some d -> get d = Some b' -> ~ shard b' links'') ->
      unsupported c s.
  (** A sharded directory of several shards, all there, without an entry [s]. *)
  Definition absent_in_shards (c : cid) (s : seg) : Prop :=
    exists b links, directory c b /\ shard b links /\ (exists l, In l links /\ is_bucket l) /\
      forall links', sub_shard get links links' ->
        (forall l, In l links' -> ~ entry_named s l) /\
        (forall l, In l links' -> is_bucket l -> exists d b' links'', link_cid l = Some d /\ get d = Some b' /\ shard b' links'').

  (** What makes resolving panic at block [c]. *)
  Inductive panics : cid -> list seg -> Prop :=
  | panic_decode c b s r : cid_codec c <> codec_dagpb -> get c = Some b -> decode c b = Panic -> panics c (s :: r)
  | panic_name c b links links' l s r : directory c b -> shard b links -> sub_shard get links links' -> In l links' -> uncuttable l ->
      panics c (s :: r)
  | panic_data c b n : directory c b -> no_entry c data_seg -> pbnode_read b = Some n -> n_data n = Some [] ->
      panics c [data_seg].
End Spec.

(** Every sharded directory is complete, of at most [hfuel] shards below the first, and without
    duplicate, unusable or unreadable names. *)
Definition sound_dirs (get : cid -> option bytes) (hfuel : nat) : Prop :=
  forall c b links, directory get c b -> shard b links ->
  exists t, h_links t = links /\ stored get t /\ (length (below t) <= hfuel)%nat /\
    (forall s x, In x (shards t) -> tidy s x) /\
    (forall s x y l l', In x (shards t) -> In y (shards t) -> In l x -> In l' y -> entry_named s l -> entry_named s l' -> link_cid l = link_cid l').

(** The [Data] of a node which is present but empty. *)
Definition empty_data (get : cid -> option bytes) (n : node) : Prop :=
  exists c b nd, n = NDagPbData c [] /\ get c = Some b /\ pbnode_read b = Some nd /\ n_data nd = Some [].

(** The loads a walk needs: [w c] for the shard [c] and all below it, counting each as often as it is
    linked.  Such numbers exist when no shard is below itself. *)
Definition bucket_weight (w : cid -> nat) (l : pblink) : nat :=
  match link_name l, link_cid l with [_; _], Some c => w c | _, _ => 0%nat end.
Definition finite_dirs (get : cid -> option bytes) (w : cid -> nat) (hfuel : nat) : Prop :=
  (forall c, (1 <= w c <= hfuel)%nat) /\
  (forall c b links, get c = Some b -> shard b links -> (1 + list_sum (map (bucket_weight w) links) <= w c)%nat).
