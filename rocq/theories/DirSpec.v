(** What looking up a name in a directory means (independent of the lookup code). *)
From Verif Require Import Base Wire Cid Pb DirLookup.
Local Open Scope N_scope.

(** The links of a block which is searched by name: a dag-pb node without data, with data which is
    not UnixFS, or a UnixFS directory without file or shard properties. *)
Definition plain_dir (block : bytes) (links : list pblink) : Prop :=
  exists n, pbnode_read block = Some n /\ links = n_links n /\
    match n_data n with
    | None | Some [] => True
    | Some d =>
        match unixfs_read d with
        | None => True
        | Some u => u_type u = TDirectory /\ u_filesize u = None /\ u_blocksizes u = [] /\
                    u_hashtype u = None /\ u_fanout u = None /\ (u_data u = None \/ u_data u = Some [])
        end
    end.
(** The links of a block which is a shard of a HAMT directory: murmur hash, fan out 256. *)
Definition shard (block : bytes) (links : list pblink) : Prop :=
  exists n d u, pbnode_read block = Some n /\ links = n_links n /\ n_data n = Some d /\ d <> [] /\
    unixfs_read d = Some u /\ u_type u = THAMTShard /\ u_fanout u = Some 256 /\ u_hashtype u = Some 34 /\
    u_filesize u = None /\ u_blocksizes u = [].

(** Link [i] is the only one with the name. *)
Definition only_named (links : list pblink) (name : bytes) (i : nat) (l : pblink) : Prop :=
  nth_error links i = Some l /\ link_name l = name /\
  forall j l', nth_error links j = Some l' -> link_name l' = name -> j = i.

(** A link of a shard: two characters for the bucket, then the name, or nothing for a sub shard. *)
Definition entry_named (needle : bytes) (l : pblink) : Prop :=
  exists x y, link_name l = x :: y :: needle /\ needle <> [].
Definition is_bucket (l : pblink) : Prop := length (link_name l) = 2%nat.
(** A name which cannot be cut after two bytes. *)
Definition uncuttable (l : pblink) : Prop := exists x y c rest, link_name l = x :: y :: c :: rest /\ 128 <= c <= 191.

(** A sharded directory as a tree of shards: the links of a shard, and its sub shards with their
    cids in the order of the links. *)
Inductive hamt := Hamt (links : list pblink) (subs : list (cid * hamt)).
Definition h_links (t : hamt) : list pblink := match t with Hamt l _ => l end.
Definition h_subs (t : hamt) : list (cid * hamt) := match t with Hamt _ s => s end.

(** The bucket links are the sub shards, and each is stored. *)
Fixpoint stored (get : cid -> option bytes) (t : hamt) : Prop :=
  match t with
  | Hamt links subs =>
      map link_cid (filter (fun l => (length (link_name l) =? 2)%nat) links) = map (fun s => Some (fst s)) subs /\
      (fix all (s : list (cid * hamt)) : Prop :=
         match s with
         | [] => True
         | (c, t) :: r => (exists b, get c = Some b /\ shard b (h_links t)) /\ stored get t /\ all r
         end) subs
  end.

(** All shards below the root, parents before children. *)
Fixpoint below (t : hamt) : list (cid * hamt) :=
  match t with
  | Hamt _ subs =>
      (fix all (s : list (cid * hamt)) : list (cid * hamt) :=
         match s with
         | [] => []
         | (c, t) :: r => (c, t) :: below t ++ all r
         end) subs
  end.
(** All shards. *)
Definition shards (t : hamt) : list (list pblink) := h_links t :: map (fun x => h_links (snd x)) (below t).

(** A shard in which a lookup of [needle] meets nothing unexpected. *)
Definition tidy (needle : bytes) (links : list pblink) : Prop :=
  (forall l, In l links -> ~ uncuttable l) /\
  (forall l, In l links -> entry_named needle l -> link_cid l <> None) /\
  (forall i j l l', nth_error links i = Some l -> nth_error links j = Some l' ->
     entry_named needle l -> entry_named needle l' -> i = j).

(** The shards which can be reached from the links [root] of a shard, whatever else is stored. *)
Inductive sub_shard (get : cid -> option bytes) (root : list pblink) : list pblink -> Prop :=
| ss_root : sub_shard get root root
| ss_step links l c b links' : sub_shard get root links -> In l links -> is_bucket l -> link_cid l = Some c ->
    get c = Some b -> shard b links' -> sub_shard get root links'.
