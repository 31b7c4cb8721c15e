(** The blocks a tree should be built into (independent of how the iterator works). *)
From Verif Require Import Base Wire Cid Pb FileVisit BTree IpfsPath TreeBuilder TreeIter.
Local Open Scope N_scope.

(** The block of a directory with the given entries: a dag-pb node with one link for each entry, in
    order, with name, cid and size, and the UnixFS data of a plain directory. *)
Definition dir_link (e : bytes * (cid * N)) : pblink :=
  mk_pblink (Some (cid_to_bytes (fst (snd e)))) (Some (fst e)) (Some (snd (snd e))).
Definition dir_block (entries : list (bytes * (cid * N))) : bytes :=
  flat_write (mk_flat (map dir_link entries) (mk_unixfs TDirectory None None [] None None None None)).

Section Spec.
  Variable sha : bytes -> bytes.

  (** The cid and the cumulative size of a directory with the given entries. *)
  Definition dir_cid (entries : list (bytes * (cid * N))) : cid := CidV0 (sha (dir_block entries)).
  Definition dir_total (entries : list (bytes * (cid * N))) : N :=
    blen (dir_block entries) + sumN (map (fun e => snd (snd e)) entries).

  (** What a tree is linked as. *)
  Fixpoint linked (t : tree) : cid * N :=
    match t with
    | Leaf c s => (c, s)
    | Dir _ _ _ ns =>
        let es := map (fun e => (fst e, linked (snd e))) ns in
        (dir_cid es, dir_total es)
    end.
  Definition entries (ns : list (bytes * tree)) : list (bytes * (cid * N)) := map (fun e => (fst e, linked (snd e))) ns.

  (** The node for the directory at [path]. *)
  Definition node_at (path : list bytes) (ns : list (bytes * tree)) : out :=
    Node (join path) (dir_cid (entries ns)) (dir_total (entries ns)) (dir_block (entries ns)).

  (** The directories of a tree in the order they are built: the last sub directory first, the
      directory itself after all of its sub directories. *)
  Fixpoint post (path : list bytes) (t : tree) : list out :=
    match t with
    | Leaf _ _ => []
    | Dir _ _ _ ns =>
        (fix all (l : list (bytes * tree)) : list out :=
           match l with
           | [] => []
           | (n, t) :: r => all r ++ post (path ++ [n]) t
           end) ns ++ [node_at path ns]
    end.
  (** The same for the entries of a directory. *)
  Definition post_entries (path : list bytes) (ns : list (bytes * tree)) : list out :=
    concat (rev (map (fun e => post (path ++ [fst e]) (snd e)) ns)).

  (** Everything built for a tree: the root only when wrapped. *)
  Definition all_nodes (wrap : bool) (root : tree) : list out :=
    post_entries [] (nodes_of root) ++ (if wrap then [node_at [] (nodes_of root)] else []).

  (** Stopping at the first block over the limit. *)
  Fixpoint cut (limit : option N) (l : list out) : list out :=
    match l with
    | Node p c s b :: r =>
        match limit with
        | Some m => if m <? blen b then [Failed (TooLargeBlock (blen b))] else Node p c s b :: cut limit r
        | None => Node p c s b :: cut limit r
        end
    | Failed e :: r => [Failed e]
    | [] => []
    end.
  Definition all_fit (limit : option N) (l : list out) : Prop :=
    match limit with
    | Some m => forall p c s b, In (Node p c s b) l -> blen b <= m
    | None => True
    end.
  (** No directory is larger than 64 bits can say. *)
  Definition sizes_fit (l : list out) : Prop := forall p c s b, In (Node p c s b) l -> s < u64_max1.

  (** All the links of the tree. *)
  Fixpoint links_wf (t : tree) : Prop :=
    match t with
    | Leaf c _ => wf_cid c
    | Dir _ _ _ ns => (fix all (l : list (bytes * tree)) : Prop := match l with [] => True | (_, t) :: r => links_wf t /\ all r end) ns
    end.
End Spec.
