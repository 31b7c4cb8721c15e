(** Building the blocks of a directory tree: unixfs/src/dir/builder/iter.rs and
    unixfs/src/dir/builder/custom_pb.rs.  Definitions only.

    The SHA2-256 digest is the parameter [sha] (dependency sha2).  Integer overflow checks are on:
    an addition of sizes past 2^64 panics. *)
From Verif Require Import Base Wire Cid Pb FileVisit BTree FMap IpfsPath TreeBuilder.
Local Open Scope N_scope.

(** [NamedLeaf], builder.rs l.149-150. *)
Record named_leaf := mk_named { nl_name : bytes; nl_cid : cid; nl_size : N }.
(** [Leaves], iter.rs l.28-32. *)
Definition leaves := list (option named_leaf).

(** [TreeConstructionFailed], builder.rs l.126-133. *)
Inductive construction_failed := Protobuf | TooLargeBlock (size : N).

(** [WriteableCid], custom_pb.rs l.70-111: the size announced and the bytes written. *)
Definition wcid_size (c : cid) : N :=
  let hash_len := blen (mh_to_bytes (cid_hash c)) in
  match c with CidV0 _ => hash_len | CidV1 codec _ => 1 + sizeof_varint codec + hash_len end.
Definition wcid_write (c : cid) : bytes :=
  match c with CidV0 _ => [] | CidV1 codec _ => 1 :: write_varint codec end ++ mh_to_bytes (cid_hash c).
(** [NamedLeafAsPBLink], custom_pb.rs l.45-67. *)
Definition nleaf_size (l : named_leaf) : N :=
  1 + sizeof_len (blen (nl_name l)) + 1 + sizeof_len (wcid_size (nl_cid l)) + 1 + sizeof_varint (nl_size l).
Definition nleaf_write (l : named_leaf) : bytes :=
  w_msg 10 (wcid_size (nl_cid l)) (wcid_write (nl_cid l)) ++ w_bytes 18 (nl_name l) ++ w_uint 24 (nl_size l).
(** The [UnixFs] of a directory, iter.rs l.105-108. *)
Definition directory_data : unixfs := mk_unixfs TDirectory None None [] None None None None.
(** [CustomFlatUnixFs], custom_pb.rs l.25-42, once [mapped] (l.15-22) has unwrapped every link. *)
Definition custom_size (ls : list named_leaf) : N :=
  sumN (map (fun l => 1 + sizeof_len (nleaf_size l)) ls) + 1 + sizeof_len (unixfs_size directory_data).
Definition custom_write (ls : list named_leaf) : bytes :=
  concat (map (fun l => w_msg 18 (nleaf_size l) (nleaf_write l)) ls)
  ++ w_msg 10 (unixfs_size directory_data) (unixfs_write directory_data).

(** The [unwrap]s of custom_pb.rs l.21 and iter.rs l.152. *)
Fixpoint unwrap_all (ls : leaves) : option (list named_leaf) :=
  match ls with
  | [] => Some []
  | Some l :: r => option_map (cons l) (unwrap_all r)
  | None :: _ => None
  end.
(** [sum::<u64>()]; [None] is an overflow. *)
Fixpoint sum_u64 (acc : N) (l : list N) : option N :=
  match l with
  | [] => Some acc
  | x :: r => if acc + x <? u64_max1 then sum_u64 (acc + x) r else None
  end.

Section Iter.
  Variable sha : bytes -> bytes.

  (** [render_directory], iter.rs l.80-160: also the buffer afterwards. *)
  Definition render_directory (ls : leaves) (buffer : bytes) (limit : option N)
    : outcome (cid * N) construction_failed * bytes :=
    match unwrap_all ls with
    | None => (Panic, buffer)
    | Some links =>
        let size := custom_size links in
        if match limit with Some l => l <? size | None => false end then (Err (TooLargeBlock size), buffer)
        else
          let buffer := buffer ++ repeat 0 (N.to_nat size - length buffer) in            (* l.127-136 *)
          let written := custom_write links in
          if (length buffer <? length written)%nat then (Err Protobuf, buffer)           (* l.138-140 *)
          else
            let buffer := firstn (N.to_nat size) (written ++ skipn (length written) buffer) in   (* l.142 *)
            match sum_u64 0 (map nl_size links) with
            | None => (Panic, buffer)
            | Some combined =>
                if blen buffer + combined <? u64_max1 then (Ok (CidV0 (sha buffer), blen buffer + combined), buffer)
                else (Panic, buffer)
            end
    end.

  (** [LeafStorage], l.435-439, and [Visited], l.40-62. *)
  Inductive storage := Direct (ls : leaves) | Stashed (id : N).
  Inductive visited :=
  | DescentRoot (node : tree)
  | Descent (node : tree) (name : bytes) (depth : nat) (index : nat)
  | Post (parent : N) (depth : nat) (name : bytes) (index : nat) (ls : storage)
  | PostRoot (ls : storage).

  (** [partition_children_leaves], l.407-433; [i] is the index of the first entry. *)
  Fixpoint partition_children (depth : nat) (i : nat) (nodes : list (bytes * tree)) : list visited * leaves :=
    match nodes with
    | [] => ([], [])
    | (k, v) :: r =>
        let (children, ls) := partition_children depth (S i) r in
        match v with
        | Dir _ _ _ _ => (Descent v k (depth + 1) i :: children, None :: ls)
        | Leaf c s => (children, Some (mk_named k c s) :: ls)
        end
    end.

  (** [full_path.bytes().rposition(|ch| ch == b'/')], l.372. *)
  Fixpoint last_slash (s : bytes) : option nat :=
    match s with
    | [] => None
    | c :: r =>
        match last_slash r with
        | Some n => Some (S n)
        | None => if c =? 47 then Some O else None
        end
    end.
  (** The loop of l.369-389.  [None] is a panic; the flag says that the function returned, l.377. *)
  Fixpoint pop_segments (full_path : bytes) (old_depth : nat) (name : option bytes) (depth : nat)
    : option (bytes * nat * bool) :=
    match old_depth with
    | O => Some (full_path, O, false)
    | S o =>
        if (depth <=? S o)%nat then
          match last_slash full_path with
          | None => None
          | Some at_ =>
              if Nat.eqb (S o) depth && match name with Some n => beq (skipn (S at_) full_path) n | None => false end
              then Some (full_path, S o, true)
              else pop_segments (firstn at_ full_path) o name depth
          end
        else Some (full_path, S o, false)
    end.
  (** [update_full_path], l.358-403; [None] is a panic. *)
  Definition update_full_path (full_path : bytes) (old_depth : nat) (name : option bytes) (depth : nat)
    : option (bytes * nat) :=
    match (if (depth <? 2)%nat then Some ([], O, false) else pop_segments full_path old_depth name depth) with
    | None => None
    | Some (full_path, old_depth, true) => Some (full_path, old_depth)
    | Some (full_path, old_depth, false) =>
        if (depth <? old_depth)%nat then None                        (* l.392 *)
        else
          let (full_path, old_depth) :=
            match name with
            | Some n => (match full_path with [] => n | _ => full_path ++ 47 :: n end, S old_depth)
            | None => (full_path, old_depth)
            end in
          if Nat.eqb old_depth depth then Some (full_path, old_depth) else None     (* l.402 *)
    end.

  (** [PostOrderIterator], l.12-26.  The fields [cid] and [total_size] only hold what is returned;
      [reused_children] is empty between turns.  The head of [it_pending] is the top of the stack. *)
  Record iter := mk_iter {
    it_path : bytes; it_depth : nat; it_buffer : bytes; it_pending : list visited; it_persisted : list (N * leaves) }.
  (** [new], l.65-78. *)
  Definition new_iter (root : tree) : iter := mk_iter [] 0 [] [DescentRoot root] [].

  (** [LeafStorage::into_inner], l.441-453: the leaves and the stash without them. *)
  Definition into_inner (s : storage) (stash : list (N * leaves)) : option (leaves * list (N * leaves)) :=
    match s with
    | Direct ls => Some (ls, stash)
    | Stashed id => option_map (fun ls => (ls, mdel N.eqb id stash)) (mget N.eqb id stash)
    end.

  (** [cell = Some(..)] at l.253-256; [None] when the index is out of bounds or the cell is taken. *)
  Fixpoint fill (index : nat) (l : named_leaf) (ls : leaves) : option leaves :=
    match index, ls with
    | O, None :: r => Some (Some l :: r)
    | S n, x :: r => option_map (cons x) (fill n l r)
    | _, _ => None
    end.

  (** [OwnedTreeNode], l.346-356, or an error. *)
  Inductive out :=
  | Node (path : bytes) (c : cid) (total_size : N) (block : bytes)
  | Failed (e : construction_failed).

  (** One turn of the loop of [next_borrowed], l.166-297. *)
  Inductive turn := Continue (it : iter) | Return (o : out) (it : iter) | Break (it : iter) | Panicked.
  Definition visit (wrap : bool) (limit : option N) (v : visited) (pending : list visited) (it : iter) : turn :=
    let (name, depth) :=
      match v with
      | DescentRoot _ => (None, O)
      | Descent _ name depth _ => (Some name, depth)
      | Post _ depth name _ _ => (Some name, depth)
      | PostRoot _ => (None, O)
      end in
    match update_full_path (it_path it) (it_depth it) name depth with
    | None => Panicked
    | Some (path, old_depth) =>
        match v with
        | DescentRoot (Dir _ _ id nodes) =>
            let (children, ls) := partition_children depth 0 nodes in
            match children with
            | [] => Continue (mk_iter path old_depth (it_buffer it) (PostRoot (Direct ls) :: pending) (it_persisted it))
            | _ => Continue (mk_iter path old_depth (it_buffer it) (rev children ++ PostRoot (Stashed id) :: pending)
                                     (mset N.eqb id ls (it_persisted it)))
            end
        | Descent (Dir _ (Some parent) id nodes) name depth index =>
            let (children, ls) := partition_children depth 0 nodes in
            match children with
            | [] => Continue (mk_iter path old_depth (it_buffer it) (Post parent depth name index (Direct ls) :: pending) (it_persisted it))
            | _ => Continue (mk_iter path old_depth (it_buffer it) (rev children ++ Post parent depth name index (Stashed id) :: pending)
                                     (mset N.eqb id ls (it_persisted it)))
            end
        | DescentRoot _ | Descent _ _ _ _ => Panicked        (* a leaf; no parent id, l.201 *)
        | Post parent depth name index s =>
            match into_inner s (it_persisted it) with
            | None => Panicked
            | Some (ls, stash) =>
                match render_directory ls (it_buffer it) limit with
                | (Panic, _) => Panicked
                | (Err e, buffer) => Return (Failed e) (mk_iter path old_depth buffer pending stash)
                | (Ok (c, total), buffer) =>
                    match mget N.eqb parent stash with
                    | None => Panicked                                         (* l.248 *)
                    | Some above =>
                        match fill index (mk_named name c total) above with
                        | None => Panicked
                        | Some above =>
                            Return (Node path c total buffer)
                                   (mk_iter path old_depth buffer pending (mset N.eqb parent above stash))
                        end
                    end
                end
            end
        | PostRoot s =>
            match into_inner s (it_persisted it) with
            | None => Panicked
            | Some (ls, stash) =>
                if negb wrap then Break (mk_iter path old_depth (it_buffer it) pending stash)
                else
                  match render_directory ls (it_buffer it) limit with
                  | (Panic, _) => Panicked
                  | (Err e, buffer) => Return (Failed e) (mk_iter path old_depth buffer pending stash)
                  | (Ok (c, total), buffer) => Return (Node path c total buffer) (mk_iter path old_depth buffer pending stash)
                  end
            end
        end
    end.

  (** Calling [next] until it says [None], l.302-309: the items, and how it ended, within [fuel]
      turns.  (After a [break] nothing is pending.) *)
  Inductive end_of := Finished | Crashed.
  Fixpoint run (fuel : nat) (wrap : bool) (limit : option N) (it : iter) : list out * option end_of :=
    match fuel with
    | O => ([], None)
    | S fuel =>
        match it_pending it with
        | [] => ([], Some Finished)
        | v :: pending =>
            match visit wrap limit v pending it with
            | Continue it => run fuel wrap limit it
            | Return o it => let (l, e) := run fuel wrap limit it in (o :: l, e)
            | Break _ => ([], Some Finished)
            | Panicked => ([], Some Crashed)
            end
        end
    end.
  (** [BufferingTreeBuilder::build], buffered.rs l.181-183, and iterating to the end. *)
  Definition build (fuel : nat) (b : builder) : list out * option end_of :=
    run fuel (b_wrap b) (b_limit b) (new_iter (b_root b)).
End Iter.
