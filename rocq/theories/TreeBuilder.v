(** Buffering directory trees: unixfs/src/dir/builder.rs, unixfs/src/dir/builder/buffered.rs and
    unixfs/src/dir/builder/dir_builder.rs.  Definitions only. *)
From Verif Require Import Base Wire Cid Pb FileVisit BTree IpfsPath.
Local Open Scope N_scope.

(** [Entry] (builder.rs l.16-19), [Leaf] (l.43-46) and [DirBuilder] (dir_builder.rs l.11-20): the
    metadata, the id of the parent, the own id and the entries by name. *)
Inductive tree :=
| Leaf (link : cid) (total_size : N)
| Dir (meta : metadata) (parent_id : option N) (id : N) (nodes : list (bytes * tree)).
Definition nodes_of (t : tree) : list (bytes * tree) := match t with Leaf _ _ => [] | Dir _ _ _ ns => ns end.

(** [Metadata::default()], unixfs/src/lib.rs. *)
Definition meta0 : metadata := mk_meta None None.

(** [TreeBuildingFailed], builder.rs l.82-100; each case but one carries the path of the call. *)
Inductive building_failed :=
| RootedPath (s : bytes)
| RepeatSlashesInPath (s : bytes)
| PathEndsInSlash (s : bytes)
| TooManyRootLevelEntries
| DuplicatePath (s : bytes)
| LeafAsDirectory (s : bytes).

(** [BufferingTreeBuilder], buffered.rs l.7-18.  [longest_path] is only used as a capacity and left
    out; the counter is a [u64], which cannot be exhausted by entries held in memory. *)
Record builder := mk_builder { b_root : tree; b_counter : N; b_wrap : bool; b_limit : option N }.
(** [BufferingTreeBuilder::new], l.27-34; [DirBuilder::root], dir_builder.rs l.33-40. *)
Definition new_builder (wrap : bool) (limit : option N) : builder :=
  mk_builder (Dir meta0 None 0 []) 1 wrap limit.
(** [TreeOptions::default], builder.rs l.61-69. *)
Definition default_limit : option N := Some 524288.

(** [str::ends_with('/')] and [str::contains("//")]. *)
Fixpoint ends_in_slash (s : bytes) : bool :=
  match s with [] => false | [c] => c =? 47 | _ :: r => ends_in_slash r end.
Fixpoint repeats_slash (s : bytes) : bool :=
  match s with
  | a :: (b :: _) as r => ((a =? 47) && (b =? 47)) || repeats_slash r
  | _ => false
  end.

(** What a call does to the last directory: from the own id and entries of the directory, the name
    and the next free id, the entries afterwards, whether the id was taken and the result. *)
Definition action := N -> list (bytes * tree) -> bytes -> N -> list (bytes * tree) * bool * outcome unit building_failed.

(** [DirBuilder::put_leaf], dir_builder.rs l.42-50, in the closure of [put_link], buffered.rs l.50-54. *)
Definition put_leaf (full_path : bytes) (c : cid) (size : N) : action := fun own nodes name next =>
  match bt_get name nodes with
  | Some _ => (nodes, false, Err (DuplicatePath full_path))
  | None => (bt_insert name (Leaf c size) nodes, false, Ok tt)
  end.
(** [DirBuilder::add_or_get_node], dir_builder.rs l.52-65, then [set_metadata] on the directory,
    l.75-77, in the closure of [set_metadata], buffered.rs l.67-73.  [DirBuilder::new] asserts that
    the ids differ, l.24. *)
Definition set_meta (full_path : bytes) (md : metadata) : action := fun own nodes name next =>
  match bt_get name nodes with
  | Some (Leaf _ _) => (nodes, false, Err (LeafAsDirectory full_path))
  | Some (Dir _ p i ns) => (bt_insert name (Dir md p i ns) nodes, false, Ok tt)
  | None =>
      if own =? next then (nodes, true, Panic)
      else (bt_insert name (Dir md (Some own) next []) nodes, true, Ok tt)
  end.

Section Modify.
  Variable wrap : bool.
  Variable full_path : bytes.
  Variable f : action.

  (** The loop of [modify_with], buffered.rs l.104-170, from a directory with the given id and
      entries: the entries and the counter afterwards, and the result. *)
  Fixpoint modify_loop (depth : nat) (parts : list bytes) (own : N) (nodes : list (bytes * tree)) (counter : N)
    : list (bytes * tree) * N * outcome unit building_failed :=
    match parts with
    | [] => (nodes, counter, Panic)                                            (* l.166-170 *)
    | next :: rest =>
        let last := match rest with [] => true | _ => false end in
        match depth, is_empty next, last with
        | O, true, false => (nodes, counter, Err (RootedPath full_path))
        | S _, true, _ => (nodes, counter, Panic)
        | _, _, _ =>
            let full := Nat.eqb depth 0 && negb wrap && match nodes with [] => false | _ => true end in
            if last then
              if full then (nodes, counter, Err TooManyRootLevelEntries)
              else
                let '(nodes, taken, r) := f own nodes next counter in
                (nodes, if taken then counter + 1 else counter, r)
            else
              match bt_get next nodes with
              | Some (Dir m p i ns) =>
                  let '(ns, counter, r) := modify_loop (S depth) rest i ns counter in
                  (bt_insert next (Dir m p i ns) nodes, counter, r)
              | Some (Leaf _ _) => (nodes, counter, Err (LeafAsDirectory full_path))
              | None =>
                  if full then (nodes, counter, Err TooManyRootLevelEntries)
                  else if own =? counter then (nodes, counter + 1, Panic)
                  else
                    let '(ns, counter', r) := modify_loop (S depth) rest counter [] (counter + 1) in
                    (bt_insert next (Dir meta0 (Some own) counter ns) nodes, counter', r)
              end
        end
    end.
End Modify.

(** [modify_with], buffered.rs l.79-171. *)
Definition modify_with (b : builder) (full_path : bytes) (f : action) : builder * outcome unit building_failed :=
  if ends_in_slash full_path then (b, Err (PathEndsInSlash full_path))
  else if repeats_slash full_path then (b, Err (RepeatSlashesInPath full_path))
  else
    match b_root b with
    | Leaf _ _ => (b, Panic)                           (* the root is a [DirBuilder] *)
    | Dir m p i ns =>
        let '(ns, counter, r) := modify_loop (b_wrap b) full_path f 0 (split_slash full_path) i ns (b_counter b) in
        (mk_builder (Dir m p i ns) counter (b_wrap b) (b_limit b), r)
    end.

(** [put_link], buffered.rs l.39-55; [set_metadata], l.59-74. *)
Definition put_link (b : builder) (full_path : bytes) (target : cid) (total_size : N) :=
  modify_with b full_path (put_leaf full_path target total_size).
Definition set_metadata (b : builder) (full_path : bytes) (md : metadata) :=
  modify_with b full_path (set_meta full_path md).

(** The calls a user makes, and any sequence of them with their results. *)
Inductive call := PutLink (full_path : bytes) (target : cid) (total_size : N) | SetMetadata (full_path : bytes) (md : metadata).
Definition do_call (b : builder) (c : call) : builder * outcome unit building_failed :=
  match c with PutLink p c s => put_link b p c s | SetMetadata p md => set_metadata b p md end.
Fixpoint do_calls (b : builder) (l : list call) : builder * list (outcome unit building_failed) :=
  match l with
  | [] => (b, [])
  | c :: r => let (b, x) := do_call b c in let (b, xs) := do_calls b r in (b, x :: xs)
  end.
