(** Walking a UnixFS tree: unixfs/src/walk.rs.  Definitions only.

    [dbg] says whether debug assertions are compiled in ([debug_assert_eq!] in [set_path]). *)
From Verif Require Import Base Wire Cid Pb FileVisit DirLookup IpfsPath StdPath.
Local Open Scope N_scope.

(** [Error], walk.rs l.629-659, with [From<ParsingFailed>] (l.661-670) below. *)
Inductive walk_err :=
| WUnsupportedType (t : dtype)
| WUnexpectedType (t : dtype)
| WDagPb | WUnixFs | WEmptyNode
| WInvalidCid (nth : nat)
| WFile (e : file_error)
| WUnsupportedDirectory
| WUnsupportedShard.

(** [From<FileReadFailed>], l.678-688: a block that does not parse is taken to be impossible
    ([unreachable!]). *)
Definition file_err {A} (e : file_error) : outcome A walk_err :=
  match e with
  | ReadFailed => Panic
  | FileVisit.UnexpectedType t => Err (WUnexpectedType t)
  | InvalidCidInLink n => Err (WInvalidCid n)
  | e => Err (WFile e)
  end.
Definition parse_err (e : parse_failed) : walk_err :=
  match e with InvalidDagPb => WDagPb | InvalidUnixFs _ => WUnixFs | NoData _ => WEmptyNode end.

(** [InnerKind], l.328-344. *)
Inductive kind :=
| KRootDirectory | KBucketAtRoot | KRootBucket | KBucket | KDirectory
| KFile (v : option visit) (size : N)
| KSymlink.

(** [InnerEntry], l.312-318. *)
Record inner := mk_inner {
  e_cid : cid; e_kind : kind; e_path : bytes; e_meta : metadata; e_depth : nat }.

(** An item of [next] and [pending]: the cid, the name and the depth. *)
Definition item : Type := cid * bytes * nat.

(** [Walker], l.17-30.  [pending] is kept with the next item first (the code pops from the end). *)
Record walker := mk_walker {
  w_current : option inner; w_next : option item; w_pending : list item; w_continue : bool }.

(** [Walker::new], l.77-88. *)
Definition walker_new (c : cid) (root_name : bytes) : walker :=
  mk_walker None (Some (c, root_name, match root_name with [] => 1 | _ => 2 end%nat)) [] true.

Definition has_slash (s : bytes) : bool := existsb (fun c => c =? 47) s.

(** [convert_link], l.32-50. *)
Definition convert_link (nested : nat) (nth : nat) (l : pblink) : outcome item walk_err :=
  match link_cid l with
  | None => Err (WInvalidCid nth)
  | Some c =>
      match link_name l with
      | [] => Panic
      | n => if has_slash n then Panic else Ok (c, n, nested)
      end
  end.

(** [convert_sharded_link], l.53-73; [s[2..]] panics when byte 2 continues a character. *)
Definition convert_sharded_link (nested sibling : nat) (nth : nat) (l : pblink) : outcome item walk_err :=
  match link_cid l with
  | None => Err (WInvalidCid nth)
  | Some c =>
      match link_name l with
      | _ :: _ :: (b :: _) as n => if cont b then Panic else if has_slash n then Panic else Ok (c, n, nested)
      | [_; _] => Ok (c, [], sibling)
      | _ => Panic
      end
  end.

(** The loops of l.164-176 and l.204-218: links are converted from the last to the first and pushed,
    stopping at the first failure. *)
Fixpoint convert_all (conv : nat -> pblink -> outcome item walk_err) (nth : nat) (links : list pblink)
  : outcome (list item) walk_err :=
  match links with
  | [] => Ok []
  | l :: r =>
      match convert_all conv (S nth) r with
      | Ok items => match conv nth l with Ok i => Ok (i :: items) | Err e => Err e | Panic => Panic end
      | other => other
      end
  end.

(** [pending_links], l.96-119, only the first: the block to load.  [None] is a panic. *)
Definition first_pending (w : walker) : option cid :=
  match w_current w with
  | Some (mk_inner _ (KFile (Some v) _) _ _ _) => next_link v
  | _ => option_map (fun i => fst (fst i)) (w_next w)
  end.
(** The other links of [pending_links], in the order in which they are shown. *)
Definition rest_pending (w : walker) : list cid :=
  match w_current w with
  | Some (mk_inner _ (KFile (Some v) _) _ _ _) =>
      map fst (tl (v_pending v))
      ++ match w_next w with Some (c, _, _) => [c] | None => [] end
      ++ map (fun i => fst (fst i)) (w_pending w)
  | _ => map (fun i => fst (fst i)) (w_pending w)
  end.

(** [ContinuedWalk], l.549-566; a file segment is its bytes and whether it is the first and the last
    (l.585-607). *)
Inductive walked :=
| OBucket (c : cid) (path : bytes)
| ODirectory (c : cid) (path : bytes) (m : metadata)
| OFile (seg : bytes) (first last : bool) (c : cid) (path : bytes) (m : metadata) (size : N)
| ORootDirectory (c : cid) (path : bytes) (m : metadata)
| OSymlink (target : bytes) (c : cid) (path : bytes) (m : metadata).

Section Debug.
Variable dbg : bool.

(** The loop of [set_path], l.408-414: pop while [depth >= target]. *)
Fixpoint pop_to (depth target : nat) (p : bytes) : option bytes :=
  match depth with
  | O => Some p
  | S d => if (target <=? S d)%nat
           then match parent p with Some p' => pop_to d target p' | None => None end
           else Some p
  end.
(** [set_path], l.405-421; [None] is a panic. *)
Definition set_path (depth : nat) (p : bytes) (name : bytes) (target : nat) : option bytes :=
  if dbg && negb (depth =? ancestors p)%nat then None
  else match pop_to depth target p with
       | None => None
       | Some p' =>
           let q := push p' name in
           if dbg && negb (target =? ancestors q)%nat then None else Some q
       end.

(** [as_directory], [as_bucket_root], [as_file], [as_symlink] (l.423-461, l.491-535): the same but for
    the kind; an unfinished file cannot be followed ([unreachable!]). *)
Definition become (k : kind) (ie : inner) (c : cid) (name : bytes) (depth : nat) (m : metadata) : option inner :=
  match e_kind ie with
  | KFile (Some _) _ => None
  | _ =>
      match set_path (e_depth ie) (e_path ie) name depth with
      | Some p => Some (mk_inner c k p m depth)
      | None => None
      end
  end.

(** The loop of [as_bucket], l.476-482: pop while [depth > target]. *)
Fixpoint pop_above (depth target : nat) (p : bytes) : option (nat * bytes) :=
  match depth with
  | O => Some (O, p)
  | S d => if (target <? S d)%nat
           then match parent p with Some p' => pop_above d target p' | None => None end
           else Some (S d, p)
  end.
(** [as_bucket], l.463-489.  The metadata stays. *)
Definition as_bucket (ie : inner) (c : cid) (name : bytes) (depth : nat) : option inner :=
  match e_kind ie with
  | KBucketAtRoot => if (e_depth ie =? depth)%nat then Some ie else None
  | KRootBucket | KBucket | KFile None _ | KSymlink =>
      match name with
      | [] =>
          match pop_above (e_depth ie) depth (e_path ie) with
          | Some (d, p) => if (d =? depth)%nat then Some (mk_inner c KBucket p (e_meta ie) d) else None
          | None => None
          end
      | _ => None
      end
  | _ => None
  end.

(** [new_root_dir], [new_root_bucket], [new_root_file], [new_root_symlink], l.347-403. *)
Definition new_root (k : kind) (c : cid) (m : metadata) (name : bytes) (depth : nat) : inner :=
  mk_inner c k (push [] name) m depth.

(** The entry after a directory, file, symlink or named shard: a new root entry or the old one
    changed. *)
Definition enter (root_kind k : kind) (cur : option inner) (c : cid) (name : bytes) (depth : nat) (m : metadata)
  : option inner :=
  match cur with
  | None => Some (new_root root_kind c m name depth)
  | Some ie => become k ie c name depth m
  end.

(** [Walker::next], l.126-305.  The state after an error is not kept: [should_continue] is false
    then and callers stop. *)
Definition walk_next (w : walker) (block : bytes) : outcome (walker * walked) walk_err :=
  match w_current w with
  | Some (mk_inner c (KFile (Some v) sz) path m depth) =>
      match visit_continue v block with
      | Err e => file_err e
      | Panic => Panic
      | Ok (bs, step) =>
          let continues := match step with Some _ => true | None => false end in
          Ok (mk_walker (Some (mk_inner c (KFile step sz) path m depth)) (w_next w) (w_pending w)
                (continues || match w_next w with Some _ => true | None => false end),
              OFile bs false (negb continues) c path m sz)
      end
  | cur =>
      match flat_parse block with
      | inr e => Err (parse_err e)
      | inl f =>
          let m := meta_of (f_data f) in
          let after todo := (hd_error todo, tl todo, match todo with [] => false | _ => true end) in
          match u_type (f_data f) with
          | TDirectory =>
              if check_directory_supported (f_data f) then
                match w_next w with
                | None => Panic
                | Some (c, name, depth) =>
                    match convert_all (convert_link (S depth)) 0 (f_links f) with
                    | Err e => Err e
                    | Panic => Panic
                    | Ok items =>
                        let '(n, p, g) := after (items ++ w_pending w) in
                        match enter KRootDirectory KDirectory cur c name depth m with
                        | None => Panic
                        | Some ie =>
                            Ok (mk_walker (Some ie) n p g,
                                match cur with
                                | None => ORootDirectory (e_cid ie) (e_path ie) (e_meta ie)
                                | Some _ => ODirectory (e_cid ie) (e_path ie) (e_meta ie)
                                end)
                        end
                    end
                end
              else Err WUnsupportedDirectory
          | THAMTShard =>
              if check_supported (f_data f) then
                match w_next w with
                | None => Panic
                | Some (c, name, depth) =>
                    match convert_all (convert_sharded_link (S depth) depth) 0 (f_links f) with
                    | Err e => Err e
                    | Panic => Panic
                    | Ok items =>
                        let '(n, p, g) := after (items ++ w_pending w) in
                        match cur, name with
                        | Some ie, [] =>
                            match as_bucket ie c name depth with
                            | None => Panic
                            | Some ie => Ok (mk_walker (Some ie) n p g, OBucket (e_cid ie) (e_path ie))
                            end
                        | _, _ =>
                            match enter KBucketAtRoot KRootBucket cur c name depth m with
                            | None => Panic
                            | Some ie => Ok (mk_walker (Some ie) n p g, ORootDirectory (e_cid ie) (e_path ie) (e_meta ie))
                            end
                        end
                    end
                end
              else Err WUnsupportedShard
          | TRaw | TFile =>
              match visit_start None block with
              | Err e => file_err e
              | Panic => Panic
              | Ok (bs, size, fm, step) =>
                  match w_next w with
                  | None => Panic
                  | Some (c, name, depth) =>
                      let continues := match step with Some _ => true | None => false end in
                      match enter (KFile step size) (KFile step size) cur c name depth fm with
                      | None => Panic
                      | Some ie =>
                          let '(n, p, g) := after (w_pending w) in
                          Ok (mk_walker (Some ie) n p (continues || g),
                              OFile bs true (negb continues) (e_cid ie) (e_path ie) (e_meta ie) size)
                      end
                  end
              end
          | TMetadata => Err (WUnsupportedType TMetadata)
          | TSymlink =>
              match w_next w with
              | None => Panic
              | Some (c, name, depth) =>
                  match enter KSymlink KSymlink cur c name depth m with
                  | None => Panic
                  | Some ie =>
                      let '(n, p, g) := after (w_pending w) in
                      Ok (mk_walker (Some ie) n p g,
                          OSymlink (match u_data (f_data f) with Some d => d | None => [] end)
                            (e_cid ie) (e_path ie) (e_meta ie))
                  end
              end
          end
      end
  end.

(** The loop of a caller, as in http/src/v0/root_files.rs l.145-158: while the walker wants to
    continue, load the first pending link and take the next step. *)
Inductive walk_end := Done | Failed (e : walk_err) | Missing (c : cid) | Panicked | OutOfFuel.
Fixpoint walk (fuel : nat) (get : cid -> option bytes) (w : walker) : list walked * walk_end :=
  if w_continue w then
    match fuel with
    | O => ([], OutOfFuel)
    | S f =>
        match first_pending w with
        | None => ([], Panicked)
        | Some c =>
            match get c with
            | None => ([], Missing c)
            | Some block =>
                match walk_next w block with
                | Err e => ([], Failed e)
                | Panic => ([], Panicked)
                | Ok (w', o) => let (os, e) := walk f get w' in (o :: os, e)
                end
            end
        end
    end
  else ([], Done).
End Debug.
