(** What a tree builder should hold after a history of accepted calls, and what a call should
    return (independent of how the tree is stored). *)
From Verif Require Import Base Wire Cid Pb FileVisit BTree IpfsPath TreeBuilder.
Local Open Scope N_scope.

Definition call_path (c : call) : bytes := match c with PutLink p _ _ => p | SetMetadata p _ => p end.

(** Paths as lists of segments. *)
Fixpoint seg_eqb (a b : list bytes) : bool :=
  match a, b with
  | [], [] => true
  | x :: a, y :: b => beq x y && seg_eqb a b
  | _, _ => false
  end.
Fixpoint seg_prefix (a b : list bytes) : bool :=
  match a, b with
  | [], _ => true
  | x :: a, y :: b => beq x y && seg_prefix a b
  | _, _ => false
  end.
Definition proper_prefix (a b : list bytes) : bool := seg_prefix a b && negb (seg_eqb a b).

(** What is at the path [q] after the accepted calls [h] (the most recent call first): a link, when
    it was put there; a directory, when something was put below it or metadata was set at or below
    it; nothing otherwise. *)
Definition puts (q : list bytes) (c : call) : option (cid * N) :=
  match c with PutLink p c s => if seg_eqb q (split_slash p) then Some (c, s) else None | _ => None end.
Definition makes_dir (q : list bytes) (c : call) : bool :=
  match c with
  | PutLink p _ _ => proper_prefix q (split_slash p)
  | SetMetadata p _ => seg_prefix q (split_slash p)
  end.
Definition sets_meta (q : list bytes) (c : call) : option metadata :=
  match c with SetMetadata p md => if seg_eqb q (split_slash p) then Some md else None | _ => None end.

Fixpoint first_some {A B} (f : A -> option B) (l : list A) : option B :=
  match l with [] => None | x :: r => match f x with Some y => Some y | None => first_some f r end end.

Definition link_at (h : list call) (q : list bytes) : option (cid * N) := first_some (puts q) h.
Definition dir_at (h : list call) (q : list bytes) : bool := existsb (makes_dir q) h.
Definition meta_at (h : list call) (q : list bytes) : metadata :=
  match first_some (sets_meta q) h with Some md => md | None => meta0 end.

Definition is_link (h : list call) (q : list bytes) : bool := match link_at h q with Some _ => true | None => false end.
Definition taken (h : list call) (q : list bytes) : bool := is_link h q || dir_at h q.

(** The proper, non-empty prefixes of a path. *)
Fixpoint ancestors (p : list bytes) : list (list bytes) :=
  match p with
  | [] | [_] => []
  | x :: r => [x] :: map (cons x) (ancestors r)
  end.

Definition starts_with_slash (p : bytes) : bool := match p with c :: _ => c =? 47 | [] => false end.
(** The result of a call after the accepted calls [h]. *)
Definition verdict (wrap : bool) (h : list call) (c : call) : outcome unit building_failed :=
  let p := call_path c in
  let q := split_slash p in
  if ends_in_slash p then Err (PathEndsInSlash p)
  else if repeats_slash p then Err (RepeatSlashesInPath p)
  else if starts_with_slash p then Err (RootedPath p)
  else if negb wrap && match h with [] => false | _ => true end
          && match q with _ :: _ :: _ => negb (taken h (firstn 1 q)) | _ => true end
       then Err TooManyRootLevelEntries
  else if existsb (is_link h) (ancestors q) then Err (LeafAsDirectory p)
  else
    match c with
    | PutLink _ _ _ => if taken h q then Err (DuplicatePath p) else Ok tt
    | SetMetadata _ _ => if is_link h q then Err (LeafAsDirectory p) else Ok tt
    end.

(** The accepted calls of a sequence, the most recent first, with the verdicts. *)
Fixpoint accept (wrap : bool) (h : list call) (l : list call) : list call * list (outcome unit building_failed) :=
  match l with
  | [] => (h, [])
  | c :: r =>
      let v := verdict wrap h c in
      let (h', vs) := accept wrap (match v with Ok _ => c :: h | _ => h end) r in
      (h', v :: vs)
  end.

(** Going down a tree by names. *)
Fixpoint at_path (t : tree) (q : list bytes) : option tree :=
  match q with
  | [] => Some t
  | x :: r => match bt_get x (nodes_of t) with Some t => at_path t r | None => None end
  end.

(** The tree holds what the accepted calls say. *)
Definition holds (h : list call) (root : tree) : Prop :=
  forall q, q <> [] ->
    match at_path root q with
    | Some (Leaf c s) => link_at h q = Some (c, s) /\ dir_at h q = false
    | Some (Dir md _ _ _) => link_at h q = None /\ dir_at h q = true /\ md = meta_at h q
    | None => link_at h q = None /\ dir_at h q = false
    end.
