(** The in-memory pin store (src/repo/mem.rs l.98-391, l.445-640).  Every method holds the mutex from
    start to end, so a history of completed calls is a sequence.  Documents are kept as values: their
    JSON form (l.121, l.125, l.146) is not modelled.  Definitions only. *)
From Verif Require Import Base Wire Cid FMap BTree Text FsPaths PinSpec BlockSpec.
Local Open Scope N_scope.

(** [Recursive], l.445-466. *)
Inductive rec_state := RCount (n : N) | RIntent | RNot.
Definition rec_set (r : rec_state) : bool := match r with RNot => false | _ => true end.

(** [PinDocument], l.468-478, without the version fields, which nothing reads. *)
Record doc := mk_doc { d_direct : bool; d_rec : rec_state; d_by : list bytes }.
Definition new_doc : doc := mk_doc false RNot [].

(** [PinUpdateError], l.643-660, and the other errors. *)
Inductive perr :=
| EUnexpectedDescendants | ENotPinnedRecursive | EUnpinUnpinned | EUnpinDirectOnRecursive
| EAlreadyRecursive | ENotPinned | ENotPinnedOrIndirect | EPinnedIndirectly | EStream | EBadCid.

(** [BTreeSet<String>] operations, l.503-514. *)
Definition set_of (l : list bytes) : list (bytes * unit) := bt_of_list (map (fun s => (s, tt)) l).
Definition set_insert (s : bytes) (l : list (bytes * unit)) : list (bytes * unit) * bool :=
  (bt_insert s tt l, negb (is_some (bt_get s l))).
Definition set_remove (s : bytes) (l : list (bytes * unit)) : list (bytes * unit) * bool :=
  (bt_remove s l, is_some (bt_get s l)).

(** [PinDocument::update], l.481-604. *)
Definition update (d : doc) (add : bool) (k : pkind) : outcome (doc * bool) perr :=
  match k with
  | KIndirect root =>
      let t := cid_to_text (to_v1 root) in
      match d_by d with
      | [] => if add then Ok (mk_doc (d_direct d) (d_rec d) [t], true) else Ok (d, false)
      | by_ =>
          let s := set_of by_ in
          let (s', m) := if add then set_insert t s else set_remove t s in
          Ok (mk_doc (d_direct d) (d_rec d) (map fst s'), m)
      end
  | KDirect =>
      if rec_set (d_rec d) && negb (d_direct d) && add then Err EAlreadyRecursive else
      if negb add && negb (d_direct d) then
        if negb (rec_set (d_rec d)) then Err EUnpinUnpinned else Err EUnpinDirectOnRecursive
      else Ok (mk_doc add (d_rec d) (d_by d), negb (Bool.eqb (d_direct d) add))
  | KIntent =>
      if add then
        match d_rec d with
        | RCount _ => Err EAlreadyRecursive
        | RIntent => Ok (d, false)
        | RNot => Ok (mk_doc false RIntent (d_by d), true)
        end
      else
        match d_rec d with
        | RNot => Ok (d, false)
        | _ => Ok (mk_doc (d_direct d) RNot (d_by d), true)
        end
  | KRecursive n =>
      if add then
        match d_rec d with
        | RCount other => if other =? n then Ok (d, false) else Err EUnexpectedDescendants
        | _ => Ok (mk_doc false (RCount n) (d_by d), true)
        end
      else
        match d_rec d with
        | RCount other => if other =? n then Ok (mk_doc (d_direct d) RNot (d_by d), true) else Err EUnexpectedDescendants
        | RIntent => Ok (mk_doc (d_direct d) RNot (d_by d), true)
        | RNot => Err ENotPinnedRecursive
        end
  end.

(** [can_remove], l.606-608; [mode], l.610-620. *)
Definition can_remove (d : doc) : bool :=
  negb (d_direct d) && negb (rec_set (d_rec d)) && match d_by d with [] => true | _ => false end.
Definition doc_mode (d : doc) : option mode :=
  if rec_set (d_rec d) then Some Recursive
  else match d_by d with
       | _ :: _ => Some Indirect
       | [] => if d_direct d then Some Direct else None
       end.

(** The pin map, l.104: cid bytes to documents. *)
Definition pins := list (bytes * doc).
Definition pget (c : cid) (g : pins) : option doc := mget beq (cid_to_bytes c) g.

(** [insert_pin], l.109-152. *)
Definition insert_pin (g : pins) (c : cid) (k : pkind) : pins * outcome bool perr :=
  match pget c g with
  | Some d =>
      match update d true k with
      | Ok (d', true) => (mset beq (cid_to_bytes c) d' g, Ok true)
      | Ok (_, false) => (g, Ok false)
      | Err e => (g, Err e)
      | Panic => (g, Panic)
      end
  | None =>
      match update new_doc true k with
      | Ok (d', _) => (mset beq (cid_to_bytes c) d' g, Ok true)
      | _ => (g, Panic)   (* unwrap, l.145 *)
      end
  end.
(** [remove_pin], l.155-183. *)
Definition remove_pin (g : pins) (c : cid) (k : pkind) : pins * outcome bool perr :=
  match pget c g with
  | Some d =>
      match update d false k with
      | Ok (d', true) =>
          if can_remove d' then (mdel beq (cid_to_bytes c) g, Ok true)
          else (mset beq (cid_to_bytes c) d' g, Ok true)
      | Ok (_, false) => (g, Ok false)
      | Err e => (g, Err e)
      | Panic => (g, Panic)
      end
  | None => (g, Err ENotPinned)
  end.

Definition done (r : outcome bool perr) : outcome unit perr :=
  match r with Ok _ => Ok tt | Err e => Err e | Panic => Panic end.

(** The loops over the references, l.240-244 and l.295-298: a failure leaves what was done. *)
Section Loop.
  Variable f : pins -> cid -> pins * outcome bool perr.
  Fixpoint each (g : pins) (l : list cid) (b : bool) : pins * outcome unit perr :=
    match l with
    | [] => (g, if b then Err EStream else Ok tt)
    | c :: l' =>
        match f g c with
        | (g', Ok _) => each g' l' b
        | (g', Err e) => (g', Err e)
        | (g', Panic) => (g', Panic)
        end
    end.
End Loop.

(** [insert_direct_pin], l.203-207; [remove_direct_pin], l.209-213. *)
Definition mem_pin_direct (g : pins) (c : cid) : pins * outcome unit perr :=
  let (g', r) := insert_pin g c KDirect in (g', done r).
Definition mem_unpin_direct (g : pins) (c : cid) : pins * outcome unit perr :=
  let (g', r) := remove_pin g c KDirect in (g', done r).

(** [insert_recursive_pin], l.215-250. *)
Definition mem_pin_rec (g : pins) (c : cid) (r : refs) : pins * outcome unit perr :=
  match insert_pin g c KIntent with
  | (g1, Ok _) =>
      match each (fun g x => insert_pin g x (KIndirect (to_v1 c))) g1 (items r) (broken r) with
      | (g2, Ok _) =>
          let (g3, x) := insert_pin g2 c (KRecursive (blen (items r))) in (g3, done x)
      | e => e
      end
  | (g1, x) => (g1, done x)
  end.

(** [pick_kind] as used by [remove_recursive_pin], l.270-282, and [remove_recursive_pin], l.252-301. *)
Definition mem_unpin_rec (g : pins) (c : cid) (r : refs) : pins * outcome unit perr :=
  match pget c g with
  | None => (g, Err ENotPinnedOrIndirect)
  | Some d =>
      let go k :=
        match remove_pin g c k with
        | (g1, Ok _) => each (fun g x => remove_pin g x (KIndirect (to_v1 c))) g1 (items r) (broken r)
        | (g1, x) => (g1, done x)
        end in
      match doc_mode d with
      | Some Recursive =>
          match d_rec d with
          | RCount n => go (KRecursive n)
          | RIntent => go KIntent
          | RNot => (g, Panic)     (* unreachable!, l.628 *)
          end
      | Some Direct => let (g1, x) := remove_pin g c KDirect in (g1, done x)
      | Some Indirect => (g, Err EPinnedIndirectly)
      | None => (g, Err ENotPinnedOrIndirect)
      end
  end.

Definition mem_pin_call (g : pins) (o : pop) : pins * outcome unit perr :=
  match o with
  | PinDirect c => mem_pin_direct g c
  | PinRec c r => mem_pin_rec g c r
  | UnpinDirect c => mem_unpin_direct g c
  | UnpinRec c r => mem_unpin_rec g c r
  end.

(** [is_pinned], l.188-201. *)
Definition mem_is_pinned (g : pins) (c : cid) : bool := is_some (pget c g).

(** [list], l.303-332: the entries in some order; [None] is an error item. *)
Definition mem_pin_list (g : pins) (req : option mode) : list (option (cid * mode)) :=
  filter (fun r => match r with Some (_, m) => req_matches req m | None => true end)
    (map (fun kd : bytes * doc =>
            match cid_from_bytes (fst kd), doc_mode (snd kd) with
            | Some c, Some m => Some (c, m)
            | _, _ => None
            end) g).

Section Query.
  Variable other_base : N -> bytes -> option bytes.
  (** [pick_kind], l.622-640. *)
  Definition pick_kind (d : doc) : outcome pkind perr :=
    match doc_mode d with
    | Some Recursive =>
        match d_rec d with RIntent => Ok KIntent | RCount n => Ok (KRecursive n) | RNot => Panic end
    | Some Indirect =>
        match d_by d with
        | t :: _ => match cid_from_text other_base t with Some c => Ok (KIndirect c) | None => Err EBadCid end
        | [] => Panic
        end
    | Some Direct => Ok KDirect
    | None => Err ENotPinned
    end.
  (** [query], l.334-390. *)
  Fixpoint mem_query (g : pins) (cids : list cid) (req : option mode) : outcome (list (cid * pkind)) perr :=
    match cids with
    | [] => Ok []
    | c :: r =>
        match pget c g with
        | None => Err ENotPinned
        | Some d =>
            match pick_kind d with
            | Ok k =>
                if req_matches req (kind_mode k) then
                  match mem_query g r req with
                  | Ok l => Ok ((c, k) :: l)
                  | e => e
                  end
                else Err ENotPinned
            | Err e => Err e
            | Panic => Panic
            end
        end
    end.
End Query.
