(** The pin store on top of sled (src/repo/kv.rs).  A sled transaction is one step (retries after
    conflicts are not modelled, nor storage errors); the tree is a map from keys to values, whose
    order of iteration is not modelled.  Definitions only. *)
From Verif Require Import Base Wire Cid FMap BlockSpec Text FsPaths PinSpec FsPins.
Local Open Scope N_scope.

Definition kv := list (bytes * bytes).

(** [pin_mode_literal], l.479-485, and [get_pin_key], l.487-497: "pin.", the letter, ".", the cid. *)
Definition letter (m : mode) : N := match m with Direct => 100 | Indirect => 105 | Recursive => 114 end.
Definition pin_key (c : cid) (m : mode) : bytes := [112; 105; 110; 46; letter m; 46] ++ cid_to_text c.

Definition has (db : kv) (c : cid) (m : mode) : bool := is_some (mget beq (pin_key c m) db).
Definition insert (db : kv) (c : cid) (m : mode) (v : bytes) : kv := mset beq (pin_key c m) v db.
Definition delete (db : kv) (c : cid) (m : mode) : kv := mdel beq (pin_key c m) db.

(** [get_pinned_mode], l.500-513. *)
Definition kv_mode (db : kv) (c : cid) : option mode := find (has db c) [Direct; Recursive; Indirect].
(** [is_not_pinned_or_pinned_indirectly], l.515-523. *)
Definition not_target (db : kv) (c : cid) : bool :=
  match kv_mode db c with Some Indirect | None => true | _ => false end.

(** [is_pinned], l.100-112. *)
Definition kv_is_pinned (db : kv) (c : cid) : bool := is_some (kv_mode db c).

(** [insert_direct_pin], l.114-152. *)
Definition kv_pin_direct (db : kv) (c : cid) : kv * outcome unit unit :=
  match kv_mode db c with
  | Some Direct => (db, Ok tt)
  | Some Recursive => (db, Err tt)
  | Some Indirect => (insert (delete db c Indirect) c Direct [], Ok tt)
  | None => (insert db c Direct [], Ok tt)
  end.

(** The loop of [insert_recursive_pin], l.187-203. *)
Definition add_ref (root : cid) (db : kv) (c : cid) : kv :=
  match kv_mode db c with
  | Some _ => db
  | None => insert db c Indirect (cid_to_text root)
  end.
(** [insert_recursive_pin], l.154-212; the set of references is taken in another order. *)
Definition kv_pin_rec (db : kv) (c : cid) (r : refs) : kv * outcome unit unit :=
  if broken r then (db, Err tt) else
  match kv_mode db c with
  | Some Recursive => (db, Ok tt)
  | m =>
      let db1 := match m with Some m => delete db c m | None => db end in
      (fold_left (add_ref c) (once (items r)) (insert db1 c Recursive []), Ok tt)
  end.

(** [remove_direct_pin], l.214-239. *)
Definition kv_unpin_direct (db : kv) (c : cid) : kv * outcome unit unit :=
  if not_target db c then (db, Err tt) else (delete db c Direct, Ok tt).

(** The loop of [remove_recursive_pin], l.265-280. *)
Definition drop_ref (db : kv) (c : cid) : kv :=
  match kv_mode db c with Some Indirect => delete db c Indirect | _ => db end.
(** [remove_recursive_pin], l.241-288. *)
Definition kv_unpin_rec (db : kv) (c : cid) (r : refs) : kv * outcome unit unit :=
  if broken r then (db, Err tt) else
  if not_target db c then (db, Err tt) else
  (fold_left drop_ref (once (items r)) (delete db c Recursive), Ok tt).

Definition kv_pin_call (db : kv) (o : pop) : kv * outcome unit unit :=
  match o with
  | PinDirect c => kv_pin_direct db c
  | PinRec c r => kv_pin_rec db c r
  | UnpinDirect c => kv_unpin_direct db c
  | UnpinRec c r => kv_unpin_rec db c r
  end.

Section Reads.
  Variable other_base : N -> bytes -> option bytes.

  Definition read_letter (b : N) : option mode :=
    if b =? 100 then Some Direct else if b =? 114 then Some Recursive else if b =? 105 then Some Indirect else None.
  (** One key of [list], l.327-362.  [Some None] is an error item, [None] is skipped. *)
  Definition list_key (req : option mode) (k : bytes) : option (option (cid * mode)) :=
    if negb (beq (firstn 4 k) [112; 105; 110; 46]) || (length k <? 7)%nat then Some None
    else match read_letter (nth 4 k 0) with
         | None => Some None
         | Some m =>
             if req_matches req m then
               Some (if utf8 (skipn 6 k) then
                       match cid_from_text other_base (skipn 6 k) with Some c => Some (c, m) | None => None end
                     else None)
             else None
         end.
  Fixpoint list_keys (req : option mode) (ks : list bytes) : list (option (cid * mode)) :=
    match ks with
    | [] => []
    | k :: r => match list_key req k with Some x => x :: list_keys req r | None => list_keys req r end
    end.
  Definition kv_pin_list (db : kv) (req : option mode) : list (option (cid * mode)) := list_keys req (mkeys db).

  (** [query], l.383-444: [None] for an error. *)
  Fixpoint kv_query (db : kv) (ids : list cid) (req : option mode) : option (list (cid * pkind)) :=
    match ids with
    | [] => Some []
    | c :: rest =>
        let here :=
          match kv_mode db c with
          | Some m =>
              if req_matches req m then
                match m with
                | Direct => Some (Some KDirect)
                | Recursive => Some (Some (KRecursive 0))
                | Indirect =>
                    match mget beq (pin_key c Indirect) db with
                    | None => Some None
                    | Some v =>
                        if utf8 v then
                          match cid_from_text other_base v with Some root => Some (Some (KIndirect root)) | None => None end
                        else None
                    end
                end
              else Some None
          | None => Some None
          end in
        match here, kv_query db rest req with
        | Some (Some k), Some l => Some ((c, k) :: l)
        | Some None, Some l => Some l
        | _, _ => None
        end
    end.
End Reads.
