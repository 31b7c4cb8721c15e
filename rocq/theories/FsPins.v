(** The filesystem pin store (src/repo/fs/pinstore.rs), one call at a time, with crashes at every
    filesystem call and failing writes.  The semaphore (l.55, l.91, l.150, l.185) makes changes
    sequential; readers running next to a change are not modelled.  The filesystem is that of
    FsBlocks.v.  Definitions only. *)
From Verif Require Import Base Wire Cid FMap BlockSpec Text FsPaths FsBlocks PinSpec.
Local Open Scope N_scope.

(** * The contents of a recursive pin file: a JSON array of cid texts *)

(** [sync_write_recursive_pin], l.539-562.  Cid texts are letters and digits, so serde_json escapes
    nothing. *)
Definition quoted (s : bytes) : bytes := 34 :: s ++ [34].
Fixpoint json_rest (l : list bytes) : bytes :=
  match l with [] => [93] | s :: r => 44 :: quoted s ++ json_rest r end.
Definition json_list (l : list bytes) : bytes :=
  match l with [] => [91; 93] | s :: r => 91 :: quoted s ++ json_rest r end.

(** [serde_json::from_slice::<Vec<&str>>], l.506, on what the writer produces: no white space, no
    escapes (anything else is an error here). *)
Fixpoint take_string (s : bytes) : option (bytes * bytes) :=
  match s with
  | [] => None
  | c :: r =>
      if c =? 34 then Some ([], r)
      else if (c =? 92) || (c <? 32) then None
      else match take_string r with Some (a, b) => Some (c :: a, b) | None => None end
  end.
Fixpoint read_strings (fuel : nat) (s : bytes) : option (list bytes) :=
  match fuel, s with
  | S f, c :: r =>
      if c =? 34 then
        match take_string r with
        | Some (a, d :: r') =>
            if d =? 44 then option_map (cons a) (read_strings f r')
            else if (d =? 93) && match r' with [] => true | _ => false end then Some [a]
            else None
        | _ => None
        end
      else None
  | _, _ => None
  end.
Definition read_json (s : bytes) : option (list bytes) :=
  match s with
  | a :: r =>
      if a =? 91 then
        match r with
        | [b] => if b =? 93 then Some [] else None
        | _ => read_strings (length r) r
        end
      else None
  | [] => None
  end.

(** [BTreeSet<Cid>] of the references, l.87-89, in another order: each cid once. *)
Fixpoint once (l : list cid) : list cid :=
  match l with
  | [] => []
  | c :: r => if existsb (cid_eqb c) r then once r else c :: once r
  end.

(** * Changes *)

Definition pin_file (ext : bytes) (c : cid) : outcome path unit := with_ext ext (pin_path c).

(** The filesystem calls of an accepted change; [None] when it answers an error before changing
    anything.  [insert_direct_pin] l.54-80, [insert_recursive_pin] l.82-147 (written byte by byte, so
    that a crash may leave any prefix), [remove_direct_pin] l.149-182, [remove_recursive_pin]
    l.184-235. *)
Definition pin_steps (f : fs) (o : pop) : outcome (list fstep) unit :=
  match o with
  | PinDirect c =>
      match pin_file ext_recursive c, pin_file ext_direct c with
      | Ok r, Ok d => if is_some (fs_get r f) then Err tt else Ok [OpenTrunc d]
      | _, _ => Panic
      end
  | PinRec c rs =>
      if broken rs then Err tt else
      match pin_file ext_recursive_temp c, pin_file ext_recursive c, pin_file ext_direct c with
      | Ok t, Ok r, Ok d =>
          Ok (OpenTrunc t :: map (fun b => Append t [b]) (json_list (map cid_to_text (once (items rs))))
              ++ [Rename t r; Unlink d])
      | _, _, _ => Panic
      end
  | UnpinDirect c =>
      match pin_file ext_recursive c, pin_file ext_direct c with
      | Ok r, Ok d =>
          if is_some (fs_get r f) then Err tt
          else if is_some (fs_get d f) then Ok [Unlink d] else Err tt
      | _, _ => Panic
      end
  | UnpinRec c _ =>
      match pin_file ext_recursive c, pin_file ext_direct c with
      | Ok r, Ok d =>
          if is_some (fs_get r f) || is_some (fs_get d f) then Ok [Unlink d; Unlink r] else Err tt
      | _, _ => Panic
      end
  end.
Definition fs_pin_call (f : fs) (o : pop) : fs * outcome unit unit :=
  match pin_steps f o with
  | Ok s => (fold_left fs_exec s f, Ok tt)
  | Err e => (f, Err e)
  | Panic => (f, Panic)
  end.
(** The process stops after [n] filesystem calls of a change. *)
Definition fs_pin_crash (f : fs) (o : pop) (n : nat) : fs :=
  match pin_steps f o with
  | Ok s => fold_left fs_exec (firstn n s) f
  | _ => f
  end.
(** A call before the rename of [insert_recursive_pin] fails: the temporary file is removed (l.114-123)
    and the error returned.  [n] writes succeeded.  A failing rename returns without removing it
    (l.112); [cleanup] tells which. *)
Definition fs_pin_rec_fail (f : fs) (c : cid) (rs : refs) (n : nat) (cleanup : bool) : fs * outcome unit unit :=
  if broken rs then (f, Err tt) else
  match pin_file ext_recursive_temp c with
  | Ok t =>
      let f' := fold_left fs_exec
                  (firstn (S n) (OpenTrunc t :: map (fun b => Append t [b]) (json_list (map cid_to_text (once (items rs)))))) f in
      (if cleanup then fs_exec f' (Unlink t) else f', Err tt)
  | _ => (f, Panic)
  end.

(** * Reading *)
Definition file_exists (f : fs) (o : outcome path unit) : bool :=
  match o with Ok p => is_some (fs_get p f) | _ => false end.
(** [sync_read_direct_or_recursive], l.523-537. *)
Definition read_mode (f : fs) (c : cid) : option mode :=
  if file_exists f (pin_file ext_recursive c) then Some Recursive
  else if file_exists f (pin_file ext_direct c) then Some Direct else None.
(** [list_pinfiles], l.444-484: [true] for recursive. *)
Fixpoint pin_names (names : list path) : list (cid * bool) :=
  match names with
  | [] => []
  | p :: r => match listed_pin (snd p) with Some x => x :: pin_names r | None => pin_names r end
  end.
Definition pinfiles (f : fs) : list (cid * bool) := pin_names (mkeys f).
Definition recursive_pinfiles (f : fs) : list cid := map fst (filter snd (pinfiles f)).

Section Reads.
  Variable other_base : N -> bytes -> option bytes.

  Fixpoint all_cids (l : list bytes) : option (list cid) :=
    match l with
    | [] => Some []
    | s :: r =>
        match cid_from_text other_base s, all_cids r with
        | Some c, Some cs => Some (c :: cs)
        | _, _ => None
        end
    end.
  (** [read_recursively_pinned], l.492-517; [None] for an error. *)
  Definition read_refs (f : fs) (c : cid) : option (list cid) :=
    match pin_file ext_recursive c with
    | Ok p =>
        match fs_get p f with
        | None => Some []
        | Some s => match read_json s with Some l => all_cids l | None => None end
        end
    | _ => None
    end.

  (** [is_pinned], l.23-52: [None] for an error. *)
  Fixpoint any_refers (f : fs) (c : cid) (rs : list cid) : option bool :=
    match rs with
    | [] => Some false
    | r :: rest =>
        match read_refs f r with
        | None => None
        | Some l => if existsb (cid_eqb c) l then Some true else any_refers f c rest
        end
    end.
  Definition fs_is_pinned (f : fs) (c : cid) : option bool :=
    match read_mode f c with
    | Some _ => Some true
    | None => any_refers f c (recursive_pinfiles f)
    end.

  (** [list], l.237-322.  The loop over the files yields recursive pins at once and collects the
      direct ones; sets are lists, in insertion order. *)
  Fixpoint list_files (req : option mode) (fl : list (cid * bool)) (returned : list cid) : list cid * list cid * list cid :=
    (* recursive pins yielded, direct pins collected, recursive pins collected *)
    match fl with
    | [] => ([], [], [])
    | (c, true) :: r =>
        let y := req_matches req Recursive && negb (existsb (cid_eqb c) returned) in
        let '(ys, ds, rs) := list_files req r (if y then c :: returned else returned) in
        (if y then c :: ys else ys, ds, c :: rs)
    | (c, false) :: r =>
        let '(ys, ds, rs) := list_files req r returned in
        (ys, if req_matches req Direct then c :: ds else ds, rs)
    end.
  (** Yield what was not yielded before. *)
  Fixpoint fresh_ones (l returned : list cid) : list cid :=
    match l with
    | [] => []
    | c :: r => if existsb (cid_eqb c) returned then fresh_ones r returned else c :: fresh_ones r (c :: returned)
    end.
  Fixpoint list_indirect (f : fs) (rs returned : list cid) : list cid * bool :=
    match rs with
    | [] => ([], true)
    | r :: rest =>
        match read_refs f r with
        | None => ([], false)
        | Some l =>
            let new := fresh_ones l returned in
            let (more, ok) := list_indirect f rest (new ++ returned) in (new ++ more, ok)
        end
    end.
  (** The items, and whether the stream ended without an error. *)
  Definition fs_pin_list (f : fs) (req : option mode) : list (cid * mode) * bool :=
    let '(ys, ds, rs) := list_files req (pinfiles f) [] in
    let ds' := fresh_ones ds ys in
    let front := map (fun c => (c, Recursive)) ys ++ map (fun c => (c, Direct)) ds' in
    if req_matches req Indirect then
      let (is, ok) := list_indirect f rs (ds' ++ ys) in (front ++ map (fun c => (c, Indirect)) is, ok)
    else (front, true).

  (** [query], l.324-440. *)
  Inductive slot := Found (c : cid) (k : pkind) | Open (c : cid) | Dup (c : cid).
  (** The first loop, l.350-378 and l.384-386: what each position holds.  [Open] is a cid put into
      [remaining], [Dup] a repeated one, which keeps [None]. *)
  Fixpoint query_files (f : fs) (req : option mode) (ids seen : list cid) : option (list slot) :=
    match ids with
    | [] => Some []
    | c :: r =>
        let check := match req with Some Indirect => false | _ => true end in
        let gather := match req with Some Indirect | None => true | _ => false end in
        let direct_hit :=
          if check then
            match read_mode f c with
            | Some m => if req_matches req m then Some m else None
            | None => None
            end
          else None in
        match direct_hit with
        | Some m =>
            option_map (cons (Found c (match m with Recursive => KRecursive 0 | _ => KDirect end))) (query_files f req r seen)
        | None =>
            if negb gather then None
            else if existsb (cid_eqb c) seen then option_map (cons (Dup c)) (query_files f req r seen)
            else option_map (cons (Open c)) (query_files f req r (c :: seen))
        end
    end.
  (** One referring root, l.420-428. *)
  Definition fill (root : cid) (l : list cid) (s : slot) : slot :=
    match s with
    | Open c => if existsb (cid_eqb c) l then Found c (KIndirect root) else Open c
    | s => s
    end.
  Definition is_open (s : slot) : bool := match s with Open _ => true | _ => false end.
  (** The second loop, l.416-429: it stops as soon as nothing remains. *)
  Fixpoint query_roots (f : fs) (rs : list cid) (slots : list slot) : option (list slot) :=
    if negb (existsb is_open slots) then Some slots
    else match rs with
         | [] => Some slots
         | r :: rest =>
             match read_refs f r with
             | None => None
             | Some l => query_roots f rest (map (fill r l) slots)
             end
         end.
  Fixpoint answers (slots : list slot) : list (cid * pkind) :=
    match slots with
    | [] => []
    | Found c k :: r => (c, k) :: answers r
    | _ :: r => answers r
    end.
  Definition fs_query (f : fs) (ids : list cid) (req : option mode) : option (list (cid * pkind)) :=
    match query_files f req ids [] with
    | None => None
    | Some slots =>
        match query_roots f (recursive_pinfiles f) slots with
        | None => None
        | Some slots => if existsb is_open slots then None else Some (answers slots)
        end
    end.
End Reads.
