(** The UnixFS file adder, unixfs/src/file/adder.rs.  Definitions only.

    The SHA2-256 digest is the parameter [sha] (dependency sha2).  [u64]/[usize] additions are
    modelled on unbounded [N]/[nat]; the theorems using them assume the produced blocks add up to
    less than 2^64 bytes, which excludes overflow. *)
From Verif Require Import Base Wire Cid Pb.

Section Adder.
Variable sha : bytes -> bytes.

(** adder.rs:306-318 [render_and_hash]: write the message, hash it into a version 0 cid. *)
Definition render (f : flat) : bytes := flat_write f.
Definition block_cid (b : bytes) : cid := CidV0 (sha b).

(** adder.rs:84-95 [Link]. *)
Record link := mk_link { k_depth : nat; k_target : cid; k_total : N; k_file : N }.

(** adder.rs:22-31 [FileAdder]: the configuration ([Chunker::Size(chunk)],
    [BalancedCollector { branching_factor }]) is passed separately; [reused_*] buffers are always
    cleared before use (adder.rs:529-530) and not modelled. *)
Record adder := mk_adder { a_buf : bytes; a_links : list link }.
Definition adder0 : adder := mk_adder [] [].

(** adder.rs:341-352 [Chunker::accept]: [*max - buffered.len()] underflows (panics) when more than
    [max] bytes are buffered. *)
Definition accept (chunk : nat) (input buffered : bytes) : option (bytes * bool) :=
  if chunk <? length buffered then None else
  let l := Nat.min (length input) (chunk - length buffered) in
  Some (firstn l input, chunk <=? length buffered + l).

(** adder.rs:245-262: the leaf message. *)
Definition leaf_flat (input : bytes) : flat :=
  mk_flat [] (mk_unixfs TFile (match input with [] => None | _ => Some input end)
                        (Some (blen input)) [] None None None None).

(** adder.rs:227-275 [flush_buffered_leaf]. *)
Definition flush_leaf (input : bytes) (links : list link) (finishing : bool)
  : list link * option (cid * bytes) :=
  match input with
  | [] => if negb finishing || negb (match links with [] => true | _ => false end)
          then (links, None)
          else
            let b := render (leaf_flat input) in
            (links ++ [mk_link 0 (block_cid b) (blen b) (blen input)], Some (block_cid b, b))
  | _ :: _ =>
      let b := render (leaf_flat input) in
      (links ++ [mk_link 0 (block_cid b) (blen b) (blen input)], Some (block_cid b, b))
  end.

(** adder.rs:622-638 [partition_link] and adder.rs:551-561: the message of a link block. *)
Definition link_pb (k : link) : pblink :=
  mk_pblink (Some (cid_to_bytes (k_target k))) (Some []) (Some (k_total k)).
Definition node_flat (ks : list link) : flat :=
  mk_flat (map link_pb ks)
    (mk_unixfs TFile None (Some (sumN (map k_file ks))) (map k_file ks) None None None None).

(** adder.rs:563-576: the link replacing the group. *)
Definition node_link (level : nat) (ks : list link) : link :=
  let b := render (node_flat ks) in
  mk_link (S level) (block_cid b) (sumN (map k_total ks) + blen b)%N (sumN (map k_file ks)).
Definition node_block (ks : list link) : cid * bytes :=
  let b := render (node_flat ks) in (block_cid b, b).

(** Position of the first link of depth [level] ([Iterator::position]). *)
Fixpoint position (level : nat) (l : list link) : option nat :=
  match l with
  | [] => None
  | k :: r => if Nat.eqb (k_depth k) level then Some O else option_map S (position level r)
  end.

Definition set_nth {A} (i : nat) (x : A) (l : list A) : list A :=
  firstn i l ++ match skipn i l with [] => [] | _ :: r => x :: r end.

Inductive inner_res :=
| InnerDone (pending : list link) (ret : list (cid * bytes))     (* [while] ended *)
| InnerBreak (pending : list link) (ret : list (cid * bytes))    (* [break 'outer] *)
| InnerPanic                                                     (* the depth assertion *)
| InnerFuel.

(** adder.rs:511-585, the [while let] loop of [BalancedCollector::flush_links]. *)
Fixpoint flush_level (fuel bf : nat) (finishing : bool) (level : nat) (pending : list link)
         (start : nat) (last_ow : option nat) (ret : list (cid * bytes)) : inner_res :=
  match position level (skipn start pending) with
  | None =>
      (* adder.rs:587-589 truncate *)
      InnerDone (match last_ow with Some i => firstn (S i) pending | None => pending end) ret
  | Some p =>
      let first_at := (p + start)%nat in
      if negb finishing && (length (skipn first_at pending) <=? bf) then
        (* adder.rs:519-525 drain (last_overwrite+1)..first_at *)
        InnerBreak (match last_ow with
                    | Some i => firstn (S i) pending ++ skipn first_at pending
                    | None => pending end) ret
      else
        let last := Nat.min (first_at + bf) (length pending) in
        let group := firstn (last - first_at) (skipn first_at pending) in
        if forallb (fun k => Nat.eqb (k_depth k) level) group then
          match fuel with
          | O => InnerFuel
          | S f =>
              let index := match last_ow with Some i => S i | None => first_at end in
              flush_level f bf finishing level (set_nth index (node_link level group) pending)
                last (Some index) (ret ++ [node_block group])
          end
        else InnerPanic
  end.

Inductive flush_res :=
| FlushDone (pending : list link) (ret : list (cid * bytes))
| FlushPanic
| FlushFuel.

(** adder.rs:484-600, the ['outer: for level in 0..] loop.  The inner loop consumes at least one
    link per iteration when [bf > 0] ([BalancedCollector::with_branching_factor] asserts this), so
    its fuel is the number of pending links; [fuel] bounds the number of levels and running out of
    it stands for running on. *)
Fixpoint flush_levels (fuel bf : nat) (finishing : bool) (level : nat) (pending : list link)
         (ret : list (cid * bytes)) : flush_res :=
  if (Nat.eqb (length pending) 1 && finishing) || ((length pending <=? bf) && negb finishing)
  then FlushDone pending ret
  else match fuel with
       | O => FlushFuel
       | S f =>
           match flush_level (length pending) bf finishing level pending 0 None ret with
           | InnerDone p r => flush_levels f bf finishing (S level) p r
           | InnerBreak p r => FlushDone p r
           | InnerPanic => FlushPanic
           | InnerFuel => FlushFuel
           end
       end.

(** Fuel for the number of levels: every level at least halves ... see [FileAdderProofs]. *)
Definition flush_links (bf : nat) (finishing : bool) (pending : list link) : flush_res :=
  flush_levels (S (length pending)) bf finishing 0 pending [].

Inductive add_res (A : Type) :=
| Added (a : A)
| AddPanic
| AddFuel.
Arguments Added {A} a.
Arguments AddPanic {A}.
Arguments AddFuel {A}.

Definition opt_list {A} (o : option A) : list A := match o with Some x => [x] | None => [] end.

(** adder.rs:163-208 [FileAdder::push]: new state, produced blocks, number of bytes consumed. *)
Definition push (chunk bf : nat) (s : adder) (input : bytes)
  : add_res (adder * list (cid * bytes) * nat) :=
  match accept chunk input (a_buf s) with
  | None => AddPanic
  | Some (accepted, ready) =>
      let direct := (match a_buf s with [] => true | _ => false end) && ready in
      if direct || ready then
        let leaf_input := if direct then accepted else a_buf s ++ accepted in
        let '(links, leaf) := flush_leaf leaf_input (a_links s) false in
        match leaf with
        | None => AddPanic        (* "chunk completed, must produce a new block" *)
        | Some lf =>
            match flush_links bf false links with
            | FlushDone p r => Added (mk_adder [] p, lf :: r, length accepted)
            | FlushPanic => AddPanic
            | FlushFuel => AddFuel
            end
        end
      else Added (mk_adder (a_buf s ++ accepted) (a_links s), [], length accepted)
  end.

(** adder.rs:217-224 [FileAdder::finish]. *)
Definition finish (bf : nat) (s : adder) : add_res (list (cid * bytes)) :=
  let '(links, leaf) := flush_leaf (a_buf s) (a_links s) true in
  match flush_links bf true links with
  | FlushDone _ r => Added (opt_list leaf ++ r)
  | FlushPanic => AddPanic
  | FlushFuel => AddFuel
  end.

(** The calling convention of [push]: keep pushing the rest of a slice until it is used up, as in
    http/src/v0/root_files/add.rs:289-312 [push_all] and adder.rs:284-305 [collect_blocks]. *)
Fixpoint push_slice (fuel chunk bf : nat) (s : adder) (slice : bytes)
  : add_res (adder * list (cid * bytes)) :=
  match slice with
  | [] => Added (s, [])
  | _ :: _ =>
      match fuel with
      | O => AddFuel
      | S f =>
          match push chunk bf s slice with
          | Added (s', bs, used) =>
              match push_slice f chunk bf s' (skipn used slice) with
              | Added (s'', bs') => Added (s'', bs ++ bs')
              | AddPanic => AddPanic
              | AddFuel => AddFuel
              end
          | AddPanic => AddPanic
          | AddFuel => AddFuel
          end
      end
  end.

Fixpoint push_slices (chunk bf : nat) (s : adder) (slices : list bytes)
  : add_res (adder * list (cid * bytes)) :=
  match slices with
  | [] => Added (s, [])
  | sl :: rest =>
      match push_slice (length sl) chunk bf s sl with
      | Added (s', bs) =>
          match push_slices chunk bf s' rest with
          | Added (s'', bs') => Added (s'', bs ++ bs')
          | AddPanic => AddPanic
          | AddFuel => AddFuel
          end
      | AddPanic => AddPanic
      | AddFuel => AddFuel
      end
  end.

(** A whole add: pushes followed by [finish]; the blocks in the order they are returned. *)
Definition add_file (chunk bf : nat) (slices : list bytes) : add_res (list (cid * bytes)) :=
  match push_slices chunk bf adder0 slices with
  | Added (s, bs) =>
      match finish bf s with
      | Added bs' => Added (bs ++ bs')
      | AddPanic => AddPanic
      | AddFuel => AddFuel
      end
  | AddPanic => AddPanic
  | AddFuel => AddFuel
  end.

(** http/src/v0/root_files/add.rs:139-243, the part adding one file: blocks of every push are
    imported, then those of [finish]; the reported root is the last block imported from [finish]
    (add.rs:204-210 [expect]: a panic when there is none), the reported size the sum of the lengths
    of all blocks.  [import_all] is add.rs:314-335. *)
Definition import_all (bs : list (cid * bytes)) : option (cid * N) :=
  match rev bs with
  | [] => None
  | (c, _) :: _ => Some (c, sumN (map (fun p => blen (snd p)) bs))
  end.
Definition http_add (chunk bf : nat) (slices : list bytes) : add_res (cid * N) :=
  match push_slices chunk bf adder0 slices with
  | Added (s, bs) =>
      match finish bf s with
      | Added fs =>
          match import_all fs with
          | Some (root, subtotal) => Added (root, (sumN (map (fun p => blen (snd p)) bs) + subtotal)%N)
          | None => AddPanic
          end
      | AddPanic => AddPanic
      | AddFuel => AddFuel
      end
  | AddPanic => AddPanic
  | AddFuel => AddFuel
  end.

End Adder.

Arguments Added {A} a.
Arguments AddPanic {A}.
Arguments AddFuel {A}.
