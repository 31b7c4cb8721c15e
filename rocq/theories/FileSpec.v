(** Specification vocabulary for UnixFS files: cutting a list into pieces, file trees, and the
    shape of a stored file.  No definition here refers to the adder. *)
From Verif Require Import Base Wire Cid Pb.

(** [cut n l]: consecutive pieces of [l] of length [n], the last possibly shorter. *)
Fixpoint pieces {A} (fuel n : nat) (l : list A) : list (list A) :=
  match fuel with
  | O => []
  | S f => match l with [] => [] | _ :: _ => firstn n l :: pieces f n (skipn n l) end
  end.
Definition cut {A} (n : nat) (l : list A) : list (list A) := pieces (length l) n l.

(** A file tree: leaves hold content. *)
Inductive ftree :=
| Leaf (content : bytes)
| Node (children : list ftree).

(** Total length of a list of blocks. *)
Definition blocks_size (bs : list (cid * bytes)) : N := sumN (map (fun p => blen (snd p)) bs).

(** Requested part [a, b) of a content (offsets from the start of the content). *)
Definition part (a b : N) (content : bytes) : bytes :=
  skipn (N.to_nat a) (firstn (N.to_nat b) content).

(** The file stored under [c] in [get], read off the parsed blocks:
    [stored_file get chunk bf last c height content total] says that the block of [c] parses as a
    UnixFS file; a leaf (height 0) holds [content], at most [chunk] bytes and exactly [chunk] unless
    it is the [last] leaf; an inner node has between 1 and [bf] links (exactly [bf] unless on the [last] path), one declared block size per
    link equal to the real size of the linked content, a file size equal to the real size, the
    [Tsize] of every link equal to the total size of the blocks below it, and all children of the
    same height.  [total] is the sum of the lengths of all blocks of the tree. *)
Inductive stored_file (get : cid -> option bytes) (chunk bf : nat)
  : bool -> cid -> nat -> bytes -> N -> Prop :=
| stored_leaf : forall last c b f content,
    get c = Some b -> flat_parse b = inl f -> f_links f = [] ->
    u_type (f_data f) = TFile ->
    (match u_data (f_data f) with Some d => d | None => [] end) = content ->
    u_filesize (f_data f) = Some (blen content) ->
    u_blocksizes (f_data f) = [] ->
    length content <= chunk -> (last = false -> length content = chunk) ->
    stored_file get chunk bf last c 0 content (blen b)
| stored_node : forall last c b f h contents totals,
    get c = Some b -> flat_parse b = inl f ->
    u_type (f_data f) = TFile -> u_data (f_data f) = None ->
    u_filesize (f_data f) = Some (blen (concat contents)) ->
    u_blocksizes (f_data f) = map blen contents ->
    1 <= length (f_links f) <= bf -> (last = false -> length (f_links f) = bf) ->
    map l_tsize (f_links f) = map Some totals ->
    stored_children get chunk bf last (f_links f) h contents totals ->
    stored_file get chunk bf last c (S h) (concat contents) (blen b + sumN totals)
with stored_children (get : cid -> option bytes) (chunk bf : nat)
  : bool -> list pblink -> nat -> list bytes -> list N -> Prop :=
| stored_one : forall last l h c content total,
    cid_from_bytes (match l_hash l with Some x => x | None => [] end) = Some c ->
    stored_file get chunk bf last c h content total ->
    stored_children get chunk bf last [l] h [content] [total]
| stored_more : forall last l l' ls h c content total contents totals,
    cid_from_bytes (match l_hash l with Some x => x | None => [] end) = Some c ->
    stored_file get chunk bf false c h content total ->
    stored_children get chunk bf last (l' :: ls) h contents totals ->
    stored_children get chunk bf last (l :: l' :: ls) h (content :: contents) (total :: totals).
