(** The /add endpoint: http/src/v0/root_files/add.rs.  Definitions only.

    The multipart parser (mpart_async) is outside: a request is the list of the parts it gives, with
    the places where it fails.  [sha], [chunk] and [bf] are as in [FileAdder]; the defaults are
    262144 and 174 (unixfs/src/file/adder.rs l.328-331, l.366-371).  Additions of [u64] panic on overflow. *)
From Verif Require Import Base Wire Cid Pb FileAdder FileVisit IpfsPath TreeBuilder TreeIter.
Local Open Scope N_scope.

(** A part of the request: the name and file name of the disposition header and the content type
    ([None] when the header is missing or unreadable), the pieces of the body as they arrive, and
    whether the body breaks off with an error after them. *)
Record part := mk_part {
  p_field : option bytes; p_filename : option bytes; p_type : option bytes; p_body : list bytes; p_broken : bool }.

(** [AddError], l.66-77.  Writing JSON into memory does not fail, which leaves out
    [ResponseSerialization]. *)
Inductive add_error :=
| Parsing | Header | InvalidFilename | UnsupportedField (name : bytes) | UnsupportedContentType (t : bytes) | Persisting
| TreeGathering (e : building_failed) | TreeBuilding (e : construction_failed).

(** [Response], l.340-366; the hash is written as text. *)
Inductive response := Progress (name : bytes) (bytes : N) | AddedMsg (name : bytes) (hash : cid) (size : N).

(** What happens, in order: a block is stored; an item of the stream, of one or more messages, is sent. *)
Inductive event := EPut (c : cid) (b : bytes) | EItem (l : list response).
(** How it ends early: with an error (sent as the last item, l.39-57), with a panic, or not within the
    given number of steps. *)
Inductive add_end := Broken (e : add_error) | Crash | Unfinished.

(** A piece of the handler: from the number of blocks stored so far to what happens, the number
    afterwards and the value, or the end. *)
Inductive going (A : Type) := Go (a : A) | Stop (e : add_end).
Arguments Go {A} a.
Arguments Stop {A} e.
Definition act (A : Type) : Type := nat -> list event * nat * going A.
Definition give {A} (a : A) : act A := fun n => ([], n, Go a).
Definition stop {A} (e : add_end) : act A := fun n => ([], n, Stop e).
Definition item (l : list response) : act unit := fun n => ([EItem l], n, Go tt).
Definition bind {A B} (m : act A) (f : A -> act B) : act B := fun n =>
  match m n with
  | (t, n, Go a) => let '(t', n, r) := f a n in (t ++ t', n, r)
  | (t, n, Stop e) => (t, n, Stop e)
  end.
(** [u64] addition. *)
Definition plus {A} (a b : N) (f : N -> act A) : act A := match add64 a b with Some v => f v | None => stop Crash end.

(** [percent_encoding::percent_decode_str]: '%' and two hexadecimal digits are a byte, anything else
    stands for itself. *)
Definition hex_val (c : N) : option N :=
  if (48 <=? c) && (c <=? 57) then Some (c - 48)
  else if (65 <=? c) && (c <=? 70) then Some (c - 55)
  else if (97 <=? c) && (c <=? 102) then Some (c - 87)
  else None.
Fixpoint percent_decode (s : bytes) : bytes :=
  match s with
  | [] => []
  | c :: r =>
      match r with
      | a :: b :: r' =>
          if c =? 37 then
            match hex_val a, hex_val b with
            | Some x, Some y => (16 * x + y) :: percent_decode r'
            | _, _ => c :: percent_decode r
            end
          else c :: percent_decode r
      | _ => c :: percent_decode r
      end
  end.
(** l.122-136. *)
Definition relative (s : bytes) : bytes := match s with c :: r => if c =? 47 then r else s | [] => [] end.
Definition decoded_name (s : bytes) : option bytes :=
  let d := percent_decode s in if utf8 d then Some (relative d) else None.

Definition s_octets : bytes := [97; 112; 112; 108; 105; 99; 97; 116; 105; 111; 110; 47; 111; 99; 116; 101; 116; 45; 115; 116; 114; 101; 97; 109].
Definition s_directory : bytes := [97; 112; 112; 108; 105; 99; 97; 116; 105; 111; 110; 47; 120; 45; 100; 105; 114; 101; 99; 116; 111; 114; 121].
Definition s_file : bytes := [102; 105; 108; 101].
Definition s_dir : bytes := [100; 105; 114].
Fixpoint starts_with (a b : bytes) : bool :=
  match a, b with [], _ => true | x :: a, y :: b => (x =? y) && starts_with a b | _, [] => false end.
(** "file", "file-…" and "dir", "dir-…", l.144 and l.236. *)
Definition field_ok (kind name : bytes) : bool := beq name kind || starts_with (kind ++ [45]) name.

Section Add.
  Variable sha : bytes -> bytes.
  Variables chunk bf : nat.
  (** Whether storing the [n]-th block succeeds. *)
  Variable put_ok : nat -> bool.
  (** [AddArgs], root_files.rs l.20-32. *)
  Variables progress wrap : bool.
  (** The text of a cid. *)
  Variable cid_text : cid -> bytes.

  (** [Ipfs::put_block]; it gives back the cid of the block. *)
  Definition put (c : cid) (b : bytes) : act unit := fun n =>
    if put_ok n then ([EPut c b], S n, Go tt) else ([], S n, Stop (Broken Persisting)).

  (** [import_all], l.314-335. *)
  Fixpoint import_blocks (bs : list (cid * bytes)) (last : option cid) (total : N) : act (option (cid * N)) :=
    match bs with
    | [] => give (match last with Some c => Some (c, total) | None => None end)
    | (c, b) :: r => plus total (blen b) (fun total => bind (put c b) (fun _ => import_blocks r (Some c) total))
    end.

  (** [push_all], l.288-312, on the rest of the slice: the adder afterwards, the bytes read, whether a
      block was stored and the bytes stored.  Every push uses at least one byte, so [fuel] is the length. *)
  Fixpoint push_all (fuel : nat) (s : adder) (rest : bytes) (read : nat) (saved : bool) (written : N) : act (adder * N * bool * N) :=
    match rest with
    | [] => give (s, N.of_nat read, saved, written)
    | _ =>
        match fuel with
        | O => stop Unfinished
        | S fuel =>
            match push sha chunk bf s rest with
            | Added (s, bs, used) =>
                bind (import_blocks bs None 0) (fun t =>
                  plus written (match t with Some (_, n) => n | None => 0 end) (fun written =>
                    push_all fuel s (skipn used rest) (read + used) (saved || match t with Some _ => true | None => false end) written))
            | AddPanic => stop Crash
            | AddFuel => stop Unfinished
            end
        end
    end.

  (** The loop of l.157-186: also the bytes stored and read. *)
  Fixpoint file_loop (name : bytes) (body : list bytes) (broken : bool) (s : adder) (written read : N) : act (adder * N * N) :=
    match body with
    | [] => if broken then stop (Broken Parsing) else give (s, written, read)
    | next :: body =>
        bind (push_all (length next) s next 0 false 0) (fun '(s, r, saved, w) =>
          plus written w (fun written => plus read r (fun read =>
            bind (if saved && progress then item [Progress name read] else give tt)
              (fun _ => file_loop name body broken s written read))))
    end.

  (** A file, l.139-233: the tree with the file put into it. *)
  Definition add_file_part (b : builder) (field name : bytes) (p : part) : act builder :=
    if negb (field_ok s_file field) then stop (Broken (UnsupportedField field))
    else
      bind (file_loop name (p_body p) (p_broken p) adder0 0 0) (fun '(s, written, read) =>
        match finish sha bf s with
        | AddPanic => stop Crash
        | AddFuel => stop Unfinished
        | Added bs =>
            bind (import_blocks bs None 0) (fun t =>
              match t with
              | None => stop Crash                                             (* the [expect] of l.207 *)
              | Some (root, subtotal) =>
                  plus written subtotal (fun written =>
                    match put_link b name root written with
                    | (_, Err e) => stop (Broken (TreeGathering e))
                    | (_, Panic) => stop Crash
                    | (b, Ok _) =>
                        bind (item ((if progress then [Progress name read] else []) ++
                                    [AddedMsg (match name with [] => cid_text root | _ => name end) root written]))
                          (fun _ => give b)
                    end)
              end)
        end).

  (** A directory, l.234-253. *)
  Definition add_dir_part (b : builder) (field name : bytes) (p : part) : act builder :=
    if negb (field_ok s_dir field) then stop (Broken (UnsupportedField field))
    else if p_broken p then stop (Broken Parsing)
    else match set_metadata b name meta0 with
         | (_, Err e) => stop (Broken (TreeGathering e))
         | (_, Panic) => stop Crash
         | (b, Ok _) => give b
         end.

  (** The body of the loop of l.113-261. *)
  Definition add_part (b : builder) (p : part) : act builder :=
    match p_field p, p_filename p with
    | None, _ => stop (Broken Header)
    | _, None => stop (Broken Header)
    | Some field, Some filename =>
        match decoded_name filename with
        | None => stop (Broken InvalidFilename)
        | Some name =>
            match p_type p with
            | None => stop (Broken Header)
            | Some t =>
                if beq t s_octets then add_file_part b field name p
                else if beq t s_directory then add_dir_part b field name p
                else stop (Broken (UnsupportedContentType t))
            end
        end
    end.
  (** [None] is where the request cannot be parsed, l.113-116. *)
  Fixpoint add_parts (b : builder) (l : list (option part)) : act builder :=
    match l with
    | [] => give b
    | None :: _ => stop (Broken Parsing)
    | Some p :: l => bind (add_part b p) (fun b => add_parts b l)
    end.

  (** The loop of l.263-281 over what the iterator gives. *)
  Fixpoint add_nodes (l : list out) (e : option end_of) : act unit :=
    match l with
    | [] => match e with Some Finished => give tt | Some Crashed => stop Crash | None => stop Unfinished end
    | Failed e :: _ => stop (Broken (TreeBuilding e))
    | Node path c size block :: l =>
        bind (put c block) (fun _ => bind (item [AddedMsg path c size]) (fun _ => add_nodes l e))
    end.

  (** [add_stream], l.97-284, within [fuel] turns of the iterator. *)
  Inductive ending := Done | Early (e : add_end).
  Definition add_stream (fuel : nat) (l : list (option part)) : list event * ending :=
    let '(t, _, r) :=
      bind (add_parts (new_builder wrap default_limit) l) (fun b =>
        let (nodes, e) := build sha fuel b in add_nodes nodes e) O in
    (t, match r with Go _ => Done | Stop e => Early e end).
End Add.
