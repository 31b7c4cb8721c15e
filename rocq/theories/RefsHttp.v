(** The /refs endpoint: http/src/v0/refs.rs, refs/options.rs, refs/format.rs.  Definitions only. *)
From Verif Require Import Base Wire Cid Ipld Text IpfsPath Resolve Refs.
Local Open Scope N_scope.

(** * refs/format.rs *)

(** [FormattedPart], l.16-23, and [EdgeFormatter], l.4-14. *)
Inductive part := Static (s : bytes) | Source | Destination | LinkName.
Inductive formatter := FDestination | FArrow | FString (parts : list part).
(** [FormatError], l.34-39, and [InvalidFormat], l.25-32. *)
Inductive format_err := UnsupportedTag (tag : bytes) | UnterminatedTag (index : N).
Inductive invalid_format := EdgesWithCustomFormat | Format (e : format_err).

Definition s_src : bytes := [115; 114; 99].
Definition s_dst : bytes := [100; 115; 116].
Definition s_linkname : bytes := [108; 105; 110; 107; 110; 97; 109; 101].
Definition lt : N := 60.
Definition gt : N := 62.

(** [str::find('>')] and the text on both sides of it. *)
Fixpoint cut_gt (s : bytes) : option (bytes * bytes) :=
  match s with
  | [] => None
  | c :: s => if c =? gt then Some ([], s) else match cut_gt s with Some (a, b) => Some (c :: a, b) | None => None end
  end.
(** The match of l.146-151. *)
Definition tag_of (s : bytes) : option part :=
  if beq s s_src then Some Source else if beq s s_dst then Some Destination else if beq s s_linkname then Some LinkName else None.
Definition flush (buffer : bytes) : list part := match buffer with [] => [] | _ => [Static buffer] end.

(** [parse_format], l.119-169.  On bytes instead of characters: the brackets are ascii and never part
    of another character.  [index] is the position in the text [char_indices] was last called on,
    [buffer] the text read so far.  Every turn uses up at least a byte, so [fuel] is the length. *)
Fixpoint parse_loop (fuel : nat) (s : bytes) (index : N) (buffer : bytes) (ret : list part) : outcome (list part) format_err :=
  match fuel with
  | O => Panic
  | S fuel =>
      match s with
      | [] => Ok (ret ++ flush buffer)
      | c :: rest =>
          if c =? lt then
            let ret := ret ++ flush buffer in
            match cut_gt rest with
            | None => Err (UnterminatedTag index)
            | Some (inside, rest) =>
                match tag_of inside with
                | None => Err (UnsupportedTag inside)
                | Some p => parse_loop fuel rest 0 [] (ret ++ [p])
                end
            end
          else parse_loop fuel rest (index + 1) (buffer ++ [c]) ret
      end
  end.
Definition parse_format (s : bytes) : outcome (list part) format_err := parse_loop (S (length s)) s 0 [] [].

(** [EdgeFormatter::from_options], l.42-54. *)
Definition from_options (edges : bool) (format : option bytes) : outcome formatter invalid_format :=
  match format with
  | Some s =>
      if edges then Err EdgesWithCustomFormat
      else match parse_format s with Ok l => Ok (FString l) | Err e => Err (Format e) | Panic => Panic end
  | None => Ok (if edges then FArrow else FDestination)
  end.
(** [FormattedPart::format], l.74-88. *)
Definition format_part (src dst : cid) (name : option bytes) (p : part) : bytes :=
  match p with
  | Static s => s
  | Source => cid_to_text src
  | Destination => cid_to_text dst
  | LinkName => match name with Some n => n | None => [] end
  end.
(** [EdgeFormatter::format], l.56-71; " -> ". *)
Definition s_arrow : bytes := [32; 45; 62; 32].
Definition format_edge (f : formatter) (src dst : cid) (name : option bytes) : bytes :=
  match f with
  | FDestination => cid_to_text dst
  | FArrow => cid_to_text src ++ s_arrow ++ cid_to_text dst
  | FString parts => concat (map (format_part src dst name) parts)
  end.

(** * refs/options.rs *)

(** [RefsOptions], l.4-26; the timeout is left out of the model except for whether it can be read. *)
Record refs_options := mk_options {
  r_arg : list bytes; r_format : option bytes; r_edges : bool; r_unique : bool; r_recursive : bool; r_depth : option Z }.

Definition k_arg : bytes := [97; 114; 103].
Definition k_format : bytes := [102; 111; 114; 109; 97; 116].
Definition k_timeout : bytes := [116; 105; 109; 101; 111; 117; 116].
Definition k_depth : bytes := [109; 97; 120; 45; 100; 101; 112; 116; 104].
Definition k_edges : bytes := [101; 100; 103; 101; 115].
Definition k_unique : bytes := [117; 110; 105; 113; 117; 101].
Definition k_recursive : bytes := [114; 101; 99; 117; 114; 115; 105; 118; 101].
Definition s_true : bytes := [116; 114; 117; 101].
Definition s_false : bytes := [102; 97; 108; 115; 101].

(** [str::parse::<bool>]. *)
Definition parse_bool (s : bytes) : option bool :=
  if beq s s_true then Some true else if beq s s_false then Some false else None.
(** [str::parse::<i64>]: a sign, at least one digit, in range. *)
Definition in_i64 (v : Z) : bool := ((- 2 ^ 63 <=? v) && (v <? 2 ^ 63))%Z.
Definition parse_i64 (s : bytes) : option Z :=
  match s with
  | [] => None
  | c :: r =>
      let '(neg, ds) := if c =? 45 then (true, r) else if c =? 43 then (false, r) else (false, s) in
      match ds with
      | [] => None
      | _ =>
          match digits_val ds 0 with
          | None => None
          | Some v => let v := if neg then Z.opp (Z.of_N v) else Z.of_N v in if in_i64 v then Some v else None
          end
      end
  end.

(** [ParseError], support/option_parsing.rs l.4-14: the ones used here. *)
Inductive option_err := DuplicateField (k : bytes) | MissingArg | InvalidNumber (k v : bytes) | InvalidBoolean (k v : bytes) | InvalidDuration (k : bytes).

Section Options.
  (** Whether humantime reads the text as a duration. *)
  Variable duration : bytes -> bool.

  (** The variables of l.63-69. *)
  Record partial := mk_partial {
    q_args : list bytes; q_format : option bytes; q_timeout : bool; q_edges : option bool; q_unique : option bool;
    q_recursive : option bool; q_depth : option Z }.
  Definition nothing : partial := mk_partial [] None false None None None None.

  Definition set_bool (k v : bytes) (old : option bool) (store : option bool -> partial) : outcome partial option_err :=
    match old with
    | Some _ => Err (DuplicateField k)
    | None => match parse_bool v with Some b => Ok (store (Some b)) | None => Err (InvalidBoolean k v) end
    end.
  (** The body of the loop, l.71-127. *)
  Definition take_field (q : partial) (kv : bytes * bytes) : outcome partial option_err :=
    let (k, v) := kv in
    if beq k k_arg then Ok (mk_partial (q_args q ++ [v]) (q_format q) (q_timeout q) (q_edges q) (q_unique q) (q_recursive q) (q_depth q))
    else if beq k k_format then
      match q_format q with
      | Some _ => Err (DuplicateField k)
      | None => Ok (mk_partial (q_args q) (Some v) (q_timeout q) (q_edges q) (q_unique q) (q_recursive q) (q_depth q))
      end
    else if beq k k_timeout then
      if q_timeout q then Err (DuplicateField k)
      else if duration v then Ok (mk_partial (q_args q) (q_format q) true (q_edges q) (q_unique q) (q_recursive q) (q_depth q))
      else Err (InvalidDuration k)
    else if beq k k_depth then
      match q_depth q with
      | Some _ => Err (DuplicateField k)
      | None =>
          match parse_i64 v with
          | Some z => Ok (mk_partial (q_args q) (q_format q) (q_timeout q) (q_edges q) (q_unique q) (q_recursive q) (Some z))
          | None => Err (InvalidNumber k v)
          end
      end
    else if beq k k_edges then
      set_bool k v (q_edges q) (fun b => mk_partial (q_args q) (q_format q) (q_timeout q) b (q_unique q) (q_recursive q) (q_depth q))
    else if beq k k_unique then
      set_bool k v (q_unique q) (fun b => mk_partial (q_args q) (q_format q) (q_timeout q) (q_edges q) b (q_recursive q) (q_depth q))
    else if beq k k_recursive then
      set_bool k v (q_recursive q) (fun b => mk_partial (q_args q) (q_format q) (q_timeout q) (q_edges q) (q_unique q) b (q_depth q))
    else Ok q.
  Fixpoint take_fields (q : partial) (l : list (bytes * bytes)) : outcome partial option_err :=
    match l with
    | [] => Ok q
    | kv :: l => match take_field q kv with Ok q => take_fields q l | Err e => Err e | Panic => Panic end
    end.
  Definition or_false (b : option bool) : bool := match b with Some b => b | None => false end.
  (** [TryFrom<&str> for RefsOptions], l.43-137, for the list of pairs [url::form_urlencoded::parse]
      gives for the query. *)
  Definition options_of (l : list (bytes * bytes)) : outcome refs_options option_err :=
    match take_fields nothing l with
    | Ok q =>
        match q_args q with
        | [] => Err MissingArg
        | _ => Ok (mk_options (q_args q) (q_format q) (or_false (q_edges q)) (or_false (q_unique q)) (or_false (q_recursive q)) (q_depth q))
        end
    | Err e => Err e
    | Panic => Panic
    end.
End Options.

(** [RefsOptions::max_depth], l.28-40. *)
Definition depth_of (o : refs_options) : option N :=
  if r_recursive o then
    match r_depth o with
    | Some x => if (0 <=? x)%Z then Some (Z.to_N x) else None
    | None => None
    end
  else Some 1.

(** * refs.rs *)

Inductive refs_err := BadOptions (e : option_err) | BadFormat (e : invalid_format) | BadPath (s : bytes) | NotResolved (e : resolve_err).
(** The end of the stream of lines, or that more turns are needed. *)
Definition answer_lines : Type := list (bytes * bytes) * option ending.

Section Endpoint.
  Variable duration : bytes -> bool.
  (** [multibase] names the other bases of cids, as in [IpfsPath.path_from_str]. *)
  Variable other_base : N -> bytes -> option bytes.
  (** [IpldDag::resolve] with links followed: the node it finds. *)
  Variable resolve : ipfs_path -> outcome node resolve_err.
  Variable checks : bool.
  Variable fetch : cid -> fetched.
  Variable decode : cid -> bytes -> outcome ipld unit.
  (** The text of the error for a block which cannot be read. *)
  Variable error_text : cid -> bytes.

  (** l.45-49 ([collect] stops at the first which does not parse). *)
  Fixpoint parse_paths (l : list bytes) : outcome (list ipfs_path) refs_err :=
    match l with
    | [] => Ok []
    | s :: l =>
        match path_from_str other_base s with
        | None => Err (BadPath s)
        | Some p => match parse_paths l with Ok r => Ok (p :: r) | Err e => Err e | Panic => Panic end
        end
    end.
  (** [refs_paths], l.118-178, up to the call of [iplds_refs]: the documents to start from, in the
      order of the paths; the first error ends it.  (The paths are resolved at the same time; a panic
      while resolving a later path is only seen here if the earlier ones succeed.)  A link cannot be the result ([unreachable!]). *)
  Definition document_of (n : node) : outcome (option (cid * ipld)) refs_err :=
    match n with
    | NDagPbData _ _ => Ok None
    | NLink _ _ => Panic
    | NBlock c b => match decode c b with Ok v => Ok (Some (c, v)) | Err _ => Err (NotResolved (EUnsupported c)) | Panic => Panic end
    | NProjection c v => Ok (Some (c, v))
    end.
  Fixpoint documents (l : list ipfs_path) : outcome (list (cid * ipld)) refs_err :=
    match l with
    | [] => Ok []
    | p :: l =>
        match resolve p with
        | Err e => Err (NotResolved e)
        | Panic => Panic
        | Ok n =>
            match document_of n, documents l with
            | Ok (Some d), Ok r => Ok (d :: r)
            | Ok None, Ok r => Ok r
            | Err e, _ => Err e
            | Panic, _ => Panic
            | _, Err e => Err e
            | _, Panic => Panic
            end
        end
    end.
  (** The item for one report, l.63-80: the fields "Ref" and "Err".  Other errors than [ParseError] are
      [unreachable!] when blocks are downloaded (src/refs.rs l.132-137). *)
  Definition line (f : formatter) (e : event) : bytes * bytes :=
    match e with
    | Edge s d name => (format_edge f s d name, [])
    | ParseError c | LoadError c | BlockNotFound c => ([], error_text c)
    end.
  (** [refs_inner], l.31-96, without the timeout. *)
  Definition refs_lines (fuel : nat) (query : list (bytes * bytes)) : outcome answer_lines refs_err :=
    match options_of duration query with
    | Panic => Panic
    | Err e => Err (BadOptions e)
    | Ok o =>
        match from_options (r_edges o) (r_format o) with
        | Panic => Panic
        | Err e => Err (BadFormat e)
        | Ok f =>
            match parse_paths (r_arg o) with
            | Panic => Panic
            | Err e => Err e
            | Ok paths =>
                match documents paths with
                | Panic => Panic
                | Err e => Err e
                | Ok docs =>
                    let (es, e) := refs checks fetch decode fuel (mk_opts (depth_of o) (r_unique o) true) docs in
                    Ok (map (line f) es, e)
                end
            end
        end
    end.
End Endpoint.

(** * Lines of JSON *)

(** serde_json writing a string ([format_escaped_str]): only what has to be is escaped. *)
Definition hex_digit (v : N) : N := if v <? 10 then 48 + v else 87 + v.
Definition escape (c : N) : bytes :=
  if c =? 34 then [92; 34] else if c =? 92 then [92; 92]
  else if c =? 8 then [92; 98] else if c =? 9 then [92; 116] else if c =? 10 then [92; 110]
  else if c =? 12 then [92; 102] else if c =? 13 then [92; 114]
  else if c <? 32 then [92; 117; 48; 48; hex_digit (c / 16); hex_digit (c mod 16)]
  else [c].
Definition json_string (s : bytes) : bytes := 34 :: concat (map escape s) ++ [34].
(** [Edge] in http/src/v0/refs.rs l.98-104 with the newline of l.83: {"Ref":…,"Err":…}. *)
Definition k_ref : bytes := [82; 101; 102].
Definition k_err : bytes := [69; 114; 114].
Definition edge_line (x : bytes * bytes) : bytes :=
  123 :: json_string k_ref ++ 58 :: json_string (fst x) ++ 44 :: json_string k_err ++ 58 :: json_string (snd x) ++ [125; 10].
Definition body (l : list (bytes * bytes)) : bytes := concat (map edge_line l).
