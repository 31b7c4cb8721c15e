(** The /block and /dag/put endpoints: http/src/v0/block.rs, http/src/v0/dag.rs l.15-101 and the reading
    of their forms in http/src/v0/support/body.rs, over blocks and pins on disk.  Definitions only.

    The multipart parser (mpart_async) is outside: a form is the list of the parts it gives and the
    places where it fails.  So are the hash functions, the timeouts, and the JSON around keys and sizes. *)
From Verif Require Import Base Wire Cid Text FMap BlockSpec FsPaths FsBlocks PinSpec FsPins PinnedRepo RefsHttp HttpOptions NodePins.
Local Open Scope N_scope.

(** * support/body.rs *)

(** A part: its name ([None]: cannot be read), the pieces of its body as they arrive and whether
    reading the body fails after them. *)
Record field := mk_field { f_name : option bytes; f_pieces : list bytes; f_fails : bool }.
(** The form: its parts, and whether looking for a further part fails. *)
Record form := mk_form { m_fields : list field; m_fails : bool }.
(** [OnlyMultipartFailure], l.6-14. *)
Inductive form_err := UnparseableFieldName | MultipleValues | TooLargeValue | FieldNotFound | ZeroRead | FormIO.

(** The inner loop, l.82-108: for a part with an allowed name ... *)
Fixpoint take_pieces (limit : N) (buffer : bytes) (l : list bytes) : outcome bytes form_err :=
  match l with
  | [] => Ok buffer
  | p :: l => if limit <? blen buffer + blen p then Err TooLargeValue else take_pieces limit (buffer ++ p) l
  end.
(** ... and for another one. *)
Fixpoint skip_pieces (l : list bytes) : outcome unit form_err :=
  match l with
  | [] => Ok tt
  | p :: l => match p with [] => Err ZeroRead | _ => skip_pieces l end
  end.
(** The outer loop, l.62-116. *)
Fixpoint read_fields (names : list bytes) (limit : N) (fails : bool) (buffer : bytes) (matched : bool) (l : list field) : outcome bytes form_err :=
  match l with
  | [] => if fails then Err FormIO else if matched then Ok buffer else Err FieldNotFound
  | f :: l =>
      match f_name f with
      | None => Err UnparseableFieldName
      | Some name =>
          let target := existsb (beq name) names in
          if matched then Err MultipleValues
          else if target then
            match take_pieces limit buffer (f_pieces f) with
            | Ok buffer => if f_fails f then Err FormIO else read_fields names limit fails buffer true l
            | Err e => Err e
            | Panic => Panic
            end
          else
            match skip_pieces (f_pieces f) with
            | Ok _ => if f_fails f then Err FormIO else read_fields names limit fails buffer false l
            | Err e => Err e
            | Panic => Panic
            end
      end
  end.
(** [try_only_named_multipart], l.46-117. *)
Definition only_named (names : list bytes) (limit : N) (f : form) : outcome bytes form_err :=
  read_fields names limit (m_fails f) [] false (m_fields f).

(** * Options *)

Definition k_mhtype : bytes := [109; 104; 116; 121; 112; 101].
Definition k_version : bytes := [118; 101; 114; 115; 105; 111; 110].
Definition k_hash : bytes := [104; 97; 115; 104].
Definition k_enc : bytes := [105; 110; 112; 117; 116; 45; 101; 110; 99].
Definition k_force : bytes := [102; 111; 114; 99; 101].
Definition k_quiet : bytes := [113; 117; 105; 101; 116].
Definition n_data : bytes := [100; 97; 116; 97].
Definition n_file : bytes := [102; 105; 108; 101].
Definition n_dagcbor : bytes := [100; 97; 103; 45; 99; 98; 111; 114].
Definition n_dagpb : bytes := [100; 97; 103; 45; 112; 98].
Definition n_dagjson : bytes := [100; 97; 103; 45; 106; 115; 111; 110].
Definition n_raw : bytes := [114; 97; 119].
Definition n_json : bytes := [106; 115; 111; 110].
Definition n_sha2_256 : bytes := [115; 104; 97; 50; 45; 50; 53; 54].
Definition n_sha2_512 : bytes := [115; 104; 97; 50; 45; 53; 49; 50].
Definition n_sha3_512 : bytes := [115; 104; 97; 51; 45; 53; 49; 50].
Definition sha2_512 : N := 19.
Definition sha3_512 : N := 20.

(** [GetStatOptions], block.rs l.22-26. *)
Definition get_rules (duration : bytes -> bool) (k : bytes) : option rule :=
  if beq k k_arg then Some (mk_rule true any_value) else if beq k k_timeout then Some (mk_rule true duration) else None.
(** [PutQuery], block.rs l.52-57 and dag.rs l.15-35. *)
Definition put_rules (k : bytes) : option rule :=
  if beq k k_format then Some (mk_rule true any_value) else if beq k k_mhtype then Some (mk_rule true any_value)
  else if beq k k_version then Some (mk_rule true (fun v => match parse_u8 v with Some _ => true | None => false end)) else None.
Definition dag_rules (k : bytes) : option rule :=
  if beq k k_format then Some (mk_rule true any_value) else if beq k k_hash then Some (mk_rule true any_value)
  else if beq k k_enc then Some (mk_rule true (fun v => beq v n_raw || beq v n_json)) else None.
(** [RmOptions], block/options.rs l.4-56. *)
Definition rm_rules (k : bytes) : option rule :=
  if beq k k_arg then Some (mk_rule false any_value) else if beq k k_force then Some (mk_rule true a_bool)
  else if beq k k_quiet then Some (mk_rule true a_bool) else None.

Definition or_else (d : bytes) (v : option bytes) : bytes := match v with Some v => v | None => d end.
(** [PutQuery::format], block.rs l.60-68, and the same table in dag.rs l.55-61. *)
Definition codec_named (s : bytes) : option N :=
  if beq s n_dagcbor then Some codec_dagcbor else if beq s n_dagpb then Some codec_dagpb
  else if beq s n_dagjson then Some codec_dagjson else if beq s n_raw then Some codec_raw else None.

(** [cid::Cid::new] (cid 0.5): version 0 is for dag-pb and sha2-256 only. *)
Definition cid_new (v1 : bool) (codec : N) (mh : multihash) : option cid :=
  if v1 then Some (CidV1 codec mh)
  else if (codec =? codec_dagpb) && (mh_code mh =? sha2_256) then Some (CidV0 (mh_digest mh)) else None.

(** * Answers *)

(** [Reported]: {"Key":…,"Size":…} or {"Cid":{"/":…}} (size 0 then); [Content]: the body.  [Refused]: an
    error response; [NoAnswer]: the block is waited for. *)
Inductive reply := Reported (key : bytes) (size : N) | Content (b : bytes) | Refused | NoAnswer | Crash.

Definition one_mib : N := 1048576.

Section Endpoints.
  Variable sha256 sha512 sha3 : bytes -> bytes.
  Variable duration : bytes -> bool.
  Variable other_base : N -> bytes -> option bytes.
  (** The text of a storage error. *)
  Variable storage_error : bytes.
  Definition state : Type := fs * fs.

  (** [PutQuery::digest], block.rs l.70-76; [sha3] is for dag/put only, dag.rs l.63-68. *)
  Definition hash_named (with_sha3 : bool) (s : bytes) (data : bytes) : option multihash :=
    if beq s n_sha2_256 then Some {| mh_code := sha2_256; mh_digest := sha256 data |}
    else if beq s n_sha2_512 then Some {| mh_code := sha2_512; mh_digest := sha512 data |}
    else if with_sha3 && beq s n_sha3_512 then Some {| mh_code := sha3_512; mh_digest := sha3 data |}
    else None.
  (** [PutQuery::version], block.rs l.78-84. *)
  Definition version_of (v : option bytes) : option bool :=
    match v with
    | None => Some false
    | Some v => match parse_u8 v with Some 0 => Some false | Some 1 => Some true | _ => None end
    end.
  Definition stored_as (s : state) (c : cid) (data : bytes) (r : reply) : state * reply :=
    match f_put (fst s) (mk_block c data) with
    | (b, Ok _) => ((b, snd s), r)
    | (b, Err _) => ((b, snd s), Refused)
    | (b, Panic) => ((b, snd s), Crash)
    end.

  (** [put], [inner_put], block.rs l.86-141; [None] for the form: no boundary in the content type. *)
  Definition block_put (query : list (bytes * bytes)) (body : option form) (s : state) : state * reply :=
    match read_query put_rules [] query, body with
    | Ok q, Some m =>
        match only_named [n_data; n_file] one_mib m with
        | Ok data =>
            match hash_named false (or_else n_sha2_256 (one_of k_mhtype q)) data, version_of (one_of k_version q),
                  codec_named (or_else n_dagpb (one_of k_format q)) with
            | Some mh, Some v1, Some codec =>
                match cid_new v1 codec mh with
                | Some c => stored_as s c data (Reported (cid_to_text c) (blen data))
                | None => (s, Refused)
                end
            | _, _, _ => (s, Refused)
            end
        | Err _ => (s, Refused)
        | Panic => (s, Crash)
        end
    | _, _ => (s, Refused)
    end.
  (** [put_query], dag.rs l.46-101. *)
  Definition dag_put (query : list (bytes * bytes)) (body : option form) (s : state) : state * reply :=
    match read_query dag_rules [] query with
    | Ok q =>
        if negb (beq (or_else n_json (one_of k_enc q)) n_raw) then (s, Refused)
        else
          let hash := or_else n_sha2_256 (one_of k_hash q) in
          match codec_named (or_else n_dagcbor (one_of k_format q)), hash_named true hash [], body with
          | Some codec, Some _, Some m =>
              match only_named [n_data; n_file] one_mib m with
              | Ok data =>
                  match hash_named true hash data with
                  | Some mh =>
                      match (if (codec =? codec_dagpb) && (mh_code mh =? sha2_256) then cid_new false codec mh else cid_new true codec mh) with
                      | Some c => stored_as s c data (Reported (cid_to_text c) 0)
                      | None => (s, Crash)
                      end
                  | None => (s, Crash)
                  end
              | Err _ => (s, Refused)
              | Panic => (s, Crash)
              end
          | _, _, _ => (s, Refused)
          end
    | _ => (s, Refused)
    end.

  (** [get_query], block.rs l.28-43. *)
  Definition block_get (query : list (bytes * bytes)) (s : state) : reply :=
    match read_query (get_rules duration) [] query with
    | Ok q =>
        match one_of k_arg q with
        | None => Refused
        | Some a =>
            match cid_from_text other_base a with
            | None => Refused
            | Some c => match f_get (fst s) c with Some data => Content data | None => NoAnswer end
            end
        end
    | _ => Refused
    end.
  (** [stat_query], block.rs l.224-243: the key is the argument as given. *)
  Definition block_stat (query : list (bytes * bytes)) (s : state) : reply :=
    match read_query (get_rules duration) [] query with
    | Ok q =>
        match one_of k_arg q with
        | None => Refused
        | Some a =>
            match cid_from_text other_base a with
            | None => Refused
            | Some c => match f_get (fst s) c with Some data => Reported a (blen data) | None => NoAnswer end
            end
        end
    | _ => Refused
    end.

  (** ** rm *)

  (** The texts of the errors of [remove_block], src/repo/mod.rs l.490-515. *)
  Definition t_pinned : bytes :=
    [98; 108; 111; 99; 107; 32; 116; 111; 32; 114; 101; 109; 111; 118; 101; 32; 105; 115; 32; 112; 105; 110; 110; 101; 100].
  Definition t_missing : bytes := [98; 108; 111; 99; 107; 32; 110; 111; 116; 32; 102; 111; 117; 110; 100].
  (** One [remove_block]: [None] when it succeeded, else the text of the error. *)
  Definition rm_one (s : state) (c : cid) : state * outcome (option bytes) unit :=
    match fs_remove_block other_base s c with
    | (s', Ok _) => (s', Ok None)
    | (s', Err _) => (s', Ok (Some (match fs_is_pinned other_base (snd s) c with Some true => t_pinned | Some false => t_missing | None => storage_error end)))
    | (s', Panic) => (s', Panic)
    end.
  (** The removals are all started and answered in some order: [order] lists the positions of the
      arguments as they are answered. *)
  Fixpoint rm_run (s : state) (cs : list cid) (order : list nat) : state * outcome (list (nat * option bytes)) unit :=
    match order with
    | [] => (s, Ok [])
    | i :: order =>
        match nth_error cs i with
        | None => rm_run s cs order
        | Some c =>
            match rm_one s c with
            | (s', Ok e) =>
                match rm_run s' cs order with
                | (s', Ok l) => (s', Ok ((i, e) :: l))
                | (s', Err x) => (s', Err x)
                | (s', Panic) => (s', Panic)
                end
            | (s', Err x) => (s', Err x)
            | (s', Panic) => (s', Panic)
            end
        end
    end.
  Fixpoint answer_at (i : nat) (l : list (nat * option bytes)) : option (option bytes) :=
    match l with
    | [] => None
    | (j, e) :: l => if (i =? j)%nat then Some e else answer_at i l
    end.
  (** [RmResponse], l.143-148: the error and the hash, in the order of the arguments ([FuturesOrdered]). *)
  Definition rm_responses (force : bool) (cs : list cid) (l : list (nat * option bytes)) : list (bytes * bytes) :=
    map (fun x => (match answer_at (fst x) l with Some (Some e) => if force then [] else e | _ => [] end, cid_to_text (snd x)))
      (combine (seq 0 (length cs)) cs).
  (** {"Error":…,"Hash":…} and a newline, or nothing, l.200-213. *)
  Definition k_error_key : bytes := [69; 114; 114; 111; 114].
  Definition k_hash_key : bytes := [72; 97; 115; 104].
  Definition rm_line (quiet : bool) (x : bytes * bytes) : bytes :=
    if quiet then []
    else 123 :: json_string k_error_key ++ 58 :: json_string (fst x) ++ 44 :: json_string k_hash_key ++ 58 :: json_string (snd x) ++ [125; 10].
  Fixpoint parse_cids (l : list bytes) : option (list cid) :=
    match l with
    | [] => Some []
    | a :: l =>
        match cid_from_text other_base a with
        | None => None
        | Some c => match parse_cids l with Some cs => Some (c :: cs) | None => None end
        end
    end.
  (** [rm_query], l.168-222. *)
  Definition block_rm (query : list (bytes * bytes)) (order : list nat) (s : state) : state * reply :=
    match read_query rm_rules [] query with
    | Ok q =>
        match parse_cids (all_of k_arg q) with
        | None => (s, Refused)
        | Some cs =>
            match rm_run s cs order with
            | (s', Ok l) => (s', Content (concat (map (rm_line (bool_of false (one_of k_quiet q))) (rm_responses (bool_of false (one_of k_force q)) cs l))))
            | (s', _) => (s', Crash)
            end
        end
    | _ => (s, Refused)
    end.
End Endpoints.

(** * /dag/resolve *)
From Verif Require Resolve Cat.
(** [inner_resolve], dag.rs l.122-149, for a path with a cid root: "Cid" and the segments of "RemPath". *)
Definition dag_resolve_reply (get : cid -> option bytes) (decode : cid -> bytes -> outcome Ipld.ipld unit)
  (fuel hfuel : nat) (root : cid) (p : list bytes) (local_resolve : bool) : option (outcome (cid * list bytes) Resolve.resolve_err) :=
  match Resolve.dag_resolve get decode fuel hfuel root p (negb local_resolve) with
  | None => None
  | Some (Ok (n, rest)) => Some (Ok (Cat.source_of n, rest))
  | Some (Err e) => Some (Err e)
  | Some Panic => Some Panic
  end.
