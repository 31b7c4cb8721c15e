(** The configuration file: http/src/config.rs (all of it) with http/src/keys.proto, and the parts of
    http/src/main.rs which create and load it (l.54-126) and turn the API address into a socket address
    (l.186-202).  Definitions only.

    [openssl] and the key pairs of libp2p are functions of a section: [generate]d keys are given by the
    caller, [pkcs1_of]/[key_of_pkcs1] are [private_key_to_der]/[private_key_from_der], [pem_of] is
    [private_key_to_pem_pkcs8] ([None] is an error of openssl), [keypair_of_pkcs8] is
    [Keypair::rsa_from_pkcs8] and [peer_of] the peer id of the public key.  The texts of addresses are
    [addr_text] and [addr_parse].  Command line parsing (structopt) and environment variables are not
    modelled. *)
From Verif Require Import Base Wire Prost Cid Text Addr RefsHttp HttpPubsub Json.
Local Open Scope N_scope.

(** * Base64 with padding *)

(** [multibase::Base::Base64Pad.decode], that is [data_encoding::BASE64]: blocks of four characters,
    unused bits have to be zero; padding may be followed by more blocks. *)
Definition b64_index (c : N) : option N :=
  if (65 <=? c) && (c <=? 90) then Some (c - 65)
  else if (97 <=? c) && (c <=? 122) then Some (c - 71)
  else if (48 <=? c) && (c <=? 57) then Some (c + 4)
  else if c =? 43 then Some 62 else if c =? 47 then Some 63 else None.
Fixpoint base64_decode (s : bytes) : option bytes :=
  match s with
  | [] => Some []
  | a :: b :: c :: d :: r =>
      match b64_index a, b64_index b with
      | Some a, Some b =>
          if d =? 61 then
            if c =? 61 then
              if b mod 16 =? 0 then option_map (cons (a * 4 + b / 16)) (base64_decode r) else None
            else
              match b64_index c with
              | Some c =>
                  if c mod 4 =? 0
                  then option_map (fun l => a * 4 + b / 16 :: b mod 16 * 16 + c / 4 :: l) (base64_decode r)
                  else None
              | None => None
              end
          else
            match b64_index c, b64_index d with
            | Some c, Some d =>
                option_map (fun l => a * 4 + b / 16 :: b mod 16 * 16 + c / 4 :: c mod 4 * 64 + d :: l) (base64_decode r)
            | _, _ => None
            end
      | _, _ => None
      end
  | _ => None
  end.

(** * PEM *)

(** [str::lines]: up to each newline, without one carriage return before it. *)
Fixpoint split_lines (s : bytes) : list bytes :=
  match s with
  | [] => []
  | c :: r =>
      if c =? 10 then [] :: split_lines r
      else match split_lines r with [] => [[c]] | l :: ls => (c :: l) :: ls end
  end.
Fixpoint chomp (l : bytes) : bytes :=
  match l with
  | [] => []
  | [c] => if c =? 13 then [] else [c]
  | c :: r => c :: chomp r
  end.
Definition dashes_begin : bytes := [45; 45; 45; 45; 45; 66; 69; 71; 73; 78].   (* "-----BEGIN" *)
Definition dashes_end : bytes := [45; 45; 45; 45; 45; 69; 78; 68].             (* "-----END" *)
(** The lines after the first up to the end tag, put together; [None] is a panic (l.266-277). *)
Fixpoint pem_body (tag : bytes) (ls : list bytes) : option bytes :=
  match ls with
  | [] => None
  | l :: r =>
      match strip_prefix dashes_end l with
      | Some t => if beq tag t then Some [] else None
      | None => option_map (app l) (pem_body tag r)
      end
  end.
(** config.rs l.239-282 [pem_to_der]; [None] is a panic. *)
Definition pem_to_der (bs : bytes) : option bytes :=
  if utf8 bs then
    match map chomp (split_lines bs) with
    | [] => None
    | l :: r =>
        match strip_prefix dashes_begin l with
        | None => None
        | Some tag =>
            match pem_body tag r with
            | None => None
            | Some b => base64_decode b
            end
        end
    end
  else None.

(** * The private key message of keys.proto *)

(** [PrivateKey::encode]: both fields are required, so that both are always written. *)
Definition encode_key (data : bytes) : bytes := w_uint 8 0 ++ w_bytes 18 data.
(** [PrivateKey::decode]: prost does not check that required fields are there, the type is then 0
    (RSA) and the data empty. *)
Definition key_field (m : Z * bytes) (f : N * pval) : option (Z * bytes) :=
  let (t, v) := f in
  if t =? 1 then match v with PVarint n => Some (to_i32 n, snd m) | _ => None end
  else if t =? 2 then match v with PLen b => Some (fst m, b) | _ => None end
  else Some m.
Definition decode_key (bs : bytes) : option (Z * bytes) :=
  match pb_fields 100 bs with
  | None => None
  | Some fs => pb_merge key_field (0%Z, []) fs
  end.

(** * The file *)

Definition k_identity : bytes := [73; 100; 101; 110; 116; 105; 116; 121].                (* "Identity" *)
Definition k_addresses : bytes := [65; 100; 100; 114; 101; 115; 115; 101; 115].         (* "Addresses" *)
Definition k_peer_id : bytes := [80; 101; 101; 114; 73; 68].                            (* "PeerID" *)
Definition k_priv_key : bytes := [80; 114; 105; 118; 75; 101; 121].                     (* "PrivKey" *)
Definition k_swarm : bytes := [83; 119; 97; 114; 109].                                  (* "Swarm" *)
Definition k_api : bytes := [65; 80; 73].                                               (* "API" *)

(** [serde_json::to_writer_pretty]: a newline and two spaces per level. *)
Definition nl (n : nat) : bytes := 10 :: repeat 32 n.
Definition member (k v : bytes) : bytes := json_string k ++ [58; 32] ++ v.
Fixpoint pretty_items (l : list bytes) : bytes :=
  match l with
  | [] => []
  | [x] => nl 6 ++ json_string x
  | x :: l => nl 6 ++ json_string x ++ 44 :: pretty_items l
  end.
Definition pretty_list (l : list bytes) : bytes :=
  match l with
  | [] => [91; 93]
  | _ :: _ => 91 :: pretty_items l ++ nl 4 ++ [93]
  end.
(** l.284-308 [CompatibleConfigFile], [Identity] and [Addresses]. *)
Definition config_text (peer priv : bytes) (swarm : list bytes) (api : bytes) : bytes :=
  [123] ++ nl 2 ++
    member k_identity ([123] ++ nl 4 ++
      member k_peer_id (json_string peer) ++ [44] ++ nl 4 ++
      member k_priv_key (json_string priv) ++ nl 2 ++ [125]) ++ [44] ++ nl 2 ++
    member k_addresses ([123] ++ nl 4 ++
      member k_swarm (pretty_list swarm) ++ [44] ++ nl 4 ++
      member k_api (json_string api) ++ nl 2 ++ [125]) ++ nl 0 ++ [125].

(** The derived [Deserialize] of a struct: from an object every field has to be there once and other
    members are ignored; from an array the fields in order, no more and no fewer. *)
Fixpoint all_some {A} (l : list (option A)) : option (list A) :=
  match l with
  | [] => Some []
  | Some x :: r => option_map (cons x) (all_some r)
  | None :: _ => None
  end.
Definition key_is (name : bytes) (m : option bytes * jv) : bool :=
  match fst m with Some k => beq k name | None => false end.
Definition one_field (m : list (option bytes * jv)) (name : bytes) : option jv :=
  match filter (key_is name) m with
  | [x] => Some (snd x)
  | _ => None
  end.
Definition key_readable (m : option bytes * jv) : bool := match fst m with Some _ => true | None => false end.
Definition read_struct (names : list bytes) (j : jv) : option (list jv) :=
  match j with
  | JObj m => if forallb key_readable m then all_some (map (one_field m) names) else None
  | JArr l => if (length l =? length names)%nat then Some l else None
  | _ => None
  end.
Definition read_text (j : jv) : option bytes := match j with JStr (Some s) => Some s | _ => None end.

Section Keys.
  Variables Key Keypair : Type.
  Variable pkcs1_of : Key -> option bytes.
  Variable key_of_pkcs1 : bytes -> option Key.
  Variable pem_of : Key -> option bytes.
  Variable keypair_of_pkcs8 : bytes -> option Keypair.
  Variable peer_of : Keypair -> peer_id.
  Variable addr_text : multiaddr -> bytes.
  Variable addr_parse : bytes -> option multiaddr.

  (** l.16-35 [Profile] and l.111-114. *)
  Inductive profile := Test | Default.
  Definition localhost : N := 2130706433.   (* 127.0.0.1 *)
  Definition api_of (p : profile) : multiaddr :=
    match p with Test => [PIp4 localhost; PTcp 0] | Default => [PIp4 localhost; PTcp 4004] end.
  Definition default_swarm : list multiaddr := [[PIp4 localhost; PTcp 0]].

  (** l.37-53 [InitializationError]; encoding into a vector does not fail. *)
  Inductive init_error :=
  | DirectoryCreationFailed | ConfigCreationFailed | InvalidRsaKeyLength (bits : N)
  | KeyGeneration | ConfigWritingFailed.

  (** l.62-124: all of [init] up to the file system; [key] is what [Rsa::generate] returns. *)
  Definition prepare (bits : N) (profiles : list profile) (key : option Key) : outcome (bytes * bytes) init_error :=
    match (match profiles with [] => Some Default | [p] => Some p | _ => None end) with
    | None => Panic
    | Some p =>
        if (2048 <=? bits) && (bits <=? 16384) then
          match key with
          | None => Err KeyGeneration
          | Some k =>
              match pem_of k with
              | None => Err KeyGeneration
              | Some pem =>
                  match pem_to_der pem with
                  | None => Panic
                  | Some der =>
                      match keypair_of_pkcs8 der with
                      | None => Panic
                      | Some kp =>
                          match pkcs1_of k with
                          | None => Err KeyGeneration
                          | Some pkcs1 =>
                              let peer := peer_to_text (peer_of kp) in
                              Ok (peer, config_text peer (base64 (encode_key pkcs1)) (map addr_text default_swarm) (addr_text (api_of p)))
                          end
                      end
                  end
              end
          end
        else Err (InvalidRsaKeyLength bits)
    end.

  (** l.155-163 [Config], l.165-178 [LoadingError]. *)
  Record config := mk_config { c_keypair : Keypair; c_swarm : list multiaddr; c_api : multiaddr }.
  Inductive loading_error :=
  | ConfigurationFileOpening | ConfigurationFileFormat | PrivateKeyLoadingFailed
  | UnsupportedPrivateKeyType (t : Z) | PeerIdMismatch (loaded stored : bytes).

  (** What the file says: the peer id, the private key, the addresses. *)
  Definition read_config (s : bytes) : option (bytes * bytes * list multiaddr * multiaddr) :=
    match document s with
    | None => None
    | Some j =>
        match read_struct [k_identity; k_addresses] j with
        | Some [i; a] =>
            match read_struct [k_peer_id; k_priv_key] i, read_struct [k_swarm; k_api] a with
            | Some [p; k], Some [JArr sw; ap] =>
                match read_text p, read_text k, all_some (map (fun j => match read_text j with Some t => addr_parse t | None => None end) sw),
                      match read_text ap with Some t => addr_parse t | None => None end with
                | Some p, Some k, Some sw, Some ap => Some (p, k, sw, ap)
                | _, _, _, _ => None
                end
            | _, _ => None
            end
        | _ => None
        end
    end.
  (** l.310-341 [Identity::load_keypair]. *)
  Definition load_keypair (priv : bytes) : outcome Keypair loading_error :=
    match base64_decode priv with
    | None => Err PrivateKeyLoadingFailed
    | Some b =>
        match decode_key b with
        | None => Err PrivateKeyLoadingFailed
        | Some (t, data) =>
            if (t =? 0)%Z then
              match key_of_pkcs1 data with
              | None => Err PrivateKeyLoadingFailed
              | Some k =>
                  match pem_of k with
                  | None => Err PrivateKeyLoadingFailed
                  | Some pem =>
                      match pem_to_der pem with
                      | None => Panic
                      | Some der =>
                          match keypair_of_pkcs8 der with
                          | None => Err PrivateKeyLoadingFailed
                          | Some kp => Ok kp
                          end
                      end
                  end
              end
            else Err (UnsupportedPrivateKeyType t)
        end
    end.
  (** l.185-212 [load], on what was read from the file. *)
  Definition load (s : bytes) : outcome config loading_error :=
    match read_config s with
    | None => Err ConfigurationFileFormat
    | Some (peer, priv, swarm, api) =>
        match load_keypair priv with
        | Panic => Panic
        | Err e => Err e
        | Ok kp =>
            let loaded := peer_to_text (peer_of kp) in
            if beq loaded peer then Ok (mk_config kp swarm api) else Err (PeerIdMismatch loaded peer)
        end
    end.

  (** main.rs l.186-202: the address the API listens at; [None] is a panic. *)
  Definition socket_of (a : multiaddr) : option (N * N) :=
    match a with
    | [PIp4 ip; PTcp port] => Some (ip, port)
    | _ => None
    end.

  (** * Processes sharing the directory *)

  (** What is at the path of the configuration file. *)
  Inductive entry := Absent | Directory | File (content : bytes).
  (** What a process which ends by [exit] has printed. *)
  Inductive message :=
  | PeerIdentity (peer : bytes)     (* status 0, the others 1 *)
  | AlreadyExists | PathFailed | BitsOutOfRange (bits : N) | OtherError | NoRepo.
  Inductive proc :=
  | InitAt (bits : N) (profiles : list profile) (key : option Key)
  | Prepared (peer text : bytes)            (* before the directory is created and the file is opened *)
  | Writing (peer todo : bytes)             (* it created the file and has not yet written [todo] *)
  | DaemonAt
  | Reading (got : bytes)                   (* it has opened the file and read [got] *)
  | Loaded (c : config)
  | Serving (c : config) (ip port : N)
  | Exited (m : message)
  | Panicked
  | Killed.
  Record world := mk_world { w_config : entry; w_procs : list proc }.

  (** main.rs l.85-115. *)
  Definition message_of (e : init_error) : message :=
    match e with
    | DirectoryCreationFailed => PathFailed
    | ConfigCreationFailed => AlreadyExists
    | InvalidRsaKeyLength b => BitsOutOfRange b
    | KeyGeneration | ConfigWritingFailed => OtherError
    end.

  (** What happens next in a process: it goes on, with the file system doing what it is asked for; the
      file system refuses; [n] bytes are written or read; the process is killed. *)
  Inductive event := Go | MkdirFails | OpenFails | WriteFails | Move (n : nat) | Kill.
  Definition running (p : proc) : bool := match p with Exited _ | Panicked | Killed => false | _ => true end.
  Definition advance (c : entry) (p : proc) (e : event) : entry * proc :=
    match p, e with
    | _, Kill => (c, if running p then Killed else p)
    (* main.rs l.75-79 [is_file], then config.rs l.62-124 *)
    | InitAt bits profiles key, Go =>
        match c with
        | File _ => (c, Exited AlreadyExists)
        | _ =>
            match prepare bits profiles key with
            | Ok (peer, text) => (c, Prepared peer text)
            | Err e => (c, Exited (message_of e))
            | Panic => (c, Panicked)
            end
        end
    (* config.rs l.127-136: [create_dir_all], then [create_new] *)
    | Prepared _ _, MkdirFails => (c, Exited (message_of DirectoryCreationFailed))
    | Prepared _ _, OpenFails => (c, Exited (message_of ConfigCreationFailed))
    | Prepared peer text, Go =>
        match c with
        | Absent => (File [], Writing peer text)
        | _ => (c, Exited (message_of ConfigCreationFailed))
        end
    (* l.138-147: the buffer is written in pieces *)
    | Writing peer todo, Move n =>
        match c with
        | File s => (File (s ++ firstn n todo), Writing peer (skipn n todo))
        | _ => (c, p)
        end
    | Writing _ _, WriteFails => (c, Exited (message_of ConfigWritingFailed))
    | Writing peer todo, Go =>
        match todo with [] => (c, Exited (PeerIdentity peer)) | _ :: _ => (c, p) end
    (* main.rs l.117-126 *)
    | DaemonAt, Go =>
        match c with
        | File _ => (c, Reading [])
        | _ => (c, Exited NoRepo)
        end
    | Reading got, Move n =>
        match c with
        | File s => (c, Reading (got ++ firstn n (skipn (length got) s)))
        | _ => (c, p)
        end
    (* a read which returns nothing is the end of the file; [unwrap] panics at any error *)
    | Reading got, Go =>
        match c with
        | File s =>
            if (length s <=? length got)%nat then
              match load got with Ok cfg => (c, Loaded cfg) | Err _ | Panic => (c, Panicked) end
            else (c, p)
        | _ => (c, p)
        end
    (* main.rs l.186-202; starting the node and binding the socket are not modelled *)
    | Loaded cfg, Go =>
        match socket_of (c_api cfg) with
        | Some (ip, port) => (c, Serving cfg ip port)
        | None => (c, Panicked)
        end
    | _, _ => (c, p)
    end.
  Fixpoint replace (i : nat) (p : proc) (l : list proc) : list proc :=
    match l, i with
    | [], _ => []
    | _ :: l, O => p :: l
    | q :: l, S i => q :: replace i p l
    end.
  Definition wstep (w : world) (x : nat * event) : world :=
    match nth_error (w_procs w) (fst x) with
    | None => w
    | Some p =>
        let (c, p') := advance (w_config w) p (snd x) in
        mk_world c (replace (fst x) p' (w_procs w))
    end.
  Definition wrun (w : world) (xs : list (nat * event)) : world := fold_left wstep xs w.
End Keys.
