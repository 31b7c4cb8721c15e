(** The endpoints which report what the node says: http/src/v0/id.rs, http/src/v0/version.rs,
    http/src/v0/swarm.rs, http/src/v0/bitswap.rs and http/src/v0/dht.rs.  Definitions only.

    What the node answers to a call is given by the caller; an error is given by its text.  Release
    builds (the debug assertion in reading an address is in [Addr]). *)
From Coq Require Import Ascii String.
From Verif Require Import Base Wire BTree Cid Text Addr Resolve RefsHttp HttpOptions HttpPubsub Str Routes.
Local Open Scope N_scope.

(** * Writing JSON: [serde_json::to_vec] *)

Inductive jt := TNull | TText (s : bytes) | TNum (n : N) | TList (l : list jt) | TMap (l : list (bytes * jt)).
Fixpoint dec_n (f : nat) (n : N) : bytes :=
  match f with
  | O => []
  | S f => if n <? 10 then [48 + n] else dec_n f (n / 10) ++ [48 + n mod 10]
  end.
Definition dec (n : N) : bytes := dec_n (S (N.size_nat n)) n.
Fixpoint write (t : jt) : bytes :=
  match t with
  | TNull => text "null"
  | TText s => json_string s
  | TNum n => dec n
  | TList l =>
      91 :: (fix items (l : list jt) : bytes :=
               match l with
               | [] => []
               | [x] => write x
               | x :: l => write x ++ 44 :: items l
               end) l ++ [93]
  | TMap l =>
      123 :: (fix items (l : list (bytes * jt)) : bytes :=
                match l with
                | [] => []
                | [(k, x)] => json_string k ++ 58 :: write x
                | (k, x) :: l => json_string k ++ 58 :: write x ++ 44 :: items l
                end) l ++ [125]
  end.
(** [warp::reply::json]. *)
Definition json (t : jt) : reply := Reply (mk_response 200 true (write t)).
Definition texts (l : list bytes) : jt := TList (map TText l).

(** * Queries *)

(** A field of the struct given to [warp::query]; [Option] fields may be left out. *)
Record param := mk_param { p_name : bytes; p_required : bool; p_reads : bytes -> bool }.
Fixpoint rules_of (ps : list param) (k : bytes) : option rule :=
  match ps with
  | [] => None
  | p :: ps => if beq k (p_name p) then Some (mk_rule true (p_reads p)) else rules_of ps k
  end.
Definition read_params (ps : list param) (q : list (bytes * bytes)) : option (list (bytes * bytes)) :=
  match read_query (rules_of ps) [] q with
  | Ok t =>
      if forallb (fun p => negb (p_required p) || match one_of (p_name p) t with Some _ => true | None => false end) ps
      then Some t else None
  | _ => None
  end.
Definition optional (k : string) (r : bytes -> bool) : param := mk_param (text k) false r.
Definition required (k : string) (r : bytes -> bool) : param := mk_param (text k) true r.
Definition query (ps : list param) (q : list (bytes * bytes)) (f : list (bytes * bytes) -> reply) : reply :=
  match read_params ps q with
  | None => Reject (One InvalidQuery)
  | Some t => f t
  end.
Definition a_usize (v : bytes) : bool := match parse_usize v with Some _ => true | None => false end.

(** What the node answers, or the text of an error. *)
Definition told (A : Type) : Type := A + bytes.
Definition or_error {A} (x : told A) (f : A -> reply) : reply :=
  match x with inl a => f a | inr e => Reject (One (StringError e)) end.

(** lib.rs l.1606-1625 [BitswapStats]; priorities are not shown. *)
Record stats := mk_stats {
  blocks_sent : N; data_sent : N; blocks_received : N; data_received : N;
  dup_blks_received : N; dup_data_received : N; stat_peers : list peer_id; wantlist : list cid }.
(** The parts of [Connection] which are shown; the round trip time in milliseconds. *)
Record connection := mk_connection { k_addr : multiaddr; k_peer : peer_id; k_rtt : option N }.

Section Endpoints.
  (** Whether humantime reads the text as a duration. *)
  Variable duration : bytes -> bool.
  (** The multibase decoders, as in [Text]. *)
  Variable other_base : N -> bytes -> option bytes.
  (** [Multiaddr::to_string]; [parse], with the text of the error. *)
  Variable addr_text : multiaddr -> bytes.
  Variable addr_parse : bytes -> told multiaddr.
  (** The text of [MultiaddrWrapperError]. *)
  Variable addr_error_text : addr_error -> bytes.
  (** [env!]. *)
  Variable pkg_version commit : bytes.

  Definition a_peer (v : bytes) : bool := match peer_from_text v with Some _ => true | None => false end.
  Definition a_cid (v : bytes) : bool := match cid_from_text other_base v with Some _ => true | None => false end.

  (** version.rs: the options are read and not used. *)
  Definition version (q : list (bytes * bytes)) : reply :=
    query [optional "number" a_bool; optional "commit" a_bool; optional "repo" a_bool; optional "all" a_bool] q (fun _ =>
      json (TMap [(text "Version", TText pkg_version); (text "Commit", TText commit); (text "Repo", TText []);
                  (text "ipfs-http-client", TText []); (text "interface-ipfs-core", TText [])])).

  (** id.rs l.16-59; the public key is given as its peer id and protobuf encoding. *)
  Definition identity (node : told (peer_id * bytes * list multiaddr)) (q : list (bytes * bytes)) : reply :=
    query [optional "arg" any_value; optional "format" any_value] q (fun t =>
      match one_of k_arg t with
      | Some a => match peer_from_text a with None => Reject (One InvalidPeerId) | Some _ => Reject (One NotImplemented) end
      | None =>
          or_error node (fun x =>
            let '(peer, key, addrs) := x in
            json (TMap [(text "ID", TText (peer_to_text peer)); (text "PublicKey", TText (base64 key));
                        (text "Addresses", texts (map addr_text addrs));
                        (text "AgentVersion", TText (text "rust-ipfs/0.1.0")); (text "ProtocolVersion", TText (text "ipfs/0.1.0"))]))
      end).

  (** [str::parse::<MultiaddrWithPeerId>]. *)
  Definition read_target (a : bytes) : told with_peer :=
    match addr_parse a with
    | inr e => inr e
    | inl m =>
        match split_peer false m with
        | AOk w => inl w
        | AErr e => inr (addr_error_text e)
        | APanic => inr []
        end
    end.
  (** swarm.rs l.13-26 and l.166-183: the node is asked for the target. *)
  Definition to_target (node : with_peer -> told unit) (q : list (bytes * bytes)) : reply :=
    query [required "arg" any_value] q (fun t =>
      or_error (read_target (match one_of k_arg t with Some a => a | None => [] end)) (fun w => or_error (node w) (fun _ => json (TList [])))).

  (** swarm.rs l.53-92. *)
  Definition latency (verbose : bool) (rtt : option N) : jt :=
    if verbose then TText (match rtt with Some ms => dec (ms / 2) ++ text "ms" | None => text "n/a" end) else TNull.
  Definition peers (node : told (list connection)) (q : list (bytes * bytes)) : reply :=
    query [optional "verbose" a_bool] q (fun t =>
      or_error node (fun l =>
        json (TMap [(text "Peers", TList (map (fun c =>
          TMap [(text "Addr", TText (addr_text (k_addr c))); (text "Peer", TText (peer_to_text (k_peer c)));
                (text "Latency", latency (bool_of false (one_of (text "verbose") t)) (k_rtt c))]) l))]))).

  (** swarm.rs l.107-122: through a [BTreeMap]; the query is not looked at. *)
  Definition addrs (node : told (list (peer_id * list multiaddr))) (q : list (bytes * bytes)) : reply :=
    or_error node (fun l =>
      json (TMap [(text "Addrs", TMap (bt_of_list (map (fun x => (peer_to_text (fst x), texts (map addr_text (snd x)))) l)))])).

  (** swarm.rs l.142-156. *)
  Definition addrs_local (node : told (list multiaddr)) (q : list (bytes * bytes)) : reply :=
    query [optional "id" a_bool] q (fun _ => or_error node (fun l => json (TMap [(text "Strings", texts (map addr_text l))]))).

  Definition link (c : cid) : jt := TMap [(text "/", TText (cid_to_text c))].
  (** bitswap.rs l.18-38. *)
  Definition bitswap_wantlist (node : option peer_id -> told (list cid)) (q : list (bytes * bytes)) : reply :=
    query [optional "peer" any_value] q (fun t =>
      match (match one_of (text "peer") t with
             | None => Some None
             | Some a => match peer_from_text a with Some p => Some (Some p) | None => None end
             end) with
      | None => Reject (One InvalidPeerId)
      | Some p => or_error (node p) (fun l => json (TMap [(text "Keys", TList (map link l))]))
      end).
  (** bitswap.rs l.48-100; the query is not looked at. *)
  Definition bitswap_stat (node : told stats) (q : list (bytes * bytes)) : reply :=
    or_error node (fun s =>
      json (TMap [(text "BlocksReceived", TNum (blocks_received s)); (text "BlocksSent", TNum (blocks_sent s));
                  (text "DataReceived", TNum (data_received s)); (text "DataSent", TNum (data_sent s));
                  (text "DupBlksReceived", TNum (dup_blks_received s)); (text "DupDataReceived", TNum (dup_data_received s));
                  (text "MessagesReceived", TNum 0); (text "Peers", texts (map peer_to_text (stat_peers s)));
                  (text "ProvideBufLen", TNum 0); (text "Wantlist", TList (map link (wantlist s)))])).

  (** dht.rs l.6-28 [Response] and [ResponsesMember]. *)
  Definition response_of (id : bytes) (l : list (list bytes * bytes)) : reply :=
    json (TMap [(text "Extra", TText []); (text "ID", TText id);
                (text "Responses", TList (map (fun x => TMap [(text "Addrs", texts (fst x)); (text "ID", TText (snd x))]) l));
                (text "Type", TNum 2)]).
  (** [maybe_timeout]: [slow] is that the time given runs out first. *)
  Definition in_time {A : Type} (slow : bool) (t : list (bytes * bytes)) (x : told A) : told A :=
    match one_of k_timeout t with
    | Some _ => if slow then inr (text "deadline has elapsed") else x
    | None => x
    end.
  Definition peer_given (t : list (bytes * bytes)) : option peer_id := match one_of k_arg t with Some a => peer_from_text a | None => None end.
  Definition cid_given (t : list (bytes * bytes)) : option cid := match one_of k_arg t with Some a => cid_from_text other_base a | None => None end.
  (** l.38-67. *)
  Definition dht_find_peer (slow : bool) (node : peer_id -> told (list multiaddr)) (q : list (bytes * bytes)) : reply :=
    query [required "arg" a_peer; optional "verbose" a_bool; optional "timeout" duration] q (fun t =>
      match peer_given t with
      | None => Reject (One InvalidQuery)     (* not reached *)
      | Some p => or_error (in_time slow t (node p)) (fun l => response_of [] [(map addr_text l, peer_to_text p)])
      end).
  (** l.88-123. *)
  Definition dht_find_providers (slow : bool) (node : cid -> told (list peer_id)) (q : list (bytes * bytes)) : reply :=
    query [required "arg" a_cid; optional "verbose" a_bool; optional "num-providers" a_usize; optional "timeout" duration] q (fun t =>
      match cid_given t with
      | None => Reject (One InvalidQuery)     (* not reached *)
      | Some c =>
          let n := match one_of (text "num-providers") t with Some v => match parse_usize v with Some n => n | None => 20 end | None => 20 end in
          or_error (in_time slow t (node c)) (fun l => response_of [] (map (fun p => ([], peer_to_text p)) (firstn (N.to_nat n) l)))
      end).
  (** l.142-167. *)
  Definition dht_provide (slow : bool) (node : cid -> told unit) (q : list (bytes * bytes)) : reply :=
    query [required "arg" a_cid; optional "verbose" a_bool; optional "timeout" duration] q (fun t =>
      match cid_given t with
      | None => Reject (One InvalidQuery)     (* not reached *)
      | Some c => or_error (in_time slow t (node c)) (fun _ => response_of (cid_to_text c) [])
      end).
  (** l.186-219. *)
  Definition dht_query (slow : bool) (node : peer_id -> told (list peer_id)) (q : list (bytes * bytes)) : reply :=
    query [required "arg" a_peer; optional "verbose" a_bool; optional "timeout" duration] q (fun t =>
      match peer_given t with
      | None => Reject (One InvalidQuery)     (* not reached *)
      | Some p => or_error (in_time slow t (node p)) (fun l => response_of (peer_to_text p) (map (fun p => ([], peer_to_text p)) l))
      end).
End Endpoints.
