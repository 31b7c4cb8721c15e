(** Which handler a request reaches, and what is answered when it refuses: http/src/v0.rs l.66-178 and
    http/src/v0/support.rs l.20-76 and l.123-222.  Definitions only.

    The handlers are given by the caller: each answers or refuses.  warp 0.3 is a dependency, modelled
    from its published behaviour.  Headers of requests and the log (main.rs l.190-191) are not modelled,
    of the headers of a response only whether the body is JSON. *)
From Coq Require Import Ascii String.
From Verif Require Import Base Wire RefsHttp Str.
Local Open Scope N_scope.

(** * Refusals *)

(** What can be looked for in a rejection: the types of support.rs l.82-124 and those of [warp::reject];
    [Unknown] is any other ([InvalidMultipartFormData], [MissingHeader], [InvalidHeader], ...). *)
Inductive reason :=
| NotImplemented
| RequiredArgumentMissing (name : bytes)
| NonUtf8Topic
| InvalidQuery
| StringError (msg : bytes)
| InvalidPeerId
| MethodNotAllowed
| LengthRequired
| Unknown (n : N).
(** [warp::reject::Rejections] and [Rejection]. *)
Inductive reasons := One (r : reason) | Combined (a b : reasons).
Inductive rejection := NotFound | Other (l : reasons).
(** [CombineRejection for Rejection]. *)
Definition combine_rejections (a b : rejection) : rejection :=
  match a, b with
  | Other a, Other b => Other (Combined a b)
  | Other a, NotFound => Other a
  | NotFound, b => b
  end.
(** [Rejection::find]: the first of a kind, from the left. *)
Fixpoint find_in {A} (p : reason -> option A) (l : reasons) : option A :=
  match l with
  | One r => p r
  | Combined a b => match find_in p a with Some x => Some x | None => find_in p b end
  end.
Definition find {A} (p : reason -> option A) (r : rejection) : option A :=
  match r with NotFound => None | Other l => find_in p l end.

Record response := mk_response { r_status : N; r_json : bool; r_body : bytes }.

(** support.rs l.22-36 [MessageResponse]: fields in order, [Pascal] case; the type is always "error"
    and the code always 0. *)
Definition message_body (msg : bytes) : bytes :=
  123 :: json_string (text "Message") ++ 58 :: json_string msg ++ 44 ::
    json_string (text "Code") ++ 58 :: 48 :: 44 ::
    json_string (text "Type") ++ 58 :: json_string (text "error") ++ [125].
Definition message (status : N) (msg : bytes) : response := mk_response status true (message_body msg).

Definition is_not_implemented (r : reason) : option unit := match r with NotImplemented => Some tt | _ => None end.
Definition is_argument_missing (r : reason) : option bytes := match r with RequiredArgumentMissing n => Some n | _ => None end.
Definition is_non_utf8_topic (r : reason) : option unit := match r with NonUtf8Topic => Some tt | _ => None end.
Definition is_invalid_query (r : reason) : option unit := match r with InvalidQuery => Some tt | _ => None end.
Definition is_string_error (r : reason) : option bytes := match r with StringError m => Some m | _ => None end.
Definition is_invalid_peer_id (r : reason) : option unit := match r with InvalidPeerId => Some tt | _ => None end.
Definition is_method_not_allowed (r : reason) : option unit := match r with MethodNotAllowed => Some tt | _ => None end.
Definition is_length_required (r : reason) : option unit := match r with LengthRequired => Some tt | _ => None end.
Definition is_not_found (r : rejection) : bool := match r with NotFound => true | Other _ => false end.

Definition not_found : response := mk_response 404 false (text "404 page not found").
(** support.rs l.132-222 [recover_as_message_response].  The names of arguments are "arg" and "topic",
    so that the [Debug] form is the name in quotes; [InvalidQuery] displays as "Invalid query string". *)
Definition recover (e : rejection) : response :=
  match find is_not_implemented e with Some _ => message 501 (text "Not implemented") | None =>
  match find is_argument_missing e with Some n => message 400 (text "required argument """ ++ n ++ text """ missing") | None =>
  match find is_non_utf8_topic e with Some _ => message 400 (text "non utf8 topic") | None =>
  match find is_invalid_query e with Some _ => message 400 (text "Invalid query string") | None =>
  match find is_string_error e with Some m => message 500 m | None =>
  match find is_invalid_peer_id e with Some _ => message 400 (text "invalid peer id") | None =>
  if is_not_found e || match find is_method_not_allowed e with Some _ => true | None => false end then not_found else
  match find is_length_required e with Some _ => message 400 (text "Missing header: content-length") | None =>
  message 500 (text "UNHANDLED REJECTION")
  end end end end end end end.

(** * Routes *)

Inductive endpoint :=
| Shutdown | Id | Add | Cat | Dns | Get | RefsLocal | Refs | Resolve | Version
| BitswapWantlist | BitswapStat
| BlockGet | BlockPut | BlockRm | BlockStat
| BootstrapList | BootstrapAdd | BootstrapAddDefault | BootstrapRm | BootstrapRmAll
| DagPut | DagResolve
| DhtFindPeer | DhtFindProvs | DhtProvide | DhtQuery
| PubsubPeers | PubsubLs | PubsubPub | PubsubSub
| SwarmAddrsLocal | SwarmAddrs | SwarmConnect | SwarmDisconnect | SwarmPeers
| PinAdd | PinLs | PinRm
| Config | DhtGet | DhtPut | Key | Name | Object | Ping | Repo | Stats.

(** [Path segs closed e]: [path!(segs)] and then the handler, [closed] when there is no [..] at the end;
    [Under seg f]: [warp::path(seg).and(f)]; [Or]: [Filter::or]. *)
Inductive filter :=
| Path (segs : list bytes) (closed : bool) (e : endpoint)
| Under (seg : bytes) (f : filter)
| Or (a b : filter).

(** [combine!], v0.rs l.29-40: the first half, or the second. *)
Fixpoint combine_n (n : nat) (l : list filter) : option filter :=
  match n, l with
  | _, [] => None
  | _, [f] => Some f
  | O, _ => None
  | S n, _ =>
      let h := Nat.div2 (S (length l)) in
      match combine_n n (firstn h l), combine_n n (skipn h l) with
      | Some a, Some b => Some (Or a b)
      | _, _ => None
      end
  end.
Definition combine (l : list filter) : filter :=
  match combine_n (length l) l with Some f => f | None => Path [] false Shutdown end.
Definition at_ (s : string) (e : endpoint) : filter := Path [text s] true e.
Definition at2 (s t : string) (e : endpoint) : filter := Path [text s; text t] true e.
Definition below (s : string) (e : endpoint) : filter := Path [text s] false e.

(** v0.rs l.72-160. *)
Definition api : filter :=
  combine [
    at_ "shutdown" Shutdown; at_ "id" Id; at_ "add" Add; at_ "cat" Cat; at_ "dns" Dns; at_ "get" Get;
    at2 "refs" "local" RefsLocal; at_ "refs" Refs; at_ "resolve" Resolve; at_ "version" Version;
    Under (text "bitswap") (combine [at_ "wantlist" BitswapWantlist; at_ "stat" BitswapStat]);
    Under (text "block") (combine [at_ "get" BlockGet; at_ "put" BlockPut; at_ "rm" BlockRm; at_ "stat" BlockStat]);
    Under (text "bootstrap") (combine [
      at_ "list" BootstrapList; at_ "add" BootstrapAdd; at2 "add" "default" BootstrapAddDefault;
      at_ "rm" BootstrapRm; at2 "rm" "all" BootstrapRmAll]);
    Under (text "dag") (combine [at_ "put" DagPut; at_ "resolve" DagResolve]);
    Under (text "dht") (combine [
      at_ "findpeer" DhtFindPeer; at_ "findprovs" DhtFindProvs; at_ "provide" DhtProvide; at_ "query" DhtQuery]);
    Under (text "pubsub") (combine [at_ "peers" PubsubPeers; at_ "ls" PubsubLs; at_ "pub" PubsubPub; at_ "sub" PubsubSub]);
    Under (text "swarm") (combine [
      at2 "addrs" "local" SwarmAddrsLocal; at_ "addrs" SwarmAddrs; at_ "connect" SwarmConnect;
      at_ "disconnect" SwarmDisconnect; at_ "peers" SwarmPeers]);
    Under (text "pin") (combine [at_ "add" PinAdd; at_ "ls" PinLs; at_ "rm" PinRm]);
    below "config" Config; at2 "dht" "get" DhtGet; at2 "dht" "put" DhtPut; below "key" Key; below "name" Name;
    below "object" Object; below "ping" Ping; below "repo" Repo; below "stats" Stats].

(** [warp::filters::path]: the text up to the next slash, and what is left after it and the slash
    ([Route::set_unmatched_path]). *)
Fixpoint segment (p : bytes) : bytes :=
  match p with
  | [] => []
  | c :: p => if c =? 47 then [] else c :: segment p
  end.
Fixpoint after (p : bytes) : bytes :=
  match p with
  | [] => []
  | c :: p => if c =? 47 then p else after p
  end.
Fixpoint enter (segs : list bytes) (p : bytes) : option bytes :=
  match segs with
  | [] => Some p
  | s :: segs => if beq (segment p) s then enter segs (after p) else None
  end.
(** [Route::new]. *)
Definition start (path : bytes) : bytes := match path with 47 :: p => p | p => p end.

(** What a handler does with a request. *)
Inductive reply := Reply (r : response) | Reject (l : reasons).
Section Handlers.
  Variable handle : endpoint -> reply.

  (** v0.rs l.174-176 [not_implemented]: a status and nothing else. *)
  Definition not_implemented : response := mk_response 501 false [].
  Definition call (e : endpoint) : reply :=
    match e with
    | Config | DhtGet | DhtPut | Key | Name | Object | Ping | Repo | Stats => Reply not_implemented
    | _ => handle e
    end.

  (** The handlers which are called, in order, and what comes out.  [Or] starts again at the path where
      it began. *)
  Fixpoint run (f : filter) (p : bytes) : list endpoint * (response + rejection) :=
    match f with
    | Path segs closed e =>
        match enter segs p with
        | None => ([], inr NotFound)
        | Some rest =>
            if closed && negb (match rest with [] => true | _ => false end) then ([], inr NotFound)
            else ([e], match call e with Reply r => inl r | Reject l => inr (Other l) end)
        end
    | Under seg f =>
        match enter [seg] p with
        | None => ([], inr NotFound)
        | Some rest => run f rest
        end
    | Or a b =>
        match run a p with
        | (l, inl r) => (l, inl r)
        | (l, inr e1) =>
            match run b p with
            | (m, inl r) => (l ++ m, inl r)
            | (m, inr e2) => (l ++ m, inr (combine_rejections e1 e2))
            end
        end
    end.
  (** v0.rs l.67-163: [mount] and [recover]. *)
  Definition serve (method path : bytes) : list endpoint * response :=
    if beq method (text "POST") then
      match enter [text "api"; text "v0"] (start path) with
      | None => ([], recover NotFound)
      | Some p =>
          match run api p with
          | (l, inl r) => (l, r)
          | (l, inr e) => (l, recover e)
          end
      end
    else ([], recover (Other (One MethodNotAllowed))).
End Handlers.
