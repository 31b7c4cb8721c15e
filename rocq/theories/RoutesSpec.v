(** Which path asks for what: specification for [Routes]. *)
From Coq Require Import Ascii String.
From Verif Require Import Base Str Json Routes.
Local Open Scope N_scope.

(** The path of every endpoint. *)
Definition path_of (e : endpoint) : string :=
  match e with
  | Shutdown => "/api/v0/shutdown"
  | Id => "/api/v0/id"
  | Add => "/api/v0/add"
  | Cat => "/api/v0/cat"
  | Dns => "/api/v0/dns"
  | Get => "/api/v0/get"
  | RefsLocal => "/api/v0/refs/local"
  | Refs => "/api/v0/refs"
  | Resolve => "/api/v0/resolve"
  | Version => "/api/v0/version"
  | BitswapWantlist => "/api/v0/bitswap/wantlist"
  | BitswapStat => "/api/v0/bitswap/stat"
  | BlockGet => "/api/v0/block/get"
  | BlockPut => "/api/v0/block/put"
  | BlockRm => "/api/v0/block/rm"
  | BlockStat => "/api/v0/block/stat"
  | BootstrapList => "/api/v0/bootstrap/list"
  | BootstrapAdd => "/api/v0/bootstrap/add"
  | BootstrapAddDefault => "/api/v0/bootstrap/add/default"
  | BootstrapRm => "/api/v0/bootstrap/rm"
  | BootstrapRmAll => "/api/v0/bootstrap/rm/all"
  | DagPut => "/api/v0/dag/put"
  | DagResolve => "/api/v0/dag/resolve"
  | DhtFindPeer => "/api/v0/dht/findpeer"
  | DhtFindProvs => "/api/v0/dht/findprovs"
  | DhtProvide => "/api/v0/dht/provide"
  | DhtQuery => "/api/v0/dht/query"
  | PubsubPeers => "/api/v0/pubsub/peers"
  | PubsubLs => "/api/v0/pubsub/ls"
  | PubsubPub => "/api/v0/pubsub/pub"
  | PubsubSub => "/api/v0/pubsub/sub"
  | SwarmAddrsLocal => "/api/v0/swarm/addrs/local"
  | SwarmAddrs => "/api/v0/swarm/addrs"
  | SwarmConnect => "/api/v0/swarm/connect"
  | SwarmDisconnect => "/api/v0/swarm/disconnect"
  | SwarmPeers => "/api/v0/swarm/peers"
  | PinAdd => "/api/v0/pin/add"
  | PinLs => "/api/v0/pin/ls"
  | PinRm => "/api/v0/pin/rm"
  | Config => "/api/v0/config"
  | DhtGet => "/api/v0/dht/get"
  | DhtPut => "/api/v0/dht/put"
  | Key => "/api/v0/key"
  | Name => "/api/v0/name"
  | Object => "/api/v0/object"
  | Ping => "/api/v0/ping"
  | Repo => "/api/v0/repo"
  | Stats => "/api/v0/stats"
  end.
(** There is something there, and it is known that it does nothing. *)
Definition missing (e : endpoint) : bool :=
  match e with Config | DhtGet | DhtPut | Key | Name | Object | Ping | Repo | Stats => true | _ => false end.
(** Everything below is known to do nothing as well. *)
Definition with_all_below (e : endpoint) : bool :=
  match e with Config | Key | Name | Object | Ping | Repo | Stats => true | _ => false end.

(** The path as it is written, without a query, asks for [e]: a slash at the end does not matter. *)
Definition asks (path : bytes) (e : endpoint) : Prop :=
  path = text (path_of e) \/ path = text (path_of e) ++ text "/" \/
  (with_all_below e = true /\ exists t, path = text (path_of e) ++ text "/" ++ t).

(** A body in which clients find the message. *)
Definition tells (body msg : bytes) : Prop :=
  document body = Some (JObj [(Some (text "Message"), JStr (Some msg)); (Some (text "Code"), JNum (text "0")); (Some (text "Type"), JStr (Some (text "error")))]).

(** What is in a rejection. *)
Fixpoint holds (l : reasons) (r : reason) : Prop :=
  match l with One r' => r = r' | Combined a b => holds a r \/ holds b r end.
(** What is said for a reason, and the status. *)
Definition said (r : reason) : N * bytes :=
  match r with
  | NotImplemented => (501, text "Not implemented")
  | RequiredArgumentMissing n => (400, text "required argument """ ++ n ++ text """ missing")
  | NonUtf8Topic => (400, text "non utf8 topic")
  | InvalidQuery => (400, text "Invalid query string")
  | StringError m => (500, m)
  | InvalidPeerId => (400, text "invalid peer id")
  | MethodNotAllowed => (404, [])
  | LengthRequired => (400, text "Missing header: content-length")
  | Unknown _ => (500, text "UNHANDLED REJECTION")
  end.
