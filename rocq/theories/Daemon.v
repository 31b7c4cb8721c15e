(** The life of a daemon: http/src/main.rs l.125-230 (from the loaded configuration on) and
    [handle_shutdown], http/src/v0.rs l.157-164.  Definitions only.

    Any number of daemons over one directory, of which the file "api" and the lock on the file "repo_lock"
    (src/repo/fs.rs l.86-126, src/repo/mod.rs l.395-402) are modelled.  The directory is there and nobody
    removes "repo_lock", which can be opened.  Every step of the operating system, the clients and the runtime is an event; what is atomic there is one event here.
    Addresses are as in [Addr]; the requests other than shutdown are only known to end or not to. *)
From Coq Require Import Ascii String.
From Verif Require Import Base Wire Addr Str Endpoints.
Local Open Scope N_scope.

(** [Display for Ipv4Addr]. *)
Definition ip_text (ip : N) : bytes :=
  dec (ip / 16777216) ++ text "." ++ dec (ip / 65536 mod 256) ++ text "." ++ dec (ip / 256 mod 256) ++ text "." ++ dec (ip mod 256).
(** main.rs l.152 [api_multiaddr]. *)
Definition api_text (ip port : N) : bytes := text "/ip4/" ++ ip_text ip ++ text "/tcp/" ++ dec port.
(** l.204-212 [socket_addr]; the panic is [None]. *)
Definition socket_addr (a : multiaddr) : option (N * N) :=
  match a with
  | [PIp4 ip; PTcp port] => Some (ip, port)
  | _ => None
  end.

(** Where the process is: not started; the node is started; the socket is bound; the file is being
    written, so many bytes of the text are; [server.await] with [wrote]; the server has ended; after that
    the last handle of the repository is gone too, and with it the lock; returned from [main]; killed or
    panicked. *)
Inductive phase := New | Started | Bound | Writing (k : nat) | Serving (wrote : bool) | Ended (wrote : bool) | Released (wrote : bool) | Done | Dead.
Record daemon := mk_daemon {
  at_ : phase;
  bound : N * N;                  (* ip and port of the socket *)
  queue : bool;                   (* a message in the channel of capacity one *)
  closed : bool;                  (* the future given to warp is done: the receiver is dropped, no connection is accepted *)
  exit_sent : bool;               (* [exit_daemon] was called *)
  inflight : list N;              (* requests accepted and not ended *)
  waiting : list N;               (* shutdown requests in [tx.send], oldest first *)
  ready : list (N * N);           (* shutdown requests whose [tx.send] returned, with the status *)
  told : list (N * N) }.          (* shutdown requests and their answers *)
Definition fresh : daemon := mk_daemon New (0, 0) false false false [] [] [] [].
Definition set_phase (d : daemon) (p : phase) : daemon :=
  mk_daemon p (bound d) (queue d) (closed d) (exit_sent d) (inflight d) (waiting d) (ready d) (told d).

Inductive ev :=
| Start                            (* the process, up to the started node *)
| Bind (api : multiaddr) (port : option N)   (* [serve]; the port the system gave, or it fails *)
| Create (ok : bool)               (* [tokio::fs::write]: opening and truncating *)
| Write (n : nat)                  (* ... one call of write, with so many bytes taken *)
| WriteFails
| Accept (r : N)                   (* a request comes in *)
| Shutdown (r : N)                 (* it is for shutdown: [tx.send] is polled first *)
| Signal (lucky : bool)            (* the future polled with a message there; whether the oldest waiting sender gets the place before the receiver is dropped *)
| Answer (r : N)                   (* the answer to shutdown is sent *)
| Finish (r : N)                   (* another request ends *)
| Leave (r : N)                    (* the client of a shutdown request goes away *)
| Drain                            (* [server.await] returns *)
| Release                          (* the background task has ended as well: [Repo] and its [FsLock] are dropped *)
| Truncate (ok : bool)             (* l.168-174 *)
| Kill.

(** A file opened by one process and truncated by another: writes go to their offset. *)
Definition write_at (off : nat) (data content : bytes) : bytes :=
  firstn off content ++ repeat 0 (off - length content) ++ data ++ skipn (off + length data) content.
Definition content (f : option bytes) : bytes := match f with Some c => c | None => [] end.
Definition remove_id (r : N) (l : list N) : list N := filter (fun x => negb (x =? r)) l.
Definition mem (r : N) (l : list N) : bool := existsb (N.eqb r) l.

(** One step of a daemon and the file; [None]: the event cannot happen.  [free]: nobody holds the lock.
    Otherwise [Repo::init] fails and main.rs l.148-151 panics. *)
Definition dstep (free : bool) (f : option bytes) (d : daemon) (e : ev) : option (option bytes * daemon) :=
  match e, at_ d with
  | Kill, New | Kill, Done | Kill, Dead => None
  | Kill, _ => Some (f, set_phase d Dead)
  | Start, New => Some (f, set_phase d (if free then Started else Dead))
  | Bind api p, Started =>
      match socket_addr api, p with
      | Some (ip, port), Some given =>
          if (port =? 0) || (port =? given)
          then Some (f, mk_daemon Bound (ip, given) (queue d) (closed d) (exit_sent d) (inflight d) (waiting d) (ready d) (told d)) else None
      | _, _ => Some (f, set_phase d Dead)
      end
  | Create true, Bound => Some (Some [], set_phase d (Writing 0))
  | Create false, Bound => Some (f, set_phase d (Serving false))
  | Write n, Writing k =>
      let t := api_text (fst (bound d)) (snd (bound d)) in
      if (0 <? n)%nat && (k + n <=? length t)%nat
      then Some (Some (write_at k (firstn n (skipn k t)) (content f)), set_phase d (if (k + n =? length t)%nat then Serving true else Writing (k + n)))
      else None
  | WriteFails, Writing k => Some (f, set_phase d (Serving false))
  | Accept r, Serving w =>
      if closed d || mem r (inflight d) || mem r (waiting d) || mem r (map fst (ready d)) || mem r (map fst (told d)) then None
      else Some (f, mk_daemon (at_ d) (bound d) (queue d) (closed d) (exit_sent d) (r :: inflight d) (waiting d) (ready d) (told d))
  | Shutdown r, Serving w =>
      if mem r (inflight d) then
        let rest := remove_id r (inflight d) in
        if closed d then Some (f, mk_daemon (at_ d) (bound d) (queue d) (closed d) (exit_sent d) rest (waiting d) (ready d ++ [(r, 501)]) (told d))
        else if queue d then Some (f, mk_daemon (at_ d) (bound d) (queue d) (closed d) (exit_sent d) rest (waiting d ++ [r]) (ready d) (told d))
        else Some (f, mk_daemon (at_ d) (bound d) true (closed d) (exit_sent d) rest (waiting d) (ready d ++ [(r, 200)]) (told d))
      else None
  | Signal lucky, Serving w =>
      if queue d && negb (closed d) then
        let answers := match waiting d with
                       | [] => []
                       | r :: l => (r, if lucky then 200 else 501) :: map (fun x => (x, 501)) l
                       end in
        Some (f, mk_daemon (at_ d) (bound d) false true true (inflight d) [] (ready d ++ answers) (told d))
      else None
  | Answer r, Serving w =>
      match List.find (fun x => fst x =? r) (ready d) with
      | Some (_, status) =>
          Some (f, mk_daemon (at_ d) (bound d) (queue d) (closed d) (exit_sent d) (inflight d) (waiting d) (filter (fun x => negb (fst x =? r)) (ready d)) (told d ++ [(r, status)]))
      | None => None
      end
  | Finish r, Serving w =>
      if mem r (inflight d)
      then Some (f, mk_daemon (at_ d) (bound d) (queue d) (closed d) (exit_sent d) (remove_id r (inflight d)) (waiting d) (ready d) (told d)) else None
  | Leave r, Serving w =>
      if mem r (waiting d) || mem r (map fst (ready d))
      then Some (f, mk_daemon (at_ d) (bound d) (queue d) (closed d) (exit_sent d) (inflight d) (remove_id r (waiting d)) (filter (fun x => negb (fst x =? r)) (ready d)) (told d)) else None
  | Drain, Serving w =>
      match closed d, inflight d, waiting d, ready d with
      | true, [], [], [] => Some (f, set_phase d (Ended w))
      | _, _, _, _ => None
      end
  | Release, Ended w => Some (f, set_phase d (Released w))
  | Truncate ok, Ended true | Truncate ok, Released true => Some (if ok then Some [] else f, set_phase d Done)
  | Truncate _, Ended false | Truncate _, Released false => Some (f, set_phase d Done)      (* nothing is done *)
  | _, _ => None
  end.

(** The lock is taken when the node starts and held by the open file of the repository, up to [Release] or
    the end of the process. *)
Definition keeps (d : daemon) : bool :=
  match at_ d with Started | Bound | Writing _ | Serving _ | Ended _ => true | _ => false end.
(** The directory. *)
Record world := mk_world { api_file : option bytes; lock : option nat; daemons : nat -> daemon }.
Definition put (i : nat) (d : daemon) (m : nat -> daemon) : nat -> daemon := fun j => if Nat.eqb j i then d else m j.
Definition free (w : world) : bool := match lock w with None => true | Some _ => false end.
Definition lock_after (i : nat) (d : daemon) (l : option nat) : option nat :=
  if keeps d then Some i else match l with Some j => if Nat.eqb j i then None else Some j | None => None end.
Definition wstep (w : world) (x : nat * ev) : option world :=
  match dstep (free w) (api_file w) (daemons w (fst x)) (snd x) with
  | Some (f, d) => Some (mk_world f (lock_after (fst x) d (lock w)) (put (fst x) d (daemons w)))
  | None => None
  end.
Fixpoint run (w : world) (l : list (nat * ev)) : option world :=
  match l with
  | [] => Some w
  | x :: l => match wstep w x with Some w => run w l | None => None end
  end.
Definition init (f : option bytes) : world := mk_world f None (fun _ => fresh).
