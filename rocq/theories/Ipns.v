(** Names: src/ipns/mod.rs, src/ipns/dnslink.rs, [Ipfs::resolve_ipns] (src/lib.rs l.630-648), the http
    endpoint http/src/v0/ipns.rs, and the ipns records of the repo (src/repo/mod.rs l.518-553 with
    the three data stores).  Definitions only. *)
From Verif Require Import Base Wire Cid Text FMap IpfsPath.
Local Open Scope N_scope.

Definition s_dnslink_eq : bytes := [100; 110; 115; 108; 105; 110; 107; 61].       (* "dnslink=" *)
Definition s_dnslink_dot : bytes := [95; 100; 110; 115; 108; 105; 110; 107; 46].  (* "_dnslink." *)

(** [starts_with]: the rest after the prefix. *)
Fixpoint strip (prefix s : bytes) : option bytes :=
  match prefix, s with
  | [], _ => Some s
  | a :: prefix, b :: s => if a =? b then strip prefix s else None
  | _, [] => None
  end.

(** [PartialEq] of [IpfsPath], derived (src/path.rs l.36, l.156, l.242). *)
Definition root_eqb (a b : root) : bool :=
  match a, b with
  | Ipld x, Ipld y => cid_eqb x y
  | Ipns x, Ipns y => mh_eqb x y
  | Dns x, Dns y => beq x y
  | _, _ => false
  end.
Fixpoint segs_eqb (a b : list bytes) : bool :=
  match a, b with
  | [], [] => true
  | x :: a, y :: b => beq x y && segs_eqb a b
  | _, _ => false
  end.
Definition path_eqb (a b : ipfs_path) : bool := root_eqb (p_root a) (p_root b) && segs_eqb (p_segs a) (p_segs b).

Section Resolve.
  Variable other_base : N -> bytes -> option bytes.

  (** dnslink.rs l.44-57: the first text which starts with "dnslink=", as a path. *)
  Fixpoint first_link (txts : list bytes) : option (option ipfs_path) :=
    match txts with
    | [] => None
    | t :: txts =>
        match strip s_dnslink_eq t with
        | Some suffix => Some (if utf8 suffix then path_from_str other_base suffix else None)
        | None => first_link txts
        end
    end.
  (** l.14-24: the names searched. *)
  Definition searched (domain : bytes) : list bytes :=
    domain :: match strip s_dnslink_dot domain with Some _ => [] | None => [s_dnslink_dot ++ domain] end.
  (** l.34-67; [txt] is what looking up the TXT records of a name answers: the character strings of
      each record, [None] for an error.  Errors are [None]; an unusable resolver configuration (l.29)
      is not modelled. *)
  Fixpoint search (txt : bytes -> option (list (list bytes))) (names : list bytes) : option ipfs_path :=
    match names with
    | [] => None
    | n :: names =>
        match txt n with
        | None => search txt names
        | Some res => match first_link (concat res) with Some (Some p) => Some p | _ => search txt names end
        end
    end.
  Definition dnslink (txt : bytes -> option (list (list bytes))) (domain : bytes) : option ipfs_path := search txt (searched domain).

  (** mod.rs l.25-32. *)
  Definition resolve (txt : bytes -> option (list (list bytes))) (p : ipfs_path) : option ipfs_path :=
    match p_root p with
    | Ipld _ => Some p
    | Ipns _ => None
    | Dns d => dnslink txt d
    end.

  (** lib.rs l.636-644: [txt n] is what is answered during the [n]-th resolution, as records may
      change in between.  The outer [None]: the loop has not ended within [fuel] rounds. *)
  Fixpoint follow (fuel : nat) (txt : nat -> bytes -> option (list (list bytes))) (n : nat) (seen : list ipfs_path)
      (resolved : option ipfs_path) : option (option ipfs_path) :=
    match resolved with
    | None => Some None
    | Some res =>
        if existsb (path_eqb res) seen then Some (Some res)
        else
          match fuel with
          | O => None
          | S fuel => follow fuel txt (S n) (res :: seen) (resolve (txt n) res)
          end
    end.
  (** lib.rs l.630-648. *)
  Definition resolve_ipns (fuel : nat) (txt : nat -> bytes -> option (list (list bytes))) (p : ipfs_path) (recursive : bool) : option (option ipfs_path) :=
    let resolved := resolve (txt 0%nat) p in
    if recursive then follow fuel txt 1 [] resolved else Some resolved.

  (** http/src/v0/ipns.rs l.68-77: the path meant by the argument of /dns. *)
  Definition dns_arg (arg : bytes) : option ipfs_path :=
    match arg with
    | 47 :: _ => path_from_str other_base arg
    | _ =>
        match path_from_str other_base arg with
        | Some p => Some p
        | None => path_from_str other_base ((47 :: s_ipns ++ [47]) ++ arg)
        end
    end.
  (** l.63-88, and l.28-42 for /name/resolve: the text answered, [None] for an error. *)
  Definition http_dns (fuel : nat) (txt : nat -> bytes -> option (list (list bytes))) (arg : bytes) (recursive : option bool) : option (option bytes) :=
    match dns_arg arg with
    | None => Some None
    | Some p => option_map (option_map path_to_str) (resolve_ipns fuel txt p (match recursive with Some b => b | None => false end))
    end.
  Definition http_resolve (txt : nat -> bytes -> option (list (list bytes))) (arg : bytes) : option (option bytes) :=
    match path_from_str other_base arg with
    | None => Some None
    | Some p => option_map (option_map path_to_str) (resolve_ipns 0 txt p false)
    end.

  (** The records of the repo.  [SMem]: src/repo/mem.rs l.415-442, [SDisk]: src/repo/fs.rs l.67-85 and
      src/repo/kv.rs l.71-93, where nothing is implemented. *)
  Inductive store := SMem (ipns : list (bytes * bytes)) | SDisk.
  Inductive op := Put (k : peer_id) (p : ipfs_path) | Get (k : peer_id) | Remove (k : peer_id) | Wipe.
  Inductive answer := Done | Found (p : option ipfs_path) | Failed | Panicked.
  (** src/repo/mod.rs l.518-553.  What is stored is the text of a path, which is valid UTF-8, so that
      [from_utf8_lossy] changes nothing. *)
  Definition step (s : store) (o : op) : store * answer :=
    match s, o with
    | SMem m, Put k p => (SMem (mset beq (mh_to_bytes k) (path_to_str p) m), Done)
    | SMem m, Get k =>
        (s, match mget beq (mh_to_bytes k) m with
            | Some b => match path_from_str other_base b with Some p => Found (Some p) | None => Failed end
            | None => Found None
            end)
    | SMem m, Remove k => (SMem (mdel beq (mh_to_bytes k) m), Done)
    | SMem _, Wipe => (SMem [], Done)
    | SDisk, Wipe => (s, Panicked)
    | SDisk, _ => (s, Failed)
    end.
  Definition run (s : store) (l : list op) : store := fold_left (fun s o => fst (step s o)) l s.
End Resolve.
