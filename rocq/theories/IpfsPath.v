(** Ipfs paths (src/path.rs).  Strings are their UTF-8 bytes; '/' is 47 and occurs in no longer
    sequence.  Definitions only. *)
From Verif Require Import Base Wire Cid Text FMap.
Local Open Scope N_scope.

(** [str::split('/')]: never empty. *)
Fixpoint split_slash (s : bytes) : list bytes :=
  match s with
  | [] => [[]]
  | c :: r =>
      if c =? 47 then [] :: split_slash r
      else match split_slash r with [] => [[c]] | x :: xs => (c :: x) :: xs end
  end.

(** [PathRoot], l.242-250. *)
Inductive root := Ipld (c : cid) | Ipns (p : peer_id) | Dns (name : bytes).
(** [IpfsPath], l.37-41; [SlashedPath], l.156-159. *)
Record ipfs_path := mk_path { p_root : root; p_segs : list bytes }.

Definition is_empty (s : bytes) : bool := match s with [] => true | _ => false end.

(** [push_split], l.172-192: the segments held afterwards and whether it succeeded. *)
Fixpoint push_split (l : list bytes) (have : list bytes) : list bytes * bool :=
  match l with
  | [] => (have, true)
  | x :: r =>
      if is_empty x then (have, match r with [] => true | _ => false end)
      else push_split r (have ++ [x])
  end.
(** [push_path], l.163-170. *)
Definition push_path (s : bytes) (have : list bytes) : list bytes * bool :=
  if is_empty s then (have, true) else push_split (split_slash s) have.

(** [sub_path], l.98-102: works on a copy; [None] for an error. *)
Definition sub_path (p : ipfs_path) (s : bytes) : option ipfs_path :=
  let (l, ok) := push_path s (p_segs p) in
  if ok then Some (mk_path (p_root p) l) else None.

Definition s_ipfs : bytes := [105; 112; 102; 115].
Definition s_ipld : bytes := [105; 112; 108; 100].
Definition s_ipns : bytes := [105; 112; 110; 115].

Section Parse.
  Variable other_base : N -> bytes -> option bytes.

  (** [from_str], l.45-74; [None] for an error. *)
  Definition parse_root (parts : list bytes) : option (root * list bytes) :=
    match parts with
    | [] => None
    | empty :: rest =>
        if negb (is_empty empty) then option_map (fun c => (Ipld c, rest)) (cid_from_text other_base empty)
        else
          match rest with
          | ty :: key :: rest =>
              if beq ty s_ipfs then option_map (fun c => (Ipld c, rest)) (cid_from_text other_base key)
              else if beq ty s_ipld then option_map (fun c => (Ipld c, rest)) (cid_from_text other_base key)
              else if beq ty s_ipns then
                match peer_from_text key with
                | Some p => Some (Ipns p, rest)
                | None => Some (Dns key, rest)
                end
              else None
          | _ => None
          end
    end.
  Definition path_from_str (s : bytes) : option ipfs_path :=
    match parse_root (split_slash s) with
    | None => None
    | Some (r, rest) =>
        let (l, ok) := push_split rest [] in
        if ok then Some (mk_path r l) else None
    end.
End Parse.

(** [Display for PathRoot], l.273-282. *)
Definition root_to_str (r : root) : bytes :=
  match r with
  | Ipld c => 47 :: s_ipfs ++ 47 :: cid_to_text c
  | Ipns p => 47 :: s_ipns ++ 47 :: peer_to_text p
  | Dns n => 47 :: s_ipns ++ 47 :: n
  end.
(** [Display for SlashedPath], l.217-230. *)
Fixpoint join (l : list bytes) : bytes :=
  match l with [] => [] | [x] => x | x :: r => x ++ 47 :: join r end.
(** [Display for IpfsPath], l.126-136. *)
Definition path_to_str (p : ipfs_path) : bytes :=
  root_to_str (p_root p) ++ match p_segs p with [] => [] | l => 47 :: join l end.

(** [PartialEq<[&str]> for SlashedPath], l.232-238. *)
Fixpoint segs_eq_slice (a b : list bytes) : bool :=
  match a, b with
  | x :: a, y :: b => beq x y && segs_eq_slice a b
  | _, _ => true
  end.

(** [into_shifted], l.109-115, [into_truncated], l.117-123. *)
Definition into_shifted (p : ipfs_path) (n : nat) : outcome (list bytes) unit :=
  if (n <=? length (p_segs p))%nat then Ok (skipn n (p_segs p)) else Panic.
Definition into_truncated (p : ipfs_path) (n : nat) : outcome (list bytes) unit :=
  if (n <=? length (p_segs p))%nat then Ok (firstn n (p_segs p)) else Panic.
