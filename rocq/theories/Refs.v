(** Listing the links of documents (src/refs.rs).  Definitions only. *)
From Verif Require Import Base Wire Cid BTree Ipld Codecs FMap.
Local Open Scope N_scope.

(** A link: its name (dag-pb only) and its destination. *)
Definition named_link : Type := option bytes * cid.

(** [dagpb_links], l.285-335.  [m.remove] of a key is looking it up. *)
Definition dagpb_link (v : ipld) : outcome (option named_link) unit :=
  match v with
  | IMap m =>
      match bt_get kHash m with
      | Some (Link c) =>
          match bt_get kName m with
          | Some (Str s) => if beq s [47] then Panic else Ok (Some (Some s, c))
          | _ => Panic
          end
      | Some _ => Panic
      | None => Ok None
      end
  | _ => Panic
  end.
Fixpoint dagpb_link_list (l : list ipld) : outcome (list named_link) unit :=
  match l with
  | [] => Ok []
  | v :: r =>
      match dagpb_link v, dagpb_link_list r with
      | Ok x, Ok ls => Ok (match x with Some y => y :: ls | None => ls end)
      | _, _ => Panic
      end
  end.
Definition dagpb_links (v : ipld) : outcome (list named_link) unit :=
  match v with
  | IMap m =>
      match bt_get kLinks m with
      | Some (IList l) => dagpb_link_list l
      | _ => Panic
      end
  | _ => Ok []
  end.

(** [ipld_links], l.251-276. *)
Definition ipld_links (c : cid) (v : ipld) : outcome (list named_link) unit :=
  if cid_codec c =? codec_dagpb then dagpb_links v
  else Ok (flat_map (fun x => match x with Link d => [(None, d)] | _ => [] end) (ipld_iter v)).

(** [IpldRefs], l.43-58. *)
Record opts := mk_opts { max_depth : option N; unique : bool; download : bool }.

(** The items of the queue, l.168. *)
Record item := mk_item { i_depth : N; i_dst : cid; i_src : cid; i_name : option bytes }.

(** What asking for a block gives.  [Broken] is an error of [get_block] or [get_block_now]; for an
    [Absent] block [get_block_now] says so and [get_block] waits for someone to send it. *)
Inductive fetched := Data (b : bytes) | Absent | Broken.

(** The items of the stream: [Edge], l.14-22, and [IpldRefsError], l.34-42. *)
Inductive event :=
| Edge (src dst : cid) (name : option bytes)
| ParseError (c : cid)
| LoadError (c : cid)
| BlockNotFound (c : cid).
(** How the stream ends: closed, panicked, or still waiting for a block. *)
Inductive ending := Closed | Panicked | Waiting (c : cid).

Definition seen_in (c : cid) (seen : list cid) : bool := existsb (cid_eqb c) seen.

(** The loops of l.162-169 and l.233-240. *)
Fixpoint enqueue (u : bool) (depth : N) (src : cid) (ls : list named_link) (work : list item) (seen : list cid)
  : list item * list cid :=
  match ls with
  | [] => (work, seen)
  | (name, c) :: r =>
      if u then
        if seen_in c seen then enqueue u depth src r work seen
        else enqueue u depth src r (work ++ [mk_item depth c src name]) (c :: seen)
      else enqueue u depth src r (work ++ [mk_item depth c src name]) seen
  end.

(** The choice of l.177-185.  [checks]: integer overflow checks are on; otherwise [d + 1] wraps.
    [None] is a panic; [Some None] is [continue]. *)
Definition traverse (checks : bool) (md : option N) (depth : N) : option (option bool) :=
  match md with
  | Some d =>
      if d <=? depth then Some None
      else if d + 1 <? u64_max1 then Some (Some (negb (d + 1 =? depth)))
      else if checks then None
      else Some (Some (negb (0 =? depth)))
  | None => Some (Some true)
  end.

Section Refs.
  Variable checks : bool.
  Variable fetch : cid -> fetched.
  (** [decode_ipld]. *)
  Variable decode : cid -> bytes -> outcome ipld unit.

  (** One turn of the loop, l.176-243: the items yielded, and how to go on. *)
  Definition turn (o : opts) (i : item) (work : list item) (seen : list cid)
    : list event * (ending + list item * list cid) :=
    match traverse checks (max_depth o) (i_depth i) with
    | None => ([], inl Panicked)
    | Some None => ([], inr (work, seen))
    | Some (Some t) =>
        match fetch (i_dst i) with
        | Absent => if download o then ([], inl (Waiting (i_dst i))) else ([BlockNotFound (i_dst i)], inl Closed)
        | Broken => if download o then ([], inr (work, seen)) else ([LoadError (i_dst i)], inl Closed)
        | Data b =>
            match decode (i_dst i) b with
            | Err _ => ([ParseError (i_dst i)], inr (work, seen))
            | Panic => ([], inl Panicked)
            | Ok v =>
                let edge := Edge (i_src i) (i_dst i) (i_name i) in
                if t then
                  match ipld_links (i_dst i) v with
                  | Ok ls => ([edge], inr (enqueue (unique o) (i_depth i + 1) (i_dst i) ls work seen))
                  | _ => ([], inl Panicked)
                  end
                else ([edge], inr (work, seen))
            end
        end
    end.

  (** The loop: what it has yielded after [fuel] turns, and its end if it has ended by then. *)
  Fixpoint run (fuel : nat) (o : opts) (work : list item) (seen : list cid) : list event * option ending :=
    match fuel with
    | O => ([], None)
    | S fuel =>
        match work with
        | [] => ([], Some Closed)
        | i :: work =>
            match turn o i work seen with
            | (es, inl e) => (es, Some e)
            | (es, inr (work, seen)) => let (r, e) := run fuel o work seen in (es ++ r, e)
            end
        end
    end.

  (** The start, l.150-171: the links of all the roots.  [None] is a panic (in the call itself). *)
  Fixpoint start (o : opts) (roots : list (cid * ipld)) (work : list item) (seen : list cid)
    : option (list item * list cid) :=
    match roots with
    | [] => Some (work, seen)
    | (c, v) :: r =>
        match ipld_links c v with
        | Ok ls => let (work, seen) := enqueue (unique o) 0 c ls work seen in start o r work seen
        | _ => None
        end
    end.

  (** [iplds_refs_inner], l.139-249. *)
  Definition refs (fuel : nat) (o : opts) (roots : list (cid * ipld)) : list event * option ending :=
    match max_depth o with
    | Some 0 => ([], Some Closed)
    | _ =>
        match start o roots [] [] with
        | None => ([], Some Panicked)
        | Some (work, seen) => run fuel o work seen
        end
    end.
End Refs.
