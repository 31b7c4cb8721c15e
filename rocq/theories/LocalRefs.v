(** The /refs/local endpoint: http/src/v0/refs.rs l.175-207.  Definitions only. *)
From Verif Require Import Base Wire Cid Text BlockSpec FsBlocks RefsHttp Bodies.

(** [inner_local], refs.rs l.182-207, over [Ipfs::refs_local] (src/lib.rs l.866-868) and
    [Repo::list_blocks] (src/repo/mod.rs l.485-487), which only pass on the answer of the block store:
    every cid becomes an edge without an error, on a line of its own.  Writing two strings as JSON does
    not fail, so the error of l.197-200 is left out.  [None]: the request is refused with the error of
    the store, l.185. *)
Definition local_items (a : answer) : option (list item) :=
  match a with
  | Answer (RList cs) => Some (map (fun c => Bytes (edge_line (cid_to_text c, []))) cs)
  | _ => None
  end.
