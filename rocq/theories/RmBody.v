(** The body of /block/rm as a stream: http/src/v0/block.rs l.185-216.  Definitions only. *)
From Verif Require Import Base Wire Cid RefsHttp HttpOptions HttpBlock Bodies.

(** [rm_query], block.rs l.166-217, like [block_rm] of HttpBlock.v but with what the stream yields: all
    removals are awaited first (l.185-187), then every line is a part of its own, and an empty part if
    "quiet" is given (l.200-208).  Writing two strings as JSON does not fail, so the error of l.209-212
    is left out.  [None]: the request is refused. *)
Definition rm_stream (other_base : N -> bytes -> option bytes) (storage_error : bytes)
    (query : list (bytes * bytes)) (order : list nat) (s : state) : state * option (list item) :=
  match read_query rm_rules [] query with
  | Ok q =>
      match parse_cids other_base (all_of k_arg q) with
      | None => (s, None)
      | Some cs =>
          match rm_run other_base storage_error s cs order with
          | (s', Ok l) =>
              (s', Some (map (fun x => Bytes (rm_line (bool_of false (one_of k_quiet q)) x)) (rm_responses (bool_of false (one_of k_force q)) cs l)))
          | (s', _) => (s', None)
          end
      end
  | _ => (s, None)
  end.
