(** The body of /pin/ls as a stream: http/src/v0/pin.rs l.181-292.  Definitions only. *)
From Verif Require Import Base Wire Cid Text PinSpec FsPins RefsHttp HttpOptions NodePins HttpPins Bodies.
From Verif Require HttpBlock.

(** [list_inner], pin.rs l.181-265, like [pin_ls] of HttpPins.v but with what the stream of l.267-292
    yields: every line is a part of its own, and an error of the pin store is a line too (l.278-289).
    [None]: there is no such body. *)
Definition ls_stream (duration : bytes -> bool) (other_base : N -> bytes -> option bytes) (storage_error : bytes)
    (query : list (bytes * bytes)) (s : state) : option (list item) :=
  match read_query (ls_rules duration other_base) [] query with
  | Ok q =>
      match HttpBlock.parse_cids other_base (all_of k_arg q), (match one_of k_type q with None => Some None | Some v => filter_named v end) with
      | Some cs, Some req =>
          if bool_of true (one_of k_quiet q) then
            match cs with
            | [] =>
                let (l, ok) := fs_pin_list other_base (snd s) req in
                Some (map (fun x => Bytes (ls_line (cid_to_text (fst x), mode_text (snd x)))) l ++ if ok then [] else [Bytes (err_line storage_error)])
            | _ =>
                match fs_query other_base (snd s) cs req with
                | None => None
                | Some l => Some (map (fun x => Bytes (ls_line (cid_to_text (fst x), kind_text (snd x)))) l)
                end
            end
          else None
      | _, _ => None
      end
  | _ => None
  end.
