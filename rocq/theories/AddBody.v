(** The body of the response of /add: http/src/v0/root_files/add.rs l.35-62 and l.336-372.  Definitions
    only. *)
From Coq Require Import Ascii String.
From Verif Require Import Base Wire Cid Str Text Routes Endpoints HttpAdd Bodies.
Local Open Scope N_scope.

(** [Response], l.336-360: [Added] has its names in Pascal case, [Progress] has not; the hash and the size
    are texts ([Quoted], l.362-372). *)
Definition said (m : HttpAdd.response) : jt :=
  match m with
  | Progress name n => TMap [(text "name", TText name); (text "bytes", TNum n)]
  | AddedMsg name c size => TMap [(text "Hash", TText (cid_to_text c)); (text "Name", TText name); (text "Size", TText (dec size))]
  end.
(** A message and the end of the line, as in l.269-277. *)
Definition said_line (m : HttpAdd.response) : bytes := write (said m) ++ crlf.
(** l.41-58: an error is sent as a message, after which the stream ends; [error_text] is its text. *)
Definition add_items (error_text : add_error -> bytes) (t : list HttpAdd.event) (e : HttpAdd.ending) : list Bodies.item :=
  flat_map (fun x => match x with EPut _ _ => [] | EItem l => [Bytes (concat (map said_line l))] end) t ++
  match e with Early (Broken e) => [Bytes (message_body (error_text e) ++ crlf)] | _ => [] end.
Definition add_left (e : HttpAdd.ending) : left :=
  match e with Early Crash => AtPanic | Early Unfinished => AtWork | Done | Early (Broken _) => AtEnd end.
