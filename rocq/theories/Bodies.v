(** Responses whose bodies are streams: http/src/v0/support/stream.rs, as used by /cat and /get in
    http/src/v0/root_files.rs l.88 and l.115 and by /refs in http/src/v0/refs.rs l.97.  Definitions only.

    Putting a stream on a connection is hyper's part ([Body::wrap_stream], stream.rs l.20): its encoding
    of a body of unknown length is written down here from its documentation and RFC 7230, 4.1 and 3.3.3.
    The connection itself is not modelled: what arrives is any first part of what is put on it. *)
From Coq Require Import Ascii String.
From Verif Require Import Base Wire Cid Str Cat Tar Walk.
From Verif Require Refs RefsHttp.
Local Open Scope N_scope.

(** What the stream given to [StreamResponse], stream.rs l.9-16, yields: bytes or an error; and how it is
    left when it yields no more: it ended, it panicked, or it has yet to go on. *)
Inductive item := Bytes (b : bytes) | Error.
Inductive left := AtEnd | AtPanic | AtWork.

(** stream.rs l.18-20: an error only means that the response stops.  The parts of the body, and whether
    its end is reached. *)
Fixpoint parts (items : list item) (e : left) : list bytes * bool :=
  match items with
  | [] => ([], match e with AtEnd => true | _ => false end)
  | Bytes b :: items => let (l, whole) := parts items e in (b :: l, whole)
  | Error :: _ => ([], false)
  end.

(** The headers, stream.rs l.21-26. *)
Definition headers : list (bytes * bytes) :=
  [(text "trailer", text "X-Stream-Error"); (text "content-type", text "application/json"); (text "x-chunked-output", text "1")].

(** A number in hexadecimal, as hyper writes the size of a chunk. *)
Definition hex_char (v : N) : N := if v <? 10 then 48 + v else 55 + v.
Fixpoint hex_n (f : nat) (n : N) : bytes :=
  match f with
  | O => []
  | S f => if n <? 16 then [hex_char n] else hex_n f (n / 16) ++ [hex_char (n mod 16)]
  end.
Definition hex (n : N) : bytes := hex_n (S (N.size_nat n)) n.
Definition crlf : bytes := [13; 10].
(** One chunk; hyper leaves out empty parts, which would be read as the end. *)
Definition chunk (b : bytes) : bytes :=
  match b with [] => [] | _ => hex (N.of_nat (length b)) ++ crlf ++ b ++ crlf end.

(** For HTTP/1.1 the body is sent in chunks with a last one of size 0; for HTTP/1.0 it is sent as it is
    and the connection is closed.  After an error or a panic the connection is closed at once. *)
Definition on_wire (items : list item) (e : left) : bytes :=
  let (l, whole) := parts items e in
  concat (map chunk l) ++ (if whole then [48] ++ crlf ++ crlf else []).
Definition on_wire10 (items : list item) (e : left) : bytes := concat (fst (parts items e)).

(** The streams of /cat, root_files.rs l.71-88, and of /get, l.115 and l.129-207. *)
Definition cat_items (l : list cat_item) : list item := map (fun i => match i with Piece b => Bytes b | Trouble _ => Error end) l.
Definition cat_left (e : option cat_end) : left :=
  match e with Some Ended => AtEnd | Some Cat.Panicked => AtPanic | None => AtWork end.
Definition get_items (l : list bytes) (e : get_end) : list item :=
  map Bytes l ++ match e with Archived (TarFailed _) | Walked (Failed _) | Walked (Missing _) => [Error] | _ => [] end.
Definition get_left (e : get_end) : left :=
  match e with
  | Archived TarPanicked | Walked Walk.Panicked => AtPanic
  | Archived TarDone | Walked OutOfFuel => AtWork
  | _ => AtEnd
  end.
(** The stream of /refs, http/src/v0/refs.rs l.63-97: errors become lines. *)
Definition refs_items (l : list (bytes * bytes)) : list item := map (fun x => Bytes (RefsHttp.edge_line x)) l.
Definition refs_left (e : option Refs.ending) : left :=
  match e with Some Refs.Closed => AtEnd | Some Refs.Panicked => AtPanic | Some (Refs.Waiting _) | None => AtWork end.
