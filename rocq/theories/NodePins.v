(** Pinning dags: [Ipfs::insert_pin] and [Ipfs::remove_pin] (src/lib.rs l.468-536) on top of a block
    store and a pin store, next to [put_block] and [remove_block].  Definitions only.

    The calls are made one after the other.  Only local blocks are there: [get_block] for another one
    waits.  Logging and storage errors other than those of the stores are not modelled. *)
From Verif Require Import Base Wire Cid Ipld FMap BlockSpec FsPaths FsBlocks PinSpec FsPins KvPins PinnedRepo.
From Verif Require Refs.

(** What a node is asked. *)
Inductive nop := NPut (b : block) | NRemove (c : cid) | NPin (c : cid) (recursive : bool) | NUnpin (c : cid) (recursive : bool).
(** The answer; [Waits]: no answer yet, and nothing changed. *)
Inductive nans := Done | Failed | Waits | Crashed.

(** The destinations of the edges up to the first error, and whether there is one. *)
Fixpoint edges (es : list Refs.event) : list cid * bool :=
  match es with
  | [] => ([], false)
  | Refs.Edge _ d _ :: es => let (l, b) := edges es in (d :: l, b)
  | _ :: _ => ([], true)
  end.
(** The stream of destinations, l.482-488 and l.520-529, as [try_collect] reads it: it stops at an
    error, and otherwise at the end of the walk.  [None]: the walk does not end. *)
Definition stream_of (x : list Refs.event * option Refs.ending) : option (outcome refs unit) :=
  let (l, b) := edges (fst x) in
  if b then Some (Ok (mk_refs l true))
  else match snd x with
       | Some Refs.Closed => Some (Ok (mk_refs l false))
       | Some Refs.Panicked => Some Panic
       | Some (Refs.Waiting _) | None => None
       end.

Section Node.
  Context {B P : Type}.
  Variable get : B -> cid -> option bytes.
  Variable put : B -> block -> B * outcome unit unit.
  Variable remove : B -> cid -> B * outcome bool unit.
  Variable is_pinned : P -> cid -> option bool.
  Variable pin_call : P -> pop -> P * outcome unit unit.
  Variable decode : cid -> bytes -> outcome ipld unit.
  Variable checks : bool.
  (** The turns of a walk. *)
  Variable fuel : nat.

  Definition fetch (b : B) (c : cid) : Refs.fetched := match get b c with Some x => Refs.Data x | None => Refs.Absent end.
  (** The references of a decoded root; [download] is false for [with_existing_blocks]. *)
  Definition references (b : B) (c : cid) (v : ipld) (download : bool) : option (outcome refs unit) :=
    stream_of (Refs.refs checks (fetch b) decode fuel (Refs.mk_opts None true download) [(c, v)]).

  Definition answered (s : B * P) (x : P * outcome unit unit) : (B * P) * nans :=
    ((fst s, fst x), match snd x with Ok _ => Done | Err _ => Failed | Panic => Crashed end).

  (** The call of the pin store an [insert_pin] comes to, l.473-491, or how it ends before. *)
  Definition insert_call (b : B) (c : cid) (recursive : bool) : pop + nans :=
    match get b c with
    | None => inr Waits
    | Some data =>
        if negb recursive then inl (PinDirect c)
        else match decode c data with
             | Err _ => inr Failed
             | Panic => inr Crashed
             | Ok v =>
                 match references b c v true with
                 | None => inr Waits
                 | Some (Ok r) => inl (PinRec c r)
                 | Some (Err _) => inr Failed
                 | Some Panic => inr Crashed
                 end
             end
    end.
  (** [remove_pin], l.506-532; the local block is needed for the walk. *)
  Definition remove_call (b : B) (c : cid) (recursive : bool) : pop + nans :=
    if negb recursive then inl (UnpinDirect c)
    else match get b c with
         | None => inr Failed
         | Some data =>
             match decode c data with
             | Err _ => inr Failed
             | Panic => inr Crashed
             | Ok v =>
                 match references b c v false with
                 | None => inr Waits
                 | Some (Ok r) => inl (UnpinRec c r)
                 | Some (Err _) => inr Failed
                 | Some Panic => inr Crashed
                 end
             end
         end.
  Definition pin_op (s : B * P) (x : pop + nans) : (B * P) * nans :=
    match x with inl o => answered s (pin_call (snd s) o) | inr a => (s, a) end.

  (** The pin call which was accepted, if any. *)
  Definition accepted (x : pop + nans) (a : nans) : list pop := match x, a with inl o, Done => [o] | _, _ => [] end.

  Definition node_step (s : B * P) (o : nop) : (B * P) * nans * list pop :=
    match o with
    | NPut b => let (b', r) := put (fst s) b in ((b', snd s), match r with Ok _ => Done | Err _ => Failed | Panic => Crashed end, [])
    | NRemove c => let (s', r) := remove_block is_pinned remove s c in (s', match r with Ok _ => Done | Err _ => Failed | Panic => Crashed end, [])
    | NPin c rec => let x := insert_call (fst s) c rec in let (s', a) := pin_op s x in (s', a, accepted x a)
    | NUnpin c rec => let x := remove_call (fst s) c rec in let (s', a) := pin_op s x in (s', a, accepted x a)
    end.
  (** The state and the accepted pin calls (latest first) after a list of calls. *)
  Fixpoint node_run (s : B * P) (ps : list pop) (h : list nop) : (B * P) * list pop :=
    match h with
    | [] => (s, ps)
    | o :: h => let '(s', _, acc) := node_step s o in node_run s' (acc ++ ps) h
    end.

  (** An [insert_pin] during which the calls [others] are answered, between the walk and the call of
      the pin store (separate awaits without a common lock). *)
  Definition pin_during (s : B * P) (c : cid) (rec : bool) (others : list nop) : (B * P) * nans :=
    let x := insert_call (fst s) c rec in
    let (s', _) := node_run s [] others in pin_op s' x.
End Node.

(** Blocks and pins on disk (src/repo/mod.rs l.363-395). *)
Definition f_get (f : fs) (c : cid) : option bytes :=
  match fs_get_block c f with Answer (RGet (Some b)) => Some (b_data b) | _ => None end.
Section Disk.
  Variable other_base : N -> bytes -> option bytes.
  Definition fs_node_step := node_step f_get f_put f_remove (fs_is_pinned other_base) fs_pin_call.
  Definition fs_node_run := node_run f_get f_put f_remove (fs_is_pinned other_base) fs_pin_call.
  Definition fs_pin_during := pin_during f_get f_put f_remove (fs_is_pinned other_base) fs_pin_call.
End Disk.
(** Blocks on disk, pins in the key-value store (src/repo/kv.rs). *)
Definition kv_node_step := node_step f_get f_put f_remove (fun db c => Some (kv_is_pinned db c)) kv_pin_call.
Definition kv_node_run := node_run f_get f_put f_remove (fun db c => Some (kv_is_pinned db c)) kv_pin_call.
