(** Bitswap messages and their wire format: bitswap/src/{ledger,prefix,block,protocol}.rs.
    Definitions only.

    A [HashedMap] is an association list, a [HashedSet] a list; the order stands for the unspecified
    iteration order of the map.  [hasher] stands for the multihash crate: the function of a hash
    code that the crate implements, [None] for other codes. *)
From Verif Require Import Base Wire Cid FMap Prost.
Local Open Scope N_scope.

(** block.rs l.8-13 [Block]. *)
Record block := mk_block { b_cid : cid; b_data : bytes }.

(** ledger.rs l.65-77 [Message].  [full] is never read nor written and left out. *)
Record message := mk_message {
  m_want : list (cid * Z); m_cancel : list cid; m_blocks : list block }.
Definition message0 : message := mk_message [] [] [].

(** ledger.rs l.81-83 [Message::is_empty]. *)
Definition is_empty {A} (l : list A) : bool := match l with [] => true | _ => false end.
Definition message_empty (m : message) : bool :=
  is_empty (m_want m) && is_empty (m_cancel m) && is_empty (m_blocks m).
(** ledger.rs l.101-103 [Message::add_block]. *)
Definition m_add_block (b : block) (m : message) : message :=
  mk_message (m_want m) (m_cancel m) (m_blocks m ++ [b]).
(** ledger.rs l.111-113 [Message::want_block]. *)
Definition m_want_block (c : cid) (p : Z) (m : message) : message :=
  mk_message (mset cid_eqb c p (m_want m)) (m_cancel m) (m_blocks m).
(** ledger.rs l.116-118 [Message::cancel_block]. *)
Definition set_insert (c : cid) (s : list cid) : list cid :=
  if existsb (cid_eqb c) s then s else c :: s.
Definition m_cancel_block (c : cid) (m : message) : message :=
  mk_message (m_want m) (set_insert c (m_cancel m)) (m_blocks m).

(** * Prefixes *)
Section Hash.
Variable hasher : N -> option (bytes -> bytes).

(** prefix.rs l.9-18 [Prefix]. *)
Record prefix := mk_prefix { p_version : N; p_codec : N; p_mh : N; p_len : N }.

(** prefix.rs l.22-43 [Prefix::new]; what follows the fourth number is ignored. *)
Definition prefix_new (data : bytes) : option prefix :=
  match read_varint64 data with
  | Some (version, r1) =>
      if version <=? 1 then
        match read_varint64 r1 with
        | Some (codec, r2) =>
            if codec_known codec then
              match read_varint64 r2 with
              | Some (mh, r3) =>
                  match hasher mh with
                  | Some _ =>
                      match read_varint64 r3 with
                      | Some (len, _) => Some (mk_prefix version codec mh len)
                      | None => None
                      end
                  | None => None
                  end
              | None => None
              end
            else None
        | None => None
        end
      else None
  | None => None
  end.

(** prefix.rs l.46-63 [Prefix::to_bytes]. *)
Definition prefix_to_bytes (p : prefix) : bytes :=
  write_varint (p_version p) ++ write_varint (p_codec p) ++ write_varint (p_mh p) ++ write_varint (p_len p).

(** prefix.rs l.66-72 [Prefix::to_cid].  [Cid::new] of the cid crate: version 0 needs dag-pb and
    sha2-256, but any digest length. *)
Definition prefix_to_cid (p : prefix) (data : bytes) : option cid :=
  match hasher (p_mh p) with
  | None => None
  | Some h =>
      let digest := h data in
      let digest := if p_len p <? blen digest then firstn (N.to_nat (p_len p)) digest else digest in
      if p_version p =? 0 then
        if (p_codec p =? codec_dagpb) && (p_mh p =? sha2_256) then Some (CidV0 digest) else None
      else Some (CidV1 (p_codec p) {| mh_code := p_mh p; mh_digest := digest |})
  end.

(** prefix.rs l.75-84 [From<&Cid> for Prefix]. *)
Definition prefix_of (c : cid) : prefix :=
  mk_prefix (match c with CidV0 _ => 0 | CidV1 _ _ => 1 end) (cid_codec c) (mh_code (cid_hash c))
    (blen (mh_digest (cid_hash c))).

(** * Writing *)
(** [Entry] as written by the generated code: a field with the default value is left out. *)
Definition w_len (tag : N) (b : bytes) : bytes := match b with [] => [] | _ => w_bytes tag b end.
Definition w_entry (blk : bytes) (priority : Z) (cancel : bool) : bytes :=
  w_len 10 blk ++ (if (priority =? 0)%Z then [] else w_uint 16 (of_i32 priority)) ++ (if cancel then w_uint 24 1 else []).

(** ledger.rs l.131-146: the entries, the wanted first. *)
Definition entries_bytes (m : message) : list bytes :=
  map (fun '(c, p) => w_entry (cid_to_bytes c) p false) (m_want m) ++
  map (fun c => w_entry (cid_to_bytes c) 0 true) (m_cancel m).
(** ledger.rs l.147-153: the blocks. *)
Definition payload_bytes (b : block) : bytes :=
  w_len 10 (prefix_to_bytes (prefix_of (b_cid b))) ++ w_len 18 (b_data b).
(** ledger.rs l.127-163 [From<&Message> for Vec<u8>].  An embedded message is written with its
    length, which prost computes beforehand with [encoded_len]. *)
Definition to_bytes (m : message) : bytes :=
  (match entries_bytes m with
   | [] => []
   | es => w_bytes 10 (concat (map (w_bytes 10) es))
   end) ++ concat (map (fun b => w_bytes 26 (payload_bytes b)) (m_blocks m)).

(** * Reading *)
(** [Entry::merge_field] of the generated code; [wantType] (4) and [sendDontHave] (5) are read and
    not used. *)
Record entry := mk_entry { e_block : bytes; e_priority : Z; e_cancel : bool }.
Definition entry_field (e : entry) (f : N * pval) : option entry :=
  let '(t, v) := f in
  if t =? 1 then match v with PLen b => Some (mk_entry b (e_priority e) (e_cancel e)) | _ => None end
  else if t =? 2 then match v with PVarint n => Some (mk_entry (e_block e) (to_i32 n) (e_cancel e)) | _ => None end
  else if t =? 3 then match v with PVarint n => Some (mk_entry (e_block e) (e_priority e) (negb (n =? 0))) | _ => None end
  else if (t =? 4) || (t =? 5) then match v with PVarint _ => Some e | _ => None end
  else Some e.
(** A message embedded in another, [message::merge] of prost: the recursion limit goes down. *)
Definition embedded {M} (limit : nat) (field : M -> N * pval -> option M) (m : M) (b : bytes) : option M :=
  match pb_fields limit b with Some fs => pb_merge field m fs | None => None end.
(** [Wantlist::merge_field]; [full] (2) is not used. *)
Definition wantlist_field (es : list entry) (f : N * pval) : option (list entry) :=
  let '(t, v) := f in
  if t =? 1 then
    match v with
    | PLen b => option_map (fun e => es ++ [e]) (embedded 98 entry_field (mk_entry [] 0%Z false) b)
    | _ => None
    end
  else if t =? 2 then match v with PVarint _ => Some es | _ => None end
  else Some es.
(** [Block::merge_field]: prefix and data. *)
Definition payload_field (p : bytes * bytes) (f : N * pval) : option (bytes * bytes) :=
  let '(t, v) := f in
  if t =? 1 then match v with PLen b => Some (b, snd p) | _ => None end
  else if t =? 2 then match v with PLen b => Some (fst p, b) | _ => None end
  else Some p.
(** [BlockPresence::merge_field]; its values are not used. *)
Definition presence_field (u : unit) (f : N * pval) : option unit :=
  let '(t, v) := f in
  if t =? 1 then match v with PLen _ => Some u | _ => None end
  else if t =? 2 then match v with PVarint _ => Some u | _ => None end
  else Some u.
(** [Message::merge_field]; [blocks] (2), [blockPresences] (4) and [pendingBytes] (5) are not used.
    A second want list is merged into the first. *)
Definition message_field (m : list entry * list (bytes * bytes)) (f : N * pval)
  : option (list entry * list (bytes * bytes)) :=
  let '(es, ps) := m in
  let '(t, v) := f in
  if t =? 1 then
    match v with PLen b => option_map (fun es' => (es', ps)) (embedded 99 wantlist_field es b) | _ => None end
  else if t =? 2 then match v with PLen _ => Some m | _ => None end
  else if t =? 3 then
    match v with
    | PLen b => option_map (fun p => (es, ps ++ [p])) (embedded 99 payload_field ([], []) b)
    | _ => None
    end
  else if t =? 4 then
    match v with PLen b => option_map (fun _ => m) (embedded 99 presence_field tt b) | _ => None end
  else if t =? 5 then match v with PVarint _ => Some m | _ => None end
  else Some m.

(** ledger.rs l.188-195: the entries in order. *)
Fixpoint add_entries (es : list entry) (m : message) : option message :=
  match es with
  | [] => Some m
  | e :: r =>
      match cid_from_bytes (e_block e) with
      | None => None
      | Some c => add_entries r (if e_cancel e then m_cancel_block c m else m_want_block c (e_priority e) m)
      end
  end.
(** ledger.rs l.196-204: the blocks in order. *)
Fixpoint add_payload (ps : list (bytes * bytes)) (m : message) : option message :=
  match ps with
  | [] => Some m
  | (px, data) :: r =>
      match prefix_new px with
      | None => None
      | Some p =>
          match prefix_to_cid p data with
          | None => None
          | Some c => add_payload r (m_add_block (mk_block c data) m)
          end
      end
  end.
(** ledger.rs l.183-207 [TryFrom<&[u8]> for Message]; the kind of the error is not modelled. *)
Definition from_bytes (bs : bytes) : option message :=
  match embedded 100 message_field ([], []) bs with
  | None => None
  | Some (es, ps) =>
      match add_entries es message0 with
      | None => None
      | Some m => add_payload ps m
      end
  end.

(** * Substreams *)
(** protocol.rs l.20. *)
Definition max_buf_size : N := 524288.
(** protocol.rs l.74-80 with [upgrade::write_length_prefixed] of libp2p: all that is written to the
    substream before it is closed. *)
Definition upgrade_outbound (m : message) : bytes :=
  write_varint (blen (to_bytes m)) ++ to_bytes m.
(** protocol.rs l.46-52 with [upgrade::read_length_prefixed] of libp2p: a length above the limit is
    refused before anything is read; a stream ending early is an error; more bytes are left unread. *)
Definition upgrade_inbound (stream : bytes) : option message :=
  match read_varint64 stream with
  | None => None
  | Some (n, r) =>
      if max_buf_size <? n then None
      else if n <=? blen r then from_bytes (firstn (N.to_nat n) r) else None
  end.
End Hash.
