(** The dag-pb and dag-json codecs of [Ipld] values (src/ipld/dag_pb.rs, src/ipld/dag_json.rs) and
    the dispatch on the codec (src/ipld/mod.rs l.267-295).  Definitions only. *)
From Verif Require Import Base Wire Cid BTree Ipld Cbor.
Local Open Scope N_scope.

(** * dag-pb *)

(** [pb::PbLink] and [pb::PbNode] as prost generates them from src/ipld/dag_pb.proto (proto3: absent
    fields are the empty string, empty bytes, zero). *)
Record plink := mk_plink { pl_hash : bytes; pl_name : bytes; pl_tsize : N }.
Record pnode := mk_pnode { pn_data : bytes; pn_links : list plink }.

(** prost's encoder: fields in tag order, default values left out.  prost is a dependency, modelled
    from its published behaviour. *)
Definition plink_write (l : plink) : bytes :=
  (if blen (pl_hash l) =? 0 then [] else w_bytes 10 (pl_hash l)) ++
  (if blen (pl_name l) =? 0 then [] else w_bytes 18 (pl_name l)) ++
  (if pl_tsize l =? 0 then [] else w_uint 24 (pl_tsize l)).
Definition pnode_write (n : pnode) : bytes :=
  (if blen (pn_data n) =? 0 then [] else w_bytes 10 (pn_data n)) ++
  concat (map (fun l => w_bytes 18 (plink_write l)) (pn_links n)).

(** prost's decoder: a known tag with another wire type is an error, unknown fields are skipped.
    Simplified on malformed input only: over-long varints and keys are read as [Wire] reads them and
    groups are an error. *)
Definition plink_field (tag : N) (m : plink) (bs : bytes) : option (plink * bytes) :=
  if tag / 8 =? 1 then
    if tag mod 8 =? 2 then
      match read_bytes bs with Some (b, r) => Some (mk_plink b (pl_name m) (pl_tsize m), r) | None => None end
    else None
  else if tag / 8 =? 2 then
    if tag mod 8 =? 2 then
      match read_string bs with Some (b, r) => Some (mk_plink (pl_hash m) b (pl_tsize m), r) | None => None end
    else None
  else if tag / 8 =? 3 then
    if tag mod 8 =? 0 then
      match read_varint64 bs with Some (v, r) => Some (mk_plink (pl_hash m) (pl_name m) v, r) | None => None end
    else None
  else if tag / 8 =? 0 then None
  else match read_unknown tag bs with Some r => Some (m, r) | None => None end.
Definition plink_read (bs : bytes) : option plink := read_message plink_field (mk_plink [] [] 0) bs.

Definition pnode_field (tag : N) (m : pnode) (bs : bytes) : option (pnode * bytes) :=
  if tag / 8 =? 1 then
    if tag mod 8 =? 2 then
      match read_bytes bs with Some (b, r) => Some (mk_pnode b (pn_links m), r) | None => None end
    else None
  else if tag / 8 =? 2 then
    if tag mod 8 =? 2 then
      match read_bytes bs with
      | Some (b, r) =>
          match plink_read b with Some l => Some (mk_pnode (pn_data m) (pn_links m ++ [l]), r) | None => None end
      | None => None
      end
    else None
  else if tag / 8 =? 0 then None
  else match read_unknown tag bs with Some r => Some (m, r) | None => None end.
Definition pnode_read (bs : bytes) : option pnode := read_message pnode_field (mk_pnode [] []) bs.

(** [PbLink], [PbNode], dag_pb.rs l.47-56: as above with the hash parsed. *)
Record PbLink := mk_PbLink { l_cid : cid; l_name : bytes; l_size : N }.
Record PbNode := mk_PbNode { n_links : list PbLink; n_data : bytes }.

Inductive codec_err :=
| PbDecode | PbCid | KeyNotFound | NotList | NotBytes | NotLink | NotString | NotInteger
| JsonErr | UnsupportedCodec | CborE (e : cbor_err).
Definition kres (A : Type) := outcome A codec_err.
Definition kbind {A B} (o : kres A) (f : A -> kres B) : kres B :=
  match o with Ok a => f a | Err e => Err e | Panic => Panic end.

(** [PbNode::from_bytes], l.61-72. *)
Fixpoint parse_links (ls : list plink) : kres (list PbLink) :=
  match ls with
  | [] => Ok []
  | l :: r =>
      match cid_from_bytes (pl_hash l) with
      | None => Err PbCid
      | Some c => kbind (parse_links r) (fun r => Ok (mk_PbLink c (pl_name l) (pl_tsize l) :: r))
      end
  end.
Definition pbnode_from_bytes (bs : bytes) : kres PbNode :=
  match pnode_read bs with
  | None => Err PbDecode
  | Some n => kbind (parse_links (pn_links n)) (fun ls => Ok (mk_PbNode ls (pn_data n)))
  end.

(** [PbNode::into_bytes], l.74-94. *)
Definition pbnode_into_bytes (n : PbNode) : bytes :=
  pnode_write (mk_pnode (n_data n)
                 (map (fun l => mk_plink (cid_to_bytes (l_cid l)) (l_name l) (l_size l)) (n_links n))).

Definition kLinks : bytes := [76; 105; 110; 107; 115].
Definition kData : bytes := [68; 97; 116; 97].
Definition kHash : bytes := [72; 97; 115; 104].
Definition kName : bytes := [78; 97; 109; 101].
Definition kTsize : bytes := [84; 115; 105; 122; 101].

(** [From<PbLink> for Ipld], l.111-119, and [From<PbNode> for Ipld], l.97-109. *)
Definition ipld_of_link (l : PbLink) : ipld :=
  IMap (bt_insert kTsize (Integer (Z.of_N (l_size l)))
         (bt_insert kName (Str (l_name l)) (bt_insert kHash (Link (l_cid l)) []))).
Definition ipld_of_node (n : PbNode) : ipld :=
  IMap (bt_insert kData (IBytes (n_data n))
         (bt_insert kLinks (IList (map ipld_of_link (n_links n))) [])).

(** [TryFrom<&Ipld> for PbLink], l.142-163; [*size as u64] keeps the low 64 bits. *)
Definition link_of_ipld (v : ipld) : kres PbLink :=
  match ipld_get kHash v with
  | None => Err KeyNotFound
  | Some (Link c) =>
      match ipld_get kName v with
      | None => Err KeyNotFound
      | Some (Str name) =>
          match ipld_get kTsize v with
          | None => Err KeyNotFound
          | Some (Integer i) => Ok (mk_PbLink c name (Z.to_N (i mod 18446744073709551616)))
          | Some _ => Err NotInteger
          end
      | Some _ => Err NotString
      end
  | Some _ => Err NotLink
  end.
(** [TryFrom<&Ipld> for PbNode], l.121-140. *)
Fixpoint links_of_iplds (l : list ipld) : kres (list PbLink) :=
  match l with
  | [] => Ok []
  | v :: r => kbind (link_of_ipld v) (fun x => kbind (links_of_iplds r) (fun r => Ok (x :: r)))
  end.
Definition node_of_ipld (v : ipld) : kres PbNode :=
  match ipld_get kLinks v with
  | None => Err KeyNotFound
  | Some (IList l) =>
      kbind (links_of_iplds l) (fun links =>
        match ipld_get kData v with
        | None => Err KeyNotFound
        | Some (IBytes d) => Ok (mk_PbNode links d)
        | Some _ => Err NotBytes
        end)
  | Some _ => Err NotList
  end.

(** [DagPbCodec::encode], [decode], l.15-24. *)
Definition dagpb_encode (v : ipld) : kres bytes :=
  kbind (node_of_ipld v) (fun n => Ok (pbnode_into_bytes n)).
Definition dagpb_decode (bs : bytes) : kres ipld :=
  kbind (pbnode_from_bytes bs) (fun n => Ok (ipld_of_node n)).

(** * dag-json *)

(** A JSON document as serde_json's parser presents it to a visitor: integers that fit i64 or u64
    come as integers, all other numbers as f64. *)
Inductive json :=
| JNull | JBool (b : bool) | JInt (i : Z) | JFloat (bits : N) | JStr (s : bytes)
| JArr (l : list json) | JObj (m : list (bytes * json)).

Section Json.
  (** base64 0.13, serde_json's float printing followed by parsing, and its parsing of an integer
      outside 64 bits as a float: dependencies, left abstract. *)
  Variable b64_encode : bytes -> bytes.
  Variable b64_decode : bytes -> option bytes.
  Variable float_reread : N -> N.
  Variable int_as_float : Z -> N.

  (** [serialize], dag_json.rs l.42-69, followed by printing and parsing the text: bytes are written
      as an array of numbers, non-finite floats as null (serde_json's [serialize_bytes],
      [serialize_f64]). *)
  Fixpoint to_json (v : ipld) : json :=
    match v with
    | Null => JNull
    | IBool b => JBool b
    | Integer i =>
        if ((- 9223372036854775808 <=? i) && (i <? 18446744073709551616))%Z then JInt i
        else JFloat (int_as_float i)
    | Float f => if f64_finite f then JFloat (float_reread f) else JNull
    | Str s => JStr s
    | IBytes b => JArr (map (fun x => JInt (Z.of_N x)) b)
    | IList l => JArr (map to_json l)
    | IMap m => JObj (map (fun kv => (fst kv, to_json (snd kv))) m)
    | Link c => JObj [([47], JStr (b64_encode (cid_to_bytes c)))]
    end.

  Definition map_all {A} (f : A -> kres ipld) : list A -> kres (list ipld) :=
    fix go l := match l with
                | [] => Ok []
                | x :: r => kbind (f x) (fun v => kbind (go r) (fun vs => Ok (v :: vs)))
                end.

  (** [JSONVisitor], l.91-227.  [depth] is serde_json's [remaining_depth], 128 at the start: entering
      an array or object with one level remaining is an error.  [visit_map] turns the object with the
      single key "/" and a string value into a link, l.206-212. *)
  Fixpoint of_json (depth : nat) (j : json) : kres ipld :=
    match j with
    | JNull => Ok Null
    | JBool b => Ok (IBool b)
    | JInt i => Ok (Integer i)
    | JFloat f => Ok (Float f)
    | JStr s => Ok (Str s)
    | JArr l =>
        match depth with
        | O | S O => Err JsonErr
        | S d => kbind (map_all (of_json d) l) (fun vs => Ok (IList vs))
        end
    | JObj m =>
        match depth with
        | O | S O => Err JsonErr
        | S d =>
            kbind (map_all (fun kv => of_json d (snd kv)) m) (fun vs =>
              match m, vs with
              | [(k, _)], [Str s] =>
                  if beq k [47] then
                    match b64_decode s with
                    | None => Err JsonErr
                    | Some b => match cid_from_bytes b with Some c => Ok (Link c) | None => Err JsonErr end
                    end
                  else Ok (IMap (bt_of_list (combine (map fst m) vs)))
              | _, _ => Ok (IMap (bt_of_list (combine (map fst m) vs)))
              end)
        end
    end.

  (** [json_decode] of the text [json_encode] produced, l.30-40. *)
  Definition json_reread (v : ipld) : kres ipld := of_json 128 (to_json v).
End Json.
