(** What a configuration file and a PEM file say: specification for [Config]. *)
From Verif Require Import Base Text Wire Addr Json JsonSpec.
Local Open Scope N_scope.

(** ** Base64 (RFC 4648 section 4), by its alphabet *)
Definition alphabet : bytes :=
  map N.of_nat (seq 65 26) ++ map N.of_nat (seq 97 26) ++ map N.of_nat (seq 48 10) ++ [43; 47].
Definition stands_for (c v : N) : Prop := nth_error alphabet (N.to_nat v) = Some c.
Inductive base64_text : bytes -> bytes -> Prop :=
| b64_end : base64_text [] []
| b64_one x a b : stands_for a (x / 4) -> stands_for b (x mod 4 * 16) -> base64_text [x] [a; b; 61; 61]
| b64_two x y a b c :
    stands_for a (x / 4) -> stands_for b (x mod 4 * 16 + y / 16) -> stands_for c (y mod 16 * 4) ->
    base64_text [x; y] [a; b; c; 61]
| b64_three x y z a b c d l s :
    stands_for a (x / 4) -> stands_for b (x mod 4 * 16 + y / 16) -> stands_for c (y mod 16 * 4 + z / 64) ->
    stands_for d (z mod 64) -> base64_text l s -> base64_text (x :: y :: z :: l) (a :: b :: c :: d :: s).

(** ** PEM (RFC 7468) *)
(** A line and the newline after it, with or without a carriage return. *)
Definition line (l : bytes) : bytes := l ++ [10].
Definition line_text (l s : bytes) : Prop := s = l ++ [10] \/ s = l ++ [13; 10].
Definition begin_mark : bytes := [45; 45; 45; 45; 45; 66; 69; 71; 73; 78].
Definition end_mark : bytes := [45; 45; 45; 45; 45; 69; 78; 68].
(** The base64 of the data in lines between the two marks, which have the same label; anything may
    follow. *)
Definition pem_text (data pem : bytes) : Prop :=
  exists (label : bytes) (ls : list bytes) (b garbage first last : bytes) (mid : list bytes),
    Forall (fun c => 32 <= c < 128) label /\ base64_text data b /\ concat ls = b /\
    Forall (fun c => c < 128) garbage /\
    line_text (begin_mark ++ label) first /\ Forall2 line_text ls mid /\ line_text (end_mark ++ label) last /\
    pem = first ++ concat mid ++ last ++ garbage.

(** ** The key message of keys.proto *)
(** The fields as they are written: the type, the data and those of later versions, which are numbers or bytes. *)
Inductive key_part := KType (n : N) | KData (b : bytes) | KNumber (tag n : N) | KBytes (tag : N) (b : bytes).
Inductive part_text : key_part -> bytes -> Prop :=
| type_text n : n < 2147483648 -> part_text (KType n) (8 :: write_varint n)
| data_text b : blen b < u64_max1 -> part_text (KData b) (18 :: write_varint (blen b) ++ b)
| number_text tag n : 3 <= tag < 536870912 -> n < u64_max1 -> part_text (KNumber tag n) (write_varint (8 * tag) ++ write_varint n)
| bytes_text tag b : 3 <= tag < 536870912 -> blen b < u64_max1 -> part_text (KBytes tag b) (write_varint (8 * tag + 2) ++ write_varint (blen b) ++ b).
(** The last of the fields which say it; the type is 0 (RSA) and the data empty if none does. *)
Fixpoint last_type (d : N) (l : list key_part) : N := match l with [] => d | KType n :: l => last_type n l | _ :: l => last_type d l end.
Fixpoint last_data (d : bytes) (l : list key_part) : bytes := match l with [] => d | KData b :: l => last_data b l | _ :: l => last_data d l end.
Definition key_text (l : list key_part) (s : bytes) : Prop := exists ts, Forall2 part_text l ts /\ s = concat ts.

(** 127.0.0.1 *)
Definition own_host : N := 256 * (256 * (256 * 127 + 0) + 0) + 1.

(** ** The configuration file *)
(** The object has one member with this name. *)
Definition has_field (m : list (option bytes * jv)) (k : bytes) (v : jv) : Prop :=
  exists m1 m2, m = m1 ++ (Some k, v) :: m2 /\ forall x, In x (m1 ++ m2) -> fst x <> Some k.
(** An object with these two fields, or an array of the two values. *)
Inductive record_of (k1 k2 : bytes) : jv -> jv -> jv -> Prop :=
| as_object m v1 v2 :
    (forall x, In x m -> fst x <> None) -> has_field m k1 v1 -> has_field m k2 v2 -> record_of k1 k2 (JObj m) v1 v2
| as_array v1 v2 : record_of k1 k2 (JArr [v1; v2]) v1 v2.
(** "Identity", "Addresses", "PeerID", "PrivKey", "Swarm", "API". *)
Definition n_identity : bytes := [73; 100; 101; 110; 116; 105; 116; 121].
Definition n_addresses : bytes := [65; 100; 100; 114; 101; 115; 115; 101; 115].
Definition n_peer_id : bytes := [80; 101; 101; 114; 73; 68].
Definition n_priv_key : bytes := [80; 114; 105; 118; 75; 101; 121].
Definition n_swarm : bytes := [83; 119; 97; 114; 109].
Definition n_api : bytes := [65; 80; 73].
Definition says (addr_parse : bytes -> option multiaddr) (s peer priv : bytes) (swarm : list multiaddr) (api : multiaddr) : Prop :=
  exists doc i a sw api_text,
    document_text doc s /\ record_of n_identity n_addresses doc i a /\
    record_of n_peer_id n_priv_key i (JStr (Some peer)) (JStr (Some priv)) /\
    record_of n_swarm n_api a (JArr (map (fun t => JStr (Some t)) sw)) (JStr (Some api_text)) /\
    Forall2 (fun t x => addr_parse t = Some x) sw swarm /\ addr_parse api_text = Some api.
