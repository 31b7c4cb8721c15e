(** What the /block endpoints are to do: specification for [HttpBlock]. *)
From Verif Require Import Base Wire Cid Text RefsHttp RefsHttpSpec HttpBlock.
Local Open Scope N_scope.

(** The form holds [data]: its last part, and only that, has one of the names, and everything can be
    read.  How the parts are cut into pieces does not matter. *)
Definition holds (names : list bytes) (limit : N) (m : form) (data : bytes) : Prop :=
  exists before f, m_fields m = before ++ [f] /\ m_fails m = false /\
    (exists n, f_name f = Some n /\ In n names) /\ f_fails f = false /\ concat (f_pieces f) = data /\ blen data <= limit /\
    forall g, In g before -> (exists n, f_name g = Some n /\ ~ In n names) /\ f_fails g = false /\ ~ In [] (f_pieces g).

(** A number without a sign or with a plus sign. *)
Definition unsigned (v : bytes) (n : N) : Prop := decimal v n \/ exists r, v = 43 :: r /\ decimal r n.
(** An option which may be left out. *)
Definition chosen (k default : bytes) (query : list (bytes * bytes)) (v : bytes) : Prop :=
  (values k query = [] /\ v = default) \/ values k query = [v].
(** "dag-pb", "dag-cbor", "dag-json", "raw" with their codes in the multicodec table. *)
Definition codecs : list (bytes * N) :=
  [([100; 97; 103; 45; 112; 98], 112); ([100; 97; 103; 45; 99; 98; 111; 114], 113); ([100; 97; 103; 45; 106; 115; 111; 110], 297); ([114; 97; 119], 85)].

Section Names.
  Variable sha256 sha512 sha3 : bytes -> bytes.
  (** "sha2-256", "sha2-512", "sha3-512" with their codes and functions. *)
  Definition hashes : list (bytes * N * (bytes -> bytes)) :=
    [([115; 104; 97; 50; 45; 50; 53; 54], 18, sha256); ([115; 104; 97; 50; 45; 53; 49; 50], 19, sha512); ([115; 104; 97; 51; 45; 53; 49; 50], 20, sha3)].
  (** The cid a query of /block/put asks for: version 0 by default, and then only for the default
      codec and hash. *)
  Definition put_cid (query : list (bytes * bytes)) (data : bytes) (c : cid) : Prop :=
    exists format mhtype codec code hash,
      chosen k_format n_dagpb query format /\ In (format, codec) codecs /\
      chosen k_mhtype n_sha2_256 query mhtype /\ In (mhtype, code, hash) (firstn 2 hashes) /\
      ((exists v, values k_version query = [v] /\ unsigned v 1 /\
          c = CidV1 codec {| mh_code := code; mh_digest := hash data |}) \/
       ((values k_version query = [] \/ exists v, values k_version query = [v] /\ unsigned v 0) /\
          codec = 112 /\ code = 18 /\ c = CidV0 (sha256 data))).
  (** The cid a query of /dag/put asks for: version 0 for dag-pb with sha2-256. *)
  Definition dag_cid (query : list (bytes * bytes)) (data : bytes) (c : cid) : Prop :=
    values k_enc query = [n_raw] /\
    exists format name codec code hash,
      chosen k_format n_dagcbor query format /\ In (format, codec) codecs /\
      chosen k_hash n_sha2_256 query name /\ In (name, code, hash) hashes /\
      c = if (codec =? 112) && (code =? 18) then CidV0 (hash data) else CidV1 codec {| mh_code := code; mh_digest := hash data |}.
End Names.

(** Reading the lines of /block/rm: an object with the string fields "Error" and "Hash". *)
Definition read_rm_line (s : bytes) : option (bytes * bytes) :=
  match expect [123; 34; 69; 114; 114; 111; 114; 34; 58; 34] s with
  | None => None
  | Some s =>
      match read_string s with
      | None => None
      | Some (a, s) =>
          match expect [44; 34; 72; 97; 115; 104; 34; 58; 34] s with
          | None => None
          | Some s =>
              match read_string s with
              | Some (b, [125]) => Some (a, b)
              | _ => None
              end
          end
      end
  end.
Fixpoint read_rm_lines (l : list bytes) : option (list (bytes * bytes)) :=
  match l with
  | [] => Some []
  | x :: l => match read_rm_line x, read_rm_lines l with Some x, Some l => Some (x :: l) | _, _ => None end
  end.
Definition read_rm_body (s : bytes) : option (list (bytes * bytes)) :=
  match lines s with Some l => read_rm_lines l | None => None end.
