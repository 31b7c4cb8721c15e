(** The texts of /pubsub: http/src/v0/pubsub.rs l.43-98 and l.294-500.  Definitions only.

    Peers and topics are numbers in [Pubsub]; [source] are the bytes of a peer id, [peer_text] its
    text and [topic_text] the text of a topic.  The form parser is the one of [HttpBlock]. *)
From Verif Require Import Base Wire Pubsub RefsHttp HttpPins HttpBlock HttpAdd.
Local Open Scope N_scope.

(** * Lines of /pubsub/sub *)

(** [multibase::Base::Base64Pad.encode]: without the prefix of multibase. *)
Definition b64_digit (v : N) : N :=
  if v <? 26 then 65 + v else if v <? 52 then 71 + v else if v <? 62 then v - 4 else if v =? 62 then 43 else 47.
Fixpoint base64 (s : bytes) : bytes :=
  match s with
  | [] => []
  | [a] => [b64_digit (a / 4); b64_digit (a mod 4 * 16); 61; 61]
  | [a; b] => [b64_digit (a / 4); b64_digit (a mod 4 * 16 + b / 16); b64_digit (b mod 16 * 4); 61]
  | a :: b :: c :: r =>
      b64_digit (a / 4) :: b64_digit (a mod 4 * 16 + b / 16) :: b64_digit (b mod 16 * 4 + c / 64) :: b64_digit (c mod 64) :: base64 r
  end.
Definition k_from : bytes := [102; 114; 111; 109].
Definition k_data : bytes := [100; 97; 116; 97].
Definition k_seqno : bytes := [115; 101; 113; 110; 111].
Definition k_topics : bytes := [116; 111; 112; 105; 99; 73; 68; 115].
(** l.297-330 [PubsubHttpApiMessage] and l.350-365 [preformat]; serializing strings does not fail. *)
Definition preformat (from data seqno : bytes) (topics : list bytes) : bytes :=
  123 :: json_string k_from ++ 58 :: json_string (base64 from) ++ 44 :: json_string k_data ++ 58 :: json_string (base64 data) ++
  44 :: json_string k_seqno ++ 58 :: json_string (base64 seqno) ++ 44 :: json_string k_topics ++ 58 :: 91 :: json_strings topics ++ [125; 10].

(** * Lists *)
Definition k_strings : bytes := [83; 116; 114; 105; 110; 103; 115].
(** l.381-386 [StringListResponse]. *)
Definition strings_json (l : list bytes) : bytes := 123 :: json_string k_strings ++ 58 :: 91 :: json_strings l ++ [125].

(** * Queries *)

(** [slice::splitn(2, ..)]: the part before the first separator and the part after it. *)
Fixpoint cut (c : N) (s : bytes) : bytes * bytes :=
  match s with
  | [] => ([], [])
  | x :: r => if x =? c then ([], r) else let (a, b) := cut c r in (x :: a, b)
  end.
(** l.477-507 [QueryAsRawPartsParser], until it is exhausted. *)
Fixpoint raw_parts (fuel : nat) (s : bytes) : list (bytes * bytes) :=
  match fuel with
  | O => []
  | S fuel =>
      match s with
      | [] => []
      | _ =>
          let (sequence, rest) := cut 38 s in
          match sequence with
          | [] => raw_parts fuel rest
          | _ => cut 61 sequence :: raw_parts fuel rest
          end
      end
  end.
Definition raw_query (s : bytes) : list (bytes * bytes) := raw_parts (length s) s.
Definition n_arg : bytes := [97; 114; 103].
Definition args_of (s : bytes) : list bytes := map snd (filter (fun kv => beq (fst kv) n_arg) (raw_query s)).

(** What becomes of a /pubsub/pub request: the node publishes, or the request is refused: no query,
    no topic, a topic that is not UTF-8, a content type that cannot be read, none at all, no boundary, an unusable form, no data. *)
Inductive publication :=
| Publish (topic data : bytes)
| NoQuery | NoTopic | BadTopic | BadContentType | NoContentType | NoBoundary | BadForm (e : form_err) | NoData | PublishCrash.
(** l.446-474 [publish_args_inner]: [content_type] says whether there is a content type that can
    be read, and whether it has a boundary. *)
Inductive content := CMissing | CUnreadable | CPlain | CBoundary.
Definition publish_body (topic : bytes) (content_type : content) (f : form) : publication :=
  match content_type with
  | CUnreadable => BadContentType        (* l.441, before it is called *)
  | CMissing => NoContentType
  | CPlain => NoBoundary
  | CBoundary =>
      match only_named [n_file] (1024 * 100) f with
      | Ok [] => NoData
      | Ok buffer => Publish topic buffer
      | Err FieldNotFound => NoData
      | Err e => BadForm e
      | Panic => PublishCrash
      end
  end.
(** l.395-444 [publish_args], and l.90-98. *)
Definition publish (query : option bytes) (content_type : content) (f : form) : publication :=
  match query with
  | None => NoQuery
  | Some [] => NoTopic
  | Some s =>
      match args_of s with
      | [] => NoTopic
      | first :: rest =>
          let topic := percent_decode first in
          if utf8 topic then
            match rest with
            | second :: _ => match content_type with CUnreadable => BadContentType | _ => Publish topic (percent_decode second) end
            | [] => publish_body topic content_type f
            end
          else BadTopic
      end
  end.

(** [warp::query] with serde_urlencoded, for /pubsub/sub and /pubsub/peers: form_urlencoded::parse
    takes '+' for a space, decodes names and values, and replaces what is not UTF-8.  A field given
    twice is an error; others are ignored. *)
Section Form.
  Variable lossy : bytes -> bytes.        (* [String::from_utf8_lossy] *)
  Definition spaces (s : bytes) : bytes := map (fun c => if c =? 43 then 32 else c) s.
  Definition form_decode (s : bytes) : bytes := lossy (percent_decode (spaces s)).
  Definition form_query (s : bytes) : list (bytes * bytes) := map (fun kv => (form_decode (fst kv), form_decode (snd kv))) (raw_query s).
  Definition form_args (query : option bytes) : list bytes :=
    map snd (filter (fun kv => beq (fst kv) n_arg) (form_query (match query with Some s => s | None => [] end))).
  (** l.367-372 [TopicParameter]; [None] is a refusal. *)
  Definition topic_parameter (query : option bytes) : option bytes :=
    match form_args query with [t] => Some t | _ => None end.
  (** l.374-379 [OptionalTopicParameter]. *)
  Definition optional_topic (query : option bytes) : option (option bytes) :=
    match form_args query with [] => Some None | [t] => Some (Some t) | _ => None end.

  Variable source peer_text : peer -> bytes.
  Variable topic_text : topic -> bytes.
  (** l.43-63 [inner_peers]: [None] is a refusal.  A topic the node has never heard of has no
      number. *)
  Definition peers_reply (topic_of : bytes -> option topic) (query : option bytes) (s : pubsub) : option bytes :=
    match optional_topic query with
    | None => None
    | Some None => Some (strings_json (map peer_text (known_peers s)))
    | Some (Some t) =>
        Some (strings_json (match topic_of t with Some t => map peer_text (subscribed_peers t s) | None => [] end))
    end.
  (** l.72-79 [inner_ls]. *)
  Definition ls_reply (s : pubsub) : bytes := strings_json (map topic_text (subscribed_topics s)).
  (** What is written for a message, and the body of a response that has given these messages. *)
  Definition line_of (m : msg) : bytes := preformat (source (m_source m)) (m_data m) (m_seq m) (map topic_text (m_topics m)).
  Definition sub_body (l : list msg) : bytes := concat (map line_of l).
End Form.
