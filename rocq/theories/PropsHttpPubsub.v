(** C68: the texts of /pubsub. *)
From Verif Require Import Base FMap Wire Pubsub PubsubSpec PubsubProofs PropsPubsub RefsHttp RefsHttpSpec RefsHttpProofs HttpPins HttpPinsSpec HttpPinsProofs HttpBlock HttpBlockSpec HttpBlockProofs
  HttpAdd HttpAddSpec HttpAddProofs HttpPubsub HttpPubsubSpec HttpPubsubProofs.
Local Open Scope N_scope.

Definition unreadable (c : content) : bool := match c with CUnreadable => true | _ => false end.
Definition bounded (c : content) : bool := match c with CBoundary => true | _ => false end.
Definition no_form : form := mk_form [] false.

(** A client that reads the body of a /pubsub/sub response line by line, parses each and undoes the
    base64 gets the source, the data, the sequence number and the topics of every message, in order:
    whatever bytes they hold, no message is split, merged or changed. *)
Theorem c68_sub : forall (source : peer -> bytes) (topic_text : topic -> bytes) (l : list msg),
  (forall p, wf_bytes (source p)) -> Forall (fun m => wf_bytes (m_data m) /\ wf_bytes (m_seq m)) l ->
  read_sub_body (sub_body source topic_text l) = Some (map (fun m => (source (m_source m), m_data m, m_seq m, map topic_text (m_topics m))) l).
Proof.
  intros source topic_text l Hs W. unfold sub_body.
  pose (L := map (fun m => (source (m_source m), m_data m, m_seq m, map topic_text (m_topics m))) l).
  assert (E : map (line_of source topic_text) l = map (fun x => match x with (from, data, seqno, topics) => preformat from data seqno topics end) L) by (unfold L; rewrite map_map; reflexivity).
  rewrite E. apply read_sub_ok. unfold L. rewrite Forall_map. eapply Forall_impl; [|exact W]. intros m (W1 & W2). auto.
Qed.
Print Assumptions c68_sub.
(** A message with a newline, a quote and a byte that is not ASCII; one without data. *)
Definition m_odd : msg := mk_msg 1 [10; 34; 255; 0] [0; 7] [5; 6].
Definition m_void : msg := mk_msg 2 [] [1] [5].
Example c68_sub_case :
  read_sub_body (sub_body (fun p => [18; p]) (fun t => [10; t]) [m_odd; m_void]) = Some [([18; 1], [10; 34; 255; 0], [0; 7], [[10; 5]; [10; 6]]); ([18; 2], [], [1], [[10; 5]])] /\
  Forall (fun m => wf_bytes (m_data m) /\ wf_bytes (m_seq m)) [m_odd; m_void].
Proof. split; [vm_compute; reflexivity|]. repeat constructor. Qed.

(** So two different sequences of messages never look the same. *)
Theorem c68_sub_injective : forall (source : peer -> bytes) (topic_text : topic -> bytes) (l l' : list msg),
  (forall p, wf_bytes (source p)) -> (forall p q, source p = source q -> p = q) -> (forall t u, topic_text t = topic_text u -> t = u) ->
  Forall (fun m => wf_bytes (m_data m) /\ wf_bytes (m_seq m)) l -> Forall (fun m => wf_bytes (m_data m) /\ wf_bytes (m_seq m)) l' ->
  sub_body source topic_text l = sub_body source topic_text l' -> l = l'.
Proof.
  intros source topic_text l l' Hs Is It W W' E. pose proof (c68_sub source topic_text l Hs W) as R. rewrite E, (c68_sub source topic_text l' Hs W') in R. injection R as R. clear -Is It R. revert l R. induction l' as [|m' l' IH]; intros [|m l] R; try discriminate; [reflexivity|].
  cbn [map] in R. injection R as E1 E2 E3 E4 R. rewrite (IH l R). f_equal. destruct m as [p d q ts], m' as [p' d' q' ts']. cbn [m_source m_data m_seq m_topics] in *. apply Is in E1. subst. f_equal. clear -It E4. revert ts E4. induction ts' as [|t' ts' IH]; intros [|t ts] E; try discriminate; [reflexivity|]. cbn [map] in E. injection E as E1 E2. apply It in E1. subst. f_equal. apply IH. exact E2.
Qed.
Print Assumptions c68_sub_injective.
Example c68_sub_injective_case : sub_body (fun p => [18; p mod 256]) (fun t => [t]) [m_odd; m_void] <> sub_body (fun p => [18; p mod 256]) (fun t => [t]) [m_void; m_odd].
Proof. vm_compute. discriminate. Qed.

(** /pubsub/ls lists the topics the node is subscribed to, each once. *)
Theorem c68_ls : forall (topic_text : topic -> bytes) h s tr, run pubsub0 h = Some (s, tr) ->
  exists ts, read_list (ls_reply topic_text s) = Some (map topic_text ts) /\ NoDup ts /\
    forall t s' a, step s (OSubscribe t) = Some (s', a) -> (In t ts <-> a = ASubscribed None).
Proof.
  intros topic_text h s tr H. exists (subscribed_topics s). split; [apply read_list_ok|]. split; [exact (i_nodup _ (t_inv _ _ (traced_of _ _ _ H)))|]. intros t s' a E. symmetry. exact (proj1 (c44_one_per_topic h s tr t s' a H E)).
Qed.
Print Assumptions c68_ls.
Example c68_ls_case : exists s tr, run pubsub0 [OSubscribe 5; OSubscribe 6; OUnsubscribe 5; OSubscribe 7] = Some (s, tr) /\ exists l, read_list (ls_reply (fun t => [t; 34]) s) = Some l /\ length l = 2%nat.
Proof. eexists _, _. split; [vm_compute; reflexivity|]. eexists. split; vm_compute; reflexivity. Qed.

(** A text that is written into a query as clients do comes out of the parser unchanged. *)
Lemma form_written lossy v t : (forall b, utf8 b = true -> lossy b = b) -> written v t -> utf8 t = true -> form_args lossy (Some (n_arg ++ 61 :: v)) = [t].
Proof.
  intros L W U. pose proof (written_no 38 _ _ W ltac:(auto)) as H1. pose proof (written_no 43 _ _ W ltac:(auto)) as H2.
  unfold form_args, form_query. rewrite (proj2 (raw_query_spec _ [(n_arg, v)])) by (apply query_last, arg_pair, H1). cbn [map fst snd]. unfold form_decode. rewrite (spaces_none v H2), (proj1 (decode_spec v t)) by (apply written_decodes; exact W). rewrite (L t U).
  replace (percent_decode (spaces n_arg)) with n_arg by reflexivity. rewrite (L n_arg) by reflexivity. reflexivity.
Qed.

(** /pubsub/peers lists the peers that floodsub said are subscribed, each once: without an argument
    to any topic, with one to that topic. *)
Theorem c68_peers : forall (lossy : bytes -> bytes) (peer_text : peer -> bytes) (topic_of : bytes -> option topic) h s tr query asked,
  (forall b, utf8 b = true -> lossy b = b) -> run pubsub0 h = Some (s, tr) ->
  (query = None /\ asked = None \/ exists v t, query = Some (n_arg ++ 61 :: v) /\ written v t /\ utf8 t = true /\ asked = Some t) ->
  exists es body ps, floods h = es ++ backlog s /\ peers_reply lossy peer_text topic_of query s = Some body /\
    read_list body = Some (map peer_text ps) /\ NoDup ps /\
    forall p, In p ps <-> match asked with None => exists t, said p t es = true | Some name => exists t, topic_of name = Some t /\ said p t es = true end.
Proof.
  intros lossy peer_text topic_of h s tr query asked L H Q. destruct (c60_peers h s tr H) as (es & E & P1 & P2 & _ & N1 & N2). exists es. destruct Q as [[-> ->]|(v & t & -> & W & U & ->)].
  - eexists _, (known_peers s). split; [exact E|]. split; [reflexivity|]. split; [apply read_list_ok|]. split; [exact N1|]. exact P2.
  - unfold peers_reply, optional_topic. rewrite (form_written lossy v t L W U). destruct (topic_of t) as [u|].
    + eexists _, (subscribed_peers u s). split; [exact E|]. split; [reflexivity|]. split; [apply read_list_ok|]. split; [apply N2|]. intros p. rewrite P1. split; [intros X; exists u; auto|intros (u' & [= <-] & X); exact X].
    + eexists _, []. split; [exact E|]. split; [reflexivity|]. split; [apply (read_list_ok [])|]. split; [constructor|]. intros p. split; [intros []|intros (u & [=] & _)].
Qed.
Print Assumptions c68_peers.
Example c68_peers_case : exists s tr, run pubsub0 [OFlood (FSubscribed 1 5); OFlood (FSubscribed 2 5); OFlood (FSubscribed 2 6); OFlood (FUnsubscribed 1 5); OPoll] = Some (s, tr) /\
  peers_reply (fun b => b) (fun p => [48 + p]) (fun b => match b with [97; 32] => Some 6 | _ => None end) (Some (n_arg ++ 61 :: [97; 37; 50; 48])) s = Some (strings_json [[50]]) /\ written [97; 37; 50; 48] [97; 32].
Proof.
  eexists _, _. split; [vm_compute; reflexivity|]. split; [vm_compute; reflexivity|]. apply written_byte; try discriminate. apply (written_hex 50 48 2 0); [apply (hex_09 2); lia|apply (hex_09 0); lia|constructor].
Qed.

(** A request of /pubsub/pub publishes a message exactly if it asks for it; the handler never panics. *)
Theorem c68_publish : forall q c f topic data,
  publish (Some q) c f = Publish topic data <-> asks_publish q (unreadable c) (bounded c) f topic data.
Proof.
  intros q c f topic data. assert (Q : query_is q (raw_query q)) by (apply raw_query_spec; reflexivity). pose proof (args_of_spec _ _ Q) as A.
  assert (M : forall l, query_is q l -> l = raw_query q) by (intros l X; apply raw_query_spec in X; symmetry; exact X).
  assert (P : publish (Some q) c f = match args_of q with [] => NoTopic | first :: rest => if utf8 (percent_decode first) then match rest with second :: _ => match c with CUnreadable => BadContentType | _ => Publish (percent_decode first) (percent_decode second) end | [] => publish_body (percent_decode first) c f end else BadTopic end).
  { destruct q; reflexivity. }
  rewrite P. clear P. split.
  - destruct (args_of q) as [|first rest] eqn:Ea; [discriminate|]. destruct (utf8 (percent_decode first)) eqn:U; [|discriminate]. intros E. exists (raw_query q), first, rest. split; [exact Q|]. split; [congruence|].
    assert (Ht : topic = percent_decode first). { destruct rest; [|destruct c; congruence]. unfold publish_body in E. destruct c; try discriminate. destruct (only_named _ _ f) as [[|]|[]|]; congruence. }
    subst topic. split; [apply decode_spec; reflexivity|]. split; [exact U|]. destruct rest as [|second rest].
    + unfold publish_body in E. destruct c; try discriminate. split; [reflexivity|]. split; [reflexivity|]. destruct (only_named _ _ f) as [[|x b]|[]|] eqn:Eo; try discriminate. injection E as <-. split; [apply only_named_spec; exact Eo|discriminate].
    + destruct c; try discriminate; injection E as <-; (split; [reflexivity|]; apply decode_spec; reflexivity).
  - intros (l & first & rest & X & El & D & U & C & R). apply M in X. subst l. rewrite A, El. apply decode_spec in D. rewrite D, U. destruct rest as [|second rest].
    + destruct R as (B & H & Hd). destruct c; try discriminate. unfold publish_body. apply only_named_spec in H. change [[102; 105; 108; 101]] with [n_file] in H. change (1024 * 100) with 102400. rewrite H. destruct data; [contradiction|reflexivity].
    + apply decode_spec in R. rewrite R. destruct c; try discriminate; reflexivity.
Qed.
Print Assumptions c68_publish.
Theorem c68_publish_no_panic : forall q c f, publish q c f <> PublishCrash.
Proof.
  intros [q|] c f; [|discriminate]. unfold publish. destruct q as [|x q]; [discriminate|]. destruct (args_of (x :: q)) as [|first rest]; [discriminate|]. cbv zeta. destruct (utf8 _); [|discriminate]. destruct rest; [|destruct c; discriminate]. unfold publish_body. destruct c; try discriminate. pose proof (only_named_no_panic [n_file] (1024 * 100) f) as H. destruct (only_named _ _ f) as [[|]|[]|]; try discriminate. contradiction.
Qed.
Print Assumptions c68_publish_no_panic.
(** "arg=a&x&arg=%0A", and "arg=a" with a form. *)
Example c68_publish_case :
  publish (Some [97; 114; 103; 61; 97; 38; 120; 38; 97; 114; 103; 61; 37; 48; 65]) CMissing no_form = Publish [97] [10] /\
  publish (Some [97; 114; 103; 61; 97]) CBoundary (mk_form [mk_field (Some n_file) [[1; 2]; [3]] false] false) = Publish [97] [1; 2; 3] /\
  publish (Some [97; 114; 103; 61; 97]) CMissing no_form = NoContentType /\ publish None CMissing no_form = NoQuery /\
  publish (Some [97; 114; 103; 61; 37; 70; 70]) CBoundary no_form = BadTopic.
Proof. vm_compute. auto. Qed.

(** However a client writes a topic and a message into the query, that message is published to that
    topic; and a client that writes the topic into a query of /pubsub/sub or /pubsub/peers, in
    whatever way, means the same one. *)
Theorem c68_written : forall lossy vt topic vm message vt' c f,
  (forall b, utf8 b = true -> lossy b = b) -> written vt topic -> utf8 topic = true -> written vm message -> written vt' topic -> c <> CUnreadable ->
  publish (Some (n_arg ++ 61 :: vt ++ 38 :: n_arg ++ 61 :: vm)) c f = Publish topic message /\
  topic_parameter lossy (Some (n_arg ++ 61 :: vt')) = Some topic /\
  optional_topic lossy (Some (n_arg ++ 61 :: vt')) = Some (Some topic).
Proof.
  intros lossy vt topic vm message vt' c f L W1 U W2 W3 Hc. split.
  - apply c68_publish. exists [(n_arg, vt); (n_arg, vm)], vt, [vm]. split; [|split; [reflexivity|]].
    + replace (n_arg ++ 61 :: vt ++ 38 :: n_arg ++ 61 :: vm) with ((n_arg ++ 61 :: vt) ++ 38 :: n_arg ++ 61 :: vm) by (rewrite <- app_assoc; reflexivity). apply query_more; [apply arg_pair, (written_no 38 _ _ W1); auto|]. apply query_last, arg_pair, (written_no 38 _ _ W2). auto.
    + split; [apply written_decodes; exact W1|]. split; [exact U|]. split; [destruct c; (reflexivity || contradiction)|]. apply written_decodes. exact W2.
  - unfold topic_parameter, optional_topic. rewrite (form_written lossy vt' topic L W3 U). auto.
Qed.
Print Assumptions c68_written.
(** The topic "a&" written as "a%26", and as "%61%26"; the message is "+" and a byte that is not text. *)
Example c68_written_case : written [97; 37; 50; 54] [97; 38] /\ written [37; 54; 49; 37; 50; 54] [97; 38] /\ written [37; 50; 66; 37; 102; 102] [43; 255] /\
  publish (Some (n_arg ++ 61 :: [97; 37; 50; 54] ++ 38 :: n_arg ++ 61 :: [37; 50; 66; 37; 102; 102])) CMissing no_form = Publish [97; 38] [43; 255] /\
  topic_parameter (fun b => b) (Some (n_arg ++ 61 :: [37; 54; 49; 37; 50; 54])) = Some [97; 38].
Proof.
  assert (H26 : written [37; 50; 54] [38]) by (apply (written_hex 50 54 2 6); [apply (hex_09 2); lia|apply (hex_09 6); lia|constructor]).
  split; [apply written_byte; [discriminate|discriminate|discriminate|exact H26]|]. split; [apply (written_hex 54 49 6 1); [apply (hex_09 6); lia|apply (hex_09 1); lia|exact H26]|]. split; [|vm_compute; auto].
  apply (written_hex 50 66 2 11); [apply (hex_09 2); lia|apply (hex_AF 11); lia|]. apply (written_hex 102 102 15 15); [apply (hex_af 15); lia|apply (hex_af 15); lia|constructor].
Qed.

(** A topic that is given twice is refused: neither endpoint picks one of them. *)
Theorem c68_twice : forall lossy s l,
  (forall b, utf8 b = true -> lossy b = b) -> query_is s l -> (2 <= length (arg_values l))%nat ->
  topic_parameter lossy (Some s) = None /\ optional_topic lossy (Some s) = None.
Proof.
  intros lossy s l L Q H. apply raw_query_spec in Q.
  assert (K : (length (args_of s) <= length (form_args lossy (Some s)))%nat).
  { unfold form_args, form_query, args_of. generalize (raw_query s). clear s l Q H. intros l. rewrite !map_length.
    assert (A : form_decode lossy n_arg = n_arg) by (unfold form_decode; apply L; reflexivity).
    induction l as [|[k v] l IH]; [cbn; lia|]. cbn [filter map fst snd].
    destruct (beq k n_arg) eqn:E.
    - apply beq_eq in E. subst k. rewrite A. replace (beq n_arg n_arg) with true by reflexivity. cbn [length]. lia.
    - destruct (beq (form_decode lossy k) n_arg); cbn [length]; lia. }
  rewrite (args_of_spec s l) in K by (apply raw_query_spec; exact Q).
  unfold topic_parameter, optional_topic. destruct (form_args lossy (Some s)) as [|? [|? ?]]; cbn in K; try lia; auto.
Qed.
Print Assumptions c68_twice.
(** "arg=a&arg=b" *)
Example c68_twice_case : query_is [97; 114; 103; 61; 97; 38; 97; 114; 103; 61; 98] [(n_arg, [97]); (n_arg, [98])] /\
  arg_values [(n_arg, [97]); (n_arg, [98])] = [[97]; [98]].
Proof. split; [apply raw_query_spec; reflexivity|reflexivity]. Qed.

(** FINDING.  The endpoints do not read the same query the same way.  '+' is a space for /pubsub/sub
    and /pubsub/peers but itself for /pubsub/pub: a client that writes "a b" as "a+b", as forms do,
    listens to one topic and publishes to another. *)
Theorem c68_plus_refuted : exists query,
  topic_parameter (fun b => b) (Some query) = Some [97; 32; 98] /\
  publish (Some (query ++ 38 :: n_arg ++ [61; 120])) CMissing no_form = Publish [97; 43; 98] [120].
Proof. exists (n_arg ++ [61; 97; 43; 98]). vm_compute. auto. Qed.
Print Assumptions c68_plus_refuted.
(** The name of the parameter may be encoded for the former, not for the latter: "%61rg=a". *)
Theorem c68_name_refuted : exists query,
  topic_parameter (fun b => b) (Some query) = Some [97] /\ publish (Some (query ++ 38 :: query)) CMissing no_form = NoTopic.
Proof. exists [37; 54; 49; 114; 103; 61; 97]. vm_compute. auto. Qed.
Print Assumptions c68_name_refuted.
(** An empty message is published when it comes in the query, and refused as missing when it comes in
    the form. *)
Theorem c68_empty_refuted : exists query,
  publish (Some (query ++ 38 :: n_arg ++ [61])) CMissing no_form = Publish [97] [] /\
  publish (Some query) CBoundary (mk_form [mk_field (Some n_file) [] false] false) = NoData.
Proof. exists (n_arg ++ [61; 97]). vm_compute. auto. Qed.
Print Assumptions c68_empty_refuted.
