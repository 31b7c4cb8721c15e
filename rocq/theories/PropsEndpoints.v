(** C73: what the endpoints about the node tell. *)
From Coq Require Import Ascii String.
From Verif Require Import Base Wire BTree Cid Text TextProofs Addr PropsAddr Resolve RefsHttp RefsHttpSpec HttpOptions HttpOptionsProofs HttpPubsub HttpBlockSpec Str Json JsonSpec
  ConfigSpec ConfigProofs Routes Endpoints EndpointsSpec EndpointsProofs.
Local Open Scope N_scope.

Section C73.
  Variable duration : bytes -> bool.
  Variable other_base : N -> bytes -> option bytes.
  Variable addr_text : multiaddr -> bytes.
  Variable addr_parse : bytes -> told multiaddr.
  Variable addr_error_text : addr_error -> bytes.
  Variable pkg_version commit : bytes.
  Hypothesis addr_utf8 : forall a, utf8 (addr_text a) = true.
  Hypothesis version_utf8 : utf8 pkg_version = true.
  Hypothesis commit_utf8 : utf8 commit = true.

  Local Ltac links := repeat (apply Forall2_cons; [first [apply link_any | apply link_bool | apply link_peer | apply link_cid | apply link_usize | apply link_reads]|]); apply Forall2_nil.
  Local Ltac names := repeat (apply NoDup_cons; [intros X; vm_compute in X; repeat (destruct X as [X|X]; [discriminate X|]); exact X|]); apply NoDup_nil.
  Local Ltac open t F Q E := apply query_answers; [links|names|]; intros t F Q E.

  Lemma fits_cons n b (P : bytes -> Prop) ss q : fits ((n, b, P) :: ss) q -> ((values (text n) q = [] /\ b = false) \/ exists v, values (text n) q = [v] /\ P v) /\ fits ss q.
  Proof. intros H. inversion_clear H. split; assumption. Qed.

  (** ** version *)
  Theorem c73_version q (r := version pkg_version commit q) :
    answers [("number", false, yes_or_no); ("commit", false, yes_or_no); ("repo", false, yes_or_no); ("all", false, yes_or_no)]%string q r
      (shows r (TMap [(text "Version", TText pkg_version); (text "Commit", TText commit); (text "Repo", TText []);
                      (text "ipfs-http-client", TText []); (text "interface-ipfs-core", TText [])])).
  Proof.
    subst r. unfold version. open t F Q E. rewrite E. apply json_shows, good_map.
    repeat (constructor; [split; [reflexivity|first [exact version_utf8 | exact commit_utf8 | reflexivity]]|]). constructor.
  Qed.

  (** ** id *)
  Theorem c73_id node q (r := identity addr_text node q) : (forall p k l, node = inl (p, k, l) -> wf_bytes k) ->
    answers [("arg", false, anything); ("format", false, anything)]%string q r
      match value_of "arg" q with
      | None => relays node r (fun x => let '(p, key, addrs) := x in exists key_text, base64_text key key_text /\
          shows r (TMap [(text "ID", TText (peer_to_text p)); (text "PublicKey", TText key_text);
                         (text "Addresses", TList (map (fun a => TText (addr_text a)) addrs));
                         (text "AgentVersion", TText (text "rust-ipfs/0.1.0")); (text "ProtocolVersion", TText (text "ipfs/0.1.0"))]))
      | Some a => (peer_named a -> refuses r NotImplemented) /\ (~ peer_named a -> refuses r InvalidPeerId)
      end.
  Proof.
    intros W. subst r. unfold identity. open t F Q E. rewrite E. clear E.
    pose proof (Q _ (or_introl eq_refl)) as A. cbn [p_name optional] in A. change (text "arg") with k_arg in A. unfold value_of. change (text "arg") with k_arg. rewrite A.
    destruct (hd_error (values k_arg q)) as [a|].
    - unfold peer_named. destruct (peer_from_text a) as [p|]; split; intros X; try reflexivity; [destruct X; exists p; reflexivity|destruct X as [p X]; discriminate X].
    - destruct node as [[[p key] l]|e]; [|reflexivity]. cbn [relays or_error]. specialize (W _ _ _ eq_refl). exists (base64 key). pose proof (base64_encode_text key W) as B. split; [exact B|].
      unfold texts. rewrite map_map. apply json_shows, good_map.
      repeat (constructor; [split; [reflexivity|]|]); [apply peer_utf8| | |reflexivity|reflexivity|constructor].
      + apply FsPathsProofs.utf8_ascii. destruct (base64_text_decode key _ W B) as [_ G]. eapply Forall_impl; [|exact G]. cbv beta. tauto.
      + apply good_items. exact addr_utf8.
  Qed.

  (** ** swarm/connect and swarm/disconnect: the address and the peer it ends with are asked for *)
  Definition asks_for (node : with_peer -> told unit) (r : reply) (a : bytes) : Prop :=
    (forall e, addr_parse a = inr e -> refuses r (StringError e)) /\
    (forall l h, addr_parse a = inl (l ++ [PP2p h]) -> (forall h', ~ In (PP2p h') l) -> ~ In PCircuit l -> valid_peer h = true ->
       relays (node (mk_wp l h)) r (fun _ => shows r (TList []))) /\
    (forall l, addr_parse a = inl l -> (forall h, ~ In (PP2p h) l) -> refuses r (StringError (addr_error_text MissingP2p))) /\
    (forall l h, addr_parse a = inl (l ++ [PP2p h]) -> (forall h', ~ In (PP2p h') l) -> valid_peer h = false ->
       refuses r (StringError (addr_error_text Addr.InvalidPeerId))).
  Theorem c73_connect node q (r := to_target addr_parse addr_error_text node q) :
    answers [("arg", true, anything)]%string q r (exists a, value_of "arg" q = Some a /\ asks_for node r a).
  Proof.
    subst r. unfold to_target. open t F Q E. rewrite E. clear E.
    pose proof (Q _ (or_introl eq_refl)) as A. cbn [p_name required] in A. apply fits_cons in F as [[[_ [=]]|(a & V & _)] _]. unfold value_of. rewrite V in *. cbn [hd_error] in *. exists a. split; [reflexivity|].
    change (text "arg") with k_arg in A. rewrite A. unfold read_target, asks_for. split; [|split; [|split]].
    - intros e ->. reflexivity.
    - intros l h -> N1 N2 Vp. change (l ++ [PP2p h]) with (join_peer (mk_wp l h)). rewrite c48_join_split by assumption. cbn [or_error].
      destruct (node (mk_wp l h)) as [[]|e]; [|reflexivity]. cbn [relays or_error]. apply json_shows. exact Logic.I.
    - intros l -> N1. destruct (c48_split_fails false l) as [[_ H] _]. rewrite (H N1). reflexivity.
    - intros l h -> N1 Vp. destruct (c48_split_fails false (l ++ [PP2p h])) as (_ & P & [_ H] & _).
      assert (Np : split_peer false (l ++ [PP2p h]) <> APanic). { intros X. apply P in X. destruct X as [[=] _]. }
      rewrite H; [reflexivity|]. split; [exact Np|]. exists l, h, []. repeat split; assumption.
  Qed.

  (** ** swarm/peers *)
  (** The latency: half the round trip, only if asked for. *)
  Definition latency_shown (verbose : bool) (rtt : option N) (t : jt) : Prop :=
    if verbose then match rtt with Some ms => exists s, decimal s (ms / 2) /\ t = TText (s ++ text "ms") | None => t = TText (text "n/a") end else t = TNull.
  Definition is_shown (verbose : bool) (c : connection) (t : jt) : Prop :=
    exists lat, latency_shown verbose (k_rtt c) lat /\
      t = TMap [(text "Addr", TText (addr_text (k_addr c))); (text "Peer", TText (peer_to_text (k_peer c))); (text "Latency", lat)].
  Theorem c73_peers node q (r := peers addr_text node q) :
    answers [("verbose", false, yes_or_no)]%string q r
      (relays node r (fun l => exists m verbose, (verbose = true <-> value_of "verbose" q = Some (text "true")) /\
         Forall2 (is_shown verbose) l m /\ shows r (TMap [(text "Peers", TList m)]))).
  Proof.
    subst r. unfold peers. open t F Q E. rewrite E. clear E. destruct node as [l|e]; [|reflexivity]. cbn [relays or_error].
    pose proof (Q _ (or_introl eq_refl)) as A. cbn [p_name optional] in A. set (v := bool_of false (one_of (text "verbose") t)).
    eexists. exists v. split; [|split; [|apply json_shows]].
    - subst v. rewrite A. unfold value_of. apply fits_cons in F as [[[V _]|(x & V & [X|X])] _]; rewrite V; cbn [hd_error].
      + cbn [bool_of]. split; discriminate.
      + rewrite X. split; reflexivity.
      + rewrite X. split; [discriminate|]. intros [=].
    - induction l as [|c l IH]; constructor; [|exact IH]. eexists. split; [|reflexivity]. unfold latency_shown, latency. destruct v; [|reflexivity]. destruct (k_rtt c) as [ms|]; [|reflexivity].
      exists (dec (ms / 2)). split; [apply dec_decimal|reflexivity].
    - apply good_map. constructor; [split; [reflexivity|]|constructor]. apply good_items. intros c. apply good_map.
      repeat (constructor; [split; [reflexivity|]|]); [apply addr_utf8|apply peer_utf8| |constructor].
      unfold latency. destruct v; [|exact Logic.I]. destruct (k_rtt c); [apply dec_ms_utf8|reflexivity].
  Qed.

  (** ** swarm/addrs: every peer once, in the order of the texts, whatever the query *)
  Theorem c73_addrs node q (r := addrs addr_text node q) :
    (forall l, node = inl l -> NoDup (map fst l) /\ Forall wf_peer (map fst l)) ->
    relays node r (fun l => exists m, shows r (TMap [(text "Addrs", TMap m)]) /\ NoDup (map fst m) /\ bt_sorted m /\
      forall k v, In (k, v) m <-> exists p a, In (p, a) l /\ k = peer_to_text p /\ v = TList (map (fun x => TText (addr_text x)) a)).
  Proof.
    intros W. subst r. unfold addrs. destruct node as [l|e]; [|reflexivity]. destruct (W l eq_refl) as [N P]. clear W. cbn [relays or_error].
    set (f := fun x : peer_id * list multiaddr => (peer_to_text (fst x), texts (map addr_text (snd x)))).
    assert (Nd : NoDup (map fst (map f l))).
    { rewrite map_map. change (map (fun x => fst (f x)) l) with (map (fun x => peer_to_text (fst x)) l). rewrite <- (map_map fst peer_to_text). clear f. induction P as [|p ps Hp P IH]; [constructor|]. cbn [map] in *. inversion_clear N as [|? ? N1 N2].
      constructor; [|apply IH, N2]. intros X. apply in_map_iff in X as (p' & X & Y). apply N1. rewrite Forall_forall in P. pose proof (peer_text_roundtrip _ Hp) as R1. pose proof (peer_text_roundtrip _ (P _ Y)) as R2. congruence. }
    exists (bt_of_list (map f l)). split; [|split; [|split]].
    - apply json_shows, good_map. constructor; [split; [reflexivity|]|constructor]. apply bt_good, good_map. clear Nd N P. induction l as [|x l IH]; constructor; [|exact IH].
      split; [apply peer_utf8|]. apply good_texts_map, addr_utf8.
    - apply bt_sorted_nodup, bt_of_list_sorted.
    - apply bt_of_list_sorted.
    - intros k v. rewrite bt_keeps by exact Nd. rewrite in_map_iff. split.
      + intros ([p a] & [= <- <-] & X). exists p, a. split; [exact X|]. split; [reflexivity|]. cbn [snd]. unfold texts. rewrite map_map. reflexivity.
      + intros (p & a & X & -> & ->). exists (p, a). split; [|exact X]. unfold f, texts. cbn [fst snd]. rewrite map_map. reflexivity.
  Qed.

  (** ** swarm/addrs/local *)
  Theorem c73_addrs_local node q (r := addrs_local addr_text node q) :
    answers [("id", false, yes_or_no)]%string q r
      (relays node r (fun l => shows r (TMap [(text "Strings", TList (map (fun a => TText (addr_text a)) l))]))).
  Proof.
    subst r. unfold addrs_local. open t F Q E. rewrite E. destruct node as [l|e]; [|reflexivity]. cbn [relays or_error]. unfold texts. rewrite map_map.
    apply json_shows, good_map. constructor; [split; [reflexivity|]|constructor]. apply good_items. exact addr_utf8.
  Qed.

  (** ** bitswap/wantlist: the list of the peer given, or the node's own *)
  Definition cid_link (c : cid) : jt := TMap [(text "/", TText (cid_to_text c))].
  Theorem c73_wantlist node q (r := bitswap_wantlist node q) :
    answers [("peer", false, anything)]%string q r
      (let lists x := relays x r (fun l => shows r (TMap [(text "Keys", TList (map cid_link l))])) in
       match value_of "peer" q with
       | None => lists (node None)
       | Some a => (forall p, peer_from_text a = Some p -> lists (node (Some p))) /\ (~ peer_named a -> refuses r InvalidPeerId)
       end).
  Proof.
    subst r. unfold bitswap_wantlist. open t F Q E. rewrite E. clear E. pose proof (Q _ (or_introl eq_refl)) as A. cbn [p_name optional] in A. unfold value_of. rewrite A. cbv zeta.
    assert (G : forall x, relays x (or_error x (fun l => json (TMap [(text "Keys", TList (map link l))]))) (fun l => shows (or_error x (fun l => json (TMap [(text "Keys", TList (map link l))]))) (TMap [(text "Keys", TList (map cid_link l))]))).
    { intros [l|e]; [|reflexivity]. cbn [relays or_error]. apply json_shows, good_map. constructor; [split; [reflexivity|]|constructor]. apply good_items. intros c. apply good_map. constructor; [split; [reflexivity|apply cid_utf8]|constructor]. }
    destruct (hd_error _) as [a|]; [|apply G]. unfold peer_named. destruct (peer_from_text a) as [p|]; split.
    - intros ? [= <-]. apply G.
    - intros X. destruct X. exists p. reflexivity.
    - discriminate.
    - reflexivity.
  Qed.

  (** ** bitswap/stat *)
  Theorem c73_stat node q (r := bitswap_stat node q) :
    relays node r (fun s =>
      shows r (TMap [(text "BlocksReceived", TNum (blocks_received s)); (text "BlocksSent", TNum (blocks_sent s));
                     (text "DataReceived", TNum (data_received s)); (text "DataSent", TNum (data_sent s));
                     (text "DupBlksReceived", TNum (dup_blks_received s)); (text "DupDataReceived", TNum (dup_data_received s));
                     (text "MessagesReceived", TNum 0); (text "Peers", TList (map (fun p => TText (peer_to_text p)) (stat_peers s)));
                     (text "ProvideBufLen", TNum 0); (text "Wantlist", TList (map cid_link (wantlist s)))])).
  Proof.
    subst r. unfold bitswap_stat. destruct node as [s|e]; [|reflexivity]. cbn [relays or_error]. unfold texts. rewrite map_map. apply json_shows, good_map.
    repeat (constructor; [split; [reflexivity|first [exact Logic.I|idtac]]|]); [| |constructor].
    - apply good_items. exact peer_utf8.
    - apply good_items. intros c. apply good_map. constructor; [split; [reflexivity|apply cid_utf8]|constructor].
  Qed.

  (** ** dht *)
  Definition dht_answer (id : bytes) (l : list (list bytes * bytes)) : jt :=
    TMap [(text "Extra", TText []); (text "ID", TText id);
          (text "Responses", TList (map (fun x => TMap [(text "Addrs", TList (map TText (fst x))); (text "ID", TText (snd x))]) l));
          (text "Type", TNum 2)].
  Lemma response_shows id l : utf8 id = true -> (forall x, In x l -> utf8 (snd x) = true /\ Forall (fun s => utf8 s = true) (fst x)) -> shows (response_of id l) (dht_answer id l).
  Proof.
    intros U H. apply json_shows, good_map. repeat (constructor; [split; [reflexivity|first [exact Logic.I|exact U|reflexivity|idtac]]|]); [|constructor].
    apply good_list. induction l as [|x l IH]; constructor; [|apply IH; intros y Y; apply H; right; exact Y]. destruct (H x (or_introl eq_refl)) as [A B].
    apply good_map. constructor; [split; [reflexivity|apply good_texts, B]|]. constructor; [split; [reflexivity|exact A]|constructor].
  Qed.
  Lemma within_ok {A} slow t q (x : told A) (f : A -> reply) (P : A -> Prop) : one_of k_timeout t = hd_error (values (text "timeout") q) ->
    (forall a, x = inl a -> or_error (in_time slow t x) f = f a -> P a) -> relays_within slow q x (or_error (in_time slow t x) f) P.
  Proof.
    intros T H. unfold relays_within, given, value_of, in_time in *. rewrite T in *. destruct (hd_error _), slow; cbn [andb] in *; try reflexivity; destruct x; try reflexivity; exact (H _ eq_refl eq_refl).
  Qed.
  Lemma fst_plain l x : In x (map (fun p => (@nil bytes, peer_to_text p)) l) -> utf8 (snd x) = true /\ Forall (fun s => utf8 s = true) (fst x).
  Proof. intros X. apply in_map_iff in X as (p & <- & _). split; [apply peer_utf8|constructor]. Qed.

  Theorem c73_findpeer slow node q (r := dht_find_peer duration addr_text slow node q) :
    answers [("arg", true, peer_named); ("verbose", false, yes_or_no); ("timeout", false, fun v => duration v = true)]%string q r
      (exists a p, value_of "arg" q = Some a /\ peer_from_text a = Some p /\
        relays_within slow q (node p) r (fun l => shows r (dht_answer [] [(map addr_text l, peer_to_text p)]))).
  Proof.
    subst r. unfold dht_find_peer. open t F Q E. rewrite E. clear E.
    pose proof (Q _ (or_introl eq_refl)) as A. pose proof (Q _ (or_intror (or_intror (or_introl eq_refl)))) as T. cbn [p_name optional required] in A, T.
    apply fits_cons in F as [[[_ [=]]|(a & V & p & Vp)] _]. unfold value_of. rewrite V in *. cbn [hd_error] in *. exists a, p. split; [reflexivity|]. split; [exact Vp|].
    unfold peer_given. change (text "arg") with k_arg in A. rewrite A, Vp. apply within_ok; [exact T|]. intros l _ ->. apply response_shows; [reflexivity|].
    intros x [<-|[]]. split; [apply peer_utf8|]. cbn [fst]. clear -addr_utf8. induction l; constructor; [apply addr_utf8|assumption].
  Qed.
  Theorem c73_findprovs slow node q (r := dht_find_providers duration other_base slow node q) :
    answers [("arg", true, fun v => exists c, cid_from_text other_base v = Some c); ("verbose", false, yes_or_no);
             ("num-providers", false, a_number); ("timeout", false, fun v => duration v = true)]%string q r
      (exists a c n, value_of "arg" q = Some a /\ cid_from_text other_base a = Some c /\
        match value_of "num-providers" q with Some v => unsigned v n | None => n = 20 end /\
        relays_within slow q (node c) r (fun l => exists first rest, l = first ++ rest /\ N.of_nat (length first) = N.min n (N.of_nat (length l)) /\
          shows r (dht_answer [] (map (fun p => ([], peer_to_text p)) first)))).
  Proof.
    subst r. unfold dht_find_providers. open t F Q E. rewrite E. clear E.
    pose proof (Q _ (or_introl eq_refl)) as A. pose proof (Q _ (or_intror (or_intror (or_introl eq_refl)))) as M. pose proof (Q _ (or_intror (or_intror (or_intror (or_introl eq_refl))))) as T. cbn [p_name optional required] in A, M, T.
    apply fits_cons in F as [[[_ [=]]|(a & V & c & Vc)] F]. apply fits_cons in F as [_ F]. apply fits_cons in F as [Fn _].
    unfold value_of at 1. rewrite V in *. cbn [hd_error] in *. exists a, c. change (text "arg") with k_arg in A. unfold cid_given. rewrite A, Vc, M. unfold value_of.
    set (n := match hd_error (values (text "num-providers") q) with Some v => match parse_usize v with Some n => n | None => 20 end | None => 20 end). exists n.
    split; [reflexivity|]. split; [reflexivity|]. split.
    - subst n. destruct Fn as [[-> _]|(v & -> & k & K)]; cbn [hd_error]; [reflexivity|]. rewrite (proj2 (parse_usize_spec v k) K). apply K.
    - cbv zeta. apply within_ok; [exact T|]. intros l _ ->. exists (firstn (N.to_nat n) l), (skipn (N.to_nat n) l). split; [symmetry; apply firstn_skipn|]. split; [rewrite firstn_length; lia|].
      apply response_shows; [reflexivity|]. apply fst_plain.
  Qed.
  Theorem c73_provide slow node q (r := dht_provide duration other_base slow node q) :
    answers [("arg", true, fun v => exists c, cid_from_text other_base v = Some c); ("verbose", false, yes_or_no); ("timeout", false, fun v => duration v = true)]%string q r
      (exists a c, value_of "arg" q = Some a /\ cid_from_text other_base a = Some c /\
        relays_within slow q (node c) r (fun _ => shows r (dht_answer (cid_to_text c) []))).
  Proof.
    subst r. unfold dht_provide. open t F Q E. rewrite E. clear E.
    pose proof (Q _ (or_introl eq_refl)) as A. pose proof (Q _ (or_intror (or_intror (or_introl eq_refl)))) as T. cbn [p_name optional required] in A, T.
    apply fits_cons in F as [[[_ [=]]|(a & V & c & Vc)] _]. unfold value_of. rewrite V in *. cbn [hd_error] in *. exists a, c. split; [reflexivity|]. split; [exact Vc|].
    unfold cid_given. change (text "arg") with k_arg in A. rewrite A, Vc. apply within_ok; [exact T|]. intros [] _ ->. apply response_shows; [apply cid_utf8|]. intros x [].
  Qed.
  Theorem c73_query slow node q (r := dht_query duration slow node q) :
    answers [("arg", true, peer_named); ("verbose", false, yes_or_no); ("timeout", false, fun v => duration v = true)]%string q r
      (exists a p, value_of "arg" q = Some a /\ peer_from_text a = Some p /\
        relays_within slow q (node p) r (fun l => shows r (dht_answer (peer_to_text p) (map (fun p => ([], peer_to_text p)) l)))).
  Proof.
    subst r. unfold dht_query. open t F Q E. rewrite E. clear E.
    pose proof (Q _ (or_introl eq_refl)) as A. pose proof (Q _ (or_intror (or_intror (or_introl eq_refl)))) as T. cbn [p_name optional required] in A, T.
    apply fits_cons in F as [[[_ [=]]|(a & V & p & Vp)] _]. unfold value_of. rewrite V in *. cbn [hd_error] in *. exists a, p. split; [reflexivity|]. split; [exact Vp|].
    unfold peer_given. change (text "arg") with k_arg in A. rewrite A, Vp. apply within_ok; [exact T|]. intros l _ ->. apply response_shows; [apply peer_utf8|]. apply fst_plain.
  Qed.
End C73.
Print Assumptions c73_version.
Print Assumptions c73_id.
Print Assumptions c73_connect.
Print Assumptions c73_peers.
Print Assumptions c73_addrs.
Print Assumptions c73_addrs_local.
Print Assumptions c73_wantlist.
Print Assumptions c73_stat.
Print Assumptions c73_findpeer.
Print Assumptions c73_findprovs.
Print Assumptions c73_provide.
Print Assumptions c73_query.

(** What clients read is determined by the answer. *)
Theorem c73_shows_one r t t' : shows r t -> shows r t' -> t = t'.
Proof. apply shows_one. Qed.
Print Assumptions c73_shows_one.

(** * Cases *)
Definition peer_1 : peer_id := {| mh_code := 18; mh_digest := repeat 7 32 |}.
Definition cid_1 : cid := CidV0 (repeat 9 32).
Lemma peer_1_wf : wf_peer peer_1.
Proof. split; [reflexivity|]. split; [repeat constructor|]. split; reflexivity. Qed.
Example ex_fits : fits [("arg", true, peer_named); ("verbose", false, yes_or_no)]%string [(text "arg", peer_to_text peer_1); (text "other", [1]); (text "verbose", text "true")].
Proof.
  constructor; [right; exists (peer_to_text peer_1); split; [reflexivity|]; exists peer_1; apply peer_text_roundtrip, peer_1_wf|].
  constructor; [right; exists (text "true"); split; [reflexivity|left; reflexivity]|constructor].
Qed.
(** Given twice, given badly, and not given. *)
Example ex_fits_not : let ps := [("arg", true, anything); ("verbose", false, yes_or_no)]%string in
  ~ fits ps [(text "arg", [1]); (text "arg", [1])] /\ ~ fits ps [(text "arg", [1]); (text "verbose", text "yes")] /\ ~ fits ps [(text "verbose", text "true")].
Proof.
  split; [|split]; intros H; apply fits_cons in H as [A B].
  - destruct A as [[A _]|(v & A & _)]; discriminate A.
  - apply fits_cons in B as [[[B _]|(v & B & C)] _]; [discriminate B|]. injection B as <-. destruct C as [C|C]; discriminate C.
  - destruct A as [[_ A]|(v & A & _)]; discriminate A.
Qed.
Example ex_peers : shows (peers (fun _ => text "/ip4/127.0.0.1") (inl [mk_connection [] peer_1 (Some 7)]) [(text "verbose", text "true")])
  (TMap [(text "Peers", TList [TMap [(text "Addr", TText (text "/ip4/127.0.0.1")); (text "Peer", TText (peer_to_text peer_1)); (text "Latency", TText (text "3ms"))]])]).
Proof. apply json_shows. vm_compute. repeat split. Qed.
Example ex_findprovs : dht_find_providers (fun _ => true) (fun _ _ => None) false (fun _ => inl [peer_1; peer_1]) [(text "arg", cid_to_text cid_1); (text "num-providers", text "1")] =
  json (dht_answer [] [([], peer_to_text peer_1)]).
Proof. vm_compute. reflexivity. Qed.
Example ex_addr_order : addrs (fun _ => text "/x") (inl [({| mh_code := 18; mh_digest := repeat 9 32 |}, [[]]); (peer_1, [])]) [] =
  json (TMap [(text "Addrs", TMap [(peer_to_text peer_1, TList []); (peer_to_text ({| mh_code := 18; mh_digest := repeat 9 32 |}), TList [TText (text "/x")])])]).
Proof. vm_compute. reflexivity. Qed.

(** * What does not hold *)

(** Asking a node about itself by its own id is not answered. *)
Theorem c73_id_refuted : ~ forall addr_text p key, wf_peer p -> wf_bytes key ->
  exists t, shows (identity addr_text (inl (p, key, [])) [(text "arg", peer_to_text p)]) t.
Proof.
  intros H. destruct (H (fun _ => []) peer_1 [] peer_1_wf ltac:(constructor)) as (t & b & j & E & _). vm_compute in E. discriminate E.
Qed.
Print Assumptions c73_id_refuted.

(** "MessagesReceived" says nothing about what was received. *)
Theorem c73_messages_refuted : ~ forall s, 0 < blocks_received s ->
  exists m n, shows (bitswap_stat (inl s) []) (TMap m) /\ In (text "MessagesReceived", TNum n) m /\ 0 < n.
Proof.
  intros H. destruct (H (mk_stats 0 0 1 10 0 0 [] []) ltac:(reflexivity)) as (m & n & S & I & L).
  pose proof (c73_stat (inl (mk_stats 0 0 1 10 0 0 [] [])) []) as T. cbv zeta in T. cbn [relays] in T.
  pose proof (shows_one _ _ _ S T) as E. injection E as ->.
  cbn [In] in I. repeat (destruct I as [I|I]; [first [discriminate I|injection I as <-; discriminate L]|]). exact I.
Qed.
Print Assumptions c73_messages_refuted.
