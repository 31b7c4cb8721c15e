(** Property C71: the configuration file is created once, never overwritten, and loaded as created.

    Any number of processes started with "init" or "daemon" share the directory; each is stopped at any
    point by a kill or an error of the file system, writes and reads are cut anywhere. *)
From Verif Require Import Base Wire Cid Text TextProofs Addr Json JsonSpec JsonProofs Config ConfigSpec ConfigProofs ConfigWorld.
Local Open Scope N_scope.

(** * Texts *)
(** The reader accepts the grammar of JSON, and nothing else. *)
Theorem c71_json s v : document s = Some v <-> document_text v s.
Proof. exact (document_iff s v). Qed.
Print Assumptions c71_json.
(** What a string says: characters by number are written in UTF-8, two surrogates are one character;
    any other surrogate, and bytes which are not UTF-8, are no string. *)
Theorem c71_strings l quoted : chars l quoted -> forall s, string_value l = Some s <-> means l s /\ utf8 s = true.
Proof. exact (string_means l quoted). Qed.
Print Assumptions c71_strings.
(** "a", € and 😀: 1, 3 and 4 bytes. *)
Example c71_strings_ex :
  exists l, chars l [97; 92; 117; 50; 48; 97; 99; 92; 117; 100; 56; 51; 100; 92; 117; 100; 101; 48; 48; 34] /\
    string_value l = Some [97; 226; 130; 172; 240; 159; 152; 128].
Proof.
  exists [Raw 97; Unit (4096 * 2 + 256 * 0 + 16 * 10 + 12); Unit (4096 * 13 + 256 * 8 + 16 * 3 + 13); Unit (4096 * 13 + 256 * 14 + 16 * 0 + 0)]. split; [|reflexivity].
  apply chars_plain; [lia|lia|lia|]. repeat (apply chars_unit; [unfold hex; lia|unfold hex; lia|unfold hex; lia|unfold hex; lia|]). constructor.
Qed.
(** The data of a PEM file is read, whatever its label, the lengths of its lines, how they end and what
    follows it. *)
Theorem c71_pem data pem : wf_bytes data -> pem_text data pem -> pem_to_der pem = Some data.
Proof. exact (pem_round_trip data pem). Qed.
Print Assumptions c71_pem.
(** "-----BEGIN A B-----", "AQI", "D/", "-----END A B-----" and "x" after that. *)
Example c71_pem_ex : exists pem, pem_text [1; 2; 3; 255] pem /\ pem_to_der pem = Some [1; 2; 3; 255].
Proof.
  eexists (((begin_mark ++ [32; 65; 32; 66; 45; 45; 45; 45; 45]) ++ [10]) ++ concat [[65; 81; 73] ++ [13; 10]; [68; 47; 119; 61; 61] ++ [10]] ++ ((end_mark ++ [32; 65; 32; 66; 45; 45; 45; 45; 45]) ++ [13; 10]) ++ [120]).
  split; [|reflexivity]. exists [32; 65; 32; 66; 45; 45; 45; 45; 45], [[65; 81; 73]; [68; 47; 119; 61; 61]], [65; 81; 73; 68; 47; 119; 61; 61], [120].
  eexists _, _, _.
  split; [repeat (constructor; [lia|]); constructor|]. split; [|split; [reflexivity|split; [repeat (constructor; [lia|]); constructor|split; [left; reflexivity|split; [apply Forall2_cons; [right; reflexivity|apply Forall2_cons; [left; reflexivity|constructor]]|split; [right; reflexivity|reflexivity]]]]]].
  apply b64_three; [reflexivity|reflexivity|reflexivity|reflexivity|]. apply b64_one; reflexivity.
Qed.
(** Nothing is read but what is between a line with "-----BEGIN" and one with "-----END" and the same
    label; if there is no such line, nothing is. *)
Theorem c71_pem_only pem data : pem_to_der pem = Some data ->
  exists label ls garbage, map chomp (split_lines pem) = (begin_mark ++ label) :: ls ++ (end_mark ++ label) :: garbage /\ base64_decode (concat ls) = Some data.
Proof. exact (pem_inv pem data). Qed.
Print Assumptions c71_pem_only.
(** The key message: fields in any order and number, the last one of each counts; fields of later
    versions are passed over. *)
Theorem c71_key_message parts message : key_text parts message ->
  decode_key message = Some (Z.of_N (last_type 0 parts), last_data [] parts).
Proof. exact (key_message parts message). Qed.
Print Assumptions c71_key_message.
Example c71_key_message_ex : exists message,
  key_text [KData [7]; KNumber 3 300; KType 2; KBytes 15 [1; 2]; KData [9; 9]] message /\ decode_key message = Some (2%Z, [9; 9]).
Proof.
  exists [18; 1; 7; 24; 172; 2; 8; 2; 122; 2; 1; 2; 18; 2; 9; 9]. split; [|vm_compute; reflexivity]. exists [[18; 1; 7]; [24; 172; 2]; [8; 2]; [122; 2; 1; 2]; [18; 2; 9; 9]]. split; [|reflexivity].
  apply Forall2_cons; [exact (data_text [7] ltac:(reflexivity))|]. apply Forall2_cons; [exact (number_text 3 300 ltac:(lia) ltac:(reflexivity))|]. apply Forall2_cons; [exact (type_text 2 ltac:(lia))|].
  apply Forall2_cons; [exact (bytes_text 15 [1; 2] ltac:(lia) ltac:(reflexivity))|]. apply Forall2_cons; [exact (data_text [9; 9] ltac:(reflexivity))|constructor].
Qed.

Section Configuration.
  Variables Key Keypair : Type.
  Variable pkcs1_of : Key -> option bytes.
  Variable key_of_pkcs1 : bytes -> option Key.
  Variable pem_of : Key -> option bytes.
  Variable keypair_of_pkcs8 : bytes -> option Keypair.
  Variable peer_of : Keypair -> peer_id.
  Variable addr_text : multiaddr -> bytes.
  Variable addr_parse : bytes -> option multiaddr.
  Notation prepare := (prepare Key Keypair pkcs1_of pem_of keypair_of_pkcs8 peer_of addr_text).
  Notation load := (load Key Keypair key_of_pkcs1 pem_of keypair_of_pkcs8 peer_of addr_parse).
  Notation wrun := (wrun Key Keypair pkcs1_of key_of_pkcs1 pem_of keypair_of_pkcs8 peer_of addr_text addr_parse).
  Notation mk_config := (mk_config Keypair).
  Notation world := (world Key Keypair).
  Notation mk_world := (mk_world Key Keypair).
  Notation procs := (w_procs Key Keypair).
  Notation config_at := (w_config Key Keypair).
  Notation InitAt := (InitAt Key Keypair).
  Notation DaemonAt := (DaemonAt Key Keypair).
  Notation Exited := (Exited Key Keypair).
  Notation Loaded := (Loaded Key Keypair).
  Notation Serving := (Serving Key Keypair).
  Notation Panicked := (Panicked Key Keypair).
  Notation fresh := (fresh Key Keypair).

  (** The PEM text openssl makes of a key holds data which make this key pair. *)
  Definition pair_of (k : Key) (kp : Keypair) : Prop :=
    exists pem der, pem_of k = Some pem /\ wf_bytes der /\ pem_text der pem /\ keypair_of_pkcs8 der = Some kp.

  (** * Loading *)
  (** What is loaded is what the file says: its key, its addresses, and the peer id is the one of the
      key.  Any file which says that is loaded. *)
  Theorem c71_load s kp swarm api :
    load s = Ok (mk_config kp swarm api) <->
    exists peer priv, says addr_parse s peer priv swarm api /\
      load_keypair Key Keypair key_of_pkcs1 pem_of keypair_of_pkcs8 priv = Ok kp /\ peer = peer_to_text (peer_of kp).
  Proof.
    unfold Config.load. split.
    - destruct (read_config addr_parse s) as [[[[peer priv] sw] ap]|] eqn:R; [|discriminate]. apply read_config_spec in R. destruct (load_keypair _ _ _ _ _ priv) as [k|e|] eqn:L; try discriminate.
      destruct (beq_spec (peer_to_text (peer_of k)) peer) as [E|]; [|discriminate]. intros H. injection H as -> -> ->. exists peer, priv. repeat split; [exact R|exact L|symmetry; exact E].
    - intros (peer & priv & S & L & ->). apply read_config_spec in S. rewrite S, L, beq_refl. reflexivity.
  Qed.
  (** A private key is base64 of a message with an RSA key in it; keys written by other programs are
      loaded as well. *)
  Theorem c71_load_key priv message parts k kp :
    wf_bytes message -> base64_text message priv -> key_text parts message -> last_type 0 parts = 0 -> key_of_pkcs1 (last_data [] parts) = Some k -> pair_of k kp ->
    load_keypair Key Keypair key_of_pkcs1 pem_of keypair_of_pkcs8 priv = Ok kp.
  Proof.
    intros W B D T0 K (pem & der & P & Wd & T & Q). unfold load_keypair. rewrite (proj1 (base64_text_decode _ _ W B)), (key_message _ _ D), T0. change (Z.of_N 0 =? 0)%Z with true. cbv iota. rewrite K, P, (pem_round_trip _ _ Wd T), Q. reflexivity.
  Qed.
  (** What is wrong with a file is told: that it does not say what it has to; that the key is of another
      type, and which; that the key is not the one of the peer id, and both ids. *)
  Theorem c71_load_errors s :
    ((forall peer priv swarm api, ~ says addr_parse s peer priv swarm api) -> load s = Err ConfigurationFileFormat) /\
    forall peer priv swarm api, says addr_parse s peer priv swarm api ->
      (forall message parts, wf_bytes message -> base64_text message priv -> key_text parts message -> last_type 0 parts <> 0 ->
        load s = Err (UnsupportedPrivateKeyType (Z.of_N (last_type 0 parts)))) /\
      (forall kp, load_keypair Key Keypair key_of_pkcs1 pem_of keypair_of_pkcs8 priv = Ok kp -> peer <> peer_to_text (peer_of kp) ->
        load s = Err (PeerIdMismatch (peer_to_text (peer_of kp)) peer)).
  Proof.
    unfold Config.load. split.
    - intros N. destruct (read_config addr_parse s) as [[[[peer priv] sw] ap]|] eqn:R; [|reflexivity]. apply read_config_spec in R. destruct (N _ _ _ _ R).
    - intros peer priv swarm api S. apply read_config_spec in S. rewrite S. split.
      + intros message parts W B D T. unfold load_keypair. rewrite (proj1 (base64_text_decode _ _ W B)), (key_message _ _ D). destruct (Z.eqb_spec (Z.of_N (last_type 0 parts)) 0) as [E|]; [|reflexivity]. lia.
      + intros kp -> M. destruct (beq_spec (peer_to_text (peer_of kp)) peer); [congruence|reflexivity].
  Qed.
  (** Loading does not panic, whatever the file holds, if openssl writes PEM. *)
  Theorem c71_load_no_panic s : (forall k pem, pem_of k = Some pem -> exists der, wf_bytes der /\ pem_text der pem) -> load s <> Panic.
  Proof.
    intros H. unfold Config.load. destruct (read_config addr_parse s) as [[[[peer priv] sw] ap]|]; [|discriminate].
    assert (G : load_keypair Key Keypair key_of_pkcs1 pem_of keypair_of_pkcs8 priv <> Panic).
    { unfold load_keypair. destruct (base64_decode priv); [|discriminate]. destruct (decode_key b) as [[t d]|]; [|discriminate]. destruct (t =? 0)%Z; [|discriminate]. destruct (key_of_pkcs1 d) as [k|]; [|discriminate]. destruct (pem_of k) as [pem|] eqn:P; [|discriminate].
      destruct (H k pem P) as (der & W & T). rewrite (pem_round_trip _ _ W T). destruct (keypair_of_pkcs8 der); discriminate. }
    destruct (load_keypair _ _ _ _ _ priv); [|discriminate|congruence]. destruct (beq _ _); discriminate.
  Qed.

  (** * Initializing *)
  (** The result of the computation of init: with at most one profile, a number of bits in the range and
      a key it is the peer id of the key pair; otherwise the error which says what is wrong. *)
  Theorem c71_init bits profiles key :
    (forall k, key = Some k -> pkcs1_of k <> None /\ exists kp, pair_of k kp) -> (length profiles <= 1)%nat ->
    if (2048 <=? bits) && (bits <=? 16384) then
      match key with
      | Some k => exists kp text, pair_of k kp /\ prepare bits profiles key = Ok (peer_to_text (peer_of kp), text)
      | None => prepare bits profiles key = Err KeyGeneration
      end
    else prepare bits profiles key = Err (InvalidRsaKeyLength bits).
  Proof.
    intros H L. unfold Config.prepare. assert (G : exists p, match profiles with [] => Some Default | [p] => Some p | _ => None end = Some p) by (destruct profiles as [|p [|? ?]]; [eauto|eauto|cbn in L; lia]). destruct G as (p & ->).
    destruct ((2048 <=? bits) && (bits <=? 16384)); [|reflexivity]. destruct key as [k|]; [|reflexivity]. destruct (H k eq_refl) as (K & kp & (pem & der & P & Wd & T & Q)).
    exists kp. rewrite P, (pem_round_trip _ _ Wd T), Q. destruct (pkcs1_of k); [|congruence]. eexists. split; [exists pem, der; tauto|reflexivity].
  Qed.

  (** openssl reads a key it has written back as the same key, and the three addresses which are written
      can be read. *)
  Hypothesis pkcs1_round : forall k b, pkcs1_of k = Some b -> key_of_pkcs1 b = Some k /\ wf_bytes b /\ blen b < u64_max1.
  Hypothesis addr_round : forall a, In a [[PIp4 own_host; PTcp 0]; [PIp4 own_host; PTcp 4004]] -> addr_parse (addr_text a) = Some a /\ utf8 (addr_text a) = true.

  (** The file init writes is loaded with the key, whose peer id init returned, and the address of the
      profile. *)
  Theorem c71_init_then_load bits profiles k peer text :
    prepare bits profiles (Some k) = Ok (peer, text) ->
    exists kp, peer = peer_to_text (peer_of kp) /\ (forall kp', pair_of k kp' -> kp' = kp) /\
      load text = Ok (mk_config kp [[PIp4 own_host; PTcp 0]] [PIp4 own_host; PTcp (match profiles with Test :: _ => 0 | _ => 4004 end)]).
  Proof.
    intros H. destruct (load_prepared Key Keypair pkcs1_of key_of_pkcs1 pem_of keypair_of_pkcs8 peer_of addr_text addr_parse pkcs1_round addr_round bits profiles k peer text H) as (kp & (pem & der & P & D & Q) & -> & L). exists kp. split; [reflexivity|]. split.
    - intros kp' (pem' & der' & P' & Wd & T & Q'). rewrite P in P'. injection P' as <-. rewrite (pem_round_trip _ _ Wd T) in D. congruence.
    - rewrite L. unfold made, profile_used, default_swarm. destruct profiles as [|[|] l]; reflexivity.
  Qed.

  (** * Processes *)
  (** Whatever is at the path of the configuration stays as it is: no init replaces or changes it, or
      announces an identity. *)
  Theorem c71_never_overwritten c ps xs : c <> Absent -> Forall fresh ps ->
    config_at (wrun (mk_world c ps) xs) = c /\ forall i peer, nth_error (procs (wrun (mk_world c ps) xs)) i <> Some (Exited (PeerIdentity peer)).
  Proof.
    intros C F. assert (B : Forall (bystander Key Keypair) ps) by (eapply Forall_impl; [|exact F]; intros p [(b & pr & k & ->)| ->]; exact Logic.I).
    destruct (bystanders_run Key Keypair pkcs1_of key_of_pkcs1 pem_of keypair_of_pkcs8 peer_of addr_text addr_parse xs (mk_world c ps) C B) as [E G]. split; [exact E|]. intros i peer N. rewrite Forall_forall in G. exact (G _ (nth_error_In _ _ N)).
  Qed.
  (** However many inits run, one identity at most is announced. *)
  Theorem c71_one_identity ps xs i j p q : Forall fresh ps ->
    nth_error (procs (wrun (mk_world Absent ps) xs)) i = Some (Exited (PeerIdentity p)) ->
    nth_error (procs (wrun (mk_world Absent ps) xs)) j = Some (Exited (PeerIdentity q)) -> i = j.
  Proof.
    intros F Ni Nj. destruct (inv_run Key Keypair pkcs1_of key_of_pkcs1 pem_of keypair_of_pkcs8 peer_of addr_text addr_parse pkcs1_round addr_round ps Absent xs (or_introl eq_refl) F) as [_ [(_ & B & _)|(o & b & pr & k & pe & d & t & _ & _ & _ & _ & B & _)]].
    - rewrite Forall_forall in B. destruct (B _ (nth_error_In _ _ Ni)).
    - destruct (Nat.eq_dec i o) as [->|Hi]; [|destruct (B i _ Ni Hi)]. destruct (Nat.eq_dec j o) as [->|Hj]; [reflexivity|destruct (B j _ Nj Hj)].
  Qed.
  (** The identity announced is the one in the file, from then on: what the file holds is loaded as a
      key pair with that peer id. *)
  Theorem c71_announced ps xs i peer : Forall fresh ps ->
    nth_error (procs (wrun (mk_world Absent ps) xs)) i = Some (Exited (PeerIdentity peer)) ->
    exists s kp swarm api, config_at (wrun (mk_world Absent ps) xs) = File s /\ load s = Ok (mk_config kp swarm api) /\ peer = peer_to_text (peer_of kp).
  Proof.
    intros F Ni. destruct (inv_run Key Keypair pkcs1_of key_of_pkcs1 pem_of keypair_of_pkcs8 peer_of addr_text addr_parse pkcs1_round addr_round ps Absent xs (or_introl eq_refl) F) as [_ [(_ & B & _)|(o & b & pr & k & pe & d & t & _ & Pr & C & (po & NO & OK) & B & _)]].
    - rewrite Forall_forall in B. destruct (B _ (nth_error_In _ _ Ni)).
    - destruct (Nat.eq_dec i o) as [->|Hi]; [|destruct (B i _ Ni Hi)]. rewrite Ni in NO. injection NO as <-. destruct OK as [-> ->]. rewrite app_nil_r in Pr.
      destruct (prepare_inv Key Keypair pkcs1_of key_of_pkcs1 pem_of keypair_of_pkcs8 peer_of addr_text addr_parse _ _ _ _ _ Pr) as (k' & _ & _ & -> & _). destruct (c71_init_then_load _ _ _ _ _ Pr) as (kp & -> & _ & L). exists d, kp. eexists _, _. split; [exact C|]. split; [exact L|reflexivity].
  Qed.
  (** A daemon which gets to serve has the configuration one of the inits made, all of it, and that is
      what is in the file: nothing half-written is ever used. *)
  Theorem c71_served ps xs i cfg ip port : Forall fresh ps ->
    nth_error (procs (wrun (mk_world Absent ps) xs)) i = Some (Serving cfg ip port) ->
    exists j bits profiles k peer text kp, nth_error ps j = Some (InitAt bits profiles (Some k)) /\ prepare bits profiles (Some k) = Ok (peer, text) /\
      config_at (wrun (mk_world Absent ps) xs) = File text /\ peer = peer_to_text (peer_of kp) /\
      cfg = mk_config kp [[PIp4 own_host; PTcp 0]] [PIp4 own_host; PTcp (match profiles with Test :: _ => 0 | _ => 4004 end)].
  Proof.
    intros F Ni. destruct (inv_run Key Keypair pkcs1_of key_of_pkcs1 pem_of keypair_of_pkcs8 peer_of addr_text addr_parse pkcs1_round addr_round ps Absent xs (or_introl eq_refl) F) as [_ [(_ & _ & R)|(o & b & pr & k & pe & d & t & O & Pr & C & _ & _ & R)]].
    - rewrite Forall_forall in R. destruct (R _ (nth_error_In _ _ Ni)).
    - destruct (R i _ Ni) as [-> L]. rewrite app_nil_r in Pr. destruct (prepare_inv Key Keypair pkcs1_of key_of_pkcs1 pem_of keypair_of_pkcs8 peer_of addr_text addr_parse _ _ _ _ _ Pr) as (k' & _ & _ & -> & _). destruct (c71_init_then_load _ _ _ _ _ Pr) as (kp & E & _ & L').
      exists o, b, pr, k', pe, d, kp. rewrite L' in L. injection L as <-. repeat split; assumption.
  Qed.

  (** An init nobody disturbs announces its identity, and a daemon started afterwards serves at the port
      of the profile, however the writes and reads are cut. *)
  Notation Writing := (Writing Key Keypair).
  Notation Reading := (Reading Key Keypair).
  Fixpoint total (ns : list nat) : nat := match ns with [] => O | n :: r => (n + total r)%nat end.
  Lemma total_sum ns : total ns = fold_right Nat.add O ns. Proof. induction ns; cbn; congruence. Qed.
  Lemma firstn_more {A} n m (l : list A) : firstn n l ++ firstn m (skipn n l) = firstn (n + m) l.
  Proof. revert n. induction l as [|x l IH]; intros [|n]; cbn; try rewrite firstn_nil; try reflexivity. f_equal. apply IH. Qed.
  Lemma writes ns : forall s peer todo ps, wrun (mk_world (File s) (Writing peer todo :: ps)) (map (fun n => (O, Move n)) ns) =
    mk_world (File (s ++ firstn (total ns) todo)) (Writing peer (skipn (total ns) todo) :: ps).
  Proof.
    induction ns as [|n ns IH]; intros s peer todo ps; [cbn; rewrite app_nil_r; reflexivity|]. cbn [map]. change (wrun ?w ((O, Move n) :: ?r)) with (wrun (mk_world (File (s ++ firstn n todo)) (Writing peer (skipn n todo) :: ps)) r). rewrite IH. cbn [total]. rewrite <- app_assoc, skipn_skipn, firstn_more, (Nat.add_comm (total ns)). reflexivity.
  Qed.
  Lemma reads ms : forall s p got ps rest, s = got ++ rest -> wrun (mk_world (File s) (p :: Reading got :: ps)) (map (fun n => (1%nat, Move n)) ms) =
    mk_world (File s) (p :: Reading (got ++ firstn (total ms) rest) :: ps).
  Proof.
    induction ms as [|n ms IH]; intros s p got ps rest E; [cbn; rewrite app_nil_r; reflexivity|]. cbn [map]. change (wrun ?w ((1%nat, Move n) :: ?r)) with (wrun (mk_world (File s) (p :: Reading (got ++ firstn n (skipn (length got) s)) :: ps)) r).
    assert (X : skipn (length got) s = rest) by (rewrite E, skipn_app, skipn_all, Nat.sub_diag; reflexivity). rewrite X. rewrite (IH s p _ ps (skipn n rest)) by (rewrite <- app_assoc, firstn_skipn; exact E). cbn [total]. rewrite <- app_assoc, firstn_more. reflexivity.
  Qed.
  Theorem c71_init_and_serve bits profiles k peer text ns ms :
    prepare bits profiles (Some k) = Ok (peer, text) -> (length text <= fold_right Nat.add O ns)%nat -> (length text <= fold_right Nat.add O ms)%nat ->
    exists kp, peer = peer_to_text (peer_of kp) /\
      wrun (mk_world Absent [InitAt bits profiles (Some k); DaemonAt])
        ([(0%nat, Go); (0%nat, Go)] ++ map (fun n => (0%nat, Move n)) ns ++ [(0%nat, Go); (1%nat, Go)] ++ map (fun n => (1%nat, Move n)) ms ++ [(1%nat, Go); (1%nat, Go)]) =
      mk_world (File text)
        [Exited (PeerIdentity peer); Serving (mk_config kp [[PIp4 own_host; PTcp 0]] [PIp4 own_host; PTcp (match profiles with Test :: _ => 0 | _ => 4004 end)])
                                             own_host (match profiles with Test :: _ => 0 | _ => 4004 end)].
  Proof.
    intros P L1 L2. rewrite <- total_sum in L1, L2. destruct (c71_init_then_load _ _ _ _ _ P) as (kp & E & _ & Ld). exists kp. split; [exact E|].
    rewrite !(wrun_app Key Keypair pkcs1_of key_of_pkcs1 pem_of keypair_of_pkcs8 peer_of addr_text addr_parse).
    assert (S1 : wrun (mk_world Absent [InitAt bits profiles (Some k); DaemonAt]) [(0%nat, Go); (0%nat, Go)] = mk_world (File []) [Writing peer text; DaemonAt]).
    { unfold Config.wrun. cbn [fold_left]. unfold wstep at 2. cbn [w_procs w_config fst snd nth_error advance]. rewrite P. reflexivity. }
    rewrite S1, writes, firstn_all2, skipn_all2 by exact L1. cbn [app].
    change (wrun (mk_world (File text) [Writing peer []; DaemonAt]) [(0%nat, Go); (1%nat, Go)]) with (mk_world (File text) [Exited (PeerIdentity peer); Reading []]).
    rewrite (reads ms text _ [] [] text eq_refl), firstn_all2 by exact L2. cbn [app].
    unfold Config.wrun. cbn [fold_left]. unfold wstep at 2. cbn [w_procs w_config fst snd nth_error advance]. rewrite Nat.leb_refl, Ld. reflexivity.
  Qed.

  (** * What goes wrong *)
  (** An init which is killed, or cannot write, before it is done leaves a file no daemon can load and no
      init replaces: from then on every init says there is a configuration already and every daemon
      panics, until someone removes the file. *)
  Theorem c71_killed_init_refuted bits profiles k peer text n :
    prepare bits profiles (Some k) = Ok (peer, text) -> (n < length text)%nat ->
    let w stop := wrun (mk_world Absent [InitAt bits profiles (Some k)]) [(0%nat, Go); (0%nat, Go); (0%nat, Move n); (0%nat, stop)] in
    config_at (w Kill) = File (firstn n text) /\ config_at (w WriteFails) = File (firstn n text) /\ procs (w WriteFails) = [Exited OtherError] /\
    forall ps xs, Forall fresh ps ->
      config_at (wrun (mk_world (File (firstn n text)) ps) xs) = File (firstn n text) /\
      forall i p, nth_error (procs (wrun (mk_world (File (firstn n text)) ps) xs)) i = Some p ->
        (forall q, p <> Exited (PeerIdentity q)) /\ (forall cfg, p <> Loaded cfg) /\ (forall cfg ip port, p <> Serving cfg ip port).
  Proof.
    intros P L w.
    assert (S1 : forall stop, w stop = wrun (mk_world (File (firstn n text)) [Writing peer (skipn n text)]) [(0%nat, stop)]).
    { intros stop. unfold w. change [(0%nat, Go); (0%nat, Go); (0%nat, Move n); (0%nat, stop)] with ([(0%nat, Go)] ++ [(0%nat, Go); (0%nat, Move n); (0%nat, stop)]). rewrite (wrun_app Key Keypair pkcs1_of key_of_pkcs1 pem_of keypair_of_pkcs8 peer_of addr_text addr_parse).
      replace (wrun (mk_world Absent [InitAt bits profiles (Some k)]) [(0%nat, Go)]) with (mk_world Absent [Prepared Key Keypair peer text]); [reflexivity|]. unfold Config.wrun. cbn [fold_left]. unfold wstep. cbn [w_procs w_config fst snd nth_error advance]. rewrite P. reflexivity. }
    rewrite !S1. split; [reflexivity|]. split; [reflexivity|]. split; [reflexivity|]. intros ps xs F.
    assert (T : load (firstn n text) = Err ConfigurationFileFormat).
    { apply (torn Key Keypair pkcs1_of key_of_pkcs1 pem_of keypair_of_pkcs8 peer_of addr_text addr_parse pkcs1_round addr_round bits profiles (Some k) peer _ (skipn n text)); [rewrite firstn_skipn; exact P|]. intros X. apply (f_equal (@length _)) in X. rewrite skipn_length in X. cbn in X. lia. }
    assert (C : File (firstn n text) <> Absent) by discriminate. split; [exact (proj1 (c71_never_overwritten _ ps xs C F))|]. intros i p N. split; [intros q ->; exact (proj2 (c71_never_overwritten _ ps xs C F) i q N)|].
    enough (G : forall i p, nth_error (procs (wrun (mk_world (File (firstn n text)) ps) xs)) i = Some p -> match p with Config.Reading _ _ got => exists rest, firstn n text = got ++ rest | Config.Loaded _ _ _ | Config.Serving _ _ _ _ _ => False | _ => True end).
    { specialize (G i p N). destruct p; try (split; discriminate); destruct G. }
    clear i p N. induction xs as [|x xs IH] using rev_ind.
    - intros i p N. cbn in N. rewrite Forall_forall in F. destruct (F p (nth_error_In _ _ N)) as [(b & pr & ky & ->)| ->]; exact Logic.I.
    - intros i p. rewrite (wrun_snoc Key Keypair pkcs1_of key_of_pkcs1 pem_of keypair_of_pkcs8 peer_of addr_text addr_parse). pose proof (proj1 (c71_never_overwritten _ ps xs C F)) as E. unfold wstep. destruct (nth_error (procs (wrun (mk_world (File (firstn n text)) ps) xs)) (fst x)) as [q|] eqn:Nq; [|apply IH].
      rewrite E. specialize (IH (fst x) q Nq) as Gq. destruct (advance _ _ _ _ _ _ _ _ _ _ q (snd x)) as [c' q'] eqn:A. cbn [w_procs]. rewrite nth_replace. destruct (Nat.eqb_spec (fst x) i) as [EJ|EJ]; [|apply IH]. rewrite Nq. intros H. injection H as <-. clear IH EJ Nq.
      destruct q as [b pr ky|pe te|pe td| |got|cfg|cfg ip port|m| |]; [| | | | |destruct Gq|destruct Gq| | |]; destruct (snd x); cbn [advance running] in A; try (injection A as <- <-; first [exact Logic.I|exact Gq]).
      + destruct td; injection A as <- <-; exact Logic.I.
      + injection A as <- <-. exists (firstn n text). reflexivity.
      + destruct (Nat.leb_spec (length (firstn n text)) (length got)) as [Lg|Lg]; [|injection A as <- <-; exact Gq]. destruct Gq as (r & Gq).
        assert (got = firstn n text) by (destruct r; [rewrite app_nil_r in Gq; symmetry; exact Gq|exfalso; rewrite Gq, app_length in Lg; cbn in Lg; lia]). subst got. rewrite T in A. injection A as <- <-. exact Logic.I.
      + injection A as <- <-. destruct Gq as (r & Gq). rewrite Gq. exists (skipn n0 r). rewrite skipn_app, skipn_all, Nat.sub_diag. cbn [skipn app]. rewrite <- app_assoc, firstn_skipn. reflexivity.
  Qed.

  (** A daemon started while init is still writing panics, though nothing is wrong. *)
  Theorem c71_daemon_during_init_refuted bits profiles k peer text n :
    prepare bits profiles (Some k) = Ok (peer, text) -> (n < length text)%nat ->
    wrun (mk_world Absent [InitAt bits profiles (Some k); DaemonAt])
      [(0%nat, Go); (0%nat, Go); (0%nat, Move n); (1%nat, Go); (1%nat, Move n); (1%nat, Go); (0%nat, Move (length text)); (0%nat, Go)] =
    mk_world (File text) [Exited (PeerIdentity peer); Panicked].
  Proof.
    intros P L. unfold Config.wrun. cbn [fold_left]. unfold wstep at 8. cbn [w_procs w_config fst snd nth_error advance replace]. rewrite P.
    unfold wstep at 7. cbn [w_procs w_config fst snd nth_error advance replace]. unfold wstep at 6. cbn [w_procs w_config fst snd nth_error advance replace app]. unfold wstep at 5. cbn [w_procs w_config fst snd nth_error advance replace].
    unfold wstep at 4. cbn [w_procs w_config fst snd nth_error advance replace length skipn app]. rewrite firstn_firstn, Nat.min_id. unfold wstep at 3. cbn [w_procs w_config fst snd nth_error advance replace]. rewrite Nat.leb_refl.
    rewrite (torn Key Keypair pkcs1_of key_of_pkcs1 pem_of keypair_of_pkcs8 peer_of addr_text addr_parse pkcs1_round addr_round bits profiles (Some k) peer (firstn n text) (skipn n text)); [|rewrite firstn_skipn; exact P|intros X; apply (f_equal (@length _)) in X; rewrite skipn_length in X; cbn in X; lia].
    unfold wstep at 2. cbn [w_procs w_config fst snd nth_error advance replace]. rewrite (firstn_all2 (skipn n text)), (skipn_all2 (skipn n text)) by (rewrite skipn_length; lia). rewrite firstn_skipn. reflexivity.
  Qed.
  (** What an init which fails says: the number of bits it was given, if that is out of range; that the
      configuration exists, if there is one; and nothing is created. *)
  Theorem c71_init_says bits profiles key c :
    (forall s, c = File s -> wrun (mk_world c [InitAt bits profiles key]) [(0%nat, Go)] = mk_world c [Exited AlreadyExists]) /\
    (c = Absent -> (length profiles <= 1)%nat -> ~ (2048 <= bits <= 16384) ->
       wrun (mk_world c [InitAt bits profiles key]) [(0%nat, Go)] = mk_world c [Exited (BitsOutOfRange bits)]) /\
    (c = Absent -> (length profiles <= 1)%nat -> 2048 <= bits <= 16384 ->
       wrun (mk_world c [InitAt bits profiles None]) [(0%nat, Go)] = mk_world c [Exited OtherError]).
  Proof.
    split; [intros s ->; reflexivity|]. split; intros -> L B.
    - unfold Config.wrun. cbn [fold_left]. unfold wstep. cbn [w_procs w_config fst snd nth_error advance]. unfold Config.prepare.
      replace ((2048 <=? bits) && (bits <=? 16384)) with false by lia. destruct profiles as [|p [|? ?]]; [reflexivity|reflexivity|cbn in L; lia].
    - unfold Config.wrun. cbn [fold_left]. unfold wstep. cbn [w_procs w_config fst snd nth_error advance]. unfold Config.prepare.
      replace ((2048 <=? bits) && (bits <=? 16384)) with true by lia. destruct profiles as [|p [|? ?]]; [reflexivity|reflexivity|cbn in L; lia].
  Qed.
End Configuration.
Print Assumptions c71_load.
Print Assumptions c71_load_key.
Print Assumptions c71_load_no_panic.
Print Assumptions c71_init.
Print Assumptions c71_init_then_load.
Print Assumptions c71_never_overwritten.
Print Assumptions c71_one_identity.
Print Assumptions c71_announced.
Print Assumptions c71_served.
Print Assumptions c71_init_and_serve.
Print Assumptions c71_init_says.
Print Assumptions c71_load_errors.
Print Assumptions c71_killed_init_refuted.
Print Assumptions c71_daemon_during_init_refuted.

(** * More that goes wrong, whatever the functions of the libraries *)
(** Two profiles can be given, and make init panic. *)
Theorem c71_two_profiles_refuted Key Keypair pkcs1_of pem_of keypair_of_pkcs8 peer_of addr_text bits p q l key :
  prepare Key Keypair pkcs1_of pem_of keypair_of_pkcs8 peer_of addr_text bits (p :: q :: l) key = Panic.
Proof. reflexivity. Qed.
Print Assumptions c71_two_profiles_refuted.
(** A directory at the path of the configuration: init says there is a configuration, the daemon says
    there is none and init has to be run. *)
Theorem c71_directory_refuted Key Keypair pkcs1_of key_of_pkcs1 pem_of keypair_of_pkcs8 peer_of addr_text addr_parse bits profiles key r :
  prepare Key Keypair pkcs1_of pem_of keypair_of_pkcs8 peer_of addr_text bits profiles key = Ok r ->
  wrun Key Keypair pkcs1_of key_of_pkcs1 pem_of keypair_of_pkcs8 peer_of addr_text addr_parse
    (mk_world _ _ Directory [InitAt _ _ bits profiles key; DaemonAt _ _]) [(0%nat, Go); (0%nat, Go); (1%nat, Go)] =
  mk_world _ _ Directory [Exited _ _ AlreadyExists; Exited _ _ NoRepo].
Proof. intros P. unfold wrun. cbn [fold_left]. unfold wstep at 3. cbn [w_procs w_config fst snd nth_error advance]. rewrite P. destruct r. reflexivity. Qed.
Print Assumptions c71_directory_refuted.
(** A file which cannot be loaded makes the daemon panic, it does not end with an error message. *)
Theorem c71_unloadable_refuted Key Keypair pkcs1_of key_of_pkcs1 pem_of keypair_of_pkcs8 peer_of addr_text addr_parse s e :
  load Key Keypair key_of_pkcs1 pem_of keypair_of_pkcs8 peer_of addr_parse s = Err e ->
  w_procs _ _ (wrun Key Keypair pkcs1_of key_of_pkcs1 pem_of keypair_of_pkcs8 peer_of addr_text addr_parse
    (mk_world _ _ (File s) [DaemonAt _ _]) [(0%nat, Go); (0%nat, Move (length s)); (0%nat, Go)]) = [Panicked _ _].
Proof.
  intros L. unfold wrun. cbn [fold_left]. unfold wstep at 3. cbn [w_procs w_config fst snd nth_error advance replace]. unfold wstep at 2. cbn [w_procs w_config fst snd nth_error advance replace length skipn app]. rewrite firstn_all.
  unfold wstep. cbn [w_procs w_config fst snd nth_error advance replace]. rewrite Nat.leb_refl, L. reflexivity.
Qed.
Print Assumptions c71_unloadable_refuted.
(** A configuration which is loaded but has an API address other than an IPv4 address with a TCP port,
    say the one go-ipfs writes for IPv6, makes the daemon panic. *)
Theorem c71_api_address_refuted Key Keypair pkcs1_of key_of_pkcs1 pem_of keypair_of_pkcs8 peer_of addr_text addr_parse s cfg :
  load Key Keypair key_of_pkcs1 pem_of keypair_of_pkcs8 peer_of addr_parse s = Ok cfg -> (forall ip port, c_api _ cfg <> [PIp4 ip; PTcp port]) ->
  w_procs _ _ (wrun Key Keypair pkcs1_of key_of_pkcs1 pem_of keypair_of_pkcs8 peer_of addr_text addr_parse
    (mk_world _ _ (File s) [DaemonAt _ _]) [(0%nat, Go); (0%nat, Move (length s)); (0%nat, Go); (0%nat, Go)]) = [Panicked _ _].
Proof.
  intros L H. unfold wrun. cbn [fold_left]. unfold wstep at 4. cbn [w_procs w_config fst snd nth_error advance replace]. unfold wstep at 3. cbn [w_procs w_config fst snd nth_error advance replace length skipn app]. rewrite firstn_all.
  unfold wstep at 2. cbn [w_procs w_config fst snd nth_error advance replace]. rewrite Nat.leb_refl, L. unfold wstep. cbn [w_procs w_config fst snd nth_error advance replace].
  assert (S : socket_of (c_api _ cfg) = None).
  { destruct (c_api _ cfg) as [|a [|b [|d l]]] eqn:E; [reflexivity|destruct a; reflexivity| |destruct a; try reflexivity; destruct b; reflexivity]. destruct a; try reflexivity. destruct b; try reflexivity. destruct (H a p eq_refl). }
  rewrite S. reflexivity.
Qed.
Print Assumptions c71_api_address_refuted.
(** The type of a key is required (keys.proto), but one without is taken for an RSA key. *)
Theorem c71_key_type_missing_refuted data : blen data < u64_max1 -> decode_key (w_bytes 18 data) = Some (0%Z, data).
Proof.
  intros H. unfold decode_key. change 18 with (2 * 8 + 2). rewrite <- (app_nil_r (w_bytes (2 * 8 + 2) data)), ProstProofs.pb_fields_len by (try (unfold u32_max1; lia); exact H). rewrite ProstProofs.pb_fields_nil. reflexivity.
Qed.
Print Assumptions c71_key_type_missing_refuted.

(** * An instance *)
(** Two keys; the first byte of the data tells which. *)
Definition ex_pkcs1 (k : bool) : option bytes := Some [if k then 1 else 0; 255].
Definition ex_key (b : bytes) : option bool := match b with [1; 255] => Some true | [0; 255] => Some false | _ => None end.
(** "-----BEGIN K-----", "AQ==" or "AA==", "-----END K-----". *)
Definition ex_label : bytes := [32; 75; 45; 45; 45; 45; 45].
Definition ex_pem (k : bool) : option bytes :=
  Some (line (begin_mark ++ ex_label) ++ line [65; if k then 81 else 65; 61; 61] ++ line (end_mark ++ ex_label)).
Definition ex_keypair (b : bytes) : option bool := match b with [1] => Some true | [0] => Some false | _ => None end.
Definition ex_peer (k : bool) : peer_id := {| mh_code := 18; mh_digest := repeat (if k then 7 else 9) 32 |}.
(** "/ip4/127.0.0.1/tcp/0" and "/ip4/127.0.0.1/tcp/4004". *)
Definition ex_local : bytes := [47; 105; 112; 52; 47; 49; 50; 55; 46; 48; 46; 48; 46; 49; 47; 116; 99; 112; 47].
Definition ex_addr (a : multiaddr) : bytes := ex_local ++ match a with [_; PTcp 4004] => [52; 48; 48; 52] | _ => [48] end.
Definition ex_parse (s : bytes) : option multiaddr :=
  if beq s (ex_local ++ [48]) then Some [PIp4 own_host; PTcp 0] else if beq s (ex_local ++ [52; 48; 48; 52]) then Some [PIp4 own_host; PTcp 4004] else None.
Notation ex_run := (wrun bool bool ex_pkcs1 ex_key ex_pem ex_keypair ex_peer ex_addr ex_parse).
(** The hypotheses of the section hold. *)
Example c71_ex_round k b : ex_pkcs1 k = Some b -> ex_key b = Some k /\ wf_bytes b /\ blen b < u64_max1.
Proof. intros H. injection H as <-. destruct k; (split; [reflexivity|split; [repeat (constructor; [unfold is_byte; lia|]); constructor|reflexivity]]). Qed.
Example c71_ex_addr a : In a [[PIp4 own_host; PTcp 0]; [PIp4 own_host; PTcp 4004]] -> ex_parse (ex_addr a) = Some a /\ utf8 (ex_addr a) = true.
Proof. intros [<-|[<-|[]]]; split; reflexivity. Qed.
Example c71_ex_pair k : pair_of bool bool ex_pem ex_keypair k k.
Proof.
  exists (line (begin_mark ++ ex_label) ++ line [65; if k then 81 else 65; 61; 61] ++ line (end_mark ++ ex_label)), [if k then 1 else 0]. split; [reflexivity|]. split; [constructor; [destruct k; unfold is_byte; lia|constructor]|]. split; [|destruct k; reflexivity].
  exists ex_label, [[65; if k then 81 else 65; 61; 61]], [65; if k then 81 else 65; 61; 61], [], (line (begin_mark ++ ex_label)), (line (end_mark ++ ex_label)), [line [65; if k then 81 else 65; 61; 61]]. split; [repeat (constructor; [lia|]); constructor|]. split; [destruct k; apply b64_one; reflexivity|]. split; [reflexivity|]. split; [constructor|].
  split; [left; reflexivity|]. split; [apply Forall2_cons; [left; reflexivity|constructor]|]. split; [left; reflexivity|]. cbn [concat]. rewrite !app_nil_r. reflexivity.
Qed.
(** Two inits and a daemon: both inits find no configuration, the second one creates the file, the first
    one is refused, the daemon serves with the key of the second. *)
Example c71_ex_race :
  let w := ex_run (mk_world _ _ Absent [InitAt _ _ 2048 [Test] (Some true); InitAt _ _ 4096 [] (Some false); DaemonAt _ _])
    [(0%nat, Go); (1%nat, Go); (1%nat, Go); (0%nat, Go); (1%nat, Move 20); (1%nat, Move 1000); (1%nat, Go); (2%nat, Go); (2%nat, Move 33); (2%nat, Move 1000); (2%nat, Go); (2%nat, Go)] in
  w_procs _ _ w = [Exited _ _ AlreadyExists; Exited _ _ (PeerIdentity (peer_to_text (ex_peer false)));
                   Serving _ _ (mk_config _ false [[PIp4 own_host; PTcp 0]] [PIp4 own_host; PTcp 4004]) own_host 4004].
Proof. vm_compute. reflexivity. Qed.
(** A file with other members, white space and escapes, as other programs write them, is loaded. *)
Example c71_ex_foreign :
  exists s, says ex_parse s (peer_to_text (ex_peer true)) (HttpPubsub.base64 (encode_key [1; 255])) [] [PIp4 own_host; PTcp 0] /\
    load bool bool ex_key ex_pem ex_keypair ex_peer ex_parse s = Ok (mk_config _ true [] [PIp4 own_host; PTcp 0]).
Proof.
  exists ([32; 123; 34; 88; 34; 58; 91; 45; 49; 46; 53; 101; 43; 51; 44; 110; 117; 108; 108; 44; 34; 92; 117; 68; 56; 48; 48; 34; 93; 44; 34; 65; 100; 100; 114; 92; 117; 48; 48; 54; 53; 115; 115; 101; 115; 34; 58; 123; 34; 65; 80; 73; 34; 58] ++
    RefsHttp.json_string (ex_local ++ [48]) ++ [44; 34; 83; 119; 97; 114; 109; 34; 58; 91; 32; 93; 125; 44] ++ RefsHttp.json_string n_identity ++ [58; 91] ++ RefsHttp.json_string (peer_to_text (ex_peer true)) ++ [44] ++
    RefsHttp.json_string (HttpPubsub.base64 (encode_key [1; 255])) ++ [93; 10; 125; 10]).
  split; [apply read_config_spec; vm_compute; reflexivity|vm_compute; reflexivity].
Qed.
