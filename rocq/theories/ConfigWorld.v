(** Lemmas about [Config]: what was prepared can be loaded, and processes sharing the directory. *)
From Verif Require Import Base Wire Cid Text TextProofs Addr RefsHttp FsPathsProofs HttpPubsub HttpPubsubProofs
  Json JsonSpec JsonProofs Config ConfigSpec ConfigProofs.
Local Open Scope N_scope.

Section World.
  Variables Key Keypair : Type.
  Variable pkcs1_of : Key -> option bytes.
  Variable key_of_pkcs1 : bytes -> option Key.
  Variable pem_of : Key -> option bytes.
  Variable keypair_of_pkcs8 : bytes -> option Keypair.
  Variable peer_of : Keypair -> peer_id.
  Variable addr_text : multiaddr -> bytes.
  Variable addr_parse : bytes -> option multiaddr.
  Notation prepare := (prepare Key Keypair pkcs1_of pem_of keypair_of_pkcs8 peer_of addr_text).
  Notation load := (load Key Keypair key_of_pkcs1 pem_of keypair_of_pkcs8 peer_of addr_parse).
  Notation config := (config Keypair).
  Notation proc := (proc Key Keypair).
  Notation world := (world Key Keypair).
  Notation advance := (advance Key Keypair pkcs1_of key_of_pkcs1 pem_of keypair_of_pkcs8 peer_of addr_text addr_parse).
  Notation wstep := (wstep Key Keypair pkcs1_of key_of_pkcs1 pem_of keypair_of_pkcs8 peer_of addr_text addr_parse).
  Notation wrun := (wrun Key Keypair pkcs1_of key_of_pkcs1 pem_of keypair_of_pkcs8 peer_of addr_text addr_parse).

  (** The profile which is used. *)
  Definition profile_used (l : list profile) : profile := match l with p :: _ => p | [] => Default end.
  (** The key pair of a key. *)
  Definition keypair_of (k : Key) (kp : Keypair) : Prop :=
    exists pem der, pem_of k = Some pem /\ pem_to_der pem = Some der /\ keypair_of_pkcs8 der = Some kp.
  (** What is loaded after [init] with this key and these profiles. *)
  Definition made (profiles : list profile) (kp : Keypair) : config := mk_config Keypair kp default_swarm (api_of (profile_used profiles)).

  Lemma api_known p : In (api_of p) [[PIp4 localhost; PTcp 0]; [PIp4 localhost; PTcp 4004]].
  Proof. destruct p; cbn; tauto. Qed.
  Lemma base64_utf8 b : wf_bytes b -> utf8 (base64 b) = true.
  Proof.
    intros W. apply utf8_ascii. destruct (base64_text_decode b (base64 b) W (base64_encode_text b W)) as [_ F]. eapply Forall_impl; [|exact F]. cbv beta. tauto.
  Qed.
  Lemma encode_key_wf b : wf_bytes b -> wf_bytes (encode_key b).
  Proof.
    intros W. unfold encode_key, w_uint, w_bytes. rewrite !wf_bytes_app. repeat split; try apply WireProofs.write_varint_wf. exact W.
  Qed.
  Lemma prepare_inv bits profiles key peer text : prepare bits profiles key = Ok (peer, text) ->
    exists k kp pkcs1, key = Some k /\ (length profiles <= 1)%nat /\ 2048 <= bits <= 16384 /\ keypair_of k kp /\ pkcs1_of k = Some pkcs1 /\ peer = peer_to_text (peer_of kp) /\
      text = config_text peer (base64 (encode_key pkcs1)) (map addr_text default_swarm) (addr_text (api_of (profile_used profiles))).
  Proof.
    unfold Config.prepare. assert (G : match profiles with [] => Some Default | [p] => Some p | _ => None end = None \/ ((length profiles <= 1)%nat /\ match profiles with [] => Some Default | [p] => Some p | _ => None end = Some (profile_used profiles))).
    { destruct profiles as [|p [|q l]]; [right|right|left; reflexivity]; (split; [cbn; lia|reflexivity]). }
    destruct G as [->|[L ->]]; [discriminate|]. destruct ((2048 <=? bits) && (bits <=? 16384)) eqn:B; [|discriminate]. destruct key as [k|]; [|discriminate].
    destruct (pem_of k) as [pem|] eqn:P; [|discriminate]. destruct (pem_to_der pem) as [der|] eqn:D; [|discriminate]. destruct (keypair_of_pkcs8 der) as [kp|] eqn:Q; [|discriminate]. destruct (pkcs1_of k) as [pkcs1|] eqn:R; [|discriminate].
    intros H. injection H as <- <-. exists k, kp, pkcs1. split; [reflexivity|]. split; [exact L|]. split; [lia|]. split; [exists pem, der; tauto|]. split; [exact R|]. split; reflexivity.
  Qed.
  (** openssl reads a key it has written back as the same key. *)
  Hypothesis pkcs1_round : forall k b, pkcs1_of k = Some b -> key_of_pkcs1 b = Some k /\ wf_bytes b /\ blen b < u64_max1.
  (** The three addresses which are written can be read. *)
  Hypothesis addr_round : forall a, In a [[PIp4 localhost; PTcp 0]; [PIp4 localhost; PTcp 4004]] -> addr_parse (addr_text a) = Some a /\ utf8 (addr_text a) = true.
  Lemma prepared_value bits profiles key peer text : prepare bits profiles key = Ok (peer, text) -> exists v, value_text v text.
  Proof.
    intros H. destruct (prepare_inv _ _ _ _ _ H) as (k & kp & pkcs1 & -> & L & B & K & P & -> & ->). destruct (pkcs1_round k pkcs1 P) as (R & W & Z). eexists. apply config_text_value.
    - apply alnum_utf8, b58_chars.
    - apply base64_utf8, encode_key_wf, W.
    - cbn [map default_swarm]. constructor; [|constructor]. apply addr_round. cbn; tauto.
    - apply addr_round, api_known.
  Qed.
  Lemma load_prepared bits profiles k peer text : prepare bits profiles (Some k) = Ok (peer, text) ->
    exists kp, keypair_of k kp /\ peer = peer_to_text (peer_of kp) /\ load text = Ok (made profiles kp).
  Proof.
    intros H. destruct (prepare_inv _ _ _ _ _ H) as (k' & kp & pkcs1 & E & L & B & K & P & Hp & ->). injection E as <-. exists kp. split; [exact K|]. split; [exact Hp|]. destruct (pkcs1_round k pkcs1 P) as (R & W & Z).
    assert (U : utf8 peer = true) by (subst peer; apply alnum_utf8, b58_chars). pose proof (base64_utf8 _ (encode_key_wf _ W)) as V.
    destruct (addr_round _ (api_known (profile_used profiles))) as [A1 A2]. destruct (addr_round [PIp4 localhost; PTcp 0] ltac:(cbn; tauto)) as [A3 A4].
    unfold Config.load. replace (read_config addr_parse _) with (Some (peer, base64 (encode_key pkcs1), default_swarm, api_of (profile_used profiles))).
    - unfold load_keypair. rewrite base64_decode_encode by (apply encode_key_wf, W). rewrite decode_encode_key by exact Z. change (0 =? 0)%Z with true. cbv iota. rewrite R.
      destruct K as (pem & der & K1 & K2 & K3). rewrite K1, K2, K3, <- Hp, beq_refl. reflexivity.
    - symmetry. unfold read_config.
      assert (D : document (config_text peer (base64 (encode_key pkcs1)) (map addr_text default_swarm) (addr_text (api_of (profile_used profiles)))) = Some (config_value peer (base64 (encode_key pkcs1)) (map addr_text default_swarm) (addr_text (api_of (profile_used profiles))))).
      { apply document_iff. eexists _, []. split; [apply config_text_value; [exact U|exact V| |exact A2]|split; [constructor|rewrite app_nil_r; reflexivity]]. cbn [map default_swarm]. constructor; [exact A4|constructor]. }
      rewrite D. cbn. rewrite A1, A3. reflexivity.
  Qed.
  (** Nothing but the whole text is loaded. *)
  Lemma torn bits profiles key peer a b : prepare bits profiles key = Ok (peer, a ++ b) -> b <> [] -> load a = Err ConfigurationFileFormat.
  Proof.
    intros H Hb. destruct (prepared_value _ _ _ _ _ H) as (v & V). unfold Config.load, read_config. destruct (document a) as [v'|] eqn:D; [|reflexivity].
    destruct (read_struct [k_identity; k_addresses] v') as [l|] eqn:R; [|reflexivity]. exfalso. apply document_iff in D. destruct D as (p & w & P & W & ->). rewrite <- app_assoc in V.
    assert (X : w ++ b = []) by (apply (value_text_prefix v' p (w ++ b) v P V); intros ? ->; discriminate). apply app_eq_nil in X. tauto.
  Qed.

  (** * One process *)
  Notation Writing := (Writing Key Keypair).
  Notation Prepared := (Prepared Key Keypair).
  Notation Exited := (Exited Key Keypair).
  Notation InitAt := (InitAt Key Keypair).
  Notation DaemonAt := (DaemonAt Key Keypair).
  Notation Reading := (Reading Key Keypair).
  Notation Loaded := (Loaded Key Keypair).
  Notation Serving := (Serving Key Keypair).
  Notation Killed := (Killed Key Keypair).
  Notation Panicked := (Panicked Key Keypair).

  Lemma nth_replace i (p : proc) l j : nth_error (replace Key Keypair i p l) j = if (i =? j)%nat then match nth_error l i with Some _ => Some p | None => None end else nth_error l j.
  Proof.
    revert i j. induction l as [|q l IH]; intros [|i] [|j]; cbn; try reflexivity.
    - destruct (i =? j)%nat; reflexivity.
    - apply IH.
  Qed.
  Lemma wrun_snoc w xs x : wrun w (xs ++ [x]) = wstep (wrun w xs) x.
  Proof. unfold Config.wrun. rewrite fold_left_app. reflexivity. Qed.
  Lemma wrun_app w xs ys : wrun w (xs ++ ys) = wrun (wrun w xs) ys.
  Proof. unfold Config.wrun. apply fold_left_app. Qed.

  (** A process as it is started. *)
  Definition fresh (p : proc) : Prop := (exists bits profiles key, p = InitAt bits profiles key) \/ p = DaemonAt.
  (** Processes which have not created the file. *)
  Definition bystander (p : proc) : Prop := match p with Config.Writing _ _ _ _ | Config.Exited _ _ (PeerIdentity _) => False | _ => True end.
  (** What the processes started with. *)
  Definition from_init (ps : list proc) (peer text : bytes) : Prop :=
    exists i bits profiles key, nth_error ps i = Some (InitAt bits profiles key) /\ prepare bits profiles key = Ok (peer, text).
  Definition prepared_ok (ps : list proc) (i : nat) (p : proc) : Prop :=
    match p with
    | Config.InitAt _ _ _ _ _ => nth_error ps i = Some p
    | Config.Prepared _ _ peer text => exists bits profiles key, nth_error ps i = Some (InitAt bits profiles key) /\ prepare bits profiles key = Ok (peer, text)
    | _ => True
    end.
  (** The configuration exists from the beginning, or as long as it does: it is never touched. *)
  Lemma bystander_step c p e c' p' : c <> Absent -> bystander p -> advance c p e = (c', p') -> c' = c /\ bystander p'.
  Proof.
    intros C B H. destruct p as [bits profiles key|peer text|peer todo| |got|cfg|cfg ip port|m| |]; [| |destruct B| | | | | | |];
      destruct e; cbn [Config.advance running] in H; try (injection H as <- <-; split; [reflexivity|exact B || exact Logic.I]).
    - destruct c as [| |s]; [congruence| |injection H as <- <-; split; [reflexivity|exact Logic.I]]. destruct (prepare bits profiles key) as [[peer text]|e|]; injection H as <- <-; (split; [reflexivity|]); try exact Logic.I. destruct e; exact Logic.I.
    - destruct c as [| |s]; [congruence| |]; injection H as <- <-; (split; [reflexivity|exact Logic.I]).
    - destruct c as [| |s]; injection H as <- <-; (split; [reflexivity|exact Logic.I]).
    - destruct c as [| |s]; try (injection H as <- <-; split; [reflexivity|exact Logic.I]). destruct (length s <=? length got)%nat; [|injection H as <- <-; split; [reflexivity|exact Logic.I]]. destruct (load got); injection H as <- <-; (split; [reflexivity|exact Logic.I]).
    - destruct c as [| |s]; injection H as <- <-; (split; [reflexivity|exact Logic.I]).
    - destruct (socket_of (c_api Keypair cfg)) as [[ip port]|]; injection H as <- <-; (split; [reflexivity|exact Logic.I]).
  Qed.
  Lemma bystanders_run xs : forall w, w_config _ _ w <> Absent -> Forall bystander (w_procs _ _ w) ->
    w_config _ _ (wrun w xs) = w_config _ _ w /\ Forall bystander (w_procs _ _ (wrun w xs)).
  Proof.
    induction xs as [|x xs IH] using rev_ind; intros w C B; [split; [reflexivity|exact B]|]. rewrite wrun_snoc. destruct (IH w C B) as [E F]. unfold Config.wstep.
    destruct (nth_error (w_procs _ _ (wrun w xs)) (fst x)) as [p|] eqn:N; [|split; assumption]. destruct (advance _ p (snd x)) as [c' p'] eqn:A.
    assert (Bp : bystander p) by (rewrite Forall_forall in F; apply F; eapply nth_error_In; exact N). assert (CN : w_config _ _ (wrun w xs) <> Absent) by (rewrite E; exact C). destruct (bystander_step _ _ _ _ _ CN Bp A) as [-> Bp']. cbn [w_config w_procs]. split; [exact E|].
    apply Forall_forall. intros q Q. apply In_nth_error in Q. destruct Q as (j & Q). rewrite nth_replace in Q. destruct (Nat.eqb_spec (fst x) j) as [EJ|EJ].
    - clear EJ. rewrite N in Q. injection Q as <-. exact Bp'.
    - rewrite Forall_forall in F. apply F. eapply nth_error_In. exact Q.
  Qed.

  (** * All processes from the start *)
  (** Daemons which have read a part of [s], or loaded the whole of it. *)
  Definition reader_ok (s todo : bytes) (p : proc) : Prop :=
    match p with
    | Config.Reading _ _ got => exists rest, s = got ++ rest
    | Config.Loaded _ _ cfg | Config.Serving _ _ cfg _ _ => todo = [] /\ load s = Ok cfg
    | _ => True
    end.
  Definition no_reader (p : proc) : Prop :=
    match p with Config.Reading _ _ _ | Config.Loaded _ _ _ | Config.Serving _ _ _ _ _ => False | _ => True end.
  Definition owner_ok (peer todo : bytes) (p : proc) : Prop :=
    match p with
    | Config.Writing _ _ q t => q = peer /\ t = todo
    | Config.Exited _ _ (PeerIdentity q) => q = peer /\ todo = []
    | Config.Exited _ _ _ | Config.Killed _ _ => True
    | _ => False
    end.
  Definition inv (ps : list proc) (w : world) : Prop :=
    (forall i p, nth_error (w_procs _ _ w) i = Some p -> prepared_ok ps i p) /\
    ((w_config _ _ w <> Directory -> w_config _ _ w = Absent) /\ Forall bystander (w_procs _ _ w) /\ Forall no_reader (w_procs _ _ w) \/
     exists o bits profiles key peer done todo,
       nth_error ps o = Some (InitAt bits profiles key) /\ prepare bits profiles key = Ok (peer, done ++ todo) /\
       w_config _ _ w = File done /\
       (exists p, nth_error (w_procs _ _ w) o = Some p /\ owner_ok peer todo p) /\
       (forall i p, nth_error (w_procs _ _ w) i = Some p -> i <> o -> bystander p) /\
       (forall i p, nth_error (w_procs _ _ w) i = Some p -> reader_ok done todo p)).
  Lemma inv_start ps c : c = Absent \/ c = Directory -> Forall fresh ps -> inv ps (mk_world _ _ c ps).
  Proof.
    intros C F. split.
    - intros i p N. cbn [w_procs] in N. rewrite Forall_forall in F. destruct (F p (nth_error_In _ _ N)) as [(b & pr & k & ->)| ->]; [exact N|exact Logic.I].
    - left. cbn [w_config w_procs]. split; [destruct C as [->| ->]; congruence|]. split; (eapply Forall_impl; [|exact F]); intros p [(b & pr & k & ->)| ->]; exact Logic.I.
  Qed.
  Lemma inv_step ps w x : inv ps w -> inv ps (wstep w x).
  Proof.
    intros HI. destruct x as [i e]. unfold Config.wstep. cbn [fst snd]. destruct (nth_error (w_procs _ _ w) i) as [p|] eqn:N; [|exact HI]. destruct (advance (w_config _ _ w) p e) as [c' p'] eqn:A. destruct HI as [HP HC].
    assert (P' : prepared_ok ps i p').
    { pose proof (HP i p N) as Q. destruct p as [bits profiles key|peer text|peer todo| |got|cfg|cfg ip port|m| |]; destruct e; cbn [Config.advance running] in A; try (injection A as <- <-; first [exact Q|exact Logic.I]).
      - destruct (w_config _ _ w) as [| |s]; try (injection A as <- <-; exact Logic.I); destruct (prepare bits profiles key) as [[peer text]|er|] eqn:Pr; injection A as <- <-; try exact Logic.I; exists bits, profiles, key; (split; [exact Q|exact Pr]).
      - destruct (w_config _ _ w); injection A as <- <-; exact Logic.I.
      - destruct todo; injection A as <- <-; exact Logic.I.
      - destruct (w_config _ _ w); injection A as <- <-; exact Logic.I.
      - destruct (w_config _ _ w); injection A as <- <-; exact Logic.I.
      - destruct (w_config _ _ w) as [| |s]; try (injection A as <- <-; exact Logic.I). destruct (length s <=? length got)%nat; [|injection A as <- <-; exact Logic.I]. destruct (load got); injection A as <- <-; exact Logic.I.
      - destruct (w_config _ _ w); injection A as <- <-; exact Logic.I.
      - destruct (socket_of (c_api Keypair cfg)) as [[ip port]|]; injection A as <- <-; exact Logic.I. }
    assert (HP' : forall j q, nth_error (replace Key Keypair i p' (w_procs _ _ w)) j = Some q -> prepared_ok ps j q).
    { intros j q Q. rewrite nth_replace in Q. destruct (Nat.eqb_spec i j) as [<-|]; [rewrite N in Q; injection Q as <-; exact P'|exact (HP j q Q)]. }
    split; [exact HP'|]. cbn [w_config w_procs]. destruct HC as [(C & B & R)|(o & bits & profiles & key & peer & done & todo & O & Pr & C & (po & NO & OK) & B & R)].
    - (* the file does not exist yet *)
      assert (Bp : bystander p) by (rewrite Forall_forall in B; apply B; eapply nth_error_In; exact N). assert (Rp : no_reader p) by (rewrite Forall_forall in R; apply R; eapply nth_error_In; exact N).
      assert (G : (c' = w_config _ _ w /\ bystander p' /\ no_reader p') \/ (exists pe te, p = Prepared pe te /\ c' = File [] /\ p' = Writing pe te)).
      { assert (C' : forall s, w_config _ _ w <> File s) by (intros s E; rewrite E in C; discriminate (C ltac:(discriminate))).
        destruct p as [bits profiles key|pe te|pe todo| |got|cfg|cfg ip port|m| |]; [| |destruct Bp| |destruct Rp|destruct Rp|destruct Rp| | |]; destruct e; cbn [Config.advance running] in A; try (injection A as <- <-; left; split; [reflexivity|split; first [exact Logic.I|exact Bp|exact Rp]]).
        - destruct (w_config _ _ w) as [| |s]; [| |destruct (C' s eq_refl)]; destruct (prepare bits profiles key) as [[pe te]|er|]; injection A as <- <-; left; (split; [reflexivity|split; try exact Logic.I]); destruct er; exact Logic.I.
        - destruct (w_config _ _ w) as [| |s]; [|injection A as <- <-; left; split; [reflexivity|split; exact Logic.I]|destruct (C' s eq_refl)]. injection A as <- <-. right. exists pe, te. repeat split.
        - destruct (w_config _ _ w) as [| |s]; [| |destruct (C' s eq_refl)]; injection A as <- <-; left; (split; [reflexivity|split; exact Logic.I]). }
      destruct G as [(-> & B' & R')|(pe & te & -> & -> & ->)].
      + left. split; [exact C|]. split; apply Forall_forall; intros q Q; apply In_nth_error in Q; destruct Q as (j & Q); rewrite nth_replace in Q; (destruct (Nat.eqb_spec i j) as [EJ|EJ]; [rewrite N in Q; injection Q as <-; assumption|apply nth_error_In in Q; rewrite Forall_forall in B, R; auto]).
      + right. destruct (HP i _ N) as (bits & profiles & key & O & Pr). exists i, bits, profiles, key, pe, [], te. split; [exact O|]. split; [exact Pr|]. split; [reflexivity|]. split; [|split].
        * exists (Writing pe te). split; [|split; reflexivity]. rewrite nth_replace, Nat.eqb_refl, N. reflexivity.
        * intros j q Q Hj. rewrite nth_replace in Q. destruct (Nat.eqb_spec i j); [congruence|]. apply nth_error_In in Q. rewrite Forall_forall in B. auto.
        * intros j q Q. rewrite nth_replace in Q. destruct (Nat.eqb_spec i j) as [<-|]; [rewrite N in Q; injection Q as <-; exact Logic.I|]. apply nth_error_In in Q. rewrite Forall_forall in R. specialize (R q Q). destruct q; try exact Logic.I; destruct R.
    - (* it does *)
      right. destruct (Nat.eq_dec i o) as [->|Hio].
      + (* the process which created it *)
        rewrite N in NO. injection NO as <-. rewrite C in A.
        assert (G : exists more rest, todo = more ++ rest /\ c' = File (done ++ more) /\ owner_ok peer rest p').
        { destruct p as [b pr k|pe te|pe td| |got|cfg|cfg ip port|m| |]; try destruct OK.
          - subst pe td. destruct e; cbn [Config.advance running] in A; try (injection A as <- <-; exists [], todo; rewrite (app_nil_r done); repeat split; exact Logic.I).
            + destruct todo as [|z todo]; injection A as <- <-; [exists [], []|exists [], (z :: todo)]; rewrite (app_nil_r done); repeat split.
            + injection A as <- <-. exists (firstn n todo), (skipn n todo). rewrite firstn_skipn. repeat split.
          - destruct e; cbn [Config.advance running] in A; injection A as <- <-; exists [], todo; rewrite (app_nil_r done); (split; [reflexivity|split; [reflexivity|exact OK]]).
          - destruct e; cbn [Config.advance running] in A; injection A as <- <-; exists [], todo; rewrite (app_nil_r done); repeat split. }
        destruct G as (more & rest & -> & -> & OK'). exists o, bits, profiles, key, peer, (done ++ more), rest. split; [exact O|]. split; [rewrite <- app_assoc; exact Pr|]. split; [reflexivity|]. split; [|split].
        * exists p'. split; [rewrite nth_replace, Nat.eqb_refl, N; reflexivity|exact OK'].
        * intros j q Q Hj. rewrite nth_replace in Q. destruct (Nat.eqb_spec o j); [congruence|]. exact (B j q Q Hj).
        * intros j q Q. rewrite nth_replace in Q. destruct (Nat.eqb_spec o j) as [<-|].
          { rewrite N in Q. injection Q as <-. destruct p' as [| | | | | | |m| |]; try exact Logic.I; destruct OK'. }
          specialize (R j q Q). destruct q; try exact Logic.I; cbn [reader_ok] in R |- *.
          { destruct R as (rr & ->). exists (rr ++ more). rewrite app_assoc. reflexivity. }
          { destruct R as (X & Y). apply app_eq_nil in X. destruct X as [-> ->]. rewrite app_nil_r. split; [reflexivity|exact Y]. }
          { destruct R as (X & Y). apply app_eq_nil in X. destruct X as [-> ->]. rewrite app_nil_r. split; [reflexivity|exact Y]. }
      + (* another one *)
        pose proof (B i p N Hio) as Bp. assert (CN : w_config _ _ w <> Absent) by (rewrite C; discriminate). destruct (bystander_step _ _ _ _ _ CN Bp A) as [-> Bp']. exists o, bits, profiles, key, peer, done, todo. split; [exact O|]. split; [exact Pr|]. split; [exact C|]. split; [|split].
        * exists po. split; [|exact OK]. rewrite nth_replace. destruct (Nat.eqb_spec i o); [congruence|exact NO].
        * intros j q Q Hj. rewrite nth_replace in Q. destruct (Nat.eqb_spec i j) as [<-|]; [rewrite N in Q; injection Q as <-; exact Bp'|exact (B j q Q Hj)].
        * intros j q Q. rewrite nth_replace in Q. destruct (Nat.eqb_spec i j) as [<-|]; [|exact (R j q Q)]. rewrite N in Q. injection Q as <-. specialize (R i p N). rewrite C in A.
          destruct p as [b pr k|pe te|pe td| |got|cfg|cfg ip port|m| |]; [| |destruct Bp| | | | | | |]; destruct e; cbn [Config.advance running] in A; try (injection A as <-; first [exact R|exact Logic.I]).
          { injection A as <-. exists done. reflexivity. }
          { destruct (Nat.leb_spec (length done) (length got)) as [L|L]; [|injection A as <-; exact R]. destruct R as (rest & Hd).
            assert (rest = []) by (destruct rest; [reflexivity|exfalso; rewrite Hd, app_length in L; cbn in L; lia]). subst rest. rewrite app_nil_r in Hd. subst got.
            destruct todo as [|z todo].
            - destruct (load done) as [cfg|er|] eqn:Ld; injection A as <-; try exact Logic.I. split; [reflexivity|exact Ld].
            - rewrite (torn _ _ _ _ _ _ Pr ltac:(discriminate)) in A. injection A as <-. exact Logic.I. }
          { injection A as <-. destruct R as (rest & ->). exists (skipn n rest). rewrite skipn_app, skipn_all, Nat.sub_diag. cbn [skipn app]. rewrite <- app_assoc, firstn_skipn. reflexivity. }
          { destruct (socket_of (c_api Keypair cfg)) as [[ip port]|]; injection A as <-; [exact R|exact Logic.I]. }
  Qed.
  Lemma inv_run ps c xs : c = Absent \/ c = Directory -> Forall fresh ps -> inv ps (wrun (mk_world _ _ c ps) xs).
  Proof. intros C F. induction xs as [|x xs IH] using rev_ind; [exact (inv_start ps c C F)|]. rewrite wrun_snoc. apply inv_step, IH. Qed.
End World.
