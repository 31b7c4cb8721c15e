(** C65: uploading, reading and removing blocks over HTTP. *)
From Coq Require Import Permutation.
From Verif Require Import Base Wire Cid CidProofs Text TextProofs Ipld FMap BlockSpec FsPaths FsPathsProofs FsBlocks FsBlocksProofs PinSpec FsPins PinnedRepo
  RefsHttp RefsHttpSpec RefsHttpProofs HttpOptions HttpOptionsProofs NodePins NodePinsProofs HttpBlock HttpBlockSpec HttpBlockProofs.
From Verif Require Resolve ResolveSpec PropsResolve Cat.
Local Open Scope N_scope.

(** ** Forms *)
(** A form is accepted if and only if its last part alone has one of the names; the data are the bytes
    of that part, however they were cut. *)
Theorem c65_form names limit m data : only_named names limit m = Ok data <-> holds names limit m data.
Proof. apply only_named_spec. Qed.
Print Assumptions c65_form.
Theorem c65_pieces names limit before f g fails : concat (f_pieces f) = concat (f_pieces g) -> f_name f = f_name g -> f_fails f = f_fails g ->
  forall data, only_named names limit (mk_form (before ++ [f]) fails) = Ok data <-> only_named names limit (mk_form (before ++ [g]) fails) = Ok data.
Proof.
  intros E1 E2 E3 data. rewrite !c65_form. unfold holds. cbn [m_fields m_fails].
  split; intros (b & h & E & H); apply app_inj_tail in E as [<- <-]; [exists before, g|exists before, f]; (split; [reflexivity|]); rewrite ?E1, ?E2, ?E3, <- ?E1, <- ?E2, <- ?E3 in *; exact H.
Qed.
Print Assumptions c65_pieces.

Section Put.
  Variable sha256 sha512 sha3 : bytes -> bytes.
  Variable duration : bytes -> bool.
  Variable ob : N -> bytes -> option bytes.
  Hypothesis H256 : forall b, length (sha256 b) = 32%nat /\ wf_bytes (sha256 b).
  Hypothesis H512 : forall b, length (sha512 b) = 64%nat /\ wf_bytes (sha512 b).
  Hypothesis H3 : forall b, length (sha3 b) = 64%nat /\ wf_bytes (sha3 b).
  Notation look s := (f_get (fst s)).
  Notation the_put := (block_put sha256 sha512 sha3).
  Notation the_dag_put := (dag_put sha256 sha512 sha3).

  Lemma once_cases rules l t k r : read_query rules [] l = Ok t -> rules k = Some r -> once r = true ->
    (values k l = [] /\ one_of k t = None) \/ exists v, values k l = [v] /\ one_of k t = Some v.
  Proof. intros H1 H2 H. destruct (read_once rules l t k r H1 H2 H) as [X|(v & X & Y & _)]; eauto. Qed.
  Lemma once_ok rules l k r : (values k l = [] \/ exists v, values k l = [v] /\ readable r v = true) -> rules k = Some r ->
    Forall (fun v => readable r v = true) (values k l) /\ (once r = true -> values k l = [] \/ (~ In k [] /\ exists v, values k l = [v])).
  Proof. intros [E|(v & E & H)] _; rewrite E; (split; [repeat constructor; assumption|]); intros _; [left; reflexivity|right; split; [intros []|eauto]]. Qed.
  Lemma chosen_once k d l v : chosen k d l v -> values k l = [] \/ exists v, values k l = [v] /\ any_value v = true.
  Proof. intros [[E _]|E]; [left|right; exists v]; auto. Qed.

  Lemma put_query query data c : put_cid sha256 sha512 sha3 query data c <->
    exists q mh v1 codec, read_query put_rules [] query = Ok q /\ hash_named sha256 sha512 sha3 false (or_else n_sha2_256 (one_of k_mhtype q)) data = Some mh /\
      version_of (one_of k_version q) = Some v1 /\ codec_named (or_else n_dagpb (one_of k_format q)) = Some codec /\ cid_new v1 codec mh = Some c.
  Proof.
    split.
    - intros (format & mhtype & codec & code & hash & Hf & Hin & Hm & Hh & Hv).
      assert (Hver : values k_version query = [] \/ exists v, values k_version query = [v] /\ match parse_u8 v with Some _ => true | None => false end = true).
      { destruct Hv as [(v & E & U & _)|[[E|(v & E & U)] _]]; [right; exists v|left; exact E|right; exists v]; (split; [exact E|]).
        - rewrite (proj2 (parse_u8_spec v 1) (conj U eq_refl)). reflexivity.
        - rewrite (proj2 (parse_u8_spec v 0) (conj U eq_refl)). reflexivity. }
      destruct (read_query_accepts put_rules query []) as (q & Hq).
      { intros k r. unfold put_rules. destruct (beq_spec k k_format) as [->|_]; [intros [= <-]; apply (once_ok put_rules); [eapply chosen_once; exact Hf|reflexivity]|].
        destruct (beq_spec k k_mhtype) as [->|_]; [intros [= <-]; apply (once_ok put_rules); [eapply chosen_once; exact Hm|reflexivity]|].
        destruct (beq_spec k k_version) as [->|_]; [|discriminate]. intros [= <-]. apply (once_ok put_rules); [exact Hver|reflexivity]. }
      pose proof (once_cases _ _ _ k_format _ Hq eq_refl eq_refl) as Cf. pose proof (once_cases _ _ _ k_mhtype _ Hq eq_refl eq_refl) as Cm.
      pose proof (once_cases _ _ _ k_version _ Hq eq_refl eq_refl) as Cv. apply (chosen_spec _ _ _ _ _ Cf) in Hf. apply (chosen_spec _ _ _ _ _ Cm) in Hm. subst format mhtype.
      exists q, {| mh_code := code; mh_digest := hash data |}. destruct Hv as [(v & E & U & ->)|(E & -> & -> & ->)]; [exists true|exists false]; exists codec || exists 112;
        (split; [exact Hq|]; split; [apply hash_named_spec; eexists; eexists; split; [exact Hh|reflexivity]|]).
      + destruct Cv as [[E' _]|(v' & E' & ->)]; [congruence|]. assert (v' = v) by congruence. subst v'. cbn [version_of]. rewrite (proj2 (parse_u8_spec v 1) (conj U eq_refl)).
        split; [reflexivity|]. split; [apply codec_named_spec; exact Hin|reflexivity].
      + split; [|split; [apply codec_named_spec; exact Hin|]].
        * destruct Cv as [[E' ->]|(v' & E' & ->)]; [reflexivity|]. destruct E as [E|(v & E & U)]; [congruence|]. assert (v' = v) by congruence. subst v'. cbn [version_of].
          rewrite (proj2 (parse_u8_spec v 0) (conj U eq_refl)). reflexivity.
        * cbn [cid_new mh_code N.eqb]. cbn [firstn hashes In] in Hh. destruct Hh as [X|[X|[]]]; [|discriminate X]. injection X as _ <-. reflexivity.
    - intros (q & mh & v1 & codec & Hq & Hh & Hv & Hc & Hn).
      pose proof (once_cases _ _ _ k_format _ Hq eq_refl eq_refl) as Cf. pose proof (once_cases _ _ _ k_mhtype _ Hq eq_refl eq_refl) as Cm.
      pose proof (once_cases _ _ _ k_version _ Hq eq_refl eq_refl) as Cv. apply hash_named_spec in Hh as (code & hash & Hin & ->). apply codec_named_spec in Hc.
      exists (or_else n_dagpb (one_of k_format q)), (or_else n_sha2_256 (one_of k_mhtype q)), codec, code, hash.
      split; [apply (chosen_spec _ _ _ _ _ Cf); reflexivity|]. split; [exact Hc|]. split; [apply (chosen_spec _ _ _ _ _ Cm); reflexivity|]. split; [exact Hin|].
      unfold cid_new in Hn. cbn [mh_code mh_digest] in Hn. destruct v1.
      + left. injection Hn as <-. destruct Cv as [[E' E]|(v & E' & E)]; rewrite E in Hv; cbn [version_of] in Hv; [discriminate|]. exists v. split; [exact E'|].
        destruct (parse_u8 v) as [n|] eqn:Ep; [|discriminate]. apply parse_u8_spec in Ep as [U _]. destruct n as [|[p|p|]]; try discriminate. split; [exact U|reflexivity].
      + right. destruct ((codec =? codec_dagpb) && (code =? sha2_256)) eqn:Eb; [|discriminate]. apply andb_true_iff in Eb as [E1 E2]. apply N.eqb_eq in E1, E2. injection Hn as <-. split.
        * destruct Cv as [[E' E]|(v & E' & E)]; [left; exact E'|right]. rewrite E in Hv. cbn [version_of] in Hv. exists v. split; [exact E'|].
          destruct (parse_u8 v) as [n|] eqn:Ep; [|discriminate]. apply parse_u8_spec in Ep as [U _]. destruct n as [|[p|p|]]; try discriminate. exact U.
        * split; [exact E1|]. split; [exact E2|]. cbn [firstn hashes In] in Hin. destruct Hin as [X|[X|[]]]; injection X as _ X1 X2; subst; [reflexivity|discriminate].
  Qed.
  Lemma put_cid_wf query data c : put_cid sha256 sha512 sha3 query data c -> wf_cid c.
  Proof.
    intros (format & mhtype & codec & code & hash & _ & Hin & _ & Hh & [(v & _ & _ & ->)|(_ & _ & _ & ->)]); [|exact (H256 data)].
    eapply (named_v1_wf sha256 sha512 sha3 H256 H512 H3); [exact Hin|]. cbn [firstn hashes In] in Hh |- *. destruct Hh as [X|[X|[]]]; [left; exact X|right; left; exact X].
  Qed.

  (** /block/put answers with the key and size of the data of the form, and stores them under that
      key unless something is stored there, when the query asks for a cid; else it stores nothing and
      answers with an error. *)
  Definition added (s s' : state) (c : cid) (data : bytes) : Prop :=
    snd s' = snd s /\ forall x, wf_cid x ->
      look s' x = if cid_eqb (to_v1 c) (to_v1 x) then Some (match look s c with Some old => old | None => data end) else look s x.
  Theorem c65_put query m s :
    let (s', r) := the_put query (Some m) s in
    (exists data c, holds [n_data; n_file] one_mib m data /\ put_cid sha256 sha512 sha3 query data c /\ r = Reported (cid_to_text c) (blen data) /\ added s s' c data) \/
    ((forall data c, ~ (holds [n_data; n_file] one_mib m data /\ put_cid sha256 sha512 sha3 query data c)) /\ r = Refused /\ s' = s).
  Proof.
    destruct (the_put query (Some m) s) as [s' r] eqn:E. unfold block_put in E.
    assert (Hno : (forall data c, holds [n_data; n_file] one_mib m data -> ~ put_cid sha256 sha512 sha3 query data c) -> (s, Refused) = (s', r) ->
      (forall data c, ~ (holds [n_data; n_file] one_mib m data /\ put_cid sha256 sha512 sha3 query data c)) /\ r = Refused /\ s' = s).
    { intros H [= <- <-]. split; [|auto]. intros data c [X Y]. exact (H data c X Y). }
    destruct (read_query put_rules [] query) as [q|e|] eqn:Eq.
    2,3: right; apply Hno; [|exact E]; intros data c _ H; apply put_query in H as (q & mh & v1 & codec & X & _); congruence.
    destruct (only_named [n_data; n_file] one_mib m) as [data|e|] eqn:Ef.
    2: { right. apply Hno; [|exact E]. intros data c H _. apply only_named_spec in H. congruence. }
    2: { destruct (only_named_no_panic _ _ _ Ef). }
    assert (Hd : forall d, holds [n_data; n_file] one_mib m d -> d = data) by (intros d H; apply only_named_spec in H; congruence). pose proof Ef as Hh. apply only_named_spec in Hh.
    destruct (hash_named sha256 sha512 sha3 false _ data) as [mh|] eqn:Em.
    2: { right. apply Hno; [|exact E]. intros d c H Hc. rewrite (Hd d H) in Hc. apply put_query in Hc as (q' & mh & v1 & codec & X & Y & _). congruence. }
    destruct (version_of _) as [v1|] eqn:Ev.
    2: { right. apply Hno; [|exact E]. intros d c H Hc. rewrite (Hd d H) in Hc. apply put_query in Hc as (q' & mh' & v1 & codec & X & _ & Y & _). congruence. }
    destruct (codec_named _) as [codec|] eqn:Ec.
    2: { right. apply Hno; [|exact E]. intros d c H Hc. rewrite (Hd d H) in Hc. apply put_query in Hc as (q' & mh' & v1' & codec & X & _ & _ & Y & _). congruence. }
    destruct (cid_new v1 codec mh) as [c|] eqn:En.
    2: { right. apply Hno; [|exact E]. intros d c H Hc. rewrite (Hd d H) in Hc. apply put_query in Hc as (q' & mh' & v1' & codec' & X & X1 & X2 & X3 & Y). congruence. }
    left. assert (Hc : put_cid sha256 sha512 sha3 query data c) by (apply put_query; exists q, mh, v1, codec; auto). exists data, c. split; [exact Hh|]. split; [exact Hc|].
    destruct (stored_as_spec s c data (Reported (cid_to_text c) (blen data)) (put_cid_wf _ _ _ Hc)) as (b & X & V). rewrite X in E. injection E as <- <-. split; [reflexivity|]. split; [reflexivity|exact V].
  Qed.
  Theorem c65_put_one_cid query data c c' : put_cid sha256 sha512 sha3 query data c -> put_cid sha256 sha512 sha3 query data c' -> c = c'.
  Proof. intros H H'. apply put_query in H as (q & mh & v1 & codec & H1 & H2 & H5 & H4 & Hc), H' as (q' & mh' & v1' & codec' & G1 & G2 & G5 & G4 & Gc). congruence. Qed.

  (** The same for /dag/put, which chooses the version of the cid itself. *)
  Lemma dag_query query data c : dag_cid sha256 sha512 sha3 query data c <->
    exists q mh codec, read_query dag_rules [] query = Ok q /\ or_else n_json (one_of k_enc q) = n_raw /\ hash_named sha256 sha512 sha3 true (or_else n_sha2_256 (one_of k_hash q)) data = Some mh /\
      codec_named (or_else n_dagcbor (one_of k_format q)) = Some codec /\ c = if (codec =? 112) && (mh_code mh =? 18) then CidV0 (mh_digest mh) else CidV1 codec mh.
  Proof.
    split.
    - intros (He & format & name & codec & code & hash & Hf & Hin & Hm & Hh & ->).
      destruct (read_query_accepts dag_rules query []) as (q & Hq).
      { intros k r. unfold dag_rules. destruct (beq_spec k k_format) as [->|_]; [intros [= <-]; apply (once_ok dag_rules); [eapply chosen_once; exact Hf|reflexivity]|].
        destruct (beq_spec k k_hash) as [->|_]; [intros [= <-]; apply (once_ok dag_rules); [eapply chosen_once; exact Hm|reflexivity]|].
        destruct (beq_spec k k_enc) as [->|_]; [|discriminate]. intros [= <-]. apply (once_ok dag_rules); [right; exists n_raw; auto|reflexivity]. }
      pose proof (once_cases _ _ _ k_format _ Hq eq_refl eq_refl) as Cf. pose proof (once_cases _ _ _ k_hash _ Hq eq_refl eq_refl) as Cm.
      pose proof (once_cases _ _ _ k_enc _ Hq eq_refl eq_refl) as Cv. apply (chosen_spec _ _ _ _ _ Cf) in Hf. apply (chosen_spec _ _ _ _ _ Cm) in Hm. subst format name.
      exists q, {| mh_code := code; mh_digest := hash data |}, codec. split; [exact Hq|]. split; [destruct Cv as [[E' _]|(v' & E' & ->)]; [congruence|]; cbn [or_else]; congruence|].
      split; [apply hash_named_spec; exists code, hash; auto|]. split; [apply codec_named_spec; exact Hin|reflexivity].
    - intros (q & mh & codec & Hq & He & Hh & Hc & ->).
      pose proof (once_cases _ _ _ k_format _ Hq eq_refl eq_refl) as Cf. pose proof (once_cases _ _ _ k_hash _ Hq eq_refl eq_refl) as Cm.
      pose proof (once_cases _ _ _ k_enc _ Hq eq_refl eq_refl) as Cv. apply hash_named_spec in Hh as (code & hash & Hin & ->). apply codec_named_spec in Hc.
      split; [destruct Cv as [[E' X]|(v' & E' & X)]; rewrite X in He; cbn [or_else] in He; [discriminate|congruence]|].
      exists (or_else n_dagcbor (one_of k_format q)), (or_else n_sha2_256 (one_of k_hash q)), codec, code, hash.
      split; [apply (chosen_spec _ _ _ _ _ Cf); reflexivity|]. split; [exact Hc|]. split; [apply (chosen_spec _ _ _ _ _ Cm); reflexivity|]. split; [exact Hin|reflexivity].
  Qed.
  Lemma dag_cid_wf query data c : dag_cid sha256 sha512 sha3 query data c -> wf_cid c.
  Proof.
    intros (_ & format & name & codec & code & hash & _ & Hin & _ & Hh & ->). destruct ((codec =? 112) && (code =? 18)) eqn:E.
    - cbn [hashes In] in Hh. apply andb_true_iff in E as [_ E]. apply N.eqb_eq in E. destruct Hh as [X|[X|[X|[]]]]; injection X as _ X1 X2; subst; [exact (H256 data)|discriminate..].
    - exact (named_v1_wf sha256 sha512 sha3 H256 H512 H3 _ _ _ _ _ _ Hin Hh).
  Qed.
  Lemma hash_named_total b n d d' : hash_named sha256 sha512 sha3 b n d = None <-> hash_named sha256 sha512 sha3 b n d' = None.
  Proof. unfold hash_named. destruct (beq n n_sha2_256), (beq n n_sha2_512), (b && beq n n_sha3_512); split; congruence. Qed.
  Theorem c65_dag_put query m s :
    let (s', r) := the_dag_put query (Some m) s in
    (exists data c, holds [n_data; n_file] one_mib m data /\ dag_cid sha256 sha512 sha3 query data c /\ r = Reported (cid_to_text c) 0 /\ added s s' c data) \/
    ((forall data c, ~ (holds [n_data; n_file] one_mib m data /\ dag_cid sha256 sha512 sha3 query data c)) /\ r = Refused /\ s' = s).
  Proof.
    destruct (the_dag_put query (Some m) s) as [s' r] eqn:E. unfold dag_put in E.
    assert (Hno : (forall data c, holds [n_data; n_file] one_mib m data -> ~ dag_cid sha256 sha512 sha3 query data c) -> (s, Refused) = (s', r) ->
      (forall data c, ~ (holds [n_data; n_file] one_mib m data /\ dag_cid sha256 sha512 sha3 query data c)) /\ r = Refused /\ s' = s).
    { intros H [= <- <-]. split; [|auto]. intros data c [X Y]. exact (H data c X Y). }
    destruct (read_query dag_rules [] query) as [q|e|] eqn:Eq.
    2,3: right; apply Hno; [|exact E]; intros data c _ H; apply dag_query in H as (q & mh & codec & X & _); congruence.
    destruct (beq_spec (or_else n_json (one_of k_enc q)) n_raw) as [Ee|Ee]; cbn [negb] in E.
    2: { right. apply Hno; [|exact E]. intros d c _ H. apply dag_query in H as (q' & mh & codec & X & Y & _). congruence. }
    destruct (codec_named _) as [codec|] eqn:Ec.
    2: { right. apply Hno; [|exact E]. intros d c _ H. apply dag_query in H as (q' & mh & codec & X & _ & _ & Y & _). congruence. }
    destruct (hash_named sha256 sha512 sha3 true _ []) as [mh0|] eqn:Em0.
    2: { right. apply Hno; [|exact E]. intros d c _ H. apply dag_query in H as (q' & mh & codec' & X & _ & Y & _). assert (q' = q) by congruence. subst q'.
         apply (hash_named_total _ _ _ d) in Em0. congruence. }
    destruct (only_named [n_data; n_file] one_mib m) as [data|e|] eqn:Ef.
    2: { right. apply Hno; [|exact E]. intros data c H _. apply only_named_spec in H. congruence. }
    2: { destruct (only_named_no_panic _ _ _ Ef). }
    pose proof Ef as Hh. apply only_named_spec in Hh. destruct (hash_named sha256 sha512 sha3 true _ data) as [mh|] eqn:Em.
    2: { apply (hash_named_total _ _ _ []) in Em. congruence. }
    left. exists data, (if (codec =? 112) && (mh_code mh =? 18) then CidV0 (mh_digest mh) else CidV1 codec mh). split; [exact Hh|].
    assert (Hc : dag_cid sha256 sha512 sha3 query data (if (codec =? 112) && (mh_code mh =? 18) then CidV0 (mh_digest mh) else CidV1 codec mh)) by (apply dag_query; exists q, mh, codec; auto).
    split; [exact Hc|]. unfold cid_new, codec_dagpb, sha2_256 in E. destruct ((codec =? 112) && (mh_code mh =? 18));
      match type of E with stored_as s ?c data ?x = _ => destruct (stored_as_spec s c data x (dag_cid_wf _ _ _ Hc)) as (b & X & V) end; rewrite X in E; injection E as <- <-; (split; [reflexivity|]; split; [reflexivity|exact V]).
  Qed.

  (** ** Reading *)
  (** /block/get and /block/stat find what is stored for the cid, in whichever base it is written. *)
  Theorem c65_get a c s : cid_from_text ob a = Some c ->
    block_get duration ob [(k_arg, a)] s = match look s c with Some data => Content data | None => NoAnswer end /\
    block_stat duration ob [(k_arg, a)] s = match look s c with Some data => Reported a (blen data) | None => NoAnswer end.
  Proof. intros H. unfold block_get, block_stat. cbn [read_query get_rules beq]. cbn. rewrite H. split; reflexivity. Qed.
  (** What was uploaded is read back by the key in the answer, and by any other text of the cid, when
      nothing or the same was stored under that cid. *)
  Theorem c65_read_back query m s s' key size data :
    the_put query (Some m) s = (s', Reported key size) -> holds [n_data; n_file] one_mib m data ->
    (forall c, put_cid sha256 sha512 sha3 query data c -> look s c = None \/ look s c = Some data) ->
    size = blen data /\ block_get duration ob [(k_arg, key)] s' = Content data /\ block_stat duration ob [(k_arg, key)] s' = Reported key size /\
    forall c a x, put_cid sha256 sha512 sha3 query data c -> cid_from_text ob a = Some x -> wf_cid x -> to_v1 x = to_v1 c -> block_get duration ob [(k_arg, a)] s' = Content data.
  Proof.
    intros E Hd Hold. pose proof (c65_put query m s) as H. rewrite E in H. destruct H as [(data' & c & Hd' & Hc & [= -> ->] & Hp & Hv)|(_ & [=] & _)].
    apply only_named_spec in Hd, Hd'. assert (data' = data) by congruence. subst data'. pose proof (put_cid_wf _ _ _ Hc) as Hw.
    assert (G : forall x, wf_cid x -> to_v1 x = to_v1 c -> look s' x = Some data).
    { intros x Hx Hk. rewrite Hv by exact Hx. destruct (cid_eqb_spec (to_v1 c) (to_v1 x)); [|congruence]. destruct (Hold c Hc) as [-> | ->]; reflexivity. }
    destruct (c65_get (cid_to_text c) c s' (cid_text_roundtrip ob c Hw)) as [G1 G2]. rewrite (G c Hw eq_refl) in G1, G2. split; [reflexivity|]. split; [exact G1|]. split; [exact G2|].
    intros c' a x Hc' Ha Hx Hk. assert (c' = c) by (eapply c65_put_one_cid; eassumption). subst c'. destruct (c65_get a x s' Ha) as [G3 _]. rewrite (G x Hx Hk) in G3. exact G3.
  Qed.
End Put.
Print Assumptions c65_put.
Print Assumptions c65_put_one_cid.
Print Assumptions c65_dag_put.
Print Assumptions c65_get.
Print Assumptions c65_read_back.

(** ** Removing *)
Section Remove.
  Variable ob : N -> bytes -> option bytes.
  Variable storage_error : bytes.
  Hypothesis Hse : storage_error <> [].
  Notation look s := (f_get (fst s)).
  Notation pinned s c := (fs_is_pinned ob (snd s) c).
  Notation rm := (block_rm ob storage_error).
  (** The arguments, as cids. *)
  Definition arguments (query : list (bytes * bytes)) (cs : list cid) : Prop := Forall2 (fun a c => cid_from_text ob a = Some c) (values k_arg query) cs.
  Lemma parse_cids_spec l cs : parse_cids ob l = Some cs <-> Forall2 (fun a c => cid_from_text ob a = Some c) l cs.
  Proof.
    revert cs. induction l as [|a l IH]; intros cs; cbn [parse_cids].
    - split; [intros [= <-]; constructor|inversion 1; reflexivity].
    - split.
      + destruct (cid_from_text ob a) as [c|] eqn:E; [|discriminate]. destruct (parse_cids ob l) as [cs'|]; [|discriminate]. intros [= <-]. constructor; [exact E|]. apply IH. reflexivity.
      + inversion 1 as [|? c ? cs' E H' ]; subst. rewrite E. apply IH in H'. rewrite H'. reflexivity.
  Qed.
  (** An argument which is no cid, or a bad option: nothing is removed. *)
  Theorem c65_rm_refused query order s :
    (exists cs force quiet, arguments query cs /\ flag (values k_force query) force /\ flag (values k_quiet query) quiet) \/ rm query order s = (s, Refused).
  Proof.
    unfold block_rm. destruct (read_query rm_rules [] query) as [q|e|] eqn:Eq; [|right; reflexivity|right; reflexivity].
    destruct (parse_cids ob (all_of k_arg q)) as [cs|] eqn:Ec; [|right; reflexivity]. left. apply parse_cids_spec in Ec. rewrite (read_all_of _ _ _ k_arg Eq) in Ec by discriminate.
    exists cs, (bool_of false (one_of k_force q)), (bool_of false (one_of k_quiet q)). split; [exact Ec|].
    split; [exact (read_flag _ _ _ k_force false Eq eq_refl)|exact (read_flag _ _ _ k_quiet false Eq eq_refl)].
  Qed.
  (** Else, in whichever order the removals are answered, the unpinned blocks which were named are
      gone, and nothing else; pins are as before.  The lines answer the arguments in their order. *)
  Definition line_for (force : bool) (s : state) (cs : list cid) (lines : list (bytes * bytes)) : Prop :=
    length lines = length cs /\
    (forall i c, nth_error cs i = Some c -> exists e, nth_error lines i = Some (e, cid_to_text c) /\
       (force = true -> e = []) /\
       (force = false -> (e = [] /\ pinned s c = Some false /\ look s c <> None) \/
          (e <> [] /\ match pinned s c with
                      | Some true => e = t_pinned
                      | Some false => e = t_missing /\ (look s c = None \/ exists j c' x, j <> i /\ nth_error cs j = Some c' /\ to_v1 c' = to_v1 c /\ nth_error lines j = Some ([], x))
                      | None => e = storage_error
                      end))) /\
    (force = false -> forall i j c c' x y, nth_error cs i = Some c -> nth_error cs j = Some c' -> to_v1 c = to_v1 c' ->
       nth_error lines i = Some ([], x) -> nth_error lines j = Some ([], y) -> i = j).
  Lemma nth_combine_seq {A B} (f : nat * A -> B) (l : list A) i x : nth_error l i = Some x -> nth_error (map f (combine (seq 0 (length l)) l)) i = Some (f (i, x)).
  Proof.
    intros H. assert (G : forall (l : list A) k i x, nth_error l i = Some x -> nth_error (map f (combine (seq k (length l)) l)) i = Some (f ((k + i)%nat, x))).
    { clear. induction l as [|y l IH]; intros k i x; [destruct i; discriminate|]. destruct i as [|i]; cbn [nth_error length seq combine map].
      - intros [= ->]. rewrite Nat.add_0_r. reflexivity.
      - intros H. rewrite (IH (S k) i x H). replace (S k + i)%nat with (k + S i)%nat by lia. reflexivity. }
    exact (G l 0%nat i x H).
  Qed.
  Theorem c65_rm query cs force quiet s order :
    arguments query cs -> Forall wf_cid cs -> flag (values k_force query) force -> flag (values k_quiet query) quiet ->
    Permutation order (seq 0 (length cs)) ->
    exists s' body, rm query order s = (s', Content body) /\ snd s' = snd s /\
      (forall x, wf_cid x -> (look s' x = None <-> look s x = None \/ exists c, In c cs /\ pinned s c = Some false /\ to_v1 c = to_v1 x) /\
                             (forall data, look s' x = Some data -> look s x = Some data)) /\
      if quiet then body = [] else exists lines, read_rm_body body = Some lines /\ line_for force s cs lines.
  Proof.
    intros Ha Hw Hf Hq Hp. unfold block_rm.
    destruct (read_query_accepts rm_rules query []) as (q & Eq).
    { intros k r. unfold rm_rules. destruct (beq_spec k k_arg) as [->|_]; [intros [= <-]; cbn [readable once]; split; [apply Forall_forall; reflexivity|discriminate]|].
      destruct (beq_spec k k_force) as [->|_]; [intros [= <-]; apply (once_ok rm_rules); [|reflexivity]|].
      - destruct Hf as [[E _]|[[E _]|[E _]]]; [left; exact E|right; exists v_true|right; exists v_false]; split; try exact E; reflexivity.
      - destruct (beq_spec k k_quiet) as [->|_]; [|discriminate]. intros [= <-]. apply (once_ok rm_rules); [|reflexivity].
        destruct Hq as [[E _]|[[E _]|[E _]]]; [left; exact E|right; exists v_true|right; exists v_false]; split; try exact E; reflexivity. }
    rewrite Eq, (read_all_of _ _ _ k_arg Eq) by discriminate. apply parse_cids_spec in Ha. rewrite Ha.
    rewrite (flag_or_fun false _ _ _ (read_flag _ _ _ k_force false Eq eq_refl) Hf), (flag_or_fun false _ _ _ (read_flag _ _ _ k_quiet false Eq eq_refl) Hq).
    assert (Hn : NoDup order) by (eapply Permutation_NoDup; [apply Permutation_sym, Hp|apply seq_NoDup]).
    destruct (rm_run_spec ob storage_error cs Hw order s Hn) as (b & l & -> & V & A0 & A & D & U). eexists. eexists. split; [reflexivity|]. split; [reflexivity|]. cbn [fst].
    assert (Hin : forall i c, nth_error cs i = Some c -> In i order).
    { intros i c E. eapply Permutation_in; [apply Permutation_sym, Hp|]. apply in_seq. assert (i < length cs)%nat by (apply nth_error_Some; congruence). lia. }
    assert (Hfree : forall c, free ob s c = true <-> pinned s c = Some false) by (intros c; unfold free; destruct (fs_is_pinned ob (snd s) c) as [[|]|]; split; congruence).
    split.
    - intros x Hx. destruct (V x Hx) as [Va Vb]. split; [|exact Vb]. rewrite Va. split; (intros [H|H]; [left; exact H|right]).
      + destruct H as (i & c & _ & E & Hfr & Hk). exists c. split; [eapply nth_error_In; exact E|]. split; [apply Hfree, Hfr|exact Hk].
      + destruct H as (c & Hc & Hfr & Hk). apply In_nth_error in Hc as (i & E). exists i, c. split; [eapply Hin, E|]. split; [exact E|]. split; [apply Hfree, Hfr|exact Hk].
    - destruct quiet.
      + generalize (rm_responses force cs l). intros r. induction r as [|x r IH]; [reflexivity|exact IH].
      + exists (rm_responses force cs l). split; [apply read_rm_lines_body|]. unfold line_for.
        assert (Hlines : forall i c, nth_error cs i = Some c -> nth_error (rm_responses force cs l) i = Some (match answer_at i l with Some (Some e) => if force then [] else e | _ => [] end, cid_to_text c)).
        { intros i c E. unfold rm_responses. rewrite (nth_combine_seq _ cs i c E). reflexivity. }
        assert (Hreason : forall c, reason ob storage_error s c <> []) by (intros c; unfold reason; destruct (fs_is_pinned ob (snd s) c) as [[|]|]; [discriminate|discriminate|exact Hse]).
        split; [unfold rm_responses; rewrite map_length, combine_length, seq_length; lia|]. split.
        * intros i c E. rewrite (Hlines i c E). eexists. split; [reflexivity|]. assert (Hc : wf_cid c) by (rewrite Forall_forall in Hw; apply Hw; eapply nth_error_In; exact E).
          destruct (A i c (Hin i c E) E) as [(Ea & Hfr & Hl)|Ea]; rewrite Ea.
          { split; [reflexivity|]. intros _. left. split; [reflexivity|]. split; [apply Hfree, Hfr|exact Hl]. }
          split; [intros ->; reflexivity|]. intros ->. right. split; [apply Hreason|]. unfold reason. destruct (fs_is_pinned ob (snd s) c) as [[|]|] eqn:Ep; try reflexivity.
          split; [reflexivity|]. destruct (look s c) as [d|] eqn:El; [right|left; reflexivity].
          destruct (D c d Hc El) as (j & c' & Ej & Ek & Eaj); [exists i, c; split; [eapply Hin, E|]; split; [exact E|]; split; [apply Hfree, Ep|reflexivity]|].
          exists j, c', (cid_to_text c'). split; [congruence|]. split; [exact Ej|]. split; [exact Ek|]. rewrite (Hlines j c' Ej), Eaj. reflexivity.
        * intros ->. assert (Hnone : forall i c x, nth_error cs i = Some c -> nth_error (rm_responses false cs l) i = Some ([], x) -> answer_at i l = Some None).
          { intros i c x E H. rewrite (Hlines i c E) in H. destruct (A i c (Hin i c E) E) as [(Ea & _)|Ea]; [exact Ea|]. rewrite Ea in H. injection H as H _. destruct (Hreason c H). }
          intros i j c c' x y E1 E2 Ek H1 H2. eapply U; [exact E1|exact E2|exact Ek|eapply Hnone; eassumption|eapply Hnone; eassumption].
  Qed.
End Remove.
Print Assumptions c65_rm_refused.
Print Assumptions c65_rm.

(** ** Resolving *)
(** /dag/resolve: "Cid" is the block the path ends in and "RemPath" the path inside it (see C30 for
    directories of several shards). *)
Theorem c65_resolve get decode fuel hfuel root p c rest :
  (forall c b s d, ResolveSpec.directory get c b -> ~ ResolveSpec.dir_entry get b s true d) ->
  dag_resolve_reply get decode fuel hfuel root p false = Some (Ok (c, rest)) ->
  exists a n, ResolveSpec.leads get decode root p 0 c rest /\ ResolveSpec.ends get decode c rest n /\ p = a ++ rest.
Proof.
  intros Hno. unfold dag_resolve_reply. cbn [negb]. destruct (Resolve.dag_resolve get decode fuel hfuel root p true) as [[[n r]|e|]|] eqn:E; try discriminate. intros [= <- ->].
  destruct (PropsResolve.c30_remaining_path_partial _ _ _ _ _ _ _ _ Hno E) as (d & a & H1 & H2 & ->). exists a, n.
  assert (Cat.source_of n = d) as -> by (inversion H2; reflexivity). auto.
Qed.
Print Assumptions c65_resolve.

(** With "local-resolve" the two do not belong together: for the path a/1/b/y of a document whose
    a/1 is a link to a directory, "Cid" is the document and "RemPath" is b/y, which leads nowhere in it. *)
Theorem c65_local_resolve_refuted :
  dag_resolve_reply PropsResolve.demo_get PropsResolve.real_decode 9 9 (PropsResolve.cbor_of 1) [[97]; PropsResolve.one; [98]; [121]] true
    = Some (Ok (PropsResolve.cbor_of 1, [[98]; [121]])) /\
  PropsResolve.demo_resolve [[98]; [121]] true = Some (Err (Resolve.ENotFound (PropsResolve.cbor_of 1) [[98]])).
Proof. split; vm_compute; reflexivity. Qed.
Print Assumptions c65_local_resolve_refuted.

(** ** Examples and counterexamples *)
Definition ex_sha (n : nat) (b : bytes) : bytes := repeat (match b with x :: _ => x mod 256 | [] => 0 end) n.
Lemma ex_sha_wf n b : length (ex_sha n b) = n /\ wf_bytes (ex_sha n b).
Proof.
  split; [apply repeat_length|]. apply Forall_forall. intros x Hx. apply repeat_spec in Hx. subst x. destruct b as [|y b]; [reflexivity|]. unfold is_byte. apply N.mod_lt. discriminate.
Qed.
Definition ex_put := block_put (ex_sha 32) (ex_sha 64) (ex_sha 64).
Definition ex_form : form := mk_form [mk_field (Some [120]) [[1]; [2]] false; mk_field (Some n_file) [[7; 8]; []; [9]] false] false.
Definition v1_raw : list (bytes * bytes) := [(k_format, n_raw); ([120], [121]); (k_version, [49])].
Definition ex_key : cid := CidV1 codec_raw {| mh_code := sha2_256; mh_digest := repeat 7 32 |}.
Example c65_put_example : holds [n_data; n_file] one_mib ex_form [7; 8; 9] /\ put_cid (ex_sha 32) (ex_sha 64) (ex_sha 64) v1_raw [7; 8; 9] ex_key /\
  ex_put v1_raw (Some ex_form) ([], []) = ([(block_file ex_key, [7; 8; 9])], [], Reported (cid_to_text ex_key) 3) /\
  ex_put [(k_format, n_raw)] (Some ex_form) ([], []) = ([], [], Refused).
Proof.
  split; [|split; [|split; vm_compute; reflexivity]].
  - apply only_named_spec. vm_compute. reflexivity.
  - exists n_raw, n_sha2_256, 85, 18, (ex_sha 32). split; [right; reflexivity|]. split; [cbn; auto|]. split; [left; split; reflexivity|]. split; [left; reflexivity|].
    left. exists [49]. split; [reflexivity|]. split; [left; apply decimal_one; split; reflexivity|reflexivity].
Qed.
(** A form with one part of an allowed name is refused, for having several, when any part follows. *)
Theorem c65_later_part_refuted :
  only_named [n_data; n_file] one_mib (mk_form [mk_field (Some n_data) [[7]] false; mk_field (Some [120]) [[1]] false] false) = Err MultipleValues /\
  only_named [n_data; n_file] one_mib (mk_form [mk_field (Some [120]) [[1]] false; mk_field (Some n_data) [[7]] false] false) = Ok [7].
Proof. split; vm_compute; reflexivity. Qed.
Print Assumptions c65_later_part_refuted.

(** "force" also hides that a pinned block was not removed, and "quiet" that anything was not. *)
Notation no_base := (fun _ _ => None).
Definition rm_state : state :=
  fst (fs_node_run no_base (fun _ _ => Err tt) true 9 ([], []) [] [NPut (mk_block ex_key [7; 8; 9]); NPin ex_key false]).
Definition rm_body (query : list (bytes * bytes)) : option (list (bytes * bytes)) :=
  match block_rm no_base [63] ((k_arg, cid_to_text ex_key) :: query) [0%nat] rm_state with
  | (s, Content b) => match f_get (fst s) ex_key with Some _ => read_rm_body b | None => None end
  | _ => None
  end.
Theorem c65_force_refuted : rm_body [(k_force, v_true)] = Some [([], cid_to_text ex_key)] /\ rm_body [] = Some [(t_pinned, cid_to_text ex_key)].
Proof. split; vm_compute; reflexivity. Qed.
Print Assumptions c65_force_refuted.
Theorem c65_quiet_refuted : rm_body [(k_quiet, v_true)] = Some [].
Proof. vm_compute. reflexivity. Qed.
Print Assumptions c65_quiet_refuted.

(** Two arguments for one block, one for a missing and one for a pinned block. *)
Definition rm_cids : list cid := [PropsResolve.raw_of_n 1; PropsResolve.raw_of_n 2; ex_key; PropsResolve.raw_of_n 1].
Definition rm_state2 : state :=
  fst (fs_node_run no_base (fun _ _ => Err tt) true 9 rm_state [] [NPut (mk_block (PropsResolve.raw_of_n 1) [1]); NPut (mk_block (PropsResolve.raw_of_n 3) [3])]).
Example c65_rm_example :
  arguments no_base (map (fun c => (k_arg, cid_to_text c)) rm_cids) rm_cids /\
  match block_rm no_base [63] (map (fun c => (k_arg, cid_to_text c)) rm_cids) [3; 0; 2; 1]%nat rm_state2 with
  | (s, Content b) => read_rm_body b = Some [(t_missing, cid_to_text (PropsResolve.raw_of_n 1)); (t_missing, cid_to_text (PropsResolve.raw_of_n 2)); (t_pinned, cid_to_text ex_key); ([], cid_to_text (PropsResolve.raw_of_n 1))] /\
      f_get (fst s) (PropsResolve.raw_of_n 1) = None /\ f_get (fst s) ex_key = Some [7; 8; 9] /\ f_get (fst s) (PropsResolve.raw_of_n 3) = Some [3]
  | _ => False
  end.
Proof. split; [repeat constructor; vm_compute; reflexivity|vm_compute; auto]. Qed.
