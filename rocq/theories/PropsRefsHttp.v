(** C54: format strings and options of /refs; C61: its lines. *)
From Verif Require Import Base Wire Cid Ipld Text IpfsPath Resolve Refs RefsSpec RefsHttp RefsHttpSpec RefsHttpProofs.
From Verif Require PropsRefs PropsResolve.
Local Open Scope N_scope.

(** A format string is accepted if it consists of the tags and other text, and an edge is then rendered
    by replacing the tags. *)
Theorem c54_rendering fmt src dst name out :
  (exists f, from_options false (Some fmt) = Ok f /\ format_edge f src dst name = out) <->
  rendered (cid_to_text src) (cid_to_text dst) (match name with Some n => n | None => [] end) fmt out.
Proof.
  unfold from_options. split.
  - intros (f & E & <-). destruct (loop_cases (S (length fmt)) fmt 0 [] [] (le_n _)) as [(ts & l & H & E')|[(p & ts & t & r & _ & _ & _ & _ & E')|(p & ts & r & j & _ & _ & _ & E')]];
      unfold parse_format in E; rewrite E' in E; try discriminate. injection E as <-. cbn [format_edge].
    destruct (parse_toks fmt ts H) as (l' & P & S). unfold parse_format in P. rewrite E' in P. injection P as <-.
    fold (show src dst name l). rewrite S. exact (toks_rendered src dst name fmt ts H).
  - intros H. destruct (rendered_toks _ _ _ _ _ H) as (ts & T & E). destruct (parse_toks fmt ts T) as (l & P & S). rewrite P.
    exists (FString l). split; [reflexivity|]. cbn [format_edge]. fold (show src dst name l). rewrite S. symmetry. apply E; reflexivity.
Qed.
Print Assumptions c54_rendering.

(** One formatter serves all edges. *)
Theorem c54_one_formatter fmt f : from_options false (Some fmt) = Ok f ->
  forall src dst name, rendered (cid_to_text src) (cid_to_text dst) (match name with Some n => n | None => [] end) fmt (format_edge f src dst name).
Proof. intros H src dst name. apply c54_rendering. exists f. split; [exact H|reflexivity]. Qed.
Print Assumptions c54_one_formatter.

Lemma well_formed_toks p : well_formed p <-> exists ts, toks p ts.
Proof.
  split.
  - intros (o & H). destruct (rendered_toks _ _ _ _ _ H) as (ts & T & _). eauto.
  - intros (ts & T). unfold well_formed. induction T as [|c s l Hc H [o IH]|t q s l Ht H [o IH]].
    + exists []. constructor.
    + exists (c :: o). constructor; assumption.
    + destruct (tag_cases t q Ht) as [(-> & _)|[(-> & _)|(-> & _)]]; exists o.
      * exact (rendered_src _ _ _ _ _ IH).
      * exact (rendered_dst _ _ _ _ _ IH).
      * exact (rendered_name _ _ _ _ _ IH).
Qed.
(** Anything else between angle brackets is rejected, and named; the first one counts. *)
Theorem c54_unsupported_tag fmt t :
  from_options false (Some fmt) = Err (Format (UnsupportedTag t)) <->
  exists p r, fmt = p ++ [60] ++ t ++ [62] ++ r /\ well_formed p /\ ~ In 62 t /\ ~ In ([60] ++ t ++ [62]) [tag_src; tag_dst; tag_linkname].
Proof.
  assert (T : ~ In ([60] ++ t ++ [62]) [tag_src; tag_dst; tag_linkname] <-> tag_of t = None).
  { assert (G : forall a b : bytes, [60] ++ a ++ [62] = [60] ++ b ++ [62] -> a = b) by (intros a b H; injection H as H; apply app_inj_tail in H as [H _]; exact H).
    unfold tag_of. destruct (beq_spec t s_src) as [->|N1]; [split; [intros H; destruct H; left; reflexivity|discriminate]|].
    destruct (beq_spec t s_dst) as [->|N2]; [split; [intros H; destruct H; right; left; reflexivity|discriminate]|].
    destruct (beq_spec t s_linkname) as [->|N3]; [split; [intros H; destruct H; right; right; left; reflexivity|discriminate]|].
    split; [reflexivity|]. intros _ [H|[H|[H|[]]]].
    - apply N1, G. symmetry. exact H.
    - apply N2, G. symmetry. exact H.
    - apply N3, G. symmetry. exact H. }
  unfold from_options. split.
  - destruct (loop_cases (S (length fmt)) fmt 0 [] [] (le_n _)) as [(ts & l & H & E)|[(p & ts & t' & r & H & -> & Nt & T' & E)|(p & ts & r & j & _ & _ & _ & E)]];
      unfold parse_format; rewrite E; try discriminate. intros X. injection X as <-. exists p, r. split; [reflexivity|]. split; [apply well_formed_toks; eauto|]. split; [exact Nt|apply T, T'].
  - intros (p & r & -> & W & Nt & T'). apply well_formed_toks in W as (ts & W). apply T in T'.
    change (p ++ [60] ++ t ++ [62] ++ r) with (p ++ lt :: t ++ gt :: r). rewrite (parse_unsupported p ts t r W Nt T'). reflexivity.
Qed.
Print Assumptions c54_unsupported_tag.

(** An angle bracket which is not closed is rejected. *)
Theorem c54_unterminated fmt :
  (exists i, from_options false (Some fmt) = Err (Format (UnterminatedTag i))) <->
  exists p r, fmt = p ++ [60] ++ r /\ well_formed p /\ ~ In 62 r.
Proof.
  unfold from_options. split.
  - intros (i & X). revert X.
    destruct (loop_cases (S (length fmt)) fmt 0 [] [] (le_n _)) as [(ts & l & H & E)|[(p & ts & t' & r & _ & _ & _ & _ & E)|(p & ts & r & j & H & -> & Nr & E)]];
      unfold parse_format; rewrite E; try discriminate. intros _. exists p, r. split; [reflexivity|]. split; [apply well_formed_toks; eauto|exact Nr].
  - intros (p & r & -> & W & Nr). apply well_formed_toks in W as (ts & W). destruct (parse_unterminated p ts r W Nr) as (j & E).
    change (p ++ [60] ++ r) with (p ++ lt :: r). rewrite E. eauto.
Qed.
Print Assumptions c54_unterminated.

(** Every format string is accepted or rejected with one of these errors. *)
Theorem c54_all_cases edges fmt :
  match from_options edges fmt with
  | Ok _ => edges = true -> fmt = None
  | Err EdgesWithCustomFormat => edges = true /\ fmt <> None
  | Err (Format _) => edges = false
  | Panic => False
  end.
Proof.
  unfold from_options. destruct fmt as [s|]; [|auto]. destruct edges; [split; [reflexivity|discriminate]|].
  destruct (loop_cases (S (length s)) s 0 [] [] (le_n _)) as [(ts & l & H & E)|[(p & ts & t' & r & _ & _ & _ & _ & E)|(p & ts & r & j & H & _ & Nr & E)]];
      unfold parse_format; rewrite E; [discriminate|reflexivity..].
Qed.
Print Assumptions c54_all_cases.

(** Without a format: the destination, or both with an arrow between. *)
Theorem c54_default src dst name : exists f g,
  from_options false None = Ok f /\ format_edge f src dst name = cid_to_text dst /\
  from_options true None = Ok g /\ format_edge g src dst name = cid_to_text src ++ [32; 45; 62; 32] ++ cid_to_text dst.
Proof. exists FDestination, FArrow. repeat split. Qed.
Print Assumptions c54_default.

(** The position of an angle bracket which is not closed, if there is no tag before it. *)
Theorem c54_index_partial q r : ~ In 60 q -> ~ In 62 r ->
  from_options false (Some (q ++ [60] ++ r)) = Err (Format (UnterminatedTag (blen q))).
Proof.
  intros Hq Hr. unfold from_options, parse_format. destruct (loop_chars q Hq (lt :: r) _ 0 [] [] (le_n _)) as (f & L & E).
  change (q ++ [60] ++ r) with (q ++ lt :: r). rewrite E. destruct f as [|f]; [lia|]. cbn [parse_loop]. rewrite N.eqb_refl. apply cut_none in Hr. rewrite Hr. reflexivity.
Qed.
Print Assumptions c54_index_partial.
(** With a tag before it is counted from there: "<src>a<" has the bracket at 6. *)
Theorem c54_index_refuted : exists p r i, ~ In 62 r /\
  from_options false (Some (p ++ [60] ++ r)) = Err (Format (UnterminatedTag i)) /\ i <> blen p.
Proof. exists (tag_src ++ [97]), [], 1. split; [intros []|]. split; [reflexivity|discriminate]. Qed.
Print Assumptions c54_index_refuted.

(** ** Options *)
(** A query is accepted if it has an argument and each of the others at most once and readable; other
    keys do not matter. *)
Theorem c54_options duration l o :
  options_of duration l = Ok o <->
  values k_arg l <> [] /\ r_arg o = values k_arg l /\ text (values k_format l) (r_format o) /\
  (values k_timeout l = [] \/ exists v, values k_timeout l = [v] /\ duration v = true) /\
  flag (values k_edges l) (r_edges o) /\ flag (values k_unique l) (r_unique o) /\ flag (values k_recursive l) (r_recursive o) /\
  number (values k_depth l) (r_depth o).
Proof.
  assert (F : forall vs b, flag vs b <-> exists x, given parse_bool vs x /\ b = or_false x).
  { intros vs b. unfold flag, given. split.
    - intros [(-> & ->)|[(-> & ->)|(-> & ->)]]; [exists None|exists (Some true)|exists (Some false)]; repeat split; discriminate.
    - intros (x & G & ->). destruct vs as [|v [|]]; [subst x; left; split; reflexivity|destruct G as [-> G]|destruct G].
      revert G. unfold parse_bool. destruct (beq_spec v s_true) as [E1|_]; [rewrite E1; right; left; split; reflexivity|].
      destruct (beq_spec v s_false) as [E1|_]; [rewrite E1; right; right; split; reflexivity|congruence]. }
  assert (X : forall vs x, text vs x <-> given (@Some bytes) vs x).
  { intros vs x. unfold text, given. destruct vs as [|v [|v' vs]].
    - split; [intros [[_ ->]|(v & E & _)]; [reflexivity|discriminate]|auto].
    - split; [intros [[E _]|(v' & E & ->)]; [discriminate|injection E as <-; split; [reflexivity|discriminate]]|]. intros [-> _]. eauto.
    - split; [intros [[E _]|(v'' & E & _)]; discriminate|intros []]. }
  assert (Z : forall vs x, number vs x <-> given parse_i64 vs x).
  { intros vs x. unfold number, given. destruct vs as [|v [|v' vs]].
    - split; [intros [[_ ->]|(v & z & E & _)]; [reflexivity|discriminate]|auto].
    - split; [intros [[E _]|(v' & z & E & S & B & ->)]; [discriminate|injection E as <-]|].
      + split; [symmetry; apply parse_i64_spec; auto|discriminate].
      + intros [-> N]. right. destruct (parse_i64 v) as [z|] eqn:P; [|congruence]. apply parse_i64_spec in P as [P1 P2]. exists v, z. auto.
    - split; [intros [[E _]|(v'' & z & E & _)]; discriminate|intros []]. }
  rewrite X, !F, Z. unfold options_of, nothing. pose proof (take_reads duration l nothing) as R. unfold reads, nothing in R. cbn [q_args q_format q_timeout q_edges q_unique q_recursive q_depth app taken] in R.
  split.
  - destruct (take_fields duration _ l) as [q|e|] eqn:E; try discriminate. destruct (proj1 (R q) eq_refl) as (A & Fm & T & Ed & U & Rc & D).
    rewrite A. intros H. destruct (values k_arg l) as [|a vs] eqn:Ea; [discriminate|]. injection H as <-. cbn [r_arg r_format r_edges r_unique r_recursive r_depth].
    split; [discriminate|]. split; [reflexivity|]. split; [exact Fm|]. split; [|split; [eauto|split; [eauto|split; [eauto|exact D]]]].
    unfold taken_flag in T. destruct (values k_timeout l) as [|v [|]]; [auto|right; exists v; intuition|destruct T].
  - intros (N & A & Fm & T & (e & Ed & Ee) & (u & U & Eu) & (r & Rc & Er) & D).
    assert (Q : exists t, taken_flag duration (values k_timeout l) false t).
    { destruct T as [T|(v & T & Hd)]; rewrite T; [exists false; reflexivity|exists true; repeat split; exact Hd]. }
    destruct Q as (t & Q). pose proof (proj2 (R (mk_partial (values k_arg l) (r_format o) t e u r (r_depth o)))) as R'.
    cbn [q_args q_format q_timeout q_edges q_unique q_recursive q_depth] in R'. rewrite R' by auto 10. cbn [q_args q_format q_timeout q_edges q_unique q_recursive q_depth].
    rewrite <- Ee, <- Eu, <- Er, <- A. destruct o as [a f ed un rc d]. cbn [r_arg r_format r_edges r_unique r_recursive r_depth] in *. destruct a; [congruence|reflexivity].
Qed.
Print Assumptions c54_options.

(** The depth: links of the named documents only, unless [recursive]; then as many levels as given, and
    all of them for a negative number or none. *)
Theorem c54_depth o : match depth_of o with
  | Some d => (r_recursive o = false /\ d = 1) \/ (r_recursive o = true /\ r_depth o = Some (Z.of_N d))
  | None => r_recursive o = true /\ (r_depth o = None \/ exists z, r_depth o = Some z /\ (z < 0)%Z)
  end.
Proof.
  unfold depth_of. destruct (r_recursive o); [|auto]. destruct (r_depth o) as [z|]; [|auto]. destruct (Z.leb_spec 0 z).
  - right. rewrite Z2N.id by lia. auto.
  - split; [reflexivity|]. right. exists z. auto.
Qed.
Print Assumptions c54_depth.

(** ** The endpoint *)
(** All links up to the depth, level by level, each rendered. *)
Theorem c54_refs_partial duration other_base resolve checks fetch decode error_text query o f paths docs d :
  options_of duration query = Ok o -> r_unique o = false -> depth_of o = Some d ->
  from_options (r_edges o) (r_format o) = Ok f -> parse_paths other_base (r_arg o) = Ok paths -> documents resolve decode paths = Ok docs ->
  PropsRefs.good_roots docs ->
  let '(es, e) := closed (report fetch decode true (levels fetch decode docs (N.to_nat d))) in
  exists f0, forall fuel, (f0 <= fuel)%nat ->
    refs_lines duration other_base resolve checks fetch decode error_text fuel query = Ok (map (line error_text f) es, e).
Proof.
  intros Ho Hu Hd Hf Hp Hdocs Hg.
  assert (Lim : d + 1 < u64_max1).
  { change u64_max1 with (2 * 2 ^ 63). pose proof (c54_depth o) as X. rewrite Hd in X. destruct X as [(_ & ->)|(_ & X)]; [reflexivity|].
    apply c54_options in Ho as (_ & _ & _ & _ & _ & _ & _ & N). rewrite X in N. destruct N as [(_ & N)|(v & z & _ & _ & B & E)]; [discriminate|]. injection E as <-. lia. }
  destruct (PropsRefs.c32_bounded_partial checks fetch decode docs (mk_opts (depth_of o) (r_unique o) true) d Hu Hd Lim Hg) as (f0 & H). cbn [download] in H.
  destruct (closed _) as [es e] eqn:C. exists f0. intros fuel Hle. unfold refs_lines. rewrite Ho, Hf, Hp, Hdocs. rewrite (H fuel Hle). reflexivity.
Qed.
Print Assumptions c54_refs_partial.

(** A path into the data of a dag-pb node starts nothing; any other one gives its document. *)
Theorem c54_documents resolve decode paths docs : documents resolve decode paths = Ok docs ->
  exists ns, Forall2 (fun p n => resolve p = Ok n) paths ns /\
    docs = flat_map (fun n => match document_of decode n with Ok (Some d) => [d] | _ => [] end) ns /\
    Forall (fun n => exists x, document_of decode n = Ok x) ns.
Proof.
  revert docs. induction paths as [|p paths IH]; intros docs; cbn [documents].
  - intros H. injection H as <-. exists []. repeat constructor.
  - destruct (resolve p) as [n|e|] eqn:E; try discriminate. destruct (document_of decode n) as [[x|]|e|] eqn:D; try discriminate;
      destruct (documents resolve decode paths) as [r|e|] eqn:R; try discriminate; intros H; injection H as <-;
      destruct (IH r eq_refl) as (ns & F & -> & G); exists (n :: ns); cbn [flat_map]; rewrite D.
    + repeat split; [constructor; assumption|constructor; [eauto|exact G]].
    + repeat split; [constructor; assumption|constructor; [eauto|exact G]].
Qed.
Print Assumptions c54_documents.

(** C61: the body has one line for each item, and a reader of JSON gets the items back, whatever the
    texts are. *)
Theorem c61_lines l : read_body (body l) = Some l.
Proof. apply read_body_lines. Qed.
Print Assumptions c61_lines.

(** ** Examples *)
(** "<linkname>: <src> -> <dst>". *)
Definition ex_format : bytes := tag_linkname ++ [58; 32] ++ tag_src ++ [32; 45; 62; 32] ++ tag_dst.
Example ex_rendering a b n : rendered a b n ex_format (n ++ [58; 32] ++ a ++ [32; 45; 62; 32] ++ b).
Proof.
  apply rendered_name. do 2 (apply rendered_char; [discriminate|]). apply rendered_src. do 4 (apply rendered_char; [discriminate|]).
  pose proof (rendered_dst a b n [] [] (rendered_end _ _ _)) as H. rewrite !app_nil_r in H. exact H.
Qed.
Example ex_accepted : from_options false (Some ex_format) = Ok (FString [LinkName; Static [58; 32]; Source; Static [32; 45; 62; 32]; Destination]).
Proof. reflexivity. Qed.
(** "<Src>" is not a tag. *)
Example ex_rejected : from_options false (Some [97; 60; 83; 114; 99; 62; 98]) = Err (Format (UnsupportedTag [83; 114; 99])).
Proof. reflexivity. Qed.
(** "arg=a&recursive=true&max-depth=-1&x=y&arg=b". *)
Example ex_options : options_of (fun _ => false) [(k_arg, [97]); (k_recursive, v_true); (k_depth, [45; 49]); ([120], [121]); (k_arg, [98])]
  = Ok (mk_options [[97]; [98]] None false false true (Some (-1)%Z)).
Proof. reflexivity. Qed.
Example ex_twice : options_of (fun _ => false) [(k_arg, [97]); (k_edges, v_true); (k_edges, v_true)] = Err (DuplicateField k_edges).
Proof. reflexivity. Qed.
(** The links of the demonstration tree of C32, two levels, from the query on. *)
Definition ex_query : list (bytes * bytes) :=
  [(k_arg, cid_to_text PropsRefs.dA); (k_recursive, v_true); (k_depth, [50]); (k_format, tag_src ++ [62] ++ tag_dst)].
Example ex_refs : exists paths, parse_paths (fun _ _ => None) [cid_to_text PropsRefs.dA] = Ok paths /\
  let resolve p := match p with mk_path (IpfsPath.Ipld c) [] => Ok (NProjection c PropsRefs.doc_A) | _ => Panic end in
  documents resolve PropsResolve.real_decode paths = Ok [(PropsRefs.dA, PropsRefs.doc_A)] /\
  exists l, refs_lines (fun _ => false) (fun _ _ => None) resolve true (PropsRefs.demo_fetch true) PropsResolve.real_decode (fun _ => []) 20 ex_query = Ok (l, Some Closed) /\
    (2 <= length l)%nat /\ Forall (fun x => fst x <> [] /\ snd x = []) l.
Proof.
  eexists. split; [vm_compute; reflexivity|]. split; [vm_compute; reflexivity|]. eexists. split; [vm_compute; reflexivity|]. split; [vm_compute; lia|].
  repeat constructor; discriminate.
Qed.
(** A quote, a newline and a control character in one, a backslash in the other. *)
Example ex_lines : body [([34; 10; 1], []); ([], [92])] =
  [123; 34; 82; 101; 102; 34; 58; 34; 92; 34; 92; 110; 92; 117; 48; 48; 48; 49; 34; 44; 34; 69; 114; 114; 34; 58; 34; 34; 125; 10;
   123; 34; 82; 101; 102; 34; 58; 34; 34; 44; 34; 69; 114; 114; 34; 58; 34; 92; 92; 34; 125; 10].
Proof. reflexivity. Qed.
