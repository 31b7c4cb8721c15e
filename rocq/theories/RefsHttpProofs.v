(** Lemmas about /refs. *)
From Verif Require Import Base Wire Cid Ipld Text IpfsPath Resolve Refs RefsHttp RefsHttpSpec.
Local Open Scope N_scope.

(** ** Format strings *)
Lemma cut_found t r : ~ In gt t -> cut_gt (t ++ gt :: r) = Some (t, r).
Proof.
  induction t as [|c t IH]; intros H; cbn [app cut_gt]; [reflexivity|]. destruct (N.eqb_spec c gt) as [->|_]; [destruct H; left; reflexivity|].
  rewrite IH; [reflexivity|]. intros X. apply H. right. exact X.
Qed.
Lemma cut_inv s a b : cut_gt s = Some (a, b) -> s = a ++ gt :: b /\ ~ In gt a.
Proof.
  revert a b. induction s as [|c s IH]; intros a b; cbn [cut_gt]; [discriminate|]. destruct (N.eqb_spec c gt) as [->|Nc].
  - intros H. injection H as <- <-. split; [reflexivity|intros []].
  - destruct (cut_gt s) as [[a' b']|]; [|discriminate]. intros H. injection H as <- <-. destruct (IH _ _ eq_refl) as [-> N]. split; [reflexivity|].
    intros [X|X]; [congruence|exact (N X)].
Qed.
Lemma cut_none s : cut_gt s = None <-> ~ In gt s.
Proof.
  induction s as [|c s IH]; cbn [cut_gt]; [split; [intros _ []|reflexivity]|]. destruct (N.eqb_spec c gt) as [->|Nc].
  - split; [discriminate|]. intros H. destruct H. left. reflexivity.
  - destruct (cut_gt s) as [[a b]|].
    + split; [discriminate|]. intros H. destruct IH as [_ IH]. discriminate IH. intros X. apply H. right. exact X.
    + split; [|reflexivity]. intros _ [X|X]; [congruence|]. apply IH; [reflexivity|exact X].
Qed.

(** Tags and characters. *)
Inductive toks : bytes -> list part -> Prop :=
| toks_nil : toks [] []
| toks_char c s l : c <> lt -> toks s l -> toks (c :: s) (Static [c] :: l)
| toks_tag t p s l : tag_of t = Some p -> toks s l -> toks (lt :: t ++ gt :: s) (p :: l).
Section Show.
  Variables (src dst : cid) (name : option bytes).
  Definition show (l : list part) : bytes := concat (map (format_part src dst name) l).
  Lemma show_app l r : show (l ++ r) = show l ++ show r.
  Proof. unfold show. rewrite map_app. apply concat_app. Qed.
  Lemma show_flush b : show (flush b) = b.
  Proof. destruct b; [reflexivity|]. unfold show, flush. cbn [map concat format_part]. apply app_nil_r. Qed.
End Show.
Definition name_text (name : option bytes) : bytes := match name with Some n => n | None => [] end.
Lemma tag_no_gt t p : tag_of t = Some p -> ~ In gt t.
Proof.
  unfold tag_of. destruct (beq_spec t s_src) as [->|_]; [intros _; vm_compute; intuition discriminate|].
  destruct (beq_spec t s_dst) as [->|_]; [intros _; vm_compute; intuition discriminate|].
  destruct (beq_spec t s_linkname) as [->|_]; [intros _; vm_compute; intuition discriminate|discriminate].
Qed.
Lemma tag_cases t p : tag_of t = Some p ->
  (t = s_src /\ p = Source) \/ (t = s_dst /\ p = Destination) \/ (t = s_linkname /\ p = LinkName).
Proof.
  unfold tag_of. destruct (beq_spec t s_src) as [->|_]; [intros H; injection H as <-; auto|].
  destruct (beq_spec t s_dst) as [->|_]; [intros H; injection H as <-; auto|].
  destruct (beq_spec t s_linkname) as [->|_]; [intros H; injection H as <-; auto|discriminate].
Qed.
Lemma toks_rendered src dst name s l : toks s l -> rendered (cid_to_text src) (cid_to_text dst) (name_text name) s (show src dst name l).
Proof.
  induction 1 as [|c s l Hc H IH|t p s l Ht H IH]; [constructor| |].
  - cbn. apply rendered_char; [exact Hc|exact IH].
  - unfold show. cbn [map concat]. fold (show src dst name l). destruct (tag_cases t p Ht) as [(-> & ->)|[(-> & ->)|(-> & ->)]]; cbn [format_part].
    + exact (rendered_src _ _ _ _ _ IH).
    + exact (rendered_dst _ _ _ _ _ IH).
    + change (match name with Some n => n | None => [] end) with (name_text name). exact (rendered_name _ _ _ _ _ IH).
Qed.
Lemma rendered_toks a b n s o : rendered a b n s o -> exists l, toks s l /\
  forall src dst name, a = cid_to_text src -> b = cid_to_text dst -> n = name_text name -> o = show src dst name l.
Proof.
  induction 1 as [|c s o Hc H (l & T & E)|s o H (l & T & E)|s o H (l & T & E)|s o H (l & T & E)].
  - exists []. split; [constructor|reflexivity].
  - exists (Static [c] :: l). split; [apply toks_char; assumption|]. intros. unfold show. cbn. f_equal. apply E; assumption.
  - exists (Source :: l). split; [apply (toks_tag s_src); [reflexivity|exact T]|]. intros. unfold show. cbn [map concat format_part]. f_equal; [assumption|apply E; assumption].
  - exists (Destination :: l). split; [apply (toks_tag s_dst); [reflexivity|exact T]|]. intros. unfold show. cbn [map concat format_part]. f_equal; [assumption|apply E; assumption].
  - exists (LinkName :: l). split; [apply (toks_tag s_linkname); [reflexivity|exact T]|]. intros. unfold show. cbn [map concat format_part]. f_equal; [assumption|apply E; assumption].
Qed.

(** Reading over tags and characters. *)
Lemma loop_toks p ts : toks p ts -> forall r fuel i buf ret, (length (p ++ r) < fuel)%nat ->
  exists fuel' i' buf' ret', (length r < fuel')%nat /\ parse_loop fuel (p ++ r) i buf ret = parse_loop fuel' r i' buf' ret' /\
    forall src dst name, show src dst name ret' ++ buf' = show src dst name ret ++ buf ++ show src dst name ts.
Proof.
  induction 1 as [|c s l Hc H IH|t q s l Ht H IH]; intros r fuel i buf ret Hf.
  - exists fuel, i, buf, ret. split; [exact Hf|]. split; [reflexivity|]. intros. unfold show at 3. cbn. rewrite app_nil_r. reflexivity.
  - cbn [app length] in Hf. destruct fuel as [|fuel]; [lia|]. cbn [app parse_loop].
    destruct (N.eqb_spec c lt) as [|_]; [contradiction|].
    destruct (IH r fuel (i + 1) (buf ++ [c]) ret ltac:(lia)) as (f' & i' & b' & r' & L & E & S). exists f', i', b', r'.
    split; [exact L|]. split; [exact E|]. intros. rewrite S. unfold show at 4. cbn [map concat format_part]. rewrite <- !app_assoc. reflexivity.
  - assert (Eq : (lt :: t ++ gt :: s) ++ r = lt :: t ++ gt :: s ++ r) by (cbn [app]; rewrite <- app_assoc; reflexivity).
    rewrite Eq in *. rename Hf into Hl.
    destruct fuel as [|fuel]; [lia|]. cbn [parse_loop]. rewrite N.eqb_refl, cut_found by (apply (tag_no_gt _ _ Ht)). rewrite Ht.
    cbn [length] in Hl. rewrite app_length in Hl. cbn [length] in Hl.
    destruct (IH r fuel 0 [] ((ret ++ flush buf) ++ [q]) ltac:(lia)) as (f' & i' & b' & r' & L & E & S). exists f', i', b', r'.
    split; [exact L|]. split; [exact E|]. intros. rewrite S, !show_app, show_flush. cbn [app].
    change (show src dst name (q :: l)) with (show src dst name ([q] ++ l)). rewrite show_app, <- !app_assoc. reflexivity.
Qed.
(** Reading characters only. *)
Lemma loop_chars q : ~ In lt q -> forall r fuel i buf ret, (length (q ++ r) < fuel)%nat ->
  exists fuel', (length r < fuel')%nat /\ parse_loop fuel (q ++ r) i buf ret = parse_loop fuel' r (i + blen q) (buf ++ q) ret.
Proof.
  induction q as [|c q IH]; intros Hq r fuel i buf ret Hf.
  - exists fuel. split; [exact Hf|]. cbn [app]. rewrite app_nil_r. replace (i + blen []) with i by (unfold blen; cbn; lia). reflexivity.
  - cbn [app length] in Hf. destruct fuel as [|fuel]; [lia|]. cbn [app parse_loop].
    destruct (N.eqb_spec c lt) as [->|_]; [destruct Hq; left; reflexivity|].
    destruct (IH (fun X => Hq (or_intror X)) r fuel (i + 1) (buf ++ [c]) ret ltac:(lia)) as (f' & L & E). exists f'. split; [exact L|].
    rewrite E, <- app_assoc. f_equal. unfold blen. cbn [length]. lia.
Qed.

(** All that can happen. *)
Lemma loop_cases fuel : forall s i buf ret, (length s < fuel)%nat ->
  (exists ts l, toks s ts /\ parse_loop fuel s i buf ret = Ok l) \/
  (exists p ts t r, toks p ts /\ s = p ++ lt :: t ++ gt :: r /\ ~ In gt t /\ tag_of t = None /\ parse_loop fuel s i buf ret = Err (UnsupportedTag t)) \/
  (exists p ts r j, toks p ts /\ s = p ++ lt :: r /\ ~ In gt r /\ parse_loop fuel s i buf ret = Err (UnterminatedTag j)).
Proof.
  induction fuel as [|fuel IH]; intros s i buf ret Hf; [lia|]. destruct s as [|c s]; cbn [parse_loop].
  - left. exists [], (ret ++ flush buf). split; [constructor|reflexivity].
  - destruct (N.eqb_spec c lt) as [->|Nc].
    + destruct (cut_gt s) as [[t r]|] eqn:C.
      * apply cut_inv in C as [-> Nt]. destruct (tag_of t) as [q|] eqn:T.
        -- cbn [length] in Hf. rewrite app_length in Hf. cbn [length] in Hf.
           destruct (IH r 0 [] ((ret ++ flush buf) ++ [q]) ltac:(lia)) as [(ts & l & Hts & E)|[(p & ts & t' & r' & Hts & -> & N' & T' & E)|(p & ts & r' & j & Hts & -> & N' & E)]].
           ++ left. exists (q :: ts), l. split; [apply toks_tag; assumption|exact E].
           ++ right; left. exists (lt :: t ++ gt :: p), (q :: ts), t', r'. split; [apply toks_tag; assumption|].
              split; [cbn [app]; rewrite <- app_assoc; reflexivity|]. auto.
           ++ right; right. exists (lt :: t ++ gt :: p), (q :: ts), r', j. split; [apply toks_tag; assumption|].
              split; [cbn [app]; rewrite <- app_assoc; reflexivity|]. auto.
        -- right; left. exists [], [], t, r. split; [constructor|]. auto.
      * right; right. exists [], [], s, i. split; [constructor|]. split; [reflexivity|]. split; [apply cut_none, C|reflexivity].
    + cbn [length] in Hf. destruct (IH s (i + 1) (buf ++ [c]) ret ltac:(lia)) as [(ts & l & Hts & E)|[(p & ts & t' & r' & Hts & -> & N' & T' & E)|(p & ts & r' & j & Hts & -> & N' & E)]].
      * left. exists (Static [c] :: ts), l. split; [apply toks_char; assumption|exact E].
      * right; left. exists (c :: p), (Static [c] :: ts), t', r'. split; [apply toks_char; assumption|]. auto.
      * right; right. exists (c :: p), (Static [c] :: ts), r', j. split; [apply toks_char; assumption|]. auto.
Qed.

Lemma parse_toks s ts : toks s ts -> exists l, parse_format s = Ok l /\ forall src dst name, show src dst name l = show src dst name ts.
Proof.
  intros H. unfold parse_format. destruct (loop_toks s ts H [] (S (length s)) 0 [] [] ltac:(rewrite app_nil_r; lia)) as (f & i & b & r & L & E & S).
  rewrite app_nil_r in E. rewrite E. destruct f as [|f]; [lia|]. cbn [parse_loop]. exists (r ++ flush b). split; [reflexivity|].
  intros. rewrite show_app, show_flush, S. reflexivity.
Qed.
Lemma parse_unsupported p ts t r : toks p ts -> ~ In gt t -> tag_of t = None -> parse_format (p ++ lt :: t ++ gt :: r) = Err (UnsupportedTag t).
Proof.
  intros H Nt T. unfold parse_format. destruct (loop_toks p ts H (lt :: t ++ gt :: r) _ 0 [] [] (le_n _)) as (f & i & b & l & L & E & _).
  rewrite E. destruct f as [|f]; [lia|]. cbn [parse_loop]. rewrite N.eqb_refl, cut_found by exact Nt. rewrite T. reflexivity.
Qed.
Lemma parse_unterminated p ts r : toks p ts -> ~ In gt r -> exists j, parse_format (p ++ lt :: r) = Err (UnterminatedTag j).
Proof.
  intros H Nt. unfold parse_format. destruct (loop_toks p ts H (lt :: r) _ 0 [] [] (le_n _)) as (f & i & b & l & L & E & _).
  rewrite E. destruct f as [|f]; [lia|]. cbn [parse_loop]. rewrite N.eqb_refl. apply cut_none in Nt. rewrite Nt. eauto.
Qed.
Lemma toks_fun s ts : toks s ts -> forall ts', toks s ts' -> ts' = ts.
Proof.
  induction 1 as [|c s l Hc H IH|t p s l Ht H IH]; intros ts' H'.
  - inversion H'. reflexivity.
  - inversion H'; subst; [f_equal; auto|]. exfalso; apply Hc; reflexivity.
  - inversion H' as [|? ? ? Hc|t' p' s' l' Ht' Hl']; subst; [exfalso; apply Hc; reflexivity|].
    assert (E : cut_gt (t ++ gt :: s) = cut_gt (t' ++ gt :: s')) by congruence.
    rewrite !cut_found in E by (eapply tag_no_gt; eassumption). injection E as <- <-. rewrite Ht in Ht'. injection Ht' as <-. f_equal. auto.
Qed.

(** ** Options *)
Lemma values_cons k x l : values k (x :: l) = if beq (fst x) k then snd x :: values k l else values k l.
Proof. unfold values. cbn [filter]. destruct (beq (fst x) k); reflexivity. Qed.

(** What is still to come is compared with what was taken before: [x] before and [y] after reading [vs]. *)
Definition taken {A} (read : bytes -> option A) (vs : list bytes) (x y : option A) : Prop :=
  match x with None => given read vs y | Some _ => vs = [] /\ y = x end.
Definition taken_flag (ok : bytes -> bool) (vs : list bytes) (x y : bool) : Prop :=
  match vs with [] => y = x | [v] => x = false /\ ok v = true /\ y = true | _ => False end.
Lemma taken_step {A} (read : bytes -> option A) v vs x y : taken read (v :: vs) x y <-> x = None /\ exists z, read v = Some z /\ taken read vs (Some z) y.
Proof.
  unfold taken, given. destruct x; [split; [intros [H _]; discriminate|intros [H _]; discriminate]|]. split.
  - destruct vs; [|intros []]. intros [-> H]. split; [reflexivity|]. destruct (read v) as [z|]; [|congruence]. eauto.
  - intros (_ & z & E & -> & ->). split; congruence.
Qed.
Section Take.
  Variable duration : bytes -> bool.
  Definition reads (l : list (bytes * bytes)) (q q' : partial) : Prop :=
    q_args q' = q_args q ++ values k_arg l /\ taken (@Some bytes) (values k_format l) (q_format q) (q_format q') /\
    taken_flag duration (values k_timeout l) (q_timeout q) (q_timeout q') /\
    taken parse_bool (values k_edges l) (q_edges q) (q_edges q') /\ taken parse_bool (values k_unique l) (q_unique q) (q_unique q') /\
    taken parse_bool (values k_recursive l) (q_recursive q) (q_recursive q') /\ taken parse_i64 (values k_depth l) (q_depth q) (q_depth q').
  Lemma take_reads l : forall q q', take_fields duration q l = Ok q' <-> reads l q q'.
  Proof.
    induction l as [|(k, v) l IH]; intros [a f t e u r d] [a' f' t' e' u' r' d'].
    - cbn [take_fields]. unfold reads, values, taken, taken_flag. cbn. rewrite app_nil_r. split.
      + intros H. injection H as <- <- <- <- <- <- <-. destruct f, e, u, r, d; repeat split; reflexivity.
      + intros (-> & F & -> & E & U & R & D). f_equal. f_equal; [destruct f|destruct e|destruct u|destruct r|destruct d]; congruence || tauto || (destruct F; congruence) || (destruct E; congruence) || (destruct U; congruence) || (destruct R; congruence) || (destruct D; congruence).
    - cbn [take_fields take_field]. unfold reads. rewrite !values_cons. cbn [fst snd].
      destruct (beq_spec k k_arg) as [->|N1].
      { repeat match goal with |- context [if beq k_arg ?x then _ else _] => change (beq k_arg x) with false; cbn iota end. rewrite IH. unfold reads. cbn [q_args q_format q_timeout q_edges q_unique q_recursive q_depth].
        rewrite <- app_assoc. reflexivity. }
      destruct (beq_spec k k_format) as [->|N2].
      { repeat match goal with |- context [if beq k_format ?x then _ else _] => change (beq k_format x) with false; cbn iota end. cbn [q_args q_format q_timeout q_edges q_unique q_recursive q_depth].
        rewrite taken_step. destruct f as [f|].
        { split; [discriminate|]. intros (_ & (X & _) & _). discriminate. }
        rewrite IH. unfold reads. cbn [q_args q_format q_timeout q_edges q_unique q_recursive q_depth]. split.
        - intros (A & F & rest). split; [exact A|]. split; [split; [reflexivity|exists v; auto]|exact rest].
        - intros (A & (_ & z & Z & F) & rest). injection Z as <-. auto. }
      destruct (beq_spec k k_timeout) as [->|N3].
      { repeat match goal with |- context [if beq k_timeout ?x then _ else _] => change (beq k_timeout x) with false; cbn iota end. cbn [q_args q_format q_timeout q_edges q_unique q_recursive q_depth].
        destruct t.
        { split; [discriminate|]. intros (_ & _ & X & _). unfold taken_flag in X. destruct (values k_timeout l); [destruct X; discriminate|destruct X]. }
        destruct (duration v) eqn:D.
        - rewrite IH. unfold reads. cbn [q_args q_format q_timeout q_edges q_unique q_recursive q_depth].
          assert (Q : taken_flag duration (values k_timeout l) true t' <-> taken_flag duration (v :: values k_timeout l) false t').
          { unfold taken_flag. destruct (values k_timeout l) as [|? [|]]; [tauto|split; [intros [X _]; discriminate|intros []]|tauto]. }
          rewrite Q. reflexivity.
        - split; [discriminate|]. intros (_ & _ & X & _). unfold taken_flag in X. destruct (values k_timeout l); [destruct X as (_ & X & _); congruence|destruct X]. }
      destruct (beq_spec k k_depth) as [->|N4].
      { repeat match goal with |- context [if beq k_depth ?x then _ else _] => change (beq k_depth x) with false; cbn iota end. cbn [q_args q_format q_timeout q_edges q_unique q_recursive q_depth].
        rewrite (taken_step parse_i64). destruct d as [d|].
        { split; [discriminate|]. intros (_ & _ & _ & _ & _ & _ & (X & _)). discriminate. }
        destruct (parse_i64 v) as [z|] eqn:P.
        - rewrite IH. unfold reads. cbn [q_args q_format q_timeout q_edges q_unique q_recursive q_depth]. split.
          + intros (A & F & T & E & U & R & D). repeat (split; [assumption|]). split; [reflexivity|]. exists z. auto.
          + intros (A & F & T & E & U & R & (_ & y & Y & D)). injection Y as <-. repeat (split; [assumption|]). exact D.
        - split; [discriminate|]. intros (_ & _ & _ & _ & _ & _ & (_ & z & Z & _)). discriminate. }
      assert (B : forall old store, (exists q1, set_bool k v old store = Ok q1) \/ (exists er, set_bool k v old store = Err er)).
      { intros old store. unfold set_bool. destruct old; [right; eauto|]. destruct (parse_bool v); [left|right]; eauto. }
      assert (SB : forall old store, (old = None /\ exists b, parse_bool v = Some b /\ set_bool k v old store = Ok (store (Some b))) \/
                 ((old <> None \/ parse_bool v = None) /\ exists er, set_bool k v old store = Err er)).
      { intros old store. unfold set_bool. destruct old; [right; split; [left; discriminate|eauto]|]. destruct (parse_bool v) eqn:P; [left|right]; eauto. }
      clear B.
      destruct (beq_spec k k_edges) as [->|N5].
      { repeat match goal with |- context [if beq k_edges ?x then _ else _] => change (beq k_edges x) with false; cbn iota end. cbn [q_args q_format q_timeout q_edges q_unique q_recursive q_depth].
        rewrite (taken_step parse_bool). destruct (SB e (fun b => mk_partial a f t b u r d)) as [(-> & b & P & ->)|(X & er & ->)].
        - rewrite IH. unfold reads. cbn [q_args q_format q_timeout q_edges q_unique q_recursive q_depth]. split.
          + intros (A & F & T & E & rest). repeat (split; [assumption|]). split; [split; [reflexivity|exists b; auto]|exact rest].
          + intros (A & F & T & (_ & y & Y & E) & rest). rewrite P in Y. injection Y as <-. auto 10.
        - split; [discriminate|]. intros (_ & _ & _ & (Y & z & Z & _) & _). destruct X; congruence. }
      destruct (beq_spec k k_unique) as [->|N6].
      { repeat match goal with |- context [if beq k_unique ?x then _ else _] => change (beq k_unique x) with false; cbn iota end. cbn [q_args q_format q_timeout q_edges q_unique q_recursive q_depth].
        rewrite (taken_step parse_bool). destruct (SB u (fun b => mk_partial a f t e b r d)) as [(-> & b & P & ->)|(X & er & ->)].
        - rewrite IH. unfold reads. cbn [q_args q_format q_timeout q_edges q_unique q_recursive q_depth]. split.
          + intros (A & F & T & E & U & rest). repeat (split; [assumption|]). split; [split; [reflexivity|exists b; auto]|exact rest].
          + intros (A & F & T & E & (_ & y & Y & U) & rest). rewrite P in Y. injection Y as <-. auto 10.
        - split; [discriminate|]. intros (_ & _ & _ & _ & (Y & z & Z & _) & _). destruct X; congruence. }
      destruct (beq_spec k k_recursive) as [->|N7].
      { cbn [q_args q_format q_timeout q_edges q_unique q_recursive q_depth].
        rewrite (taken_step parse_bool). destruct (SB r (fun b => mk_partial a f t e u b d)) as [(-> & b & P & ->)|(X & er & ->)].
        - rewrite IH. unfold reads. cbn [q_args q_format q_timeout q_edges q_unique q_recursive q_depth]. split.
          + intros (A & F & T & E & U & R & rest). repeat (split; [assumption|]). split; [split; [reflexivity|exists b; auto]|exact rest].
          + intros (A & F & T & E & U & (_ & y & Y & R) & rest). rewrite P in Y. injection Y as <-. auto 10.
        - split; [discriminate|]. intros (_ & _ & _ & _ & _ & (Y & z & Z & _) & _). destruct X; congruence. }
      apply IH.
  Qed.
  Lemma take_no_panic l : forall q, take_fields duration q l <> Panic.
  Proof.
    induction l as [|(k, v) l IH]; intros q; cbn [take_fields]; [discriminate|].
    assert (H : take_field duration q (k, v) <> Panic).
    { unfold take_field, set_bool. repeat match goal with |- context [if ?x then _ else _] => destruct x | |- context [match ?x with Some _ => _ | None => _ end] => destruct x end; discriminate. }
    destruct (take_field duration q (k, v)); [apply IH|discriminate|congruence].
  Qed.
End Take.

(** Numbers. *)
Lemma digits_snoc s c acc : digits_val (s ++ [c]) acc = match digits_val s acc with Some a => digits_val [c] a | None => None end.
Proof.
  revert acc. induction s as [|x s IH]; intros acc; [reflexivity|]. cbn [app digits_val].
  destruct ((48 <=? x) && (x <=? 57)); [|reflexivity]. destruct (_ <? u64_max1); [apply IH|reflexivity].
Qed.
Lemma decimal_digits s n : decimal s n -> n < u64_max1 -> digits_val s 0 = Some n.
Proof.
  induction 1 as [c v [-> Hv]|s n c v H IH [-> Hv]]; intros L.
  - cbn [digits_val]. replace ((48 <=? 48 + v) && (48 + v <=? 57)) with true by lia. replace (10 * 0 + (48 + v - 48)) with v by lia. replace (v <? u64_max1) with true by lia. reflexivity.
  - rewrite digits_snoc, IH by lia. cbn [digits_val]. replace ((48 <=? 48 + v) && (48 + v <=? 57)) with true by lia.
    replace (10 * n + (48 + v - 48)) with (10 * n + v) by lia. replace (10 * n + v <? u64_max1) with true by lia. reflexivity.
Qed.
Lemma digits_decimal s n : s <> [] -> digits_val s 0 = Some n -> decimal s n.
Proof.
  revert n. induction s as [|c s IH] using rev_ind; intros n N; [congruence|]. rewrite digits_snoc.
  destruct s as [|x s].
  - cbn [digits_val]. destruct ((48 <=? c) && (c <=? 57)) eqn:E; [|discriminate]. destruct (_ <? _); [|discriminate]. intros H. injection H as <-.
    apply decimal_one. split; lia.
  - destruct (digits_val (x :: s) 0) as [m|]; [|discriminate]. cbn [digits_val]. destruct ((48 <=? c) && (c <=? 57)) eqn:E; [|discriminate]. destruct (_ <? _); [|discriminate].
    intros H. injection H as <-. apply decimal_more; [apply IH; [discriminate|reflexivity]|split; lia].
Qed.
Lemma decimal_first s n : decimal s n -> exists c r, s = c :: r /\ 48 <= c <= 57.
Proof.
  induction 1 as [c v [-> Hv]|s n c v H (x & r & -> & Hx) D]; [exists (48 + v), []; split; [reflexivity|lia]|].
  exists x, (r ++ [c]). split; [reflexivity|exact Hx].
Qed.
Lemma parse_i64_spec s z : parse_i64 s = Some z <-> signed s z /\ (- 2 ^ 63 <= z < 2 ^ 63)%Z.
Proof.
  assert (Lim : forall n, (Z.of_N n <= 2 ^ 63)%Z -> n < u64_max1) by (intros n H; change u64_max1 with (2 * 2 ^ 63); lia).
  split.
  - destruct s as [|c r]; [discriminate|]. unfold parse_i64. cbv zeta.
    assert (G : forall neg ds, ds <> [] -> match ds with [] => None | _ => match digits_val ds 0 with None => None | Some v => let v := if neg : bool then Z.opp (Z.of_N v) else Z.of_N v in if in_i64 v then Some v else None end end = Some z ->
      exists n, decimal ds n /\ z = (if neg then Z.opp (Z.of_N n) else Z.of_N n) /\ (- 2 ^ 63 <= z < 2 ^ 63)%Z).
    { intros neg ds Nd. destruct ds as [|d ds]; [congruence|]. destruct (digits_val (d :: ds) 0) as [n|] eqn:E; [|discriminate]. cbv zeta. unfold in_i64.
      destruct (_ && _)%bool eqn:B; [|discriminate]. intros H. injection H as <-. exists n. split; [apply digits_decimal; assumption|]. split; [reflexivity|]. lia. }
    destruct (N.eqb_spec c 45) as [->|N1].
    { intros H. destruct r as [|d r]; [discriminate|]. destruct (G true (d :: r) ltac:(discriminate) H) as (n & D & -> & B). split; [apply signed_minus, D|exact B]. }
    destruct (N.eqb_spec c 43) as [->|N2].
    { intros H. destruct r as [|d r]; [discriminate|]. destruct (G false (d :: r) ltac:(discriminate) H) as (n & D & -> & B). split; [apply signed_plus, D|exact B]. }
    intros H. destruct (G false (c :: r) ltac:(discriminate) H) as (n & D & -> & B). split; [apply signed_plain, D|exact B].
  - intros [H B]. destruct H as [s n D|s n D|s n D]; pose proof (decimal_first _ _ D) as (c & r & -> & Hc);
      (rewrite <- (N2Z.id n) in D || idtac); unfold parse_i64.
    + replace (c =? 45) with false by lia. replace (c =? 43) with false by lia. cbn iota. rewrite N2Z.id in D. rewrite (decimal_digits _ _ D) by (apply Lim; lia). cbv zeta. unfold in_i64.
      replace ((- 2 ^ 63 <=? Z.of_N n) && (Z.of_N n <? 2 ^ 63))%Z with true by lia. reflexivity.
    + cbn [N.eqb Pos.eqb]. rewrite N2Z.id in D. rewrite (decimal_digits _ _ D) by (apply Lim; lia). cbv zeta. unfold in_i64.
      replace ((- 2 ^ 63 <=? Z.of_N n) && (Z.of_N n <? 2 ^ 63))%Z with true by lia. reflexivity.
    + cbn [N.eqb Pos.eqb]. rewrite N2Z.id in D. rewrite (decimal_digits _ _ D) by (apply Lim; lia). cbv zeta. unfold in_i64.
      replace ((- 2 ^ 63 <=? - Z.of_N n) && (- Z.of_N n <? 2 ^ 63))%Z with true by lia. reflexivity.
Qed.

(** ** Lines *)
Lemma read_escape c s : read_string (escape c ++ s) = match read_string s with Some (t, r) => Some (c :: t, r) | None => None end.
Proof.
  unfold escape.
  destruct (N.eqb_spec c 34) as [->|N1]; [reflexivity|]. destruct (N.eqb_spec c 92) as [->|N2]; [reflexivity|].
  destruct (N.eqb_spec c 8) as [->|N3]; [reflexivity|]. destruct (N.eqb_spec c 9) as [->|N4]; [reflexivity|].
  destruct (N.eqb_spec c 10) as [->|N5]; [reflexivity|]. destruct (N.eqb_spec c 12) as [->|N6]; [reflexivity|].
  destruct (N.eqb_spec c 13) as [->|N7]; [reflexivity|]. destruct (N.ltb_spec c 32) as [L|L].
  - assert (U : forall v, v < 16 -> unhex (hex_digit v) = Some v).
    { intros v Hv. unfold hex_digit. destruct (N.ltb_spec v 10); unfold unhex.
      - replace ((48 <=? 48 + v) && (48 + v <=? 57)) with true by lia. f_equal. lia.
      - replace ((48 <=? 87 + v) && (87 + v <=? 57)) with false by lia. replace ((97 <=? 87 + v) && (87 + v <=? 102)) with true by lia. f_equal. lia. }
    cbn [app read_string]. cbn [N.eqb Pos.eqb]. rewrite !U by ((apply N.mod_lt; lia) || (apply N.div_lt_upper_bound; lia)).
    replace (c / 16 <? 8) with true by (symmetry; apply N.ltb_lt, N.div_lt_upper_bound; lia).
    rewrite <- N.div_mod by lia. reflexivity.
  - cbn [app read_string]. replace (c =? 34) with false by lia. replace (c =? 92) with false by lia. replace (c <? 32) with false by lia. reflexivity.
Qed.
Lemma read_quoted t r : read_string (concat (map escape t) ++ 34 :: r) = Some (t, r).
Proof. induction t as [|c t IH]; [reflexivity|]. cbn [map concat]. rewrite <- app_assoc, read_escape, IH. reflexivity. Qed.
Lemma escape_no_newline c : ~ In 10 (escape c).
Proof.
  unfold escape.
  repeat match goal with |- context [if ?c =? ?k then _ else _] => destruct (N.eqb_spec c k) as [->|]; [vm_compute; intuition discriminate|] end.
  destruct (N.ltb_spec c 32) as [L|L].
  - assert (G : forall v, hex_digit v <> 10) by (intros v; unfold hex_digit; destruct (v <? 10); lia).
    cbn [In]. intros [X|[X|[X|[X|[X|[X|[]]]]]]]; try discriminate; eapply G; eassumption.
  - intros [X|[]]. congruence.
Qed.
Lemma json_no_newline s : ~ In 10 (json_string s).
Proof.
  unfold json_string. intros [X|X]; [discriminate|]. apply in_app_or in X as [X|[X|[]]]; [|discriminate].
  apply in_concat in X as (e & He & X). apply in_map_iff in He as (c & <- & _). exact (escape_no_newline c X).
Qed.
Lemma lines_line x r : ~ In 10 x -> lines (x ++ 10 :: r) = match lines r with Some l => Some (x :: l) | None => None end.
Proof.
  induction x as [|c x IH]; intros H; cbn [app lines]; [reflexivity|]. destruct (N.eqb_spec c 10) as [->|_]; [destruct H; left; reflexivity|].
  rewrite IH by (intros X; apply H; right; exact X). destruct (lines r); reflexivity.
Qed.
Definition line_text (x : bytes * bytes) : bytes :=
  123 :: json_string k_ref ++ 58 :: json_string (fst x) ++ 44 :: json_string k_err ++ 58 :: json_string (snd x) ++ [125].
Lemma edge_line_text x : edge_line x = line_text x ++ [10].
Proof. unfold edge_line, line_text. rewrite <- !app_comm_cons. repeat (rewrite <- app_assoc; cbn [app]). reflexivity. Qed.
Lemma line_text_no_newline x : ~ In 10 (line_text x).
Proof.
  unfold line_text. intros [X|X]; [discriminate|]. apply in_app_or in X as [X|[X|X]]; [exact (json_no_newline _ X)|discriminate|].
  apply in_app_or in X as [X|[X|X]]; [exact (json_no_newline _ X)|discriminate|].
  apply in_app_or in X as [X|[X|X]]; [exact (json_no_newline _ X)|discriminate|].
  apply in_app_or in X as [X|[X|[]]]; [exact (json_no_newline _ X)|discriminate].
Qed.
Lemma read_line_text x : read_line (line_text x) = Some x.
Proof.
  destruct x as [a b]. unfold line_text, json_string, read_line. cbn [fst snd].
  change (123 :: (34 :: concat (map escape k_ref) ++ [34]) ++ 58 :: (34 :: concat (map escape a) ++ [34]) ++ 44 :: (34 :: concat (map escape k_err) ++ [34]) ++ 58 :: (34 :: concat (map escape b) ++ [34]) ++ [125])
    with ([123; 34; 82; 101; 102; 34; 58; 34] ++ (concat (map escape a) ++ [34]) ++ [44; 34; 69; 114; 114; 34; 58; 34] ++ (concat (map escape b) ++ [34]) ++ [125]).
  assert (E : forall p s, expect p (p ++ s) = Some s) by (intros p s; induction p as [|y p IH]; [reflexivity|]; cbn [expect app]; rewrite N.eqb_refl; exact IH).
  rewrite E. rewrite <- app_assoc. cbn [app]. rewrite read_quoted.
  change (44 :: 34 :: 69 :: 114 :: 114 :: 34 :: 58 :: 34 :: (concat (map escape b) ++ [34]) ++ [125]) with ([44; 34; 69; 114; 114; 34; 58; 34] ++ (concat (map escape b) ++ [34]) ++ [125]).
  rewrite E. rewrite <- app_assoc. cbn [app]. rewrite read_quoted. reflexivity.
Qed.
Lemma read_body_lines l : read_body (body l) = Some l.
Proof.
  unfold read_body. assert (H : lines (body l) = Some (map line_text l)).
  { induction l as [|x l IH]; [reflexivity|]. unfold body in *. cbn [map concat]. rewrite edge_line_text, <- app_assoc. cbn [app].
    rewrite lines_line by apply line_text_no_newline. rewrite IH. reflexivity. }
  rewrite H. induction l as [|x l IH]; [reflexivity|]. cbn [map read_all]. rewrite read_line_text, IH; [reflexivity|].
  clear. induction l as [|x l IH]; [reflexivity|]. unfold body in *. cbn [map concat]. rewrite edge_line_text, <- app_assoc. cbn [app].
    rewrite lines_line by apply line_text_no_newline. rewrite IH. reflexivity.
Qed.
