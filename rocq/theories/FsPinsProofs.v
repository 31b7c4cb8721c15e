(** The filesystem pin store: representation, changes, crashes. *)
From Verif Require Import Base Wire Cid CidProofs FMap BlockSpec Text TextProofs FsPaths FsPathsProofs FsBlocks PinSpec PinSpecProofs FsPins.
Local Open Scope N_scope.

(** * JSON *)
Definition plain (s : bytes) : Prop := Forall alnum s.

Lemma take_string_ok s r : plain s -> take_string (s ++ 34 :: r) = Some (s, r).
Proof.
  induction 1 as [|c s H HF IH]; [reflexivity|]. cbn [app take_string]. unfold alnum in H.
  destruct (N.eqb_spec c 34); [lia|]. destruct (N.eqb_spec c 92); [lia|]. destruct (N.ltb_spec c 32); [lia|].
  cbn [orb]. rewrite IH. reflexivity.
Qed.
Lemma json_rest_length l : (length (json_rest l) >= length l)%nat.
Proof. induction l as [|s l IH]; cbn; [lia|]. rewrite !app_length. cbn. lia. Qed.
Lemma read_strings_ok l : forall s fuel, plain s -> Forall plain l -> (length l < fuel)%nat ->
  read_strings fuel (quoted s ++ json_rest l) = Some (s :: l).
Proof.
  induction l as [|t l IH]; intros s fuel Hs HF Hf; destruct fuel as [|fuel]; [lia| |lia|].
  - cbn [quoted app json_rest read_strings]. cbn [N.eqb Pos.eqb]. rewrite <- app_assoc. cbn [app].
    rewrite take_string_ok by exact Hs. reflexivity.
  - inversion HF; subst. cbn [json_rest]. unfold quoted at 1. cbn [app read_strings N.eqb Pos.eqb].
    rewrite <- app_assoc. cbn [app]. rewrite take_string_ok by exact Hs. cbn [N.eqb Pos.eqb].
    rewrite IH; [reflexivity|assumption|assumption|cbn in Hf; lia].
Qed.
Lemma read_json_ok l : Forall plain l -> read_json (json_list l) = Some l.
Proof.
  intros HF. destruct l as [|s l]; [reflexivity|]. inversion HF; subst. cbn [json_list read_json N.eqb Pos.eqb].
  assert (E : exists a b t, quoted s ++ json_rest l = a :: b :: t).
  { unfold quoted. cbn [app]. destruct s; cbn; eauto. }
  destruct E as (a & b & t & E). rewrite E, <- E. apply read_strings_ok; try assumption.
  rewrite app_length. pose proof (json_rest_length l). cbn. lia.
Qed.

(** * File names *)
Definition pfile (ext : bytes) (c : cid) : path := (shard_of (pin_stem c), pin_stem c ++ 46 :: ext).
Definition rfile := pfile ext_recursive.
Definition dfile := pfile ext_direct.
Definition tfile := pfile ext_recursive_temp.

Lemma pin_file_ok ext c : wf_cid c -> pin_file ext c = Ok (pfile ext c).
Proof. apply pin_path_ok. Qed.

Lemma stem_ok c : wf_cid c -> pin_stem c <> [] /\ Forall (fun x => x <> 46) (pin_stem c).
Proof.
  intros Hc. split; [apply length_nil, pin_length, Hc|]. apply alnum_dot, b32_chars.
Qed.
Definition no_dot (e : bytes) : Prop := Forall (fun x => x <> 46) e.
Lemma ext_no_dot : no_dot ext_recursive /\ no_dot ext_direct /\ no_dot ext_recursive_temp.
Proof. repeat split; repeat constructor; discriminate. Qed.

Lemma pfile_inj e1 e2 c1 c2 : wf_cid c1 -> wf_cid c2 -> no_dot e1 -> no_dot e2 ->
  pfile e1 c1 = pfile e2 c2 -> e1 = e2 /\ c1 = c2.
Proof.
  intros H1 H2 He1 He2 E. injection E as _ E.
  destruct (stem_ok c1 H1) as [N1 F1], (stem_ok c2 H2) as [N2 F2].
  destruct (stem_app _ e1 N1 F1 He1) as [S1 X1]. destruct (stem_app _ e2 N2 F2 He2) as [S2 X2].
  rewrite E in S1, X1. split; [congruence|]. apply pin_stem_inj; auto. congruence.
Qed.
Lemma pfile_eqb e1 e2 c1 c2 : wf_cid c1 -> wf_cid c2 -> no_dot e1 -> no_dot e2 ->
  path_eqb (pfile e1 c1) (pfile e2 c2) = beq e1 e2 && cid_eqb c1 c2.
Proof.
  intros H1 H2 He1 He2. destruct (path_eqb_spec (pfile e1 c1) (pfile e2 c2)) as [E|Hn].
  - apply pfile_inj in E as [-> ->]; auto. rewrite beq_refl, cid_eqb_refl. reflexivity.
  - destruct (beq_spec e1 e2) as [->|]; [|reflexivity]. destruct (cid_eqb_spec c1 c2) as [->|]; [congruence|reflexivity].
Qed.

Definition pin_at (c : cid) (r : bool) : path := if r then rfile c else dfile c.
(** The name lists as a pin only if it is the file of that pin. *)
Definition good (p : path) : Prop := forall c r, listed_pin (snd p) = Some (c, r) -> wf_cid c /\ p = pin_at c r.
Lemma good_r c : wf_cid c -> good (rfile c).
Proof. intros Hc c' r' H. cbn [rfile pfile snd] in H. rewrite (listed_pin_file c true Hc) in H. injection H as <- <-. auto. Qed.
Lemma good_d c : wf_cid c -> good (dfile c).
Proof. intros Hc c' r' H. cbn [dfile pfile snd] in H. rewrite (listed_pin_file c false Hc) in H. injection H as <- <-. auto. Qed.
Lemma good_t c : wf_cid c -> good (tfile c).
Proof.
  intros Hc c' r' H. exfalso. cbn [tfile pfile snd] in H. unfold listed_pin in H.
  destruct (stem_ok c Hc) as [N1 F1]. destruct (stem_app _ ext_recursive_temp N1 F1 (proj2 (proj2 ext_no_dot))) as [_ X1].
  rewrite X1 in H. discriminate.
Qed.

(** * Files *)
Definition tidy (f : fs) : Prop := NoDup (mkeys f) /\ Forall good (mkeys f).

Lemma get_set p v f q : fs_get q (mset path_eqb p v f) = if path_eqb q p then Some v else fs_get q f.
Proof. apply mget_mset. exact path_eqb_spec. Qed.
Lemma get_del p f q : fs_get q (mdel path_eqb p f) = if path_eqb q p then None else fs_get q f.
Proof. apply mget_mdel. exact path_eqb_spec. Qed.
Lemma tidy_del p f : tidy f -> tidy (mdel path_eqb p f).
Proof.
  intros [Hn HF]. split; [apply mdel_nodup; exact Hn|]. rewrite Forall_forall in *. intros q Hq.
  apply mdel_keys in Hq; [|exact path_eqb_spec]. apply HF. tauto.
Qed.
Lemma tidy_set p v f : good p -> tidy f -> tidy (mset path_eqb p v f).
Proof.
  intros Hp Hf. pose proof (tidy_del p f Hf) as [_ HF]. destruct Hf as [Hn _].
  split; [apply mset_nodup; [exact path_eqb_spec|exact Hn]|].
  cbn. constructor; assumption.
Qed.

Lemma appends t l : good t -> forall f, tidy f ->
  let f' := fold_left fs_exec (map (fun b => Append t [b]) l) f in
  tidy f' /\ (forall q, q <> t -> fs_get q f' = fs_get q f) /\
  (forall o, fs_get t f = Some o -> fs_get t f' = Some (o ++ l)).
Proof.
  intros Ht. induction l as [|b l IH]; intros f Hf; cbn [map fold_left].
  - cbn. split; [exact Hf|]. split; [auto|]. intros o H. rewrite app_nil_r. exact H.
  - set (f1 := fs_exec f (Append t [b])).
    assert (Hf1 : tidy f1) by (apply tidy_set; assumption).
    destruct (IH f1 Hf1) as (A & B & C). split; [exact A|]. split.
    + intros q Hq. rewrite (B q Hq). unfold f1. cbn [fs_exec]. rewrite get_set.
      destruct (path_eqb_spec q t); [contradiction|reflexivity].
    + intros o Ho. rewrite (C (o ++ [b])); [rewrite <- app_assoc; reflexivity|].
      unfold f1. cbn [fs_exec]. rewrite get_set, Ho. destruct (path_eqb_spec t t); [reflexivity|contradiction].
Qed.

(** * Representation *)
Definition recorded (rs : list cid) : bytes := json_list (map cid_to_text (once rs)).
Definition frep (past : list pop) (f : fs) : Prop :=
  tidy f /\
  (forall c, wf_cid c -> fs_get (rfile c) f = option_map recorded (recursive past c)) /\
  (forall c, wf_cid c -> recursive past c = None -> is_some (fs_get (dfile c) f) = direct past c) /\
  (forall c, recursive past c <> None -> direct past c = false) /\
  (forall c rs, recursive past c = Some rs -> wf_cid c /\ Forall wf_cid rs).
(** No direct pin file next to a recursive one. *)
Definition unshadowed (past : list pop) (f : fs) : Prop :=
  forall c, wf_cid c -> recursive past c <> None -> fs_get (dfile c) f = None.

Definition fs_accepts (past : list pop) (o : pop) : bool :=
  match o with
  | PinDirect c => negb (is_some (recursive past c))
  | PinRec _ r => negb (broken r)
  | UnpinDirect c => direct past c
  | UnpinRec c _ => is_some (recursive past c) || direct past c
  end.

Lemma frep_nil : frep [] [] /\ unshadowed [] [].
Proof.
  repeat split; try constructor; auto; try discriminate.
Qed.

(** Changing only the files of [c]. *)
Lemma frep_at past past' f f' c (r' : option (list cid)) (d' : bool) : frep past f -> wf_cid c -> tidy f' ->
  (forall x, recursive past' x = if cid_eqb x c then r' else recursive past x) ->
  (forall x, direct past' x = if cid_eqb x c then d' else direct past x) ->
  (forall p, p <> rfile c -> p <> dfile c -> p <> tfile c -> fs_get p f' = fs_get p f) ->
  fs_get (rfile c) f' = option_map recorded r' ->
  (r' = None -> is_some (fs_get (dfile c) f') = d') ->
  (r' <> None -> d' = false) ->
  (forall rs, r' = Some rs -> Forall wf_cid rs) ->
  frep past' f'.
Proof.
  intros (_ & Hr & Hd & Hx & Hw) Hc Ht Er Ed Hf Erc Edc Exc Hwc.
  destruct ext_no_dot as (N1 & N2 & N3).
  assert (Ne : forall e x, wf_cid x -> no_dot e -> cid_eqb x c = false ->
            pfile e x <> rfile c /\ pfile e x <> dfile c /\ pfile e x <> tfile c).
  { intros e x Hwx He E. destruct (cid_eqb_spec x c) as [|Hn]; [discriminate|].
    repeat split; intros Ep; apply pfile_inj in Ep as [_ Ep]; auto. }
  split; [exact Ht|]. split; [|split; [|split]].
  - intros x Hwx. rewrite Er. destruct (cid_eqb x c) eqn:E.
    + destruct (cid_eqb_spec x c) as [->|]; [exact Erc|discriminate].
    + rewrite <- (Hr x Hwx). apply Hf; apply (Ne ext_recursive x); auto.
  - intros x Hwx. rewrite Er, Ed. destruct (cid_eqb x c) eqn:E.
    + destruct (cid_eqb_spec x c) as [->|]; [exact Edc|discriminate].
    + intros Hn. rewrite <- (Hd x Hwx Hn). f_equal. apply Hf; apply (Ne ext_direct x); auto.
  - intros x. rewrite Er, Ed. destruct (cid_eqb x c); [exact Exc|apply Hx].
  - intros x rs. rewrite Er. destruct (cid_eqb_spec x c) as [->|]; [|apply Hw]. intros E. split; [exact Hc|apply Hwc; exact E].
Qed.

Lemma ne_rd c : wf_cid c -> rfile c <> dfile c.
Proof. intros Hc E. apply pfile_inj in E as [E _]; auto; try apply ext_no_dot. discriminate. Qed.
Lemma ne_rt c : wf_cid c -> rfile c <> tfile c.
Proof. intros Hc E. apply pfile_inj in E as [E _]; auto; try apply ext_no_dot. discriminate. Qed.
Lemma ne_dt c : wf_cid c -> dfile c <> tfile c.
Proof. intros Hc E. apply pfile_inj in E as [E _]; auto; try apply ext_no_dot. discriminate. Qed.

Lemma peqb_refl p : path_eqb p p = true.
Proof. destruct (path_eqb_spec p p); congruence. Qed.
Lemma peqb_ne p q : p <> q -> path_eqb p q = false.
Proof. destruct (path_eqb_spec p q); congruence. Qed.

(** Only the temporary file of [c] differs. *)
Lemma frep_tmp past f f' c : frep past f -> wf_cid c -> tidy f' ->
  (forall q, q <> tfile c -> fs_get q f' = fs_get q f) ->
  frep past f' /\ (unshadowed past f -> unshadowed past f').
Proof.
  intros (_ & Hr & Hd & Hx & Hw) Hc Ht Hq.
  assert (Er : forall x, wf_cid x -> fs_get (rfile x) f' = fs_get (rfile x) f).
  { intros x Hwx. apply Hq. intros E. apply pfile_inj in E as [E _]; auto; try apply ext_no_dot. discriminate. }
  assert (Ed : forall x, wf_cid x -> fs_get (dfile x) f' = fs_get (dfile x) f).
  { intros x Hwx. apply Hq. intros E. apply pfile_inj in E as [E _]; auto; try apply ext_no_dot. discriminate. }
  split; [split; [exact Ht|split; [|split; [|split]]]|].
  - intros x Hwx. rewrite Er by exact Hwx. auto.
  - intros x Hwx Hn. rewrite Ed by exact Hwx. auto.
  - exact Hx.
  - exact Hw.
  - intros Hu x Hwx Hn. rewrite Ed by exact Hwx. auto.
Qed.

(** The temporary file after some writes. *)
Definition temp_steps (c : cid) (rs : list cid) : list fstep :=
  OpenTrunc (tfile c) :: map (fun b => Append (tfile c) [b]) (recorded rs).
Lemma temp_written f c rs n : wf_cid c -> tidy f ->
  let f' := fold_left fs_exec (firstn n (temp_steps c rs)) f in
  tidy f' /\ (forall q, q <> tfile c -> fs_get q f' = fs_get q f) /\
  ((length (temp_steps c rs) <= n)%nat -> fs_get (tfile c) f' = Some (recorded rs)).
Proof.
  intros Hc Hf. unfold temp_steps. destruct n as [|n]; cbn [firstn fold_left length].
  - cbn. split; [exact Hf|]. split; [auto|lia].
  - rewrite firstn_map. cbn [fs_exec].
    assert (H1 : tidy (mset path_eqb (tfile c) [] f)) by (apply tidy_set; [apply good_t; exact Hc|exact Hf]).
    destruct (appends (tfile c) (firstn n (recorded rs)) (good_t c Hc) _ H1) as (A & B & C).
    split; [exact A|]. split.
    + intros q Hq. rewrite (B q Hq), get_set, peqb_ne by exact Hq. reflexivity.
    + intros Hl. rewrite map_length in Hl. rewrite firstn_all2 in * by lia.
      rewrite (C []); [reflexivity|]. rewrite get_set, peqb_refl. reflexivity.
Qed.

Lemma rec_exec f c rs : wf_cid c -> tidy f ->
  forall f1, tidy f1 -> (forall q, q <> tfile c -> fs_get q f1 = fs_get q f) ->
  fs_get (tfile c) f1 = Some (recorded rs) ->
  let f2 := fs_exec f1 (Rename (tfile c) (rfile c)) in
  tidy f2 /\ fs_get (rfile c) f2 = Some (recorded rs) /\
  (forall q, q <> tfile c -> q <> rfile c -> fs_get q f2 = fs_get q f).
Proof.
  intros Hc Hf f1 Hf1 Hq Ht. cbn [fs_exec]. rewrite Ht. split; [|split].
  - apply tidy_set; [apply good_r; exact Hc|]. apply tidy_del. exact Hf1.
  - rewrite get_set, peqb_refl. reflexivity.
  - intros q H1 H2. rewrite get_set, get_del, !peqb_ne by assumption. auto.
Qed.

Section Step.
  Variables (past : list pop) (f : fs) (o : pop).
  Hypothesis Hrep : frep past f.
  Hypothesis Hwf : wf_op o.

  Lemma steps_shape :
    match pin_steps f o with
    | Ok s => fs_accepts past o = true
    | Err _ => fs_accepts past o = false
    | Panic => False
    end.
  Proof.
    destruct Hrep as (_ & Hr & Hd & Hx & _). destruct Hwf as [Hc _].
    assert (Er : forall c, wf_cid c -> is_some (fs_get (rfile c) f) = is_some (recursive past c)).
    { intros c H. rewrite Hr by exact H. destruct (recursive past c); reflexivity. }
    destruct o as [c|c r|c|c r]; cbn [pin_steps fs_accepts op_cid] in *.
    - rewrite !pin_file_ok by exact Hc. fold rfile dfile. rewrite Er by exact Hc.
      destruct (is_some (recursive past c)); reflexivity.
    - rewrite !pin_file_ok by exact Hc. destruct (broken r); reflexivity.
    - rewrite !pin_file_ok by exact Hc. fold rfile dfile. rewrite Er by exact Hc.
      destruct (recursive past c) eqn:E; cbn [is_some].
      + apply Hx. congruence.
      + rewrite Hd by assumption. destruct (direct past c); reflexivity.
    - rewrite !pin_file_ok by exact Hc. fold rfile dfile. rewrite Er by exact Hc.
      destruct (recursive past c) eqn:E; cbn [is_some orb]; [reflexivity|].
      rewrite Hd by assumption. destruct (direct past c); reflexivity.
  Qed.

  Notation crashed n := (fs_pin_crash f o n).

  Lemma del_dr c : wf_cid c -> forall p, p = rfile c \/ p = dfile c -> tidy f ->
    tidy (fs_exec f (Unlink p)) /\ (forall q, q <> p -> fs_get q (fs_exec f (Unlink p)) = fs_get q f) /\
    fs_get p (fs_exec f (Unlink p)) = None.
  Proof.
    intros Hc p Hp Ht. cbn [fs_exec]. split; [apply tidy_del; exact Ht|]. split.
    - intros q Hq. rewrite get_del, peqb_ne by exact Hq. reflexivity.
    - rewrite get_del, peqb_refl. reflexivity.
  Qed.

  Lemma crash_rep n :
    (match pin_steps f o with Ok s => (n < length s)%nat | _ => True end /\ frep past (crashed n)) \/
    (fs_accepts past o = true /\ frep (o :: past) (crashed n) /\
     (match pin_steps f o with Ok s => (length s <= n)%nat | _ => False end -> unshadowed past f -> unshadowed (o :: past) (crashed n))).
  Proof.
    pose proof steps_shape as Hs. unfold fs_pin_crash.
    pose proof Hrep as (Ht & Hr & Hd & Hx & Hw). destruct Hwf as [Hc Hi].
    destruct ext_no_dot as (N1 & N2 & N3).
    destruct (pin_steps f o) as [s|e|] eqn:Es; [|left; split; [exact I|exact Hrep]|contradiction].
    destruct n as [|n].
    { left. split; [|exact Hrep]. destruct s as [|x s]; [|cbn; lia]. exfalso.
      destruct o as [c|c r|c|c r]; cbn [pin_steps op_cid] in *; rewrite !pin_file_ok in Es by exact Hc;
        repeat match type of Es with context [if ?b then _ else _] => destruct b; try discriminate end. }
    destruct o as [c|c r|c|c r]; cbn [pin_steps op_cid op_refs fs_accepts] in *; rewrite !pin_file_ok in Es by exact Hc;
      fold rfile dfile tfile in Es.
    - (* PinDirect *)
      destruct (is_some (fs_get (rfile c) f)) eqn:Er; [discriminate|]. injection Es as <-.
      right. split; [exact Hs|].
      assert (Ern : recursive past c = None).
      { rewrite Hr in Er by exact Hc. destruct (recursive past c); [discriminate|reflexivity]. }
      assert (El : fold_left fs_exec (firstn (S n) [OpenTrunc (dfile c)]) f = mset path_eqb (dfile c) [] f).
      { cbn [firstn]. rewrite firstn_nil. reflexivity. }
      rewrite El. clear El. split.
      + apply (frep_at past _ f _ c None true Hrep Hc); try discriminate; try reflexivity; try assumption; try (intros; congruence).
        * apply tidy_set; [apply good_d; exact Hc|exact Ht].
        * intros x. cbn [recursive]. destruct (cid_eqb_spec x c) as [->|]; [exact Ern|reflexivity].
        * intros p H1 H2 H3. rewrite get_set, peqb_ne by exact H2. reflexivity.
        * rewrite get_set, peqb_ne by (apply ne_rd; exact Hc). rewrite Hr, Ern by exact Hc. reflexivity.
        * intros _. rewrite get_set, peqb_refl. reflexivity.
      + intros _ Hu x Hwx Hn. cbn [recursive] in Hn. rewrite get_set. rewrite peqb_ne; [apply Hu; assumption|].
        intros E. apply pfile_inj in E as [_ E]; auto. congruence.
    - (* PinRec *)
      destruct (broken r) eqn:Eb; [discriminate|]. injection Es as <-.
      set (steps := temp_steps c (items r)).
      replace (OpenTrunc (tfile c) :: _) with (steps ++ [Rename (tfile c) (rfile c); Unlink (dfile c)]) by reflexivity.
      rewrite firstn_app, fold_left_app. rewrite app_length. cbn [length].
      destruct (temp_written f c (items r) (S n) Hc Ht) as (A & B & C). fold steps in A, B, C.
      set (f1 := fold_left fs_exec (firstn (S n) steps) f) in *.
      destruct (S n - length steps)%nat as [|k] eqn:Ek.
      + left. split; [lia|]. cbn [firstn fold_left]. apply (frep_tmp past f f1 c Hrep Hc A B).
      + right. split; [reflexivity|].
        destruct (rec_exec f c (items r) Hc Ht f1 A B (C ltac:(lia))) as (A2 & B2 & C2).
        cbn [firstn fold_left]. set (f2 := fs_exec f1 (Rename (tfile c) (rfile c))) in *.
        destruct k as [|k].
        * cbn [firstn fold_left]. split; [|lia].
          apply (frep_at past _ f f2 c (Some (items r)) false Hrep Hc); try discriminate; try reflexivity; try assumption; try (intros; congruence).
          -- intros p H1 H2 H3. apply C2; assumption.
        * cbn [firstn fold_left]. rewrite ?firstn_nil. cbn [fold_left].
          assert (A3 : tidy (fs_exec f2 (Unlink (dfile c)))) by (apply tidy_del; exact A2).
          split.
          -- apply (frep_at past _ f _ c (Some (items r)) false Hrep Hc); try discriminate; try reflexivity; try assumption; try (intros; congruence).
             ++ intros p H1 H2 H3. cbn [fs_exec]. rewrite get_del, peqb_ne by exact H2. apply C2; assumption.
             ++ cbn [fs_exec]. rewrite get_del, peqb_ne by (apply ne_rd; exact Hc). rewrite B2. reflexivity.
          -- intros _ Hu x Hwx Hn. cbn [recursive] in Hn. cbn [fs_exec]. rewrite get_del.
             destruct (path_eqb_spec (dfile x) (dfile c)) as [|Hne]; [reflexivity|].
             destruct (cid_eqb_spec x c) as [->|Hxc]; [congruence|].
             rewrite C2; [apply Hu; assumption| |]; intros E; apply pfile_inj in E as [E _]; auto; discriminate.
    - (* UnpinDirect *)
      destruct (is_some (fs_get (rfile c) f)) eqn:Er; [discriminate|].
      destruct (is_some (fs_get (dfile c) f)) eqn:Ed; [|discriminate]. injection Es as <-.
      right. split; [exact Hs|].
      assert (Ern : recursive past c = None).
      { rewrite Hr in Er by exact Hc. destruct (recursive past c); [discriminate|reflexivity]. }
      assert (El : fold_left fs_exec (firstn (S n) [Unlink (dfile c)]) f = fs_exec f (Unlink (dfile c))).
      { cbn [firstn]. rewrite firstn_nil. reflexivity. }
      rewrite El. clear El. destruct (del_dr c Hc (dfile c) (or_intror eq_refl) Ht) as (A & B & C). split.
      + apply (frep_at past _ f _ c None false Hrep Hc); try discriminate; try reflexivity; try assumption; try (intros; congruence).
        * intros x. cbn [recursive]. destruct (cid_eqb_spec x c) as [->|]; [exact Ern|reflexivity].
        * intros p H1 H2 H3. apply B; assumption.
        * rewrite B by (apply ne_rd; exact Hc). rewrite Hr, Ern by exact Hc. reflexivity.
        * intros _. rewrite C. reflexivity.
      + intros _ Hu x Hwx Hn. cbn [recursive] in Hn. rewrite B; [apply Hu; assumption|].
        intros E. apply pfile_inj in E as [_ E]; auto. congruence.
    - (* UnpinRec *)
      destruct (is_some (fs_get (rfile c) f) || is_some (fs_get (dfile c) f)) eqn:Eo; [|discriminate]. injection Es as <-.
      destruct (del_dr c Hc (dfile c) (or_intror eq_refl) Ht) as (A & B & C).
      cbn [firstn fold_left]. set (f1 := fs_exec f (Unlink (dfile c))) in *.
      destruct n as [|n].
      + cbn [firstn fold_left]. destruct (recursive past c) as [rs|] eqn:E.
        * left. split; [cbn; lia|]. apply (frep_at past _ f f1 c (Some rs) false Hrep Hc); try discriminate; try reflexivity; try assumption; try (intros; congruence).
          -- intros x. destruct (cid_eqb_spec x c) as [->|]; [exact E|reflexivity].
          -- intros x. destruct (cid_eqb_spec x c) as [->|]; [|reflexivity]. apply Hx. congruence.
          -- intros p H1 H2 H3. apply B; assumption.
          -- rewrite B by (apply ne_rd; exact Hc). rewrite Hr, E by exact Hc. reflexivity.
          -- intros rs' [= <-]. apply (Hw c rs E).
        * right. split; [exact Hs|]. split; [|cbn; lia].
          apply (frep_at past _ f f1 c None false Hrep Hc); try discriminate; try reflexivity; try assumption; try (intros; congruence).
          -- intros p H1 H2 H3. apply B; assumption.
          -- rewrite B by (apply ne_rd; exact Hc). rewrite Hr, E by exact Hc. reflexivity.
          -- intros _. rewrite C. reflexivity.
      + cbn [firstn fold_left]. rewrite firstn_nil. cbn [fold_left fs_exec].
        right. split; [exact Hs|]. split.
        * apply (frep_at past _ f _ c None false Hrep Hc); try discriminate; try reflexivity; try assumption; try (intros; congruence).
          -- apply tidy_del. exact A.
          -- intros p H1 H2 H3. rewrite get_del, peqb_ne by exact H1. apply B. exact H2.
          -- rewrite get_del, peqb_refl. reflexivity.
          -- intros _. rewrite get_del. destruct (path_eqb (dfile c) (rfile c)); [reflexivity|]. rewrite C. reflexivity.
        * intros _ Hu x Hwx Hn. cbn [recursive] in Hn. destruct (cid_eqb_spec x c) as [->|Hxc]; [contradiction|].
          rewrite get_del. destruct (path_eqb (dfile x) (rfile c)); [reflexivity|]. rewrite B; [apply Hu; assumption|].
          intros E. apply pfile_inj in E as [_ E]; auto.
  Qed.

  Lemma call_crash s : pin_steps f o = Ok s -> fs_pin_call f o = (crashed (length s), Ok tt).
  Proof. intros E. unfold fs_pin_call, fs_pin_crash. rewrite E, firstn_all. reflexivity. Qed.
End Step.

(** A completed change is never only half there. *)
Lemma call_rep past f o : frep past f -> wf_op o ->
  if fs_accepts past o then
    exists f', fs_pin_call f o = (f', Ok tt) /\ frep (o :: past) f' /\ (unshadowed past f -> unshadowed (o :: past) f')
  else fs_pin_call f o = (f, Err tt).
Proof.
  intros Hrep Hwf. pose proof (steps_shape past f o Hrep Hwf) as Hs.
  destruct (pin_steps f o) as [s|[]|] eqn:Es.
  - rewrite Hs. exists (fs_pin_crash f o (length s)). split; [apply call_crash; exact Es|].
    destruct (crash_rep past f o Hrep Hwf (length s)) as [[H _]|(_ & H1 & H2)]; rewrite Es in *; [lia|]. split; [exact H1|]. apply H2. lia.
  - rewrite Hs. unfold fs_pin_call. rewrite Es. reflexivity.
  - contradiction.
Qed.

(** Failing writes of a recursive pin leave the pins as they were. *)
Lemma rec_fail_rep past f c r n b : frep past f -> wf_cid c ->
  exists f', fs_pin_rec_fail f c r n b = (f', Err tt) /\ frep past f' /\ (unshadowed past f -> unshadowed past f').
Proof.
  intros Hrep Hc. unfold fs_pin_rec_fail. destruct (broken r); [eauto|]. rewrite pin_file_ok by exact Hc.
  eexists. split; [reflexivity|]. fold tfile. pose proof Hrep as (Ht & _).
  destruct (temp_written f c (items r) (S n) Hc Ht) as (A & B & _). unfold temp_steps, recorded in A, B.
  destruct b.
  - apply (frep_tmp past f _ c Hrep Hc).
    + apply tidy_del. exact A.
    + intros q Hq. cbn [fs_exec]. rewrite get_del, peqb_ne by exact Hq. apply B. exact Hq.
  - apply (frep_tmp past f _ c Hrep Hc A B).
Qed.
