From Verif Require Import Base Wire WireProofs Cid CidProofs Text TextProofs FMap BlockSpec FsPaths FsPathsProofs FsBlocks.

Notation pget_mset := (mget_mset path_eqb path_eqb_spec).
Notation pget_mdel := (mget_mdel path_eqb path_eqb_spec).

(** What the file of a key holds after the events [past] (latest first): the exact behaviour,
    including the empty file an interrupted put leaves. *)
Fixpoint content (past : list event) (k : cid) : option bytes :=
  match past with
  | [] => None
  | Call (Put b) :: p =>
      match content p k with
      | Some x => Some x
      | None => if cid_eqb (to_v1 (b_cid b)) k then Some (b_data b) else None
      end
  | Call (Remove c) :: p => if cid_eqb (to_v1 c) k then None else content p k
  | CrashInPut b cs n :: p =>
      match content p k with
      | Some x => Some x
      | None =>
          if cid_eqb (to_v1 (b_cid b)) k then
            if (n =? 0)%nat then None
            else if (n <=? length cs + 2)%nat then Some [] else Some (b_data b)
          else None
      end
  | _ :: p => content p k
  end.

Definition wf_op (o : bop) : Prop :=
  match o with
  | Put b => wf_cid (b_cid b) | Get c | Contains c | Remove c => wf_cid c | ListAll => True
  end.
Definition wf_event (e : event) : Prop :=
  match e with
  | Call o => wf_op o
  | Reopen => True
  | CrashInPut b cs _ | FailInPut b cs _ => wf_cid (b_cid b) /\ concat cs = b_data b
  | FailCreate b => wf_cid (b_cid b)
  end.

Definition known_path (p : path) : Prop :=
  exists c, wf_cid c /\ (p = block_file c \/ p = temp_of (block_file c)).
Definition names_ok (f : fs) : Prop := NoDup (mkeys f) /\ forall p, In p (mkeys f) -> known_path p.

Definition step_path_ok (s : fstep) : Prop :=
  match s with
  | CreateNew p | OpenTrunc p | Append p _ | Unlink p => known_path p
  | Rename a b => known_path a /\ known_path b
  end.

Lemma mset_names p v (f : fs) : names_ok f -> known_path p -> names_ok (mset path_eqb p v f).
Proof.
  intros [H1 H2] Hp. split; [apply mset_nodup; [exact path_eqb_spec|exact H1]|].
  intros q [<-|Hq]; [exact Hp|]. apply (mdel_keys path_eqb path_eqb_spec) in Hq. apply H2. tauto.
Qed.
Lemma mdel_names p (f : fs) : names_ok f -> names_ok (mdel path_eqb p f).
Proof.
  intros [H1 H2]. split; [apply mdel_nodup; exact H1|].
  intros q Hq. apply (mdel_keys path_eqb path_eqb_spec) in Hq. apply H2. tauto.
Qed.
Lemma exec_names f s : names_ok f -> step_path_ok s -> names_ok (fs_exec f s).
Proof.
  intros Hf Hs. destruct s; cbn [fs_exec]; cbn in Hs; try (apply mset_names; assumption).
  - destruct (fs_get from f); [|exact Hf]. apply mset_names; [apply mdel_names; exact Hf|tauto].
  - apply mdel_names; exact Hf.
Qed.
Lemma execs_names ss : forall f, names_ok f -> Forall step_path_ok ss -> names_ok (fold_left fs_exec ss f).
Proof.
  induction ss as [|s ss IH]; intros f Hf Hs; [exact Hf|]. inversion Hs; subst. cbn [fold_left].
  apply IH; [apply exec_names; assumption|assumption].
Qed.

Lemma firstn_forall {A} (P : A -> Prop) n l : Forall P l -> Forall P (firstn n l).
Proof. rewrite !Forall_forall. intros H x Hx. apply H. rewrite <- (firstn_skipn n l). apply in_or_app. auto. Qed.

Lemma put_steps_ok c chunks : wf_cid c -> Forall step_path_ok (put_steps (block_file c) chunks).
Proof.
  intros Hw. assert (K1 : known_path (block_file c)) by (exists c; auto).
  assert (K2 : known_path (temp_of (block_file c))) by (exists c; auto).
  unfold put_steps. constructor; [exact K1|]. constructor; [exact K2|]. apply Forall_app. split.
  - rewrite Forall_map. apply Forall_forall. intros x _. exact K2.
  - constructor; [cbn; auto|constructor].
Qed.

(** * Temporary files never share a name with blocks *)
Lemma temp_name c : wf_cid c -> temp_of (block_file c) = (shard_of (cid_to_text (to_v1 c)), cid_to_text (to_v1 c) ++ 46%N :: ext_tmp).
Proof.
  intros Hw. unfold temp_of, set_extension, block_file. cbn [fst snd].
  destruct (stem_app (cid_to_text (to_v1 c)) ext_data) as [Es _].
  { apply length_nil, text_length, Hw. } { apply alnum_dot, cid_text_alnum. }
  { unfold ext_data. repeat constructor; lia. }
  rewrite Es. reflexivity.
Qed.
Lemma temp_ext c : wf_cid c -> extension (snd (temp_of (block_file c))) = Some ext_tmp.
Proof.
  intros Hw. rewrite temp_name by exact Hw. cbn [snd].
  apply stem_app; [apply length_nil, text_length, Hw|apply alnum_dot, cid_text_alnum|].
  unfold ext_tmp. repeat constructor; lia.
Qed.
Lemma block_ext c : wf_cid c -> extension (snd (block_file c)) = Some ext_data.
Proof.
  intros Hw. unfold block_file. cbn [snd].
  apply stem_app; [apply length_nil, text_length, Hw|apply alnum_dot, cid_text_alnum|].
  unfold ext_data. repeat constructor; lia.
Qed.
Lemma temp_neq c c' : wf_cid c -> wf_cid c' -> block_file c <> temp_of (block_file c').
Proof.
  intros H1 H2 E. apply (f_equal (fun p => extension (snd p))) in E.
  rewrite block_ext, temp_ext in E by assumption. discriminate.
Qed.

Lemma block_file_eqb c c' : wf_cid c -> wf_cid c' ->
  path_eqb (block_file c) (block_file c') = cid_eqb (to_v1 c') (to_v1 c).
Proof.
  intros H1 H2. destruct (path_eqb_spec (block_file c) (block_file c')) as [E|E].
  - apply block_file_inj in E; [|assumption..]. destruct (cid_eqb_spec (to_v1 c') (to_v1 c)); congruence.
  - destruct (cid_eqb_spec (to_v1 c') (to_v1 c)) as [E'|]; [|reflexivity]. exfalso. apply E.
    unfold block_file. rewrite E'. reflexivity.
Qed.

Lemma get_set q p v f : fs_get q (mset path_eqb p v f) = if path_eqb q p then Some v else fs_get q f.
Proof. apply pget_mset. Qed.

(** * The steps of a put, seen through the block files *)
Lemma appends_get t l : forall f q,
  fs_get q (fold_left fs_exec (map (Append t) l) f) =
  match fs_get t f with
  | Some o => if path_eqb q t then Some (o ++ concat l) else fs_get q f
  | None => if path_eqb q t then (if l then None else Some (concat l)) else fs_get q f
  end.
Proof.
  induction l as [|x l IH]; intros f q; cbn [map fold_left].
  - cbn [concat]. destruct (path_eqb_spec q t) as [->|].
    + destruct (fs_get t f) eqn:E; [rewrite app_nil_r|]; reflexivity.
    + destruct (fs_get t f); reflexivity.
  - rewrite IH. cbn [fs_exec]. rewrite !get_set.
    rewrite (eqb_same path_eqb path_eqb_spec). cbn [concat].
    destruct (path_eqb_spec q t) as [->|Hn].
    + destruct (fs_get t f) as [o|]; [rewrite app_assoc|]; reflexivity.
    + destruct (fs_get t f); reflexivity.
Qed.

Lemma put_prefix c chunks n f c' : wf_cid c -> wf_cid c' -> fs_get (block_file c) f = None ->
  (1 <= n <= length chunks + 2)%nat ->
  fs_get (block_file c') (fold_left fs_exec (firstn n (put_steps (block_file c) chunks)) f)
  = if cid_eqb (to_v1 c) (to_v1 c') then Some [] else fs_get (block_file c') f.
Proof.
  intros Hw Hw' Hn [Hn1 Hn2]. unfold put_steps.
  destruct n as [|[|n]]; [lia| |].
  - cbn [firstn app fold_left fs_exec]. unfold fs_get. rewrite pget_mset, block_file_eqb by assumption. reflexivity.
  - cbn [firstn app]. rewrite firstn_app, map_length. replace (n - length chunks)%nat with 0%nat by lia.
    cbn [firstn]. rewrite app_nil_r. cbn [fold_left].
    rewrite firstn_map, appends_get. cbn [fs_exec]. rewrite !get_set.
    rewrite (eqb_same path_eqb path_eqb_spec).
    destruct (path_eqb_spec (block_file c') (temp_of (block_file c))) as [E|_]; [exfalso; apply temp_neq in E; auto|].
    rewrite block_file_eqb by assumption. reflexivity.
Qed.

Lemma put_all c chunks f c' : wf_cid c -> wf_cid c' ->
  fs_get (block_file c') (fold_left fs_exec (put_steps (block_file c) chunks) f)
  = if cid_eqb (to_v1 c) (to_v1 c') then Some (concat chunks) else fs_get (block_file c') f.
Proof.
  intros Hw Hw'. unfold put_steps. cbn [app fold_left]. rewrite fold_left_app. cbn [fold_left].
  set (f1 := fold_left _ _ _).
  assert (G : forall q, fs_get q f1 = if path_eqb q (temp_of (block_file c)) then Some (concat chunks)
     else if path_eqb q (block_file c) then Some [] else fs_get q f).
  { intros q. unfold f1. rewrite appends_get. cbn [fs_exec]. rewrite !get_set.
    rewrite (eqb_same path_eqb path_eqb_spec). cbn [app]. destruct (path_eqb q _); reflexivity. }
  cbn [fs_exec]. rewrite G, (eqb_same path_eqb path_eqb_spec). unfold fs_get at 1.
  rewrite pget_mset, block_file_eqb by assumption. destruct (cid_eqb_spec (to_v1 c) (to_v1 c')); [reflexivity|].
  rewrite pget_mdel. destruct (path_eqb_spec (block_file c') (temp_of (block_file c))) as [E|_]; [exfalso; apply temp_neq in E; auto|].
  fold (fs_get (block_file c') f1). rewrite G.
  destruct (path_eqb_spec (block_file c') (temp_of (block_file c))) as [E|_]; [exfalso; apply temp_neq in E; auto|].
  rewrite block_file_eqb by assumption. destruct (cid_eqb_spec (to_v1 c) (to_v1 c')); [contradiction|reflexivity].
Qed.

Lemma put_steps_length p chunks : length (put_steps p chunks) = (length chunks + 3)%nat.
Proof. unfold put_steps. cbn. rewrite app_length, map_length. cbn. lia. Qed.

Lemma removelast_put p chunks : removelast (put_steps p chunks) = firstn (length chunks + 2) (put_steps p chunks).
Proof.
  assert (A : forall {A} (l : list A), removelast l = firstn (length l - 1) l).
  { intros A l. rewrite (removelast_firstn_len l). f_equal. lia. }
  rewrite A, put_steps_length. f_equal. lia.
Qed.

(** * The invariant *)
Definition fs_ok (f : fs) (past : list event) : Prop :=
  names_ok f /\ forall c, wf_cid c -> fs_get (block_file c) f = content past (to_v1 c).

Section S.
Variable ob : N -> bytes -> option bytes.

Lemma remove_view c c' f : wf_cid c -> wf_cid c' ->
  fs_get (block_file c') (fs_exec f (Unlink (block_file c)))
  = if cid_eqb (to_v1 c) (to_v1 c') then None else fs_get (block_file c') f.
Proof. intros. cbn [fs_exec]. unfold fs_get. rewrite pget_mdel, block_file_eqb by assumption. reflexivity. Qed.

Lemma put_ok b chunks f h : wf_cid (b_cid b) -> concat chunks = b_data b -> fs_ok f h ->
  fs_ok (fst (fs_put b chunks f)) (Call (Put b) :: h).
Proof.
  intros Hw Hc [H1 H2]. unfold fs_put. rewrite block_path_ok by exact Hw.
  destruct (fs_get (block_file (b_cid b)) f) eqn:E; cbn [fst].
  - split; [exact H1|]. intros c Hc'. cbn [content]. rewrite <- H2 by exact Hc'.
    destruct (fs_get (block_file c) f) eqn:E'; [reflexivity|].
    destruct (cid_eqb_spec (to_v1 (b_cid b)) (to_v1 c)) as [E''|]; [|reflexivity].
    rewrite H2, E'', <- H2 in E by assumption. congruence.
  - split; [apply execs_names; [exact H1|apply put_steps_ok; exact Hw]|].
    intros c Hc'. rewrite put_all by assumption. cbn [content]. rewrite <- H2, Hc by exact Hc'.
    destruct (cid_eqb_spec (to_v1 (b_cid b)) (to_v1 c)) as [E''|]; [|destruct (fs_get (block_file c) f); reflexivity].
    rewrite (H2 _ Hw), E'', <- H2 in E by assumption. rewrite E. reflexivity.
Qed.

Lemma event_ok f h e : wf_event e -> fs_ok f h -> fs_ok (fst (fs_event ob f e)) (e :: h).
Proof.
  intros Hw Hf. pose proof Hf as [H1 H2].
  destruct e as [[b|c|c|c|]| |b cs n|b cs n|b]; cbn [fs_event fs_call fst]; cbn in Hw.
  - apply put_ok; auto. cbn. apply app_nil_r.
  - exact Hf.
  - exact Hf.
  - unfold fs_remove. rewrite block_path_ok by exact Hw.
    destruct (fs_get (block_file c) f) eqn:E; cbn [fst].
    + split; [apply mdel_names; exact H1|]. intros c' Hc'. rewrite remove_view by assumption. cbn [content].
      rewrite <- H2 by exact Hc'. reflexivity.
    + split; [exact H1|]. intros c' Hc'. cbn [content]. rewrite <- H2 by exact Hc'.
      destruct (cid_eqb_spec (to_v1 c) (to_v1 c')) as [E''|]; [|reflexivity].
      rewrite H2, E'', <- H2 in E by assumption. exact E.
  - exact Hf.
  - exact Hf.
  - destruct Hw as [Hw Hc]. unfold fs_put_crash. rewrite block_path_ok by exact Hw.
    destruct (fs_get (block_file (b_cid b)) f) eqn:E; cbn [fst].
    + split; [exact H1|]. intros c Hc'. cbn [content]. rewrite <- H2 by exact Hc'.
      destruct (fs_get (block_file c) f) eqn:E'; [reflexivity|].
      destruct (cid_eqb_spec (to_v1 (b_cid b)) (to_v1 c)) as [E''|]; [|reflexivity].
      rewrite H2, E'', <- H2 in E by assumption. congruence.
    + split; [apply execs_names; [exact H1|apply firstn_forall, put_steps_ok; exact Hw]|].
      intros c Hc'. cbn [content]. rewrite <- H2 by exact Hc'.
      assert (E0 : to_v1 (b_cid b) = to_v1 c -> fs_get (block_file c) f = None).
      { intros E''. rewrite H2, E'', <- H2 in E by assumption. exact E. }
      destruct (Nat.eqb_spec n 0) as [->|Hn0].
      { cbn [firstn fold_left]. destruct (fs_get (block_file c) f); [reflexivity|]. destruct (cid_eqb _ _); reflexivity. }
      destruct (Nat.leb_spec n (length cs + 2)).
      * rewrite put_prefix by (assumption || lia).
        destruct (cid_eqb_spec (to_v1 (b_cid b)) (to_v1 c)) as [E''|].
        -- rewrite (E0 E''). reflexivity.
        -- destruct (fs_get (block_file c) f); reflexivity.
      * rewrite firstn_all2 by (rewrite put_steps_length; lia). rewrite put_all by assumption. rewrite Hc.
        destruct (cid_eqb_spec (to_v1 (b_cid b)) (to_v1 c)) as [E''|].
        -- rewrite (E0 E''). reflexivity.
        -- destruct (fs_get (block_file c) f); reflexivity.
  - destruct Hw as [Hw Hc]. unfold fs_put_fail. rewrite block_path_ok by exact Hw.
    destruct (fs_get (block_file (b_cid b)) f) eqn:E; cbn [fst]; [exact Hf|].
    rewrite removelast_put, firstn_firstn.
    split; [apply exec_names; [apply execs_names; [exact H1|apply firstn_forall, put_steps_ok; exact Hw]|cbn; exists (b_cid b); auto]|].
    intros c Hc'. rewrite remove_view, put_prefix by (assumption || lia).
    cbn [content]. rewrite <- H2 by exact Hc'.
    destruct (cid_eqb_spec (to_v1 (b_cid b)) (to_v1 c)) as [E''|]; [|reflexivity].
    rewrite H2, E'', <- H2 in E by assumption. congruence.
  - unfold fs_put_no_create. rewrite block_path_ok by exact Hw. exact Hf.
Qed.

Lemma fs_run_snoc h e : fs_run ob (h ++ [e]) = fst (fs_event ob (fs_run ob h) e).
Proof. unfold fs_run. rewrite fold_left_app. reflexivity. Qed.

Lemma fs_run_ok h : Forall wf_event h -> fs_ok (fs_run ob h) (rev h).
Proof.
  induction h as [|e h IH] using rev_ind; intros Hw.
  - split; [split; [constructor|intros p []]|reflexivity].
  - apply Forall_app in Hw as [Hw He]. inversion He; subst. rewrite fs_run_snoc, rev_app_distr.
    apply event_ok; auto.
Qed.

Lemma content_key h k x : Forall wf_event h -> content h k = Some x -> exists c, wf_cid c /\ k = to_v1 c.
Proof.
  induction 1 as [|e h He HF IH]; cbn [content]; [discriminate|].
  destruct e as [[b|c|c|c|]| |b cs n|b cs n|b]; auto; cbn in He.
  - destruct (content h k); [auto|]. destruct (cid_eqb_spec (to_v1 (b_cid b)) k) as [E|]; [|discriminate].
    intros _. eauto.
  - destruct (cid_eqb (to_v1 c) k); [discriminate|auto].
  - destruct (content h k); [auto|]. destruct (cid_eqb_spec (to_v1 (b_cid b)) k) as [E|]; [|discriminate].
    intros _. exists (b_cid b). split; [tauto|congruence].
Qed.

Lemma list_names_spec names :
  NoDup names -> (forall p, In p names -> known_path p) ->
  NoDup (fs_list_names ob names) /\
  forall c, In c (fs_list_names ob names) <-> exists c0, wf_cid c0 /\ to_v1 c0 = c /\ In (block_file c0) names.
Proof.
  induction names as [|p r IH]; intros Hn Hk; cbn [fs_list_names].
  - split; [constructor|]. intros c. split; [intros []|intros (c0 & _ & _ & [])].
  - inversion Hn as [|? ? Hp Hr]; subst. destruct (IH Hr (fun q Hq => Hk q (or_intror Hq))) as [I1 I2].
    destruct (Hk p (or_introl eq_refl)) as (c0 & Hw & [->| ->]).
    + rewrite listed_block_file by exact Hw. split.
      * constructor; [|exact I1]. intros Hi. apply I2 in Hi as (c1 & Hw1 & E & Hi). apply Hp.
        unfold block_file in *. rewrite E in Hi. exact Hi.
      * intros c. cbn [In]. rewrite I2. split.
        -- intros [<-|(c1 & Hw1 & E & Hi)]; [exists c0; auto|exists c1; auto].
        -- intros (c1 & Hw1 & E & [Hi|Hi]); [left|right; eauto].
           apply block_file_inj in Hi; [congruence|assumption..].
    + assert (L : listed_block ob (snd (temp_of (block_file c0))) = None).
      { unfold listed_block. rewrite temp_ext by exact Hw. reflexivity. }
      rewrite L. split; [exact I1|]. intros c. rewrite I2. split.
      * intros (c1 & Hw1 & E & Hi). exists c1. cbn. auto.
      * intros (c1 & Hw1 & E & [Hi|Hi]); [|eauto]. exfalso. symmetry in Hi. exact (temp_neq _ _ Hw1 Hw Hi).
Qed.

Lemma fs_list_ok f h : Forall wf_event h -> fs_ok f h ->
  exists l, fs_list ob f = Answer (RList l) /\ NoDup l /\ forall c, In c l <-> content h c <> None.
Proof.
  intros Hh [[H1 H2] H3]. destruct (list_names_spec _ H1 H2) as [L1 L2].
  eexists. split; [reflexivity|]. split; [exact L1|]. intros c. rewrite L2. split.
  - intros (c0 & Hw & <- & Hi). apply (in_mkeys path_eqb path_eqb_spec) in Hi as [v Hi].
    fold (fs_get (block_file c0) f) in Hi. rewrite H3 in Hi by exact Hw. congruence.
  - intros Hc. destruct (content h c) as [x|] eqn:E; [|congruence].
    destruct (content_key _ _ _ Hh E) as (c0 & Hw & ->). exists c0. split; [exact Hw|]. split; [reflexivity|].
    apply (in_mkeys path_eqb path_eqb_spec). exists x. fold (fs_get (block_file c0) f). rewrite H3 by exact Hw. exact E.
Qed.
End S.
