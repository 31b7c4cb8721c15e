(** Lemmas about building the blocks of a tree. *)
From Coq Require Import Permutation.
From Verif Require Import Base Wire WireProofs Cid CidProofs Pb PbProofs FileVisit BTree FMap IpfsPath PathSpec IpfsPathProofs
  TreeBuilder TreeSpec TreeBuilderProofs TreeIter TreeIterSpec.
Local Open Scope N_scope.

(** * Rendering *)
Definition nl_of (e : bytes * (cid * N)) : named_leaf := mk_named (fst e) (fst (snd e)) (snd (snd e)).

Lemma wcid_ok c : wf_cid c -> wcid_write c = cid_to_bytes c /\ wcid_size c = blen (cid_to_bytes c).
Proof.
  destruct c as [d|k m]; cbn [wf_cid]; intros H.
  - destruct H as [Hl _]. unfold wcid_write, wcid_size. cbn [app cid_hash].
    assert (E : mh_to_bytes {| mh_code := sha2_256; mh_digest := d |} = 18 :: 32 :: d).
    { unfold mh_to_bytes. cbn [mh_code mh_digest]. unfold blen. rewrite Hl. reflexivity. }
    rewrite E. auto.
  - destruct H as (Hk & _). unfold wcid_write, wcid_size. cbn [cid_hash cid_to_bytes].
    change (write_varint 1) with [1]. cbn [app]. split; [reflexivity|].
    rewrite blen_cons, !blen_app. rewrite (blen_write_varint k) by (apply codec_known_small; assumption). lia.
Qed.

Lemma nleaf_ok e : wf_cid (fst (snd e)) ->
  nleaf_write (nl_of e) = pblink_write (dir_link e) /\ nleaf_size (nl_of e) = pblink_size (dir_link e).
Proof.
  intros H. destruct (wcid_ok _ H) as [E1 E2]. destruct e as [n [c s]]. cbn [fst snd] in *. unfold nl_of, dir_link.
  cbn [fst snd]. unfold nleaf_write, nleaf_size, pblink_write, pblink_size. cbn [nl_name nl_cid nl_size l_hash l_name l_tsize opt_write opt_size].
  rewrite E1, E2. split; [reflexivity|lia].
Qed.

Lemma custom_ok es : Forall (fun e => wf_cid (fst (snd e))) es ->
  custom_write (map nl_of es) = dir_block es /\
  custom_size (map nl_of es) = flat_size (mk_flat (map dir_link es) directory_data).
Proof.
  intros H. unfold custom_write, custom_size, dir_block, flat_write, flat_size. cbn [f_links f_data]. split.
  - f_equal. induction H as [|e es He _ IH]; [reflexivity|]. cbn [map concat]. destruct (nleaf_ok e He) as [-> ->]. rewrite IH. reflexivity.
  - enough (sumN (map (fun l => 1 + sizeof_len (nleaf_size l)) (map nl_of es))
            = sumN (map (fun l => 1 + sizeof_len (pblink_size l)) (map dir_link es))) by (unfold directory_data in *; lia).
    induction H as [|e es He _ IH]; [reflexivity|]. cbn [map sumN]. destruct (nleaf_ok e He) as [_ ->]. lia.
Qed.

Lemma pblink_len l : pblink_size l < u64_max1 -> opt_all (fun t => t < u64_max1) (l_tsize l) -> blen (pblink_write l) = pblink_size l.
Proof.
  intros H Ht. unfold pblink_write. unfold pblink_size in *. destruct l as [[h|] [n|] [t|]];
    cbn [l_hash l_name l_tsize opt_all opt_size opt_write] in *; unfold sizeof_len in *;
    rewrite ?blen_app, ?blen_w_bytes, ?blen_w_uint by lia; unfold sizeof_len; change (blen (@nil N)) with 0; lia.
Qed.

Lemma blen_w_msg_ge tag size body : blen body <= blen (w_msg tag size body).
Proof. unfold w_msg. rewrite !blen_app. lia. Qed.

Lemma pblink_size_bound e : blen (fst e) < u64_max1 -> blen (cid_to_bytes (fst (snd e))) < u64_max1 -> snd (snd e) < u64_max1 ->
  blen (pblink_write (dir_link e)) = pblink_size (dir_link e).
Proof.
  intros H1 H2 H3. destruct e as [n [c s]]. cbn [fst snd] in *. unfold pblink_write, pblink_size, dir_link.
  cbn [fst snd l_hash l_name l_tsize opt_write opt_size]. rewrite !blen_app, !blen_w_bytes, blen_w_uint by lia. lia.
Qed.

Lemma pblink_parts_le e : blen (fst e) <= blen (pblink_write (dir_link e)) /\ blen (cid_to_bytes (fst (snd e))) <= blen (pblink_write (dir_link e)).
Proof.
  destruct e as [n [c s]]. unfold pblink_write, dir_link. cbn [fst snd l_hash l_name l_tsize opt_write].
  rewrite !blen_app. unfold w_bytes. rewrite !blen_app. lia.
Qed.

Lemma dir_block_len es : blen (dir_block es) < u64_max1 -> Forall (fun e => snd (snd e) < u64_max1) es ->
  blen (dir_block es) = flat_size (mk_flat (map dir_link es) directory_data).
Proof.
  unfold dir_block, flat_write, flat_size. cbn [f_links f_data]. fold directory_data. intros Hb Hs. rewrite blen_app in *.
  assert (E2 : blen (w_msg 10 (unixfs_size directory_data) (unixfs_write directory_data)) = 1 + sizeof_len (unixfs_size directory_data)) by reflexivity.
  rewrite E2 in *. f_equal.
  assert (Hb' : blen (concat (map (fun l => w_msg 18 (pblink_size l) (pblink_write l)) (map dir_link es))) < u64_max1) by lia.
  clear Hb E2. induction Hs as [|e es He _ IH]; [reflexivity|]. cbn [map concat sumN] in *. rewrite blen_app in *.
  rewrite IH by lia. f_equal.
  pose proof (blen_w_msg_ge 18 (pblink_size (dir_link e)) (pblink_write (dir_link e))) as Hge.
  assert (Hp : blen (pblink_write (dir_link e)) = pblink_size (dir_link e)).
  { cbn beta in He. pose proof (pblink_parts_le e) as [? ?]. apply pblink_size_bound; [eapply N.le_lt_trans; [exact H|]; lia|eapply N.le_lt_trans; [exact H0|]; lia|exact He]. }
  apply blen_w_msg; [lia|lia|exact Hp].
Qed.

Lemma unwrap_all_some l : unwrap_all (map Some l) = Some l.
Proof. induction l as [|x l IH]; [reflexivity|]. cbn. rewrite IH. reflexivity. Qed.

Lemma sum_u64_ok l : forall acc, acc + sumN l < u64_max1 -> sum_u64 acc l = Some (acc + sumN l).
Proof.
  induction l as [|x l IH]; intros acc H; cbn [sum_u64 sumN] in *; [f_equal; lia|].
  destruct (N.ltb_spec (acc + x) u64_max1); [|lia]. rewrite IH by lia. f_equal. lia.
Qed.
Lemma sum_u64_none l : forall acc, acc < u64_max1 -> u64_max1 <= acc + sumN l -> sum_u64 acc l = None.
Proof.
  induction l as [|x l IH]; intros acc Ha H; cbn [sum_u64 sumN] in *; [lia|].
  destruct (N.ltb_spec (acc + x) u64_max1); [|reflexivity]. apply IH; lia.
Qed.
Lemma sumN_in l x : In x l -> x <= sumN l.
Proof. induction l as [|y l IH]; [intros []|]. cbn [sumN]. intros [->|H]; [lia|]. specialize (IH H). lia. Qed.

Section Iter.
Variable sha : bytes -> bytes.

Lemma render_ok es buffer limit : Forall (fun e => wf_cid (fst (snd e))) es -> dir_total es < u64_max1 ->
  render_directory sha (map Some (map nl_of es)) buffer limit =
  if match limit with Some m => m <? blen (dir_block es) | None => false end
  then (Err (TooLargeBlock (blen (dir_block es))), buffer)
  else (Ok (dir_cid sha es, dir_total es), dir_block es).
Proof.
  intros Hw Ht. unfold render_directory. rewrite unwrap_all_some. destruct (custom_ok es Hw) as [-> ->].
  unfold dir_total in *.
  assert (Hs : Forall (fun e : bytes * (cid * N) => snd (snd e) < u64_max1) es).
  { apply Forall_forall. intros e He. pose proof (sumN_in (map (fun e => snd (snd e)) es) (snd (snd e)) (in_map (fun e : bytes * (cid * N) => snd (snd e)) es e He)). lia. }
  rewrite <- dir_block_len by (try assumption; lia).
  destruct (match limit with Some m => m <? blen (dir_block es) | None => false end); [reflexivity|].
  set (b := dir_block es) in *. assert (Hn : N.to_nat (blen b) = length b) by (unfold blen; lia). rewrite Hn.
  set (buf := buffer ++ repeat 0 (length b - length buffer)).
  assert (Hl : (length b <= length buf)%nat) by (unfold buf; rewrite app_length, repeat_length; lia).
  destruct (Nat.ltb_spec (length buf) (length b)); [lia|].
  rewrite firstn_app, Nat.sub_diag, firstn_O, app_nil_r, firstn_all.
  replace (map nl_size (map nl_of es)) with (map (fun e : bytes * (cid * N) => snd (snd e)) es) by (rewrite map_map; reflexivity).
  rewrite sum_u64_ok by lia. cbn [N.add]. destruct (N.ltb_spec (blen b + sumN (map (fun e => snd (snd e)) es)) u64_max1); [|lia].
  reflexivity.
Qed.

(** * The path *)
Definition good (P : list bytes) : Prop :=
  Forall plain P /\ match P with [] | [_] => True | _ => Forall (fun x => x <> []) P end.

Lemma good_parent P x : good (P ++ [x]) -> good P.
Proof.
  intros [H1 H2]. apply Forall_app in H1 as [H1 _]. split; [exact H1|].
  destruct P as [|a [|b P]]; auto. cbn [app] in H2. inversion H2; subst. inversion H4; subst. constructor; [assumption|].
  constructor; [assumption|]. apply Forall_app in H6. tauto.
Qed.
Lemma join_snoc P x : P <> [] -> join (P ++ [x]) = join P ++ 47 :: x.
Proof.
  induction P as [|a P IH]; intros H; [congruence|]. destruct P as [|b P]; [reflexivity|].
  change ((a :: b :: P) ++ [x]) with (a :: ((b :: P) ++ [x])).
  assert (E : forall l, l <> [] -> join (a :: l) = a ++ 47 :: join l) by (intros [|? ?] Hl; [congruence|reflexivity]).
  rewrite !E by (try discriminate; intros X; apply app_eq_nil in X; destruct X; discriminate).
  rewrite IH by discriminate. rewrite <- app_assoc. reflexivity.
Qed.
Lemma last_slash_plain b : plain b -> last_slash b = None.
Proof.
  induction b as [|c b IH]; intros H; [reflexivity|]. cbn. rewrite IH by (intros X; apply H; right; exact X).
  destruct (N.eqb_spec c 47) as [->|]; [exfalso; apply H; left; reflexivity|reflexivity].
Qed.
Lemma last_slash_app a b : plain b -> last_slash (a ++ 47 :: b) = Some (length a).
Proof.
  intros H. induction a as [|c a IH]; cbn; [rewrite last_slash_plain by assumption; reflexivity|]. rewrite IH. reflexivity.
Qed.

Lemma join_nil P : good P -> P <> [] -> P <> [[]] -> join P <> [].
Proof.
  intros [_ H] Hn Hn1. destruct P as [|a [|b P]]; [congruence|cbn; intros ->; apply Hn1; reflexivity|]. inversion H; subst. destruct a; [congruence|discriminate].
Qed.

(** Moving to a sibling of something on the current path, or to one of its children. *)
Lemma pop_ok : forall P T x d, good P -> good (T ++ [x]) -> length T = d -> (1 <= d)%nat -> (d <= length P)%nat -> firstn d P = T ->
  exists f : bool, pop_segments (join P) (length P) (Some x) (S d) = Some (if f then join (T ++ [x]) else join T, if f then S d else d, f).
Proof.
  intros P. induction P as [|y P IH] using rev_ind; intros T x d Hg Ht Hl Hd Hle Hf; [cbn in Hle; lia|].
  rewrite app_length in *. cbn [length] in *. rewrite Nat.add_1_r in *. cbn [pop_segments].
  destruct (Nat.leb_spec (S d) (S (length P))) as [Hs|Hs].
  - assert (HP : P <> []) by (intros ->; cbn in Hs; lia).
    rewrite join_snoc by assumption. assert (Hy : plain y) by (destruct Hg as [Hg _]; apply Forall_app in Hg as [_ Hg]; inversion Hg; assumption).
    rewrite last_slash_app by assumption.
    assert (Esk : skipn (S (length (join P))) (join P ++ 47 :: y) = y).
    { rewrite skipn_app. replace (S (length (join P)) - length (join P))%nat with 1%nat by lia. rewrite skipn_all2 by lia. reflexivity. }
    rewrite Esk. assert (Efi : firstn (length (join P)) (join P ++ 47 :: y) = join P) by (rewrite firstn_app, Nat.sub_diag, firstn_all, app_nil_r; reflexivity).
    rewrite Efi. assert (Hf' : firstn d P = T) by (rewrite firstn_app in Hf; replace (d - length P)%nat with 0%nat in Hf by lia; cbn in Hf; rewrite app_nil_r in Hf; exact Hf).
    destruct (Nat.eqb_spec (S (length P)) (S d)) as [E|E]; cbn [andb].
    + destruct (beq_spec y x) as [->|Hne].
      * exists true. rewrite <- join_snoc by assumption. assert (HT : T = P) by (rewrite <- Hf'; apply firstn_all2; lia). rewrite HT. do 3 f_equal. lia.
      * exists false. assert (HT : T = P) by (rewrite <- Hf'; apply firstn_all2; lia). rewrite HT in *.
        destruct (length P) as [|n] eqn:En; [lia|]. cbn [pop_segments]. destruct (Nat.leb_spec (S d) (S n)); [lia|]. do 3 f_equal. lia.
    + apply IH; auto; try lia. apply good_parent in Hg. exact Hg.
  - exists false. assert (HT : T = P ++ [y]) by (rewrite <- Hf; apply firstn_all2; rewrite app_length; cbn; lia). rewrite HT. do 3 f_equal. lia.
Qed.

Lemma update_ok P T x : good P -> good (T ++ [x]) -> (length T = 0 \/ length T <= length P /\ firstn (length T) P = T)%nat ->
  update_full_path (join P) (length P) (Some x) (S (length T)) = Some (join (T ++ [x]), S (length T)).
Proof.
  intros Hg Ht Hc. unfold update_full_path. destruct T as [|a T].
  - cbn. reflexivity.
  - destruct (Nat.ltb_spec (S (length (a :: T))) 2) as [H|H]; [cbn in H; lia|].
    destruct Hc as [Hc|[Hc1 Hc2]]; [discriminate|].
    destruct (pop_ok P (a :: T) x _ Hg Ht eq_refl ltac:(cbn; lia) Hc1 Hc2) as [[|] ->]; [reflexivity|].
    destruct (Nat.ltb_spec (S (length (a :: T))) (length (a :: T))); [lia|].
    rewrite Nat.eqb_refl. rewrite join_snoc by discriminate.
    pose proof (join_nil (a :: T)) as Hj. destruct (join (a :: T)) eqn:Ej; [|reflexivity]. exfalso. apply Hj; try discriminate.
    + apply good_parent in Ht. exact Ht.
    + intros E. injection E as -> ->. destruct Ht as [_ Ht]. cbn in Ht. inversion Ht; congruence.
    + reflexivity.
Qed.
Lemma update_root P : update_full_path (join P) (length P) None 0 = Some ([], 0%nat).
Proof. reflexivity. Qed.
End Iter.
