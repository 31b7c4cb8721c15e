From Verif Require Import Base Wire WireProofs Cid CidProofs Text TextProofs CodecsProofs IpfsPath PathSpec.
Local Open Scope N_scope.

Lemma split_nonempty s : split_slash s <> [].
Proof. destruct s as [|c r]; cbn; [discriminate|]. destruct (c =? 47); [discriminate|]. destruct (split_slash r); discriminate. Qed.
Lemma split_plain s : plain s -> split_slash s = [s].
Proof.
  induction s as [|c r IH]; intros H; [reflexivity|]. cbn [split_slash].
  destruct (N.eqb_spec c 47) as [->|]; [exfalso; apply H; left; reflexivity|].
  rewrite IH by (intros X; apply H; right; exact X). reflexivity.
Qed.
Lemma split_app a b : plain a -> split_slash (a ++ 47 :: b) = a :: split_slash b.
Proof.
  induction a as [|c r IH]; intros H; [reflexivity|]. cbn [split_slash app].
  destruct (N.eqb_spec c 47) as [->|]; [exfalso; apply H; left; reflexivity|].
  rewrite IH by (intros X; apply H; right; exact X). reflexivity.
Qed.
Lemma split_slashed x l : plain x -> Forall plain l -> split_slash (x ++ slashed l) = x :: l.
Proof.
  intros Hx Hl. revert x Hx. induction Hl as [|y l Hy Hl IH]; intros x Hx.
  - unfold slashed. cbn. rewrite app_nil_r. apply split_plain. exact Hx.
  - unfold slashed. cbn [map concat app]. rewrite split_app by exact Hx. f_equal. apply IH. exact Hy.
Qed.
Lemma slashed_cons y l : slashed (y :: l) = 47 :: y ++ slashed l.
Proof. reflexivity. Qed.
Lemma slashed_app a b : slashed (a ++ b) = slashed a ++ slashed b.
Proof. unfold slashed. rewrite map_app, concat_app. reflexivity. Qed.
Lemma split_inv s : exists x l, split_slash s = x :: l /\ s = x ++ slashed l /\ plain x /\ Forall plain l.
Proof.
  induction s as [|c r IH]; [exists [], []; repeat split; auto; intros []|].
  destruct IH as (x & l & E & Hs & Hx & Hl). cbn [split_slash]. destruct (N.eqb_spec c 47) as [->|Hn].
  - exists [], (x :: l). rewrite E. repeat split; auto; [cbn; rewrite Hs; reflexivity|intros []].
  - rewrite E. exists (c :: x), l. repeat split; auto; [cbn; rewrite Hs; reflexivity|]. intros [X|X]; [congruence|contradiction].
Qed.

Lemma push_split_acc l : forall have, push_split l have = (have ++ fst (push_split l []), snd (push_split l [])).
Proof.
  induction l as [|x r IH]; intros have; cbn [push_split]; [rewrite app_nil_r; reflexivity|].
  destruct (is_empty x); [rewrite app_nil_r; reflexivity|]. rewrite IH, (IH ([] ++ [x])). cbn [fst snd app]. rewrite <- app_assoc. reflexivity.
Qed.
Lemma push_split_spec l segs : push_split l [] = (segs, true) <-> Forall (fun s => s <> []) segs /\ (l = segs \/ l = segs ++ [[]]).
Proof.
  revert segs. induction l as [|x r IH]; intros segs; cbn [push_split].
  - split; [intros [= <-]; split; [constructor|left; reflexivity]|]. intros [_ [<-|E]]; [reflexivity|destruct segs; discriminate].
  - destruct x as [|c x]; cbn [is_empty].
    + split.
      * destruct r; [|discriminate]. intros [= <-]. split; [constructor|right; reflexivity].
      * intros [H [<-|E]]; [inversion H; subst; congruence|]. destruct segs as [|y segs]; [injection E as ->; reflexivity|].
        injection E as <- E. inversion H; subst. congruence.
    + rewrite push_split_acc. cbn [app]. split.
      * destruct (push_split r []) as [s ok] eqn:E. cbn [fst snd]. intros [= <- ->].
        destruct (proj1 (IH s) eq_refl) as [H H']. split; [constructor; [discriminate|exact H]|]. destruct H' as [->| ->]; auto.
      * intros [H H']. assert (exists t, segs = (c :: x) :: t /\ (r = t \/ r = t ++ [[]])) as (t & -> & Ht).
        { destruct H' as [<-|E]; [exists r; auto|]. destruct segs as [|y t]; [discriminate|]. injection E as <- ->. exists t. auto. }
        inversion H; subst. destruct (IH t) as [_ X]. rewrite X by auto. reflexivity.
Qed.

Lemma good_plain segs : Forall good_seg segs <-> Forall plain segs /\ Forall (fun s => s <> []) segs.
Proof. rewrite !Forall_forall. unfold good_seg. split; [intros H; split; intros x Hx; apply H; exact Hx|intros [H1 H2] x Hx; split; auto]. Qed.

(** Segments with an optional trailing slash. *)
Lemma segs_text segs rest : (exists trail, (trail = [] \/ trail = [47]) /\ Forall good_seg segs /\ slashed rest = slashed segs ++ trail /\ Forall plain rest) <->
  Forall plain rest /\ push_split rest [] = (segs, true).
Proof.
  split.
  - intros (trail & Ht & Hg & Hs & Hp). split; [exact Hp|]. apply push_split_spec. apply good_plain in Hg as [Hg1 Hg2]. split; [exact Hg2|].
    destruct Ht as [->| ->].
    + left. rewrite app_nil_r in Hs. apply (f_equal (fun s => split_slash ([] ++ s))) in Hs.
      rewrite !split_slashed in Hs by (auto; intros []). congruence.
    + right. change [47] with (slashed [[]]) in Hs. rewrite <- slashed_app in Hs. apply (f_equal (fun s => split_slash ([] ++ s))) in Hs.
      rewrite !split_slashed in Hs; [congruence|intros []| |intros []|exact Hp]. apply Forall_app. split; [exact Hg1|]. constructor; [intros []|constructor].
  - intros [Hp H]. apply push_split_spec in H as [Hn [->| ->]].
    + exists []. rewrite app_nil_r. repeat split; auto. apply good_plain. auto.
    + exists [47]. rewrite slashed_app. repeat split; auto. apply good_plain. split; [|exact Hn]. apply Forall_app in Hp. tauto.
Qed.

Section Parse.
  Variable ob : N -> bytes -> option bytes.

  Lemma cid_nonempty c : cid_from_text ob [] = Some c -> False.
  Proof. discriminate. Qed.

  Theorem parse_spec s p : path_from_str ob s = Some p <-> spells ob s p.
  Proof.
    split.
    - unfold path_from_str. destruct (split_inv s) as (x & l & -> & Hs & Hx & Hl). unfold parse_root.
      assert (Hfin : forall r prefix key rest, s = prefix ++ key ++ slashed rest -> plain key -> Forall plain rest ->
                match r with
                | Ipld c => (prefix = [] \/ prefix = at_ipfs \/ prefix = at_ipld) /\ cid_from_text ob key = Some c
                | Ipns q => prefix = at_ipns /\ peer_from_text key = Some q
                | Dns n => prefix = at_ipns /\ key = n /\ peer_from_text n = None
                end ->
                (let (l, ok) := push_split rest [] in if ok then Some (mk_path r l) else None) = Some p -> spells ob s p).
      { intros r prefix key rest E Hk Hr Hm H. destruct (push_split rest []) as [segs ok] eqn:Ep. destruct ok; [|discriminate]. injection H as <-.
        destruct (proj2 (segs_text segs rest) (conj Hr Ep)) as (trail & Ht & Hg & Hsl & _).
        exists prefix, key, trail. cbn [p_segs p_root]. rewrite E, Hsl. repeat split; auto. }
      destruct x as [|c0 x]; cbn [is_empty negb].
      + destruct l as [|ty [|key rest]]; try discriminate.
        inversion Hl as [|? ? Hty Hl']; subst. inversion Hl' as [|? ? Hkey Hrest]; subst.
        cbn [app] in *. rewrite !slashed_cons in *.
        destruct (beq_spec ty s_ipfs) as [->|].
        { destruct (cid_from_text ob key) as [c|] eqn:Ec; [|discriminate]. cbn [option_map].
          apply (Hfin (Ipld c) at_ipfs key rest); auto. }
        destruct (beq_spec ty s_ipld) as [->|].
        { destruct (cid_from_text ob key) as [c|] eqn:Ec; [|discriminate]. cbn [option_map].
          apply (Hfin (Ipld c) at_ipld key rest); auto. }
        destruct (beq_spec ty s_ipns) as [->|]; [|discriminate].
        destruct (peer_from_text key) as [q|] eqn:Eq; [apply (Hfin (Ipns q) at_ipns key rest)|apply (Hfin (Dns key) at_ipns key rest)]; auto.
      + destruct (cid_from_text ob (c0 :: x)) as [c|] eqn:Ec; [|discriminate]. cbn [option_map].
        apply (Hfin (Ipld c) [] (c0 :: x) l); auto.
    - intros (prefix & key & trail & -> & Hk & Hg & Ht & Hm). destruct p as [r segs]. cbn [p_root p_segs] in *.
      assert (exists rest, slashed segs ++ trail = slashed rest /\ Forall plain rest) as (rest & Er & Hrest).
      { apply good_plain in Hg as [Hg _]. destruct Ht as [->| ->]; [exists segs; rewrite app_nil_r; auto|].
        exists (segs ++ [[]]). rewrite slashed_app. split; [reflexivity|]. apply Forall_app. split; [exact Hg|]. constructor; [intros []|constructor]. }
      assert (Hpush : push_split rest [] = (segs, true)).
      { apply segs_text. exists trail. auto. }
      rewrite Er. unfold path_from_str.
      assert (Hsp : forall ty, plain ty -> split_slash (47 :: ty ++ 47 :: key ++ slashed rest) = [] :: ty :: key :: rest).
      { intros ty Hty. change (47 :: ty ++ 47 :: key ++ slashed rest) with ([] ++ slashed (ty :: key :: rest)).
        apply split_slashed; [intros []|]. auto. }
      assert (Pi : plain s_ipfs) by (unfold plain, s_ipfs; intros H; repeat destruct H as [H|H]; try discriminate; exact H).
      assert (Pl : plain s_ipld) by (unfold plain, s_ipld; intros H; repeat destruct H as [H|H]; try discriminate; exact H).
      assert (Pn : plain s_ipns) by (unfold plain, s_ipns; intros H; repeat destruct H as [H|H]; try discriminate; exact H).
      destruct r as [c|q|n].
      + destruct Hm as [[->|[->| ->]] Hc].
        * cbn [app]. rewrite split_slashed by auto. unfold parse_root. destruct key as [|k0 key]; [discriminate|]. cbn [is_empty negb].
          rewrite Hc. cbn [option_map]. rewrite Hpush. reflexivity.
        * change (at_ipfs ++ key ++ slashed rest) with (47 :: s_ipfs ++ 47 :: key ++ slashed rest). rewrite Hsp by exact Pi.
          unfold parse_root. cbn [is_empty negb]. rewrite beq_refl, Hc. cbn [option_map]. rewrite Hpush. reflexivity.
        * change (at_ipld ++ key ++ slashed rest) with (47 :: s_ipld ++ 47 :: key ++ slashed rest). rewrite Hsp by exact Pl.
          unfold parse_root. cbn [is_empty negb]. rewrite beq_refl, Hc. change (beq s_ipld s_ipfs) with false. cbn [option_map]. rewrite Hpush. reflexivity.
      + destruct Hm as [-> Hq]. change (at_ipns ++ key ++ slashed rest) with (47 :: s_ipns ++ 47 :: key ++ slashed rest). rewrite Hsp by exact Pn.
        unfold parse_root. cbn [is_empty negb]. rewrite beq_refl, Hq. change (beq s_ipns s_ipfs) with false. change (beq s_ipns s_ipld) with false.
        cbv beta iota. rewrite Hpush. reflexivity.
      + destruct Hm as (-> & -> & Hq). change (at_ipns ++ n ++ slashed rest) with (47 :: s_ipns ++ 47 :: n ++ slashed rest). rewrite Hsp by exact Pn.
        unfold parse_root. cbn [is_empty negb]. rewrite beq_refl, Hq. change (beq s_ipns s_ipfs) with false. change (beq s_ipns s_ipld) with false.
        cbv beta iota. rewrite Hpush. reflexivity.
  Qed.

  Lemma join_slashed l : match l with [] => [] | x :: r => 47 :: join (x :: r) end = slashed l.
  Proof.
    destruct l as [|x l]; [reflexivity|]. revert x. induction l as [|y l IH]; intros x.
    - unfold slashed. cbn. rewrite app_nil_r. reflexivity.
    - rewrite slashed_cons. rewrite <- IH. reflexivity.
  Qed.
  Lemma alnum_plain s : Forall alnum s -> plain s.
  Proof. intros H X. rewrite Forall_forall in H. apply H in X. unfold alnum in X. lia. Qed.

  Lemma print_spells p : printable p ->
    match p_root p with Ipld c => wf_cid c | Ipns q => wf_peer q | Dns _ => True end ->
    spells ob (path_to_str p) p.
  Proof.
    intros [Hg Hr] Hw. unfold path_to_str. rewrite join_slashed. destruct p as [r segs]. cbn [p_root p_segs] in *.
    destruct r as [c|q|n]; cbn [root_to_str].
    - exists at_ipfs, (cid_to_text c), []. cbn [p_root p_segs]. rewrite app_nil_r. repeat split; auto.
      + apply alnum_plain. apply cid_text_alnum.
      + apply cid_text_roundtrip. exact Hw.
    - exists at_ipns, (peer_to_text q), []. cbn [p_root p_segs]. rewrite app_nil_r. repeat split; auto.
      + apply alnum_plain. apply b58_chars.
      + apply peer_text_roundtrip. exact Hw.
    - exists at_ipns, n, []. cbn [p_root p_segs]. rewrite app_nil_r. destruct Hr. repeat split; auto.
  Qed.
End Parse.

(** * Decoders yield bytes *)
Lemma digits_lt fuel b v : 0 < b -> Forall (fun d => d < b) (digits fuel b v).
Proof.
  intros Hb. revert v. induction fuel as [|f IH]; intros v; cbn [digits]; [constructor|]. destruct (v =? 0); constructor; [|apply IH].
  apply N.mod_lt. lia.
Qed.
Lemma wf_repeat0 k : wf_bytes (repeat 0 k).
Proof. apply Forall_forall. intros x H. apply repeat_spec in H. subst. unfold is_byte; lia. Qed.
Lemma wf_rev l : wf_bytes l -> wf_bytes (rev l).
Proof. unfold wf_bytes. rewrite !Forall_forall. intros H x Hx. apply H. apply in_rev. exact Hx. Qed.
Lemma b58_decode_wf s bs : b58_decode s = Some bs -> wf_bytes bs.
Proof.
  unfold b58_decode. destruct (b58_vals s) as [vs|]; [|discriminate]. intros [= <-]. unfold b58_undigits.
  apply wf_bytes_app. split; [apply wf_repeat0|]. apply wf_rev. apply digits_lt. lia.
Qed.
Lemma group8_lengths n : forall l, (length l <= n)%nat -> Forall (fun g => length g = 8%nat) (fst (group8 l)).
Proof.
  induction n as [|n IH]; intros l Hl.
  - destruct l; [constructor|cbn in Hl; lia].
  - destruct l as [|a [|b [|c [|d [|e [|f [|g [|h r]]]]]]]]; try constructor.
    cbn [group8]. destruct (group8 r) as [gs rest] eqn:E. cbn [fst]. constructor; [reflexivity|].
    specialize (IH r). rewrite E in IH. apply IH. cbn in Hl. lia.
Qed.
Lemma b32_decode_wf s bs : b32_decode s = Some bs -> wf_bytes bs.
Proof.
  unfold b32_decode. destruct (b32_vals s) as [vs|]; [|discriminate].
  set (bits := concat _). pose proof (group8_lengths (length bits) bits (le_n _)) as H8.
  destruct (group8 bits) as [gs rest]. cbn [fst] in H8.
  destruct ((length rest <? 5)%nat && forallb negb rest); [|discriminate]. intros [= <-].
  unfold wf_bytes. rewrite Forall_map. eapply Forall_impl; [|exact H8]. intros g Hg. cbn beta.
  pose proof (of_bits_lt g) as Hb. rewrite Hg in Hb. exact Hb.
Qed.
Lemma cid_from_text_wf ob s c : (forall k t b, ob k t = Some b -> wf_bytes b) -> cid_from_text ob s = Some c -> wf_cid c.
Proof.
  intros Hob. unfold cid_from_text. set (h := match after_first slash_ipfs s with Some r => r | None => s end).
  destruct (length h <? 2)%nat; [discriminate|].
  destruct (if is_v0_text h then b58_decode h else multibase_decode ob h) as [b|] eqn:E; [|discriminate].
  intros H. assert (Hb : wf_bytes b).
  { destruct (is_v0_text h); [eapply b58_decode_wf; exact E|]. unfold multibase_decode in E. destruct h as [|k t]; [discriminate|].
    destruct (k =? 98); [eapply b32_decode_wf; exact E|eapply Hob; exact E]. }
  destruct (cid_from_bytes_wf b c Hb H) as [Hw _]. exact Hw.
Qed.
Lemma peer_from_text_wf s p : peer_from_text s = Some p -> wf_peer p.
Proof.
  unfold peer_from_text. destruct (b58_decode s) as [b|] eqn:E; [|discriminate]. apply b58_decode_wf in E.
  destruct (mh_from_bytes b) as [m|] eqn:Em; [|discriminate]. destruct (peer_ok m) eqn:Ek; [|discriminate]. intros [= <-].
  destruct (mh_from_bytes_wf b m E Em) as (H1 & H2 & H3 & _). repeat split; auto.
Qed.

Lemma spells_good ob s p : (forall k t b, ob k t = Some b -> wf_bytes b) -> spells ob s p ->
  printable p /\ match p_root p with Ipld c => wf_cid c | Ipns q => wf_peer q | Dns _ => True end.
Proof.
  intros Hob (prefix & key & trail & _ & Hk & Hg & _ & Hm). unfold printable. destruct (p_root p) as [c|q|n].
  - split; [auto|]. eapply cid_from_text_wf; [exact Hob|apply Hm].
  - split; [auto|]. eapply peer_from_text_wf. apply Hm.
  - destruct Hm as (_ & -> & Hn). auto.
Qed.

(** * Appending *)
Lemma sub_path_spec p s q : sub_path p s = Some q <->
  p_root q = p_root p /\
  (s = [] /\ p_segs q = p_segs p \/
   exists x l trail, p_segs q = p_segs p ++ x :: l /\ Forall good_seg (x :: l) /\ (trail = [] \/ trail = [47]) /\ s = x ++ slashed l ++ trail).
Proof.
  unfold sub_path, push_path. destruct s as [|c0 s0]; cbn [is_empty].
  - split.
    + intros [= <-]. split; [reflexivity|]. left. split; reflexivity.
    + intros [Hr [[_ Hs]|(x & l & trail & _ & Hg & _ & E)]].
      * destruct q as [r segs]. cbn in *. subst. reflexivity.
      * exfalso. destruct x; [inversion Hg as [|? ? [_ X]]; congruence|discriminate].
  - remember (c0 :: s0) as s. assert (Hne : s <> []) by (subst; discriminate). clear Heqs c0 s0.
    destruct (split_inv s) as (y & l & -> & Hs & Hy & Hl). rewrite push_split_acc.
    destruct (push_split (y :: l) []) as [segs ok] eqn:Ep. cbn [fst snd]. split.
    + destruct ok; [|discriminate]. intros [= <-]. split; [reflexivity|]. right. cbn [p_segs].
      assert (Hp : Forall plain (y :: l)) by (constructor; assumption).
      destruct (proj2 (segs_text segs (y :: l)) (conj Hp Ep)) as (trail & Ht & Hg & Hsl & _).
      destruct segs as [|x t].
      * exfalso. rewrite slashed_cons in Hsl. cbn [slashed map concat app] in Hsl. rewrite <- Hs in Hsl. destruct Ht as [->| ->]; [discriminate|congruence].
      * exists x, t, trail. repeat split; auto. rewrite !slashed_cons in Hsl. cbn [app] in Hsl. rewrite Hs. rewrite <- app_assoc in Hsl. congruence.
    + intros [Hr [[E _]|(x & t & trail & Hseg & Hg & Ht & Es)]]; [congruence|].
      assert (Ep' : push_split (y :: l) [] = (x :: t, true)).
      { apply segs_text. exists trail. repeat split; auto. rewrite !slashed_cons, <- Hs, Es. cbn [app]. rewrite <- app_assoc. reflexivity. }
      rewrite Ep in Ep'. injection Ep' as -> ->. destruct q as [r segs]. cbn in *. subst. reflexivity.
Qed.

(** * Joining texts by '/' *)
Lemma push_path_split s have : push_path s have = push_split (split_slash s) have.
Proof. unfold push_path. destruct s; reflexivity. Qed.
Lemma split_join a b : split_slash (a ++ 47 :: b) = split_slash a ++ split_slash b.
Proof.
  destruct (split_inv a) as (x & l & E & Hs & Hx & Hl). rewrite E. subst a. rewrite <- app_assoc. clear E.
  revert x Hx. induction Hl as [|y l Hy Hl IH]; intros x Hx.
  - cbn [slashed map concat app]. rewrite split_app by exact Hx. reflexivity.
  - rewrite slashed_cons. cbn [app]. rewrite split_app by exact Hx. rewrite <- app_assoc. rewrite IH by exact Hy. reflexivity.
Qed.
(** The last part is not empty, or there is no part. *)
Definition closed (l : list bytes) : Prop := l = [] \/ exists m x, l = m ++ [x] /\ x <> [].
Lemma push_split_app l1 l2 : closed l1 -> forall have,
  push_split (l1 ++ l2) have = let (h, ok) := push_split l1 have in if ok then push_split l2 h else (h, false).
Proof.
  induction l1 as [|x r IH]; intros Hc have; [reflexivity|]. cbn [push_split app].
  assert (Hr : r = [] /\ x <> [] \/ r <> [] /\ closed r).
  { destruct Hc as [Hc|(m & y & E & Hy)]; [discriminate|]. destruct m as [|m0 m]; cbn in E; injection E as -> ->; [left; auto|].
    right. split; [destruct m; discriminate|]. right. exists m, y. auto. }
  destruct Hr as [[-> Hx]|[Hr Hc']].
  - destruct x; [congruence|]. cbn [is_empty app push_split]. reflexivity.
  - destruct x as [|c x]; cbn [is_empty].
    + destruct r; [congruence|]. reflexivity.
    + apply IH. exact Hc'.
Qed.
Definition no_end_slash (a : bytes) : Prop := forall b, a <> b ++ [47].
Lemma closed_split a : a <> [] -> no_end_slash a -> closed (split_slash a).
Proof.
  intros Hn He. destruct (split_inv a) as (x & l & E & Hs & Hx & Hl). rewrite E. right.
  destruct (exists_last (l := x :: l)) as (m & y & Em); [discriminate|]. exists m, y. split; [exact Em|].
  intros ->. destruct m as [|m0 m].
  - injection Em as -> ->. cbn in Hs. congruence.
  - injection Em as -> ->. rewrite slashed_app in Hs. change (slashed [[]]) with [47] in Hs. apply (He (m0 ++ slashed m)). rewrite Hs, app_assoc. reflexivity.
Qed.
Lemma closed_suffix a b : closed (a ++ b) -> closed b.
Proof.
  intros [H|(m & x & E & Hx)]; [apply app_eq_nil in H as [_ ->]; left; reflexivity|].
  destruct b as [|b0 b]; [left; reflexivity|]. right. destruct (exists_last (l := b0 :: b)) as (m' & y & Em); [discriminate|].
  exists m', y. split; [exact Em|]. rewrite Em, app_assoc in E. apply app_inj_tail in E as [_ ->]. exact Hx.
Qed.
Lemma sub_path_join p a b : a <> [] -> no_end_slash a ->
  sub_path p (a ++ 47 :: b) = match sub_path p a with Some q => sub_path q b | None => None end.
Proof.
  intros Hn He. unfold sub_path. rewrite !push_path_split, split_join. rewrite push_split_app by (apply closed_split; assumption).
  destruct (push_split (split_slash a) (p_segs p)) as [h ok]. destruct ok; [|reflexivity]. rewrite push_path_split. reflexivity.
Qed.
Lemma parse_root_app ob l1 l2 r rest : parse_root ob l1 = Some (r, rest) ->
  (exists m, l1 = m ++ rest) /\ parse_root ob (l1 ++ l2) = Some (r, rest ++ l2).
Proof.
  unfold parse_root. destruct l1 as [|e l1]; [discriminate|]. cbn [app]. destruct (negb (is_empty e)).
  - destruct (cid_from_text ob e) as [c|]; [|discriminate]. intros [= <- <-]. split; [exists [e]; reflexivity|reflexivity].
  - destruct l1 as [|ty [|key rest']]; try discriminate. cbn [app].
    assert (forall r', Some (r', rest') = Some (r, rest) ->
      (exists m, e :: ty :: key :: rest' = m ++ rest) /\ Some (r', rest' ++ l2) = Some (r, rest ++ l2)) as HH.
    { intros r' [= -> ->]. split; [exists [e; ty; key]; reflexivity|reflexivity]. }
    destruct (beq ty s_ipfs); [destruct (cid_from_text ob key); [apply HH|discriminate]|].
    destruct (beq ty s_ipld); [destruct (cid_from_text ob key); [apply HH|discriminate]|].
    destruct (beq ty s_ipns); [|discriminate]. destruct (peer_from_text key); apply HH.
Qed.
Lemma parse_join ob s p b : path_from_str ob s = Some p -> no_end_slash s -> path_from_str ob (s ++ 47 :: b) = sub_path p b.
Proof.
  unfold path_from_str. rewrite split_join. destruct (parse_root ob (split_slash s)) as [[r rest]|] eqn:E; [|discriminate].
  intros H He. destruct (parse_root_app ob _ (split_slash b) _ _ E) as [[m Em] ->].
  assert (Hc : closed rest).
  { apply (closed_suffix m). rewrite <- Em. apply closed_split; [|exact He]. intros ->. discriminate. }
  rewrite push_split_app by exact Hc. destruct (push_split rest []) as [h ok]. destruct ok; [|discriminate]. injection H as <-.
  unfold sub_path. cbn [p_root p_segs]. rewrite push_path_split. reflexivity.
Qed.
