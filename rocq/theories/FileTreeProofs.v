(** Lemmas about [FileAdder]: the tree produced by a whole add. *)
From Coq Require Import Permutation.
From Verif Require Import Base Wire Cid Pb FileSpec FileAdder FileAdderProofs.

Section Shape.
Variables chunk bf : nat.

(** Shape of the produced trees; [last] marks the rightmost path. *)
Inductive shaped : bool -> ftree -> Prop :=
| shaped_leaf : forall last c,
    length c <= chunk -> (last = false -> length c = chunk) -> shaped last (Leaf c)
| shaped_node : forall last h ts,
    ts <> [] -> length ts <= bf -> (last = false -> length ts = bf) -> level_of h ts ->
    shaped_list last ts -> shaped last (Node ts)
with shaped_list : bool -> list ftree -> Prop :=
| shaped_one : forall last t, shaped last t -> shaped_list last [t]
| shaped_more : forall last t t' ts,
    shaped false t -> shaped_list last (t' :: ts) -> shaped_list last (t :: t' :: ts).

Lemma shaped_list_app last a b :
  Forall (shaped false) a -> shaped_list last b -> shaped_list last (a ++ b).
Proof.
  intros Ha Hb. induction Ha as [|t a Ht _ IH]; [exact Hb|]. cbn [app].
  destruct (a ++ b) as [|t' r] eqn:E; [inversion IH|]. constructor; assumption.
Qed.

Lemma shaped_list_inv last a b :
  b <> [] -> shaped_list last (a ++ b) -> Forall (shaped false) a /\ shaped_list last b.
Proof.
  intros Hb. induction a as [|t a IH]; intros H; [split; [constructor|exact H]|].
  cbn [app] in H. destruct (a ++ b) as [|t' r] eqn:E.
  - destruct a; [cbn in E; congruence|discriminate].
  - inversion H; subst. apply IH in H5 as [H1 H2]. split; [constructor; assumption|assumption].
Qed.

Lemma shaped_list_false a : a <> [] -> Forall (shaped false) a -> shaped_list false a.
Proof.
  intros Hn H. induction H as [|t a Ht Ha IH]; [congruence|]. destruct a as [|t' a]; [constructor; exact Ht|].
  constructor; [exact Ht|]. apply IH. congruence.
Qed.

Lemma shaped_leaves a :
  a <> [] -> level_of 0 a -> Forall (shaped false) a -> shaped_list true a.
Proof.
  intros Hn Hl H. induction H as [|t a Ht Ha IH]; [congruence|]. inversion Hl; subst.
  destruct a as [|t' a].
  - constructor. destruct t as [c|]; [|discriminate]. inversion Ht; subst. constructor; auto.
  - constructor; [exact Ht|]. apply IH; [congruence|assumption].
Qed.

Lemma group_shaped h ts :
  bf <> 0 -> ts <> [] -> level_of h ts -> shaped_list true ts -> shaped_list true (group bf ts).
Proof.
  intros Hb. unfold group. revert ts.
  apply (cut_ind bf (fun ts => ts <> [] -> level_of h ts -> shaped_list true ts ->
    shaped_list true (map Node (cut bf ts)))); [exact Hb|congruence|].
  intros l Hl IH _ Hlev Hsh. rewrite cut_step by assumption. cbn [map].
  destruct (skipn bf l) as [|y r] eqn:E.
  - assert (length l <= bf).
    { assert (length (skipn bf l) = 0) by (rewrite E; reflexivity). rewrite skipn_length in H. lia. }
    rewrite cut_nil. rewrite firstn_all2 by lia. cbn [map]. constructor.
    apply shaped_node with (h := h); auto. congruence.
  - rewrite <- E in *.
    assert (Hlong : bf < length l).
    { assert (length (skipn bf l) <> 0) by (rewrite E; cbn; lia). rewrite skipn_length in H. lia. }
    assert (Hne : skipn bf l <> []) by congruence.
    rewrite <- (firstn_skipn bf l) in Hsh. apply shaped_list_inv in Hsh as [H1 H2]; [|exact Hne].
    assert (HF : length (firstn bf l) = bf) by (rewrite firstn_length; lia).
    assert (Hfn : firstn bf l <> []) by (intros E0; rewrite E0 in HF; cbn in HF; congruence).
    specialize (IH Hne (level_skipn _ _ _ Hlev) H2).
    change (shaped_list true ([Node (firstn bf l)] ++ map Node (cut bf (skipn bf l)))).
    apply shaped_list_app; [|exact IH]. constructor; [|constructor].
    apply shaped_node with (h := h); auto; [lia|apply level_firstn; exact Hlev|].
    apply shaped_list_false; assumption.
Qed.

End Shape.

Section Add.
Variable sha : bytes -> bytes.
Variables chunk bf : nat.

Notation tlink := (tlink sha).
Notation tblock := (tblock sha).
Notation tblocks := (tblocks sha).
Notation fblocks := (fblocks sha).
Notation gblocks := (gblocks sha).
Notation flush_levels := (flush_levels sha).
Notation flush_links := (flush_links sha).

(** ** Finishing: from a uniform level to the root *)

Lemma group_length_pos ts : bf <> 0 -> ts <> [] -> length (group bf ts) <> 0.
Proof.
  intros Hb Hn. unfold group. rewrite map_length. pose proof (cut_nonempty bf ts Hb Hn).
  destruct (cut bf ts); [congruence|cbn; lia].
Qed.

Lemma gblocks_last ts :
  bf <> 0 -> length (group bf ts) = 1 -> exists t, group bf ts = [t] /\ gblocks bf ts = [tblock t].
Proof.
  intros Hb H. unfold group, FileAdderProofs.gblocks in *. rewrite map_length in H.
  destruct (cut bf ts) as [|g [|]]; cbn in H; try lia. exists (Node g). split; reflexivity.
Qed.

Definition is_root (t : ftree) (ts : list ftree) (out : list (cid * bytes)) : Prop :=
  Permutation (tblocks t) (fblocks ts ++ out)
  /\ tcontent t = concat (map tcontent ts)
  /\ (shaped_list chunk bf true ts -> shaped chunk bf true t)
  /\ ((length ts = 1 /\ ts = [t] /\ out = []) \/ exists o, out = o ++ [tblock t]).

Lemma flush_uniform fuel level ts ret :
  2 <= bf -> ts <> [] -> level_of level ts -> length ts <= fuel ->
  exists t out,
    flush_levels fuel bf true level (map tlink ts) ret = FlushDone [tlink t] (ret ++ out)
    /\ is_root t ts out.
Proof.
  intros Hb. revert level ts ret.
  induction fuel as [|fuel IH]; intros level ts ret Hn Hl Hf.
  - destruct ts; [congruence|cbn in Hf; lia].
  - cbn [FileAdder.flush_levels]. rewrite map_length. cbn [negb]. rewrite andb_false_r, orb_false_r, andb_true_r.
    destruct (Nat.eqb_spec (length ts) 1) as [E|E].
    + destruct ts as [|t [|]]; cbn in E; try lia. exists t, []. cbn [map]. rewrite app_nil_r.
      split; [reflexivity|]. split; [|split; [|split]].
      * unfold FileAdderProofs.fblocks. cbn. rewrite !app_nil_r. reflexivity.
      * cbn. rewrite app_nil_r. reflexivity.
      * intros H. inversion H; auto.
      * left. auto.
    + assert (2 <= length ts) by (destruct ts as [|? [|]]; cbn in *; try congruence; lia).
      change (map tlink ts) with ([] ++ map tlink ts).
      rewrite flush_level_finish by (lia || assumption || constructor).
      cbn [app].
      assert (Hlt : length (group bf ts) < length ts).
      { unfold group. rewrite map_length. apply cut_length; assumption. }
      assert (Hgn : group bf ts <> []).
      { intros E0. pose proof (group_length_pos ts ltac:(lia) Hn). rewrite E0 in *. cbn in *. lia. }
      destruct (IH (S level) (group bf ts) (ret ++ gblocks bf ts)) as (t & out & E1 & HP & HC & HS & HR).
      * exact Hgn.
      * apply group_level; [lia|exact Hl].
      * lia.
      * exists t, (gblocks bf ts ++ out). rewrite E1, <- app_assoc. split; [reflexivity|].
        split; [|split; [|split]].
        -- rewrite HP. rewrite group_blocks by lia. rewrite <- app_assoc. reflexivity.
        -- rewrite HC. apply group_content. lia.
        -- intros H1. apply HS. eapply group_shaped; eauto. lia.
        -- right. destruct HR as [(HR1 & HR2 & ->)|[o ->]].
           ++ exists []. destruct (gblocks_last ts ltac:(lia) HR1) as (t' & G1 & G2).
              rewrite G1 in HR2. injection HR2 as ->. rewrite G2. reflexivity.
           ++ exists (gblocks bf ts ++ o). rewrite app_assoc. reflexivity.
Qed.

(** Finishing from the state between pushes: links of height 1 followed by leaves. *)
Lemma flush_finish n1 l0 :
  2 <= bf -> level_of 1 n1 -> level_of 0 l0 -> l0 <> [] ->
  Forall (shaped chunk bf false) n1 -> shaped_list chunk bf true l0 ->
  exists t out,
    flush_links bf true (map tlink (n1 ++ l0)) = FlushDone [tlink t] out
    /\ Permutation (tblocks t) (fblocks (n1 ++ l0) ++ out)
    /\ tcontent t = concat (map tcontent (n1 ++ l0))
    /\ shaped chunk bf true t
    /\ ((n1 = [] /\ l0 = [t] /\ out = []) \/ exists o, out = o ++ [tblock t]).
Proof.
  intros Hb H1 H0 Hn Hs1 Hs0. unfold FileAdder.flush_links.
  cbn [FileAdder.flush_levels]. rewrite map_length. cbn [negb].
  rewrite andb_false_r, orb_false_r, andb_true_r.
  destruct (Nat.eqb_spec (length (n1 ++ l0)) 1) as [E|E].
  - rewrite app_length in E. destruct l0 as [|t l0]; [congruence|].
    cbn [length] in E. destruct n1; [|cbn [length] in E; lia]. destruct l0; [|cbn [length] in E; lia].
    exists t, []. split; [reflexivity|]. split; [|split; [|split]].
    + unfold FileAdderProofs.fblocks. cbn. rewrite !app_nil_r. reflexivity.
    + cbn. rewrite app_nil_r. reflexivity.
    + inversion Hs0; assumption.
    + left. auto.
  - rewrite map_app. rewrite flush_level_finish.
    2: lia. 2: rewrite app_length; lia. 2: exact Hn.
    2: { clear - H1. induction H1 as [|x l Hx _ IH]; constructor; [|exact IH].
         rewrite k_depth_tlink, Hx. congruence. }
    2: exact H0.
    rewrite <- map_app. cbn [app].
    assert (Hgn : group bf l0 <> []).
    { intros E0. pose proof (group_length_pos l0 ltac:(lia) Hn). rewrite E0 in *. cbn in *. lia. }
    assert (Hle : length (group bf l0) <= length l0).
    { unfold group. rewrite map_length. destruct (le_lt_dec 2 (length l0)) as [Hl|Hl].
      - pose proof (cut_length bf l0 Hb Hl). lia.
      - rewrite cut_single; cbn; try lia; try assumption. destruct l0; [congruence|cbn; lia]. }
    destruct (flush_uniform (length (n1 ++ l0)) 1 (n1 ++ group bf l0) (gblocks bf l0))
      as (t & out & E1 & HP & HC & HS & HR).
    + exact Hb.
    + intros E0. apply app_eq_nil in E0 as [_ ?]. congruence.
    + unfold level_of. apply Forall_app. split; [exact H1|]. apply group_level; [lia|exact H0].
    + rewrite !app_length. lia.
    + exists t, (gblocks bf l0 ++ out). split; [exact E1|]. split; [|split; [|split]].
      * rewrite HP, !fblocks_app, group_blocks by lia. rewrite <- !app_assoc. reflexivity.
      * rewrite HC, !map_app, !concat_app. f_equal. apply group_content. lia.
      * apply HS. apply shaped_list_app; [exact Hs1|]. eapply group_shaped; eauto. lia.
      * right. destruct HR as [(HR1 & HR2 & ->)|[o ->]].
        -- rewrite app_length in HR1. pose proof (group_length_pos l0 ltac:(lia) Hn).
           destruct n1; [|cbn [length] in HR1; lia]. cbn [app length] in *.
           destruct (gblocks_last l0 ltac:(lia) HR1) as (t' & G1 & G2).
           rewrite G1 in HR2. injection HR2 as ->. exists []. rewrite G2. reflexivity.
        -- exists (gblocks bf l0 ++ o). rewrite app_assoc. reflexivity.
Qed.

(** ** Pushing whole chunks *)

(** What a completed chunk does to the pending links. *)
Definition add_chunk (links : list link) (c : bytes) : add_res (list link * list (cid * bytes)) :=
  let '(ls, leaf) := flush_leaf sha c links false in
  match leaf with
  | None => AddPanic
  | Some lf =>
      match flush_links bf false ls with
      | FlushDone p r => Added (p, lf :: r)
      | FlushPanic => AddPanic
      | FlushFuel => AddFuel
      end
  end.

Fixpoint feed (links : list link) (cs : list bytes) : add_res (list link * list (cid * bytes)) :=
  match cs with
  | [] => Added (links, [])
  | c :: cs' =>
      match add_chunk links c with
      | Added (p, r) =>
          match feed p cs' with
          | Added (p', r') => Added (p', r ++ r')
          | AddPanic => AddPanic
          | AddFuel => AddFuel
          end
      | AddPanic => AddPanic
      | AddFuel => AddFuel
      end
  end.

(** Pending links between pushes. *)
Definition between (links : list link) (content : bytes) (out : list (cid * bytes)) : Prop :=
  exists n1 l0,
    links = map tlink (n1 ++ l0) /\ level_of 1 n1 /\ level_of 0 l0
    /\ length l0 <= bf /\ (l0 = [] -> n1 = [])
    /\ Forall (shaped chunk bf false) n1 /\ Forall (shaped chunk bf false) l0
    /\ concat (map tcontent (n1 ++ l0)) = content
    /\ Permutation out (fblocks (n1 ++ l0)).

Lemma add_chunk_between links content out c :
  bf <> 0 -> chunk <> 0 -> length c = chunk -> between links content out ->
  exists p r, add_chunk links c = Added (p, r) /\ between p (content ++ c) (out ++ r).
Proof.
  intros Hb Hc Hlen (n1 & l0 & -> & H1 & H0 & Hle & Hemp & Hs1 & Hs0 & HC & HP).
  unfold add_chunk, flush_leaf. destruct c as [|x c0]; [cbn in Hlen; lia|].
  set (c := x :: c0) in *.
  change (mk_link 0 (block_cid sha (render (leaf_flat c))) (blen (render (leaf_flat c))) (blen c))
    with (tlink (Leaf c)).
  change (block_cid sha (render (leaf_flat c)), render (leaf_flat c)) with (leaf_block sha c).
  assert (Hsl : shaped chunk bf false (Leaf c)) by (constructor; auto; lia).
  replace (map tlink (n1 ++ l0) ++ [tlink (Leaf c)]) with (map tlink (n1 ++ l0 ++ [Leaf c]))
    by (rewrite !map_app, <- app_assoc; reflexivity).
  assert (Hl0' : level_of 0 (l0 ++ [Leaf c])).
  { apply Forall_app. split; [exact H0|]. constructor; [reflexivity|constructor]. }
  assert (Hf0' : Forall (shaped chunk bf false) (l0 ++ [Leaf c])).
  { apply Forall_app. split; [exact Hs0|]. constructor; [exact Hsl|constructor]. }
  assert (HC' : concat (map tcontent (n1 ++ l0 ++ [Leaf c])) = content ++ c).
  { rewrite app_assoc, map_app, concat_app, HC. cbn. rewrite app_nil_r. reflexivity. }
  assert (HP' : Permutation (out ++ [leaf_block sha c]) (fblocks (n1 ++ l0 ++ [Leaf c]))).
  { rewrite app_assoc, fblocks_app, HP. reflexivity. }
  unfold FileAdder.flush_links. cbn [FileAdder.flush_levels]. rewrite map_length. cbn [negb].
  rewrite andb_false_r, orb_false_l, andb_true_r.
  assert (Hpre : Forall (fun k => k_depth k <> 0) (map tlink n1)).
  { clear - H1. induction H1 as [|t l Hx _ IH]; constructor; [|exact IH].
    rewrite k_depth_tlink, Hx. congruence. }
  destruct (Nat.eqb_spec (length l0) bf) as [Eq|Ne].
  - destruct (Nat.leb_spec (length (n1 ++ l0 ++ [Leaf c])) bf) as [Hx|_].
    { rewrite !app_length in Hx. cbn [length] in Hx. lia. }
    rewrite map_app. rewrite flush_level_push; try assumption; try lia.
    2: { rewrite !app_length. cbn [length]. lia. }
    eexists _, _. split; [reflexivity|].
    exists (n1 ++ [Node l0]), [Leaf c].
    assert (Hne : l0 <> []) by (intros ->; cbn in Eq; lia).
    assert (Hsn : shaped chunk bf false (Node l0)).
    { apply shaped_node with (h := 0); auto. apply shaped_list_false; assumption. }
    split; [rewrite !map_app, <- app_assoc; reflexivity|].
    split; [apply Forall_app; split; [exact H1|constructor; [apply height_node; assumption|constructor]]|].
    split; [constructor; [reflexivity|constructor]|].
    split; [cbn; lia|]. split; [congruence|].
    split; [apply Forall_app; split; [exact Hs1|constructor; [exact Hsn|constructor]]|].
    split; [constructor; [exact Hsl|constructor]|].
    split.
    + rewrite <- HC'. rewrite !map_app, !concat_app. cbn. rewrite !app_nil_r, <- app_assoc. reflexivity.
    + rewrite !fblocks_app. unfold FileAdderProofs.fblocks at 2 3. cbn [map concat FileAdderProofs.tblocks].
      rewrite !app_nil_r. rewrite HP, fblocks_app, <- !app_assoc. apply Permutation_app_head.
      unfold FileAdderProofs.fblocks. apply Permutation_app_head. cbn [app]. apply perm_swap.
  - assert (Hgo : exists f,
      (if length (n1 ++ l0 ++ [Leaf c]) <=? bf
       then FlushDone (map tlink (n1 ++ l0 ++ [Leaf c])) []
       else match flush_level sha f bf false 0 (map tlink (n1 ++ l0 ++ [Leaf c])) 0 None [] with
            | InnerDone p r => flush_levels f bf false 1 p r
            | InnerBreak p r => FlushDone p r
            | InnerPanic => FlushPanic
            | InnerFuel => FlushFuel
            end) = FlushDone (map tlink (n1 ++ l0 ++ [Leaf c])) [] /\
      f = length (n1 ++ l0 ++ [Leaf c])).
    { eexists. split; [|reflexivity].
      destruct (length (n1 ++ l0 ++ [Leaf c]) <=? bf); [reflexivity|].
      destruct (length (n1 ++ l0 ++ [Leaf c])) eqn:EL; [rewrite !app_length in EL; cbn in EL; lia|].
      cbn [flush_level]. rewrite skipn_O. rewrite map_app at 1. rewrite position_skip by exact Hpre.
      rewrite (position_level sha 0) by (assumption || (destruct l0; cbn; congruence)).
      cbn [option_map negb andb]. rewrite Nat.add_0_l, Nat.add_0_r.
      replace (length (skipn (length (map tlink n1)) (map tlink (n1 ++ l0 ++ [Leaf c]))))
        with (S (length l0)).
      - destruct (Nat.leb_spec (S (length l0)) bf); [reflexivity|lia].
      - rewrite skipn_length, !map_length, !app_length. cbn [length]. lia. }
    destruct Hgo as (f & Hgo & ->). rewrite Hgo.
    eexists _, _. split; [reflexivity|]. exists n1, (l0 ++ [Leaf c]).
    split; [reflexivity|]. split; [exact H1|]. split; [exact Hl0'|].
    split; [rewrite app_length; cbn [length]; lia|].
    split; [intros E0; destruct l0; discriminate|]. split; [exact Hs1|]. split; [exact Hf0'|].
    split; [exact HC'|exact HP'].
Qed.

Lemma feed_between cs links content out :
  bf <> 0 -> chunk <> 0 -> Forall (fun c => length c = chunk) cs -> between links content out ->
  exists p r, feed links cs = Added (p, r) /\ between p (content ++ concat cs) (out ++ r).
Proof.
  intros Hb Hc H. revert links content out. induction H as [|c cs Hlen _ IH]; intros links content out HB.
  - exists links, []. cbn. rewrite !app_nil_r. auto.
  - destruct (add_chunk_between links content out c Hb Hc Hlen HB) as (p & r & E & HB').
    destruct (IH _ _ _ HB') as (p' & r' & E' & HB''). exists p', (r ++ r').
    cbn [feed concat]. rewrite E, E'. split; [reflexivity|]. rewrite !app_assoc. exact HB''.
Qed.

Lemma between_nil : between [] [] [].
Proof.
  exists [], []. repeat split; try constructor; cbn; lia.
Qed.

(** ** Pushes *)

(** Full chunks of a byte string, and the remainder. *)
Fixpoint split_full (fuel : nat) (l : bytes) : list bytes * bytes :=
  match fuel with
  | O => ([], l)
  | S f => if length l <? chunk then ([], l)
           else let '(cs, r) := split_full f (skipn chunk l) in (firstn chunk l :: cs, r)
  end.

Definition splits (l : bytes) : list bytes * bytes := split_full (length l) l.

Lemma split_full_fuel l f1 f2 :
  chunk <> 0 -> length l <= f1 -> length l <= f2 -> split_full f1 l = split_full f2 l.
Proof.
  intros Hc. revert l f2. induction f1 as [|f1 IH]; intros l f2 H1 H2.
  - destruct l; [|cbn in H1; lia]. destruct f2; [reflexivity|]. cbn [split_full length].
    destruct (Nat.ltb_spec 0 chunk); [reflexivity|lia].
  - destruct f2 as [|f2].
    + destruct l; [|cbn in H2; lia]. cbn [split_full length].
      destruct (Nat.ltb_spec 0 chunk); [reflexivity|lia].
    + cbn [split_full]. destruct (Nat.ltb_spec (length l) chunk); [reflexivity|].
      rewrite (IH (skipn chunk l) f2); [reflexivity|rewrite skipn_length; lia|rewrite skipn_length; lia].
Qed.

Lemma splits_small l : length l < chunk -> splits l = ([], l).
Proof.
  intros H. unfold splits. destruct l; [reflexivity|]. cbn [split_full length] in *.
  destruct (Nat.ltb_spec (S (length l)) chunk); [reflexivity|lia].
Qed.

Lemma splits_app a l :
  chunk <> 0 -> length a = chunk ->
  splits (a ++ l) = (a :: fst (splits l), snd (splits l)).
Proof.
  intros Hc Ha. unfold splits. destruct (length (a ++ l)) as [|f] eqn:E.
  { rewrite app_length in E. lia. }
  cbn [split_full]. rewrite E.
  destruct (Nat.ltb_spec (S f) chunk) as [Hx|_].
  { rewrite <- E, app_length in Hx. lia. }
  replace (skipn chunk (a ++ l)) with l
    by (rewrite <- Ha, skipn_app, skipn_all, Nat.sub_diag; reflexivity).
  replace (firstn chunk (a ++ l)) with a
    by (rewrite <- Ha, firstn_app, firstn_all, Nat.sub_diag; cbn; rewrite app_nil_r; reflexivity).
  rewrite (split_full_fuel l f (length l)); [|assumption|rewrite app_length in E; lia|lia].
  destruct (split_full (length l) l). reflexivity.
Qed.

Lemma splits_spec l :
  chunk <> 0 -> Forall (fun c => length c = chunk) (fst (splits l))
  /\ length (snd (splits l)) < chunk /\ concat (fst (splits l)) ++ snd (splits l) = l.
Proof.
  intros Hc. remember (length l) as k eqn:Hk. revert l Hk.
  induction k as [k IH] using lt_wf_ind. intros l Hk.
  destruct (le_lt_dec chunk (length l)) as [Hl|Hl].
  - rewrite <- (firstn_skipn chunk l).
    assert (Hf : length (firstn chunk l) = chunk) by (rewrite firstn_length; lia).
    rewrite splits_app by assumption. cbn [fst snd concat].
    destruct (IH (length (skipn chunk l)) ltac:(rewrite skipn_length; lia) _ eq_refl) as (H1 & H2 & H3).
    split; [constructor; assumption|]. split; [assumption|]. rewrite <- app_assoc, H3. reflexivity.
  - rewrite splits_small by assumption. cbn. repeat split; auto.
Qed.

(** The state and blocks after pushing [l] in state [s]. *)
Definition pushed (s : adder) (l : bytes) : add_res (adder * list (cid * bytes)) :=
  let '(cs, r) := splits (a_buf s ++ l) in
  match feed (a_links s) cs with
  | Added (p, bs) => Added (mk_adder r p, bs)
  | AddPanic => AddPanic
  | AddFuel => AddFuel
  end.

Lemma push_spec s input :
  chunk <> 0 -> length (a_buf s) < chunk -> input <> [] ->
  let used := Nat.min (length input) (chunk - length (a_buf s)) in
  push sha chunk bf s input =
    if length (a_buf s) + used <? chunk
    then Added (mk_adder (a_buf s ++ input) (a_links s), [], length input)
    else match add_chunk (a_links s) (a_buf s ++ firstn used input) with
         | Added (p, r) => Added (mk_adder [] p, r, used)
         | AddPanic => AddPanic
         | AddFuel => AddFuel
         end.
Proof.
  intros Hc Hb Hi used. unfold push, accept.
  destruct (Nat.ltb_spec chunk (length (a_buf s))); [lia|]. fold used.
  assert (Hfl : length (firstn used input) = used) by (rewrite firstn_length; unfold used; lia).
  destruct (Nat.ltb_spec (length (a_buf s) + used) chunk) as [Hs|Hs].
  - destruct (Nat.leb_spec chunk (length (a_buf s) + used)); [lia|]. rewrite andb_false_r. cbn [orb].
    assert (used = length input) by (unfold used in *; lia).
    rewrite Hfl. rewrite H1, firstn_all. reflexivity.
  - destruct (Nat.leb_spec chunk (length (a_buf s) + used)); [|lia]. rewrite andb_true_r, orb_true_r.
    rewrite Hfl. unfold add_chunk. destruct (a_buf s) as [|x b] eqn:Eb.
    + cbn [app]. destruct (flush_leaf sha (firstn used input) (a_links s) false) as [ls [lf|]]; [|reflexivity].
      destruct (flush_links bf false ls); reflexivity.
    + destruct (flush_leaf sha ((x :: b) ++ firstn used input) (a_links s) false) as [ls [lf|]]; [|reflexivity].
      destruct (flush_links bf false ls); reflexivity.
Qed.

Lemma push_slice_spec fuel s slice :
  chunk <> 0 -> length (a_buf s) < chunk -> length slice <= fuel ->
  push_slice sha fuel chunk bf s slice = pushed s slice.
Proof.
  intros Hc. revert s slice. induction fuel as [|fuel IH]; intros s slice Hb Hf.
  - destruct slice; [|cbn in Hf; lia]. cbn [push_slice]. unfold pushed.
    rewrite app_nil_r, splits_small by assumption. cbn. destruct s; reflexivity.
  - destruct slice as [|x sl].
    + cbn [push_slice]. unfold pushed. rewrite app_nil_r, splits_small by assumption.
      cbn. destruct s; reflexivity.
    + set (slice := x :: sl) in *. cbn [push_slice]. unfold slice at 1. fold slice.
      assert (length slice = S (length sl)) by reflexivity.
      rewrite push_spec by (assumption || (unfold slice; congruence)).
      set (used := Nat.min (length slice) (chunk - length (a_buf s))).
      destruct (Nat.ltb_spec (length (a_buf s) + used) chunk) as [Hs|Hs].
      * assert (used = length slice) by (unfold used in *; lia).
        rewrite skipn_all. rewrite IH; [|cbn [a_buf]; rewrite app_length; lia|cbn; lia].
        unfold pushed. cbn [a_buf a_links]. rewrite app_nil_r.
        rewrite splits_small by (rewrite app_length; lia). reflexivity.
      * assert (Hused : used = chunk - length (a_buf s)) by (unfold used in *; lia).
        assert (used <= length slice) by (unfold used; lia).
        unfold pushed at 1.
        replace (splits (a_buf s ++ slice))
          with (splits ((a_buf s ++ firstn used slice) ++ skipn used slice))
          by (rewrite <- app_assoc, firstn_skipn; reflexivity).
        rewrite splits_app; [|assumption|rewrite app_length, firstn_length; lia].
        cbn [feed]. destruct (add_chunk (a_links s) (a_buf s ++ firstn used slice)) as [[p r]| |] eqn:E.
        -- rewrite IH; [|cbn; lia|rewrite skipn_length; lia]. unfold pushed. cbn [a_buf a_links app].
           destruct (splits (skipn used slice)) as [cs rest]. cbn [fst snd].
           destruct (feed p cs) as [[p' r']| |]; reflexivity.
        -- reflexivity.
        -- reflexivity.
Qed.

Lemma feed_app cs ds links :
  feed links (cs ++ ds) =
  match feed links cs with
  | Added (p, r) => match feed p ds with
                    | Added (p', r') => Added (p', r ++ r')
                    | AddPanic => AddPanic
                    | AddFuel => AddFuel
                    end
  | AddPanic => AddPanic
  | AddFuel => AddFuel
  end.
Proof.
  revert links. induction cs as [|c cs IH]; intros links; cbn [app feed].
  - destruct (feed links ds) as [[? ?]| |]; reflexivity.
  - destruct (add_chunk links c) as [[p r]| |]; [|reflexivity|reflexivity].
    rewrite IH. destruct (feed p cs) as [[p' r']| |]; [|reflexivity|reflexivity].
    destruct (feed p' ds) as [[p'' r'']| |]; [|reflexivity|reflexivity].
    rewrite app_assoc. reflexivity.
Qed.

Lemma splits_app_gen l m :
  chunk <> 0 ->
  splits (l ++ m) = (fst (splits l) ++ fst (splits (snd (splits l) ++ m)),
                     snd (splits (snd (splits l) ++ m))).
Proof.
  intros Hc. remember (length l) as k eqn:Hk. revert l Hk.
  induction k as [k IH] using lt_wf_ind. intros l Hk.
  destruct (le_lt_dec chunk (length l)) as [Hl|Hl].
  - rewrite <- (firstn_skipn chunk l).
    assert (Hf : length (firstn chunk l) = chunk) by (rewrite firstn_length; lia).
    rewrite <- app_assoc.
    rewrite (splits_app _ (skipn chunk l ++ m)), (splits_app _ (skipn chunk l)) by assumption.
    cbn [fst snd app].
    rewrite (IH (length (skipn chunk l))); [reflexivity|rewrite skipn_length; lia|reflexivity].
  - rewrite (splits_small l) by assumption. cbn [fst snd app]. destruct (splits (l ++ m)); reflexivity.
Qed.

Lemma pushed_app s l m s' bs :
  chunk <> 0 ->
  pushed s l = Added (s', bs) ->
  pushed s (l ++ m) = match pushed s' m with
                      | Added (s'', bs') => Added (s'', bs ++ bs')
                      | AddPanic => AddPanic
                      | AddFuel => AddFuel
                      end.
Proof.
  intros Hc. unfold pushed. rewrite app_assoc, (splits_app_gen (a_buf s ++ l) m) by exact Hc.
  destruct (splits (a_buf s ++ l)) as [cs r]. cbn [fst snd]. rewrite feed_app.
  destruct (feed (a_links s) cs) as [[p b]| |]; intros [= <- <-]. cbn [a_buf a_links].
  destruct (splits (r ++ m)) as [ds r']. cbn [fst snd].
  destruct (feed p ds) as [[p' b']| |]; reflexivity.
Qed.

Lemma pushed_fail s l m :
  chunk <> 0 ->
  match pushed s l with
  | Added _ => True
  | AddPanic => pushed s (l ++ m) = AddPanic
  | AddFuel => pushed s (l ++ m) = AddFuel
  end.
Proof.
  intros Hc. unfold pushed. rewrite app_assoc, (splits_app_gen (a_buf s ++ l) m) by exact Hc.
  destruct (splits (a_buf s ++ l)) as [cs r]. cbn [fst snd]. rewrite feed_app.
  destruct (feed (a_links s) cs) as [[p b]| |]; auto.
Qed.

Lemma pushed_buf s l s' bs :
  chunk <> 0 -> pushed s l = Added (s', bs) -> length (a_buf s') < chunk.
Proof.
  intros Hc. unfold pushed. pose proof (splits_spec (a_buf s ++ l) Hc) as (_ & H & _).
  destruct (splits (a_buf s ++ l)) as [cs r]. cbn [snd] in H.
  destruct (feed (a_links s) cs) as [[p b]| |]; intros [= <- <-]. exact H.
Qed.

Lemma push_slices_spec s slices :
  chunk <> 0 -> length (a_buf s) < chunk ->
  push_slices sha chunk bf s slices = pushed s (concat slices).
Proof.
  intros Hc. revert s. induction slices as [|sl slices IH]; intros s Hb.
  - cbn. unfold pushed. rewrite app_nil_r, splits_small by assumption. cbn. destruct s; reflexivity.
  - cbn [push_slices concat]. rewrite push_slice_spec by (assumption || lia).
    pose proof (pushed_fail s sl (concat slices) Hc) as HF.
    destruct (pushed s sl) as [[s' bs]| |] eqn:E; [|congruence|congruence].
    rewrite (pushed_app _ _ _ _ _ Hc E). rewrite IH by (eapply pushed_buf; eauto). reflexivity.
Qed.

(** With a chunk size of zero the first byte pushed panics. *)
Lemma push_slices_zero slices :
  chunk = 0 ->
  push_slices sha chunk bf adder0 slices
  = match concat slices with [] => Added (adder0, []) | _ => AddPanic end.
Proof.
  intros ->. induction slices as [|sl slices IH]; [reflexivity|]. cbn [push_slices concat].
  destruct sl as [|x sl]; [|reflexivity]. cbn [length push_slice app]. rewrite IH.
  destruct (concat slices); reflexivity.
Qed.

Lemma push_slices_cuts a b :
  concat a = concat b -> push_slices sha chunk bf adder0 a = push_slices sha chunk bf adder0 b.
Proof.
  intros E. destruct (Nat.eq_dec chunk 0) as [Hc|Hc].
  - rewrite !push_slices_zero by exact Hc. rewrite E. reflexivity.
  - rewrite !push_slices_spec by (cbn; lia). rewrite E. reflexivity.
Qed.

Lemma add_file_cuts a b :
  concat a = concat b -> add_file sha chunk bf a = add_file sha chunk bf b.
Proof. intros E. unfold add_file. rewrite (push_slices_cuts a b E). reflexivity. Qed.

(** ** A whole add *)

Lemma add_parts slices :
  chunk <> 0 -> 2 <= bf ->
  exists t s bs fs,
    push_slices sha chunk bf adder0 slices = Added (s, bs)
    /\ finish sha bf s = Added fs
    /\ (fs = [] -> length (concat slices) = chunk)
    /\ let out := bs ++ fs in Permutation out (tblocks t)
    /\ (exists o, out = o ++ [tblock t])
    /\ tcontent t = concat slices
    /\ shaped chunk bf true t.
Proof.
  intros Hc Hb. rewrite push_slices_spec by (cbn; lia).
  unfold pushed. cbn [a_buf a_links adder0 app].
  pose proof (splits_spec (concat slices) Hc) as (Hfull & Hrest & Hcat).
  destruct (splits (concat slices)) as [cs rest]. cbn [fst snd] in *.
  destruct (feed_between cs [] [] [] ltac:(lia) Hc Hfull between_nil) as (links & bs & E & HB).
  rewrite E. cbn [app] in HB. destruct HB as (n1 & l0 & -> & H1 & H0 & Hle & Hemp & Hs1 & Hs0 & HC & HP).
  assert (HF : exists l0' leaf,
    flush_leaf sha rest (map tlink (n1 ++ l0)) true = (map tlink (n1 ++ l0'), leaf)
    /\ level_of 0 l0' /\ l0' <> [] /\ shaped_list chunk bf true l0'
    /\ Permutation (bs ++ opt_list leaf) (fblocks (n1 ++ l0'))
    /\ concat (map tcontent (n1 ++ l0')) = concat slices
    /\ (leaf = None -> l0' = l0)).
  { destruct l0 as [|t0 l0r].
    - rewrite (Hemp eq_refl) in *. cbn [app map] in *.
      exists [Leaf rest], (Some (leaf_block sha rest)).
      assert (Hl : shaped chunk bf true (Leaf rest)) by (constructor; [lia|congruence]).
      split; [|split; [|split; [|split; [|split; [|split]]]]].
      + unfold flush_leaf. destruct rest; reflexivity.
      + constructor; [reflexivity|constructor].
      + congruence.
      + constructor. exact Hl.
      + cbn [opt_list]. rewrite HP. reflexivity.
      + cbn. rewrite app_nil_r, <- Hcat. cbn in HC. rewrite <- HC. reflexivity.
      + discriminate.
    - set (l0 := t0 :: l0r) in *. destruct rest as [|x r].
      + exists l0, None. split; [|split; [|split; [|split; [|split; [|split]]]]].
        * unfold flush_leaf. destruct (map tlink (n1 ++ l0)) eqn:Em; [|reflexivity].
          apply map_eq_nil, app_eq_nil in Em as [_ Em]. discriminate.
        * exact H0.
        * unfold l0; congruence.
        * apply shaped_leaves; [unfold l0; congruence|exact H0|exact Hs0].
        * cbn [opt_list]. rewrite app_nil_r. exact HP.
        * rewrite HC, <- Hcat, app_nil_r. reflexivity.
        * auto.
      + set (rest := x :: r) in *.
        exists (l0 ++ [Leaf rest]), (Some (leaf_block sha rest)).
        split; [|split; [|split; [|split; [|split; [|split]]]]].
        * unfold flush_leaf, rest. fold rest. rewrite !map_app, <- app_assoc. reflexivity.
        * apply Forall_app. split; [exact H0|]. constructor; [reflexivity|constructor].
        * destruct l0; discriminate.
        * apply shaped_list_app; [exact Hs0|]. constructor. constructor; [lia|congruence].
        * cbn [opt_list]. rewrite app_assoc, fblocks_app, HP. reflexivity.
        * rewrite app_assoc, map_app, concat_app, HC, <- Hcat. cbn. rewrite app_nil_r. reflexivity.
        * discriminate. }
  destruct HF as (l0' & leaf & EL & Hlev & Hne & Hsh & HPl & HCl & HN).
  destruct (flush_finish n1 l0' Hb H1 Hlev Hne Hs1 Hsh) as (t & o2 & E2 & HP2 & HC2 & HS2 & HR).
  exists t. eexists _, _, (opt_list leaf ++ o2).
  split; [reflexivity|]. split; [unfold finish; cbn [a_buf a_links]; rewrite EL, E2; reflexivity|].
  split; [|cbv zeta; split; [|split; [|split]]].
  - intros Hnil. apply app_eq_nil in Hnil as [Hn1 Hn2]. destruct leaf; [discriminate|].
    destruct HR as [(-> & Hl & _)|[o Ho]]; [|rewrite Hn2 in Ho; destruct o; discriminate].
    rewrite (HN eq_refl) in *. rewrite <- HCl, Hl. cbn [app map concat]. rewrite app_nil_r.
    rewrite Hl in Hs0, Hlev. inversion Hs0 as [|? ? Ht _]; subst.
    inversion Hlev as [|? ? Ht0 _]; subst.
    destruct t as [c|]; [|discriminate]. inversion Ht; subst. auto.
  - rewrite HP2, app_assoc, HPl. reflexivity.
  - destruct HR as [(-> & -> & ->)|[o ->]].
    + exists []. rewrite app_nil_r. cbn [app]. cbn [app] in HPl.
      unfold FileAdderProofs.fblocks in HPl. cbn [map concat] in HPl. rewrite app_nil_r in HPl.
      inversion Hlev as [|? ? Ht _]; subst. destruct t as [c|ts]; [|discriminate].
      cbn [FileAdderProofs.tblocks] in HPl. apply Permutation_sym, Permutation_length_1_inv in HPl.
      exact HPl.
    + exists (bs ++ opt_list leaf ++ o). rewrite !app_assoc. reflexivity.
  - rewrite HC2. exact HCl.
  - exact HS2.
Qed.

Theorem add_file_tree slices :
  chunk <> 0 -> 2 <= bf ->
  exists t out,
    add_file sha chunk bf slices = Added out
    /\ Permutation out (tblocks t)
    /\ (exists o, out = o ++ [tblock t])
    /\ tcontent t = concat slices
    /\ shaped chunk bf true t.
Proof.
  intros Hc Hb. destruct (add_parts slices Hc Hb) as (t & s & bs & fs & E1 & E2 & _ & H).
  exists t, (bs ++ fs). unfold add_file. rewrite E1, E2. split; [reflexivity|exact H].
Qed.

(** A content of exactly one chunk is completed by the pushes: nothing is left for [finish]. *)
Lemma finish_one_chunk slices :
  chunk <> 0 -> 2 <= bf -> length (concat slices) = chunk ->
  exists s bs, push_slices sha chunk bf adder0 slices = Added (s, bs) /\ finish sha bf s = Added [].
Proof.
  intros Hc Hb Hl. rewrite push_slices_spec by (cbn; lia). unfold pushed.
  cbn [a_buf a_links adder0 app].
  replace (splits (concat slices)) with (splits (concat slices ++ [])) by (rewrite app_nil_r; reflexivity).
  rewrite splits_app by assumption.
  rewrite (splits_small []) by (cbn; lia). cbn [fst snd feed].
  unfold add_chunk, flush_leaf. destruct (concat slices) as [|x c] eqn:E; [cbn in Hl; lia|].
  cbn [app]. unfold FileAdder.flush_links. cbn [FileAdder.flush_levels length].
  cbn [Nat.eqb negb andb orb]. destruct (Nat.leb_spec 1 bf); [|lia]. cbn [andb].
  eexists _, _. split; [reflexivity|]. reflexivity.
Qed.

End Add.
