(** Lemmas about [FileAdder]: cutting, flushing, the produced tree. *)
From Coq Require Import Permutation.
From Verif Require Import Base Wire Cid Pb FileSpec FileAdder.

(** ** Cutting *)

Lemma pieces_fuel {A} n (l : list A) f1 f2 :
  n <> 0 -> length l <= f1 -> length l <= f2 -> pieces f1 n l = pieces f2 n l.
Proof.
  intros Hn. revert l f2. induction f1 as [|f1 IH]; intros l f2 H1 H2.
  - destruct l; [|cbn in H1; lia]. destruct f2; reflexivity.
  - destruct f2 as [|f2].
    + destruct l; [reflexivity|cbn in H2; lia].
    + destruct l as [|x l]; [reflexivity|]. cbn [pieces]. f_equal. apply IH.
      * rewrite skipn_length. cbn [length] in *. lia.
      * rewrite skipn_length. cbn [length] in *. lia.
Qed.

Lemma cut_nil {A} n : @cut A n [] = [].
Proof. reflexivity. Qed.

Lemma cut_step {A} n (l : list A) :
  n <> 0 -> l <> [] -> cut n l = firstn n l :: cut n (skipn n l).
Proof.
  intros Hn Hl. destruct l as [|x l]; [congruence|]. unfold cut. cbn [length pieces]. f_equal.
  apply pieces_fuel; auto; rewrite skipn_length; cbn [length]; lia.
Qed.

Lemma cut_ind {A} (n : nat) (P : list A -> Prop) :
  n <> 0 -> P [] -> (forall l, l <> [] -> P (skipn n l) -> P l) -> forall l, P l.
Proof.
  intros Hn H0 HS l. remember (length l) as k eqn:Hk. revert l Hk.
  induction k as [k IH] using lt_wf_ind. intros l Hk. destruct l as [|x l]; [exact H0|].
  apply HS; [congruence|]. eapply IH; [|reflexivity]. rewrite skipn_length, Hk. cbn [length]. lia.
Qed.

Lemma cut_concat {A} n (l : list A) : n <> 0 -> concat (cut n l) = l.
Proof.
  intros Hn. pattern l. apply (cut_ind n); [exact Hn|reflexivity|].
  intros l0 Hl IH. rewrite cut_step by assumption. cbn [concat]. rewrite IH. apply firstn_skipn.
Qed.

Lemma cut_single {A} n (l : list A) : n <> 0 -> l <> [] -> length l <= n -> cut n l = [l].
Proof.
  intros Hn Hl H. rewrite cut_step by assumption. rewrite firstn_all2, skipn_all2 by lia. reflexivity.
Qed.

Lemma cut_app {A} n (a b : list A) : n <> 0 -> length a = n -> cut n (a ++ b) = a :: cut n b.
Proof.
  intros Hn Ha. rewrite cut_step; [|assumption|destruct a; cbn in *; congruence].
  rewrite <- Ha, firstn_app, skipn_app, Nat.sub_diag, firstn_all, skipn_all. cbn.
  rewrite app_nil_r. reflexivity.
Qed.

Lemma cut_length {A} n (l : list A) : 2 <= n -> 2 <= length l -> length (cut n l) < length l.
Proof.
  intros Hn.
  assert (Hg : forall l : list A, l <> [] -> 2 * length (cut n l) <= length l + 1).
  { apply (cut_ind n (fun l => l <> [] -> 2 * length (cut n l) <= length l + 1)); [lia|congruence|].
    intros l0 Hl IH _. rewrite cut_step by (lia || assumption). cbn [length].
    destruct (skipn n l0) as [|y r] eqn:E.
    - rewrite cut_nil. cbn. destruct l0; [congruence|cbn; lia].
    - specialize (IH ltac:(congruence)). rewrite <- E in IH. rewrite skipn_length in IH.
      assert (n < length l0).
      { assert (length (skipn n l0) <> 0) by (rewrite E; cbn; lia). rewrite skipn_length in H. lia. }
      rewrite <- E. lia. }
  intros Hl. specialize (Hg l ltac:(destruct l; cbn in *; [lia|congruence])). lia.
Qed.

Lemma cut_nonempty {A} n (l : list A) : n <> 0 -> l <> [] -> cut n l <> [].
Proof. intros. rewrite cut_step by assumption. congruence. Qed.

(** ** Trees and their links *)

Section Trees.
Variable sha : bytes -> bytes.

Notation render := render.
Notation block_cid := (block_cid sha).

Definition leaf_link (c : bytes) : link :=
  let b := render (leaf_flat c) in mk_link 0 (block_cid b) (blen b) (blen c).
Definition leaf_block (c : bytes) : cid * bytes :=
  let b := render (leaf_flat c) in (block_cid b, b).

Fixpoint height (t : ftree) : nat :=
  match t with Leaf _ => 0 | Node ts => S (hd 0 (map height ts)) end.

Fixpoint tlink (t : ftree) : link :=
  match t with
  | Leaf c => leaf_link c
  | Node ts => node_link sha (hd 0 (map height ts)) (map tlink ts)
  end.

Definition tblock (t : ftree) : cid * bytes :=
  match t with Leaf c => leaf_block c | Node ts => node_block sha (map tlink ts) end.

(** All blocks of a tree, children before parents, the root last. *)
Fixpoint tblocks (t : ftree) : list (cid * bytes) :=
  match t with
  | Leaf c => [leaf_block c]
  | Node ts => concat (map tblocks ts) ++ [node_block sha (map tlink ts)]
  end.

Definition fblocks (ts : list ftree) : list (cid * bytes) := concat (map tblocks ts).

Lemma fblocks_app a b : fblocks (a ++ b) = fblocks a ++ fblocks b.
Proof. unfold fblocks. rewrite map_app, concat_app. reflexivity. Qed.

Lemma fblocks_cons a b : fblocks (a :: b) = tblocks a ++ fblocks b.
Proof. reflexivity. Qed.

Fixpoint tcontent (t : ftree) : bytes :=
  match t with Leaf c => c | Node ts => concat (map tcontent ts) end.

Lemma ftree_ind' (P : ftree -> Prop) :
  (forall c, P (Leaf c)) -> (forall ts, Forall P ts -> P (Node ts)) -> forall t, P t.
Proof.
  intros HL HN. fix IH 1. intros [c|ts]; [apply HL|]. apply HN.
  induction ts as [|t ts IHts]; constructor; [apply IH|apply IHts].
Qed.

(** Every tree of a list has the given height, with children uniform. *)
Definition level_of (h : nat) (ts : list ftree) : Prop := Forall (fun t => height t = h) ts.

Lemma k_depth_tlink t : k_depth (tlink t) = height t.
Proof. destruct t; reflexivity. Qed.

Lemma tlink_node h g :
  g <> [] -> level_of h g -> tlink (Node g) = node_link sha h (map tlink g).
Proof. intros Hg H. destruct g as [|t g]; [congruence|]. inversion H; subst. reflexivity. Qed.

Lemma height_node h g : g <> [] -> level_of h g -> height (Node g) = S h.
Proof. intros Hg H. destruct g as [|t g]; [congruence|]. inversion H; subst. reflexivity. Qed.

Lemma level_firstn h n g : level_of h g -> level_of h (firstn n g).
Proof.
  unfold level_of. rewrite <- (firstn_skipn n g) at 1. intros H. apply Forall_app in H. apply H.
Qed.
Lemma level_skipn h n g : level_of h g -> level_of h (skipn n g).
Proof.
  unfold level_of. rewrite <- (firstn_skipn n g) at 1. intros H. apply Forall_app in H. apply H.
Qed.

Definition group (bf : nat) (ts : list ftree) : list ftree := map Node (cut bf ts).
Definition gblocks (bf : nat) (ts : list ftree) : list (cid * bytes) :=
  map (fun g => node_block sha (map tlink g)) (cut bf ts).

Lemma cut_level bf h ts :
  bf <> 0 -> level_of h ts -> Forall (fun g => g <> [] /\ length g <= bf /\ level_of h g) (cut bf ts).
Proof.
  intros Hb. pattern ts. apply (cut_ind bf); [exact Hb|constructor|].
  intros l Hl IH H. rewrite cut_step by assumption. constructor.
  - repeat split.
    + destruct l; [congruence|]. destruct bf; [congruence|]. cbn. congruence.
    + rewrite firstn_length. lia.
    + apply level_firstn. exact H.
  - apply IH. apply level_skipn. exact H.
Qed.

Lemma group_level bf h ts : bf <> 0 -> level_of h ts -> level_of (S h) (group bf ts).
Proof.
  intros Hb H. pose proof (cut_level bf h ts Hb H) as HC. unfold group, level_of.
  induction HC as [|g gs (Hg & _ & Hh) _ IH]; constructor; [|exact IH].
  apply height_node; assumption.
Qed.

Lemma concat_map_concat {A B} (f : A -> list B) (l : list (list A)) :
  concat (map f (concat l)) = concat (map (fun g => concat (map f g)) l).
Proof.
  induction l as [|x l IH]; [reflexivity|]. cbn. rewrite map_app, concat_app, IH. reflexivity.
Qed.

Lemma perm_interleave {A} (gs : list (list A)) (xs : list A) (pairs : list (list A * A)) :
  gs = map fst pairs -> xs = map snd pairs ->
  Permutation (concat (map (fun p => fst p ++ [snd p]) pairs)) (concat gs ++ xs).
Proof.
  intros -> ->. induction pairs as [|[g x] ps IH]; [constructor|]. cbn.
  rewrite <- !app_assoc. apply Permutation_app_head. cbn.
  etransitivity; [apply perm_skip; exact IH|]. apply Permutation_middle.
Qed.

Lemma group_blocks bf ts :
  bf <> 0 -> Permutation (fblocks (group bf ts)) (fblocks ts ++ gblocks bf ts).
Proof.
  intros Hb. unfold fblocks at 2. rewrite <- (cut_concat bf ts Hb) at 2.
  rewrite concat_map_concat. unfold fblocks, group, gblocks. rewrite map_map. cbn [tblocks].
  rewrite <- (perm_interleave (map (fun g => concat (map tblocks g)) (cut bf ts)) _
               (map (fun g => (concat (map tblocks g), node_block sha (map tlink g))) (cut bf ts)));
    rewrite ?map_map; reflexivity.
Qed.

Lemma group_content bf ts :
  bf <> 0 -> concat (map tcontent (group bf ts)) = concat (map tcontent ts).
Proof.
  intros Hb. transitivity (concat (map tcontent (concat (cut bf ts)))).
  - rewrite (concat_map_concat (B := N) tcontent). unfold group. rewrite map_map. reflexivity.
  - rewrite cut_concat by exact Hb. reflexivity.
Qed.

(** ** One level of [flush_links] *)

Lemma position_level h ts : ts <> [] -> level_of h ts -> position h (map tlink ts) = Some 0.
Proof.
  intros Hn H. destruct ts as [|t ts]; [congruence|]. inversion H; subst. cbn [map position].
  rewrite k_depth_tlink, Nat.eqb_refl. reflexivity.
Qed.

Lemma position_skip h pre l :
  Forall (fun k => k_depth k <> h) pre ->
  position h (pre ++ l) = option_map (fun p => p + length pre) (position h l).
Proof.
  intros H. induction H as [|k pre Hk _ IH]; cbn [app position length].
  - destruct (position h l); cbn; [f_equal; lia|reflexivity].
  - destruct (Nat.eqb_spec (k_depth k) h); [congruence|]. rewrite IH.
    destruct (position h l); cbn; [f_equal; lia|reflexivity].
Qed.

Lemma set_nth_length {A} i (x : A) l : length (set_nth i x l) = length l.
Proof.
  unfold set_nth. rewrite app_length, firstn_length.
  destruct (skipn i l) as [|y r] eqn:E.
  - assert (length (skipn i l) = 0) by (rewrite E; reflexivity). rewrite skipn_length in H. cbn. lia.
  - assert (length (skipn i l) = S (length r)) by (rewrite E; reflexivity).
    rewrite skipn_length in H. cbn. lia.
Qed.

Lemma set_nth_skipn {A} i (x : A) l n : i < n -> skipn n (set_nth i x l) = skipn n l.
Proof.
  intros H. unfold set_nth. destruct (le_lt_dec (length l) i) as [Hi|Hi].
  - rewrite (skipn_all2 l (n := i)) by exact Hi. rewrite app_nil_r, firstn_all2 by exact Hi. reflexivity.
  - rewrite skipn_app, firstn_length, Nat.min_l by lia.
    rewrite skipn_all2 by (rewrite firstn_length; lia). cbn [app].
    destruct (skipn i l) as [|y r] eqn:E.
    + assert (length (skipn i l) = 0) by (rewrite E; reflexivity). rewrite skipn_length in H0. lia.
    + replace n with ((n - i) + i) at 2 by lia. rewrite <- skipn_skipn, E.
      replace (n - i) with (S (n - i - 1)) by lia. reflexivity.
Qed.

Lemma set_nth_firstn {A} i (x : A) l :
  i < length l -> firstn (S i) (set_nth i x l) = firstn i l ++ [x].
Proof.
  intros H. unfold set_nth. rewrite firstn_app, firstn_length, Nat.min_l by lia.
  rewrite (firstn_all2 (n := S i)) by (rewrite firstn_length; lia).
  replace (S i - i) with 1 by lia. destruct (skipn i l) as [|y r] eqn:E; [|reflexivity].
  assert (length (skipn i l) = 0) by (rewrite E; reflexivity). rewrite skipn_length in H0. lia.
Qed.

Lemma forallb_level h ts : level_of h ts -> forallb (fun k => Nat.eqb (k_depth k) h) (map tlink ts) = true.
Proof.
  intros H. induction H as [|t ts Ht _ IH]; [reflexivity|]. cbn [map forallb].
  rewrite k_depth_tlink, Ht, Nat.eqb_refl. exact IH.
Qed.

(** The group formed at [first_at], the rest of [pending] being [map tlink ts]. *)
Lemma group_at pending first_at bf ts :
  skipn first_at pending = map tlink ts ->
  firstn (Nat.min (first_at + bf) (length pending) - first_at) (skipn first_at pending)
  = map tlink (firstn bf ts).
Proof.
  intros H. rewrite H. rewrite firstn_map. f_equal.
  assert (HL : length pending - first_at = length ts).
  { rewrite <- skipn_length, H, map_length. reflexivity. }
  destruct (le_lt_dec (length ts) bf) as [Hl|Hl].
  - rewrite !firstn_all2 by lia. reflexivity.
  - f_equal. lia.
Qed.

Lemma rest_at pending first_at bf ts :
  skipn first_at pending = map tlink ts ->
  skipn (Nat.min (first_at + bf) (length pending)) pending = map tlink (skipn bf ts).
Proof.
  intros H.
  assert (HL : length pending - first_at = length ts).
  { rewrite <- skipn_length, H, map_length. reflexivity. }
  destruct (le_lt_dec (length ts) bf) as [Hl|Hl].
  - rewrite (skipn_all2 ts) by exact Hl. rewrite skipn_all2 by lia. reflexivity.
  - rewrite Nat.min_l by lia. replace (first_at + bf) with (bf + first_at) by lia.
    rewrite <- skipn_skipn, H, skipn_map. reflexivity.
Qed.

Lemma flush_level_finish_rest fuel bf level pending start i ts ret :
  bf <> 0 -> length ts <= fuel ->
  skipn start pending = map tlink ts -> level_of level ts -> i < start -> start <= length pending ->
  flush_level sha fuel bf true level pending start (Some i) ret
  = InnerDone (firstn (S i) pending ++ map tlink (group bf ts)) (ret ++ gblocks bf ts).
Proof.
  intros Hb. revert pending start i ts ret.
  induction fuel as [|fuel IH]; intros pending start i ts ret Hf Hs Hl Hi Hst.
  - destruct ts; [|cbn in Hf; lia]. cbn [flush_level]. rewrite Hs. cbn.
    rewrite !app_nil_r. reflexivity.
  - cbn [flush_level]. rewrite Hs. destruct ts as [|t ts0].
    + cbn. rewrite !app_nil_r. reflexivity.
    + set (ts := t :: ts0) in *.
      assert (Hne : ts <> []) by (unfold ts; congruence).
      rewrite (position_level level ts Hne Hl). cbn [negb andb]. rewrite Nat.add_0_l.
      rewrite (group_at pending start bf ts Hs).
      rewrite (forallb_level level _ (level_firstn _ bf _ Hl)).
      assert (HL : length pending - start = length ts).
      { rewrite <- skipn_length, Hs, map_length. reflexivity. }
      assert (length ts = S (length ts0)) by reflexivity.
      pose proof (set_nth_skipn (S i) (node_link sha level (map tlink (firstn bf ts))) pending
                    (Nat.min (start + bf) (length pending)) ltac:(lia)) as E1.
      pose proof (set_nth_length (S i) (node_link sha level (map tlink (firstn bf ts))) pending) as E2.
      rewrite (IH _ _ _ (skipn bf ts)).
      * rewrite set_nth_firstn by lia. unfold group, gblocks. rewrite (cut_step bf ts) by assumption.
        cbn [map]. rewrite (tlink_node level).
        -- rewrite <- !app_assoc. reflexivity.
        -- unfold ts. destruct bf; [congruence|]. cbn. congruence.
        -- apply level_firstn; assumption.
      * rewrite skipn_length. unfold ts at 1 in Hf. cbn [length] in Hf. lia.
      * rewrite E1. apply rest_at. exact Hs.
      * apply level_skipn; assumption.
      * lia.
      * rewrite E2. lia.
Qed.

Lemma flush_level_finish fuel bf level pre ts ret :
  bf <> 0 -> length ts <= fuel -> ts <> [] ->
  Forall (fun k => k_depth k <> level) pre -> level_of level ts ->
  flush_level sha fuel bf true level (pre ++ map tlink ts) 0 None ret
  = InnerDone (pre ++ map tlink (group bf ts)) (ret ++ gblocks bf ts).
Proof.
  intros Hb Hf Hne Hpre Hl. destruct fuel as [|fuel]; [destruct ts; [congruence|cbn in Hf; lia]|].
  cbn [flush_level]. rewrite skipn_O, position_skip by exact Hpre.
  rewrite (position_level level ts Hne Hl). cbn [option_map negb andb].
  rewrite Nat.add_0_l, Nat.add_0_r.
  assert (Hs : skipn (length pre) (pre ++ map tlink ts) = map tlink ts).
  { rewrite skipn_app, skipn_all, Nat.sub_diag. reflexivity. }
  rewrite (group_at _ (length pre) bf ts Hs).
  rewrite (forallb_level level _ (level_firstn _ bf _ Hl)).
  assert (HL : length (pre ++ map tlink ts) = length pre + length ts).
  { rewrite app_length, map_length. reflexivity. }
  assert (length ts <> 0) by (destruct ts; cbn; congruence).
  pose proof (set_nth_skipn (length pre) (node_link sha level (map tlink (firstn bf ts)))
                (pre ++ map tlink ts)
                (Nat.min (length pre + bf) (length (pre ++ map tlink ts))) ltac:(lia)) as E1.
  pose proof (set_nth_length (length pre) (node_link sha level (map tlink (firstn bf ts)))
                (pre ++ map tlink ts)) as E2.
  rewrite (flush_level_finish_rest _ _ _ _ _ _ (skipn bf ts)).
  - rewrite set_nth_firstn by lia.
    rewrite firstn_app, firstn_all, Nat.sub_diag. cbn [firstn]. rewrite app_nil_r.
    unfold group, gblocks. rewrite (cut_step bf ts) by assumption.
    cbn [map]. rewrite (tlink_node level).
    + rewrite <- !app_assoc. reflexivity.
    + destruct ts; [congruence|]. destruct bf; [congruence|]. cbn. congruence.
    + apply level_firstn; assumption.
  - exact Hb.
  - rewrite skipn_length. lia.
  - rewrite E1. apply rest_at. exact Hs.
  - apply level_skipn; assumption.
  - lia.
  - rewrite E2. lia.
Qed.

(** Not finishing: [bf + 1] links of level 0 behind links of other depths. *)
Lemma flush_level_push fuel bf pre ts t ret :
  bf <> 0 -> fuel <> 0 -> length ts = bf ->
  Forall (fun k => k_depth k <> 0) pre -> level_of 0 (ts ++ [t]) ->
  flush_level sha fuel bf false 0 (pre ++ map tlink (ts ++ [t])) 0 None ret
  = InnerBreak (pre ++ [tlink (Node ts)] ++ [tlink t]) (ret ++ [node_block sha (map tlink ts)]).
Proof.
  intros Hb Hf Hlen Hpre Hl. destruct fuel as [|fuel]; [congruence|].
  assert (Hlt : level_of 0 ts /\ height t = 0).
  { unfold level_of in *. apply Forall_app in Hl. destruct Hl as [? H]. inversion H; auto. }
  destruct Hlt as [Hlts Ht].
  cbn [flush_level]. rewrite skipn_O, position_skip by exact Hpre.
  rewrite (position_level 0 (ts ++ [t])) by (assumption || destruct ts; cbn; congruence).
  cbn [option_map negb andb]. rewrite Nat.add_0_l, Nat.add_0_r.
  set (pending := pre ++ map tlink (ts ++ [t])).
  assert (Hs : skipn (length pre) pending = map tlink (ts ++ [t])).
  { unfold pending. rewrite skipn_app, skipn_all, Nat.sub_diag. reflexivity. }
  assert (HL : length pending = length pre + S bf).
  { unfold pending. rewrite app_length, map_length, app_length. cbn. lia. }
  rewrite (group_at _ (length pre) bf (ts ++ [t]) Hs).
  rewrite Hs, map_length, app_length, Hlen. cbn [length].
  destruct (Nat.leb_spec (bf + 1) bf); [lia|].
  rewrite (forallb_level 0 _ (level_firstn _ bf _ Hl)).
  replace (firstn bf (ts ++ [t])) with ts
    by (rewrite <- Hlen, firstn_app, firstn_all, Nat.sub_diag; cbn; rewrite app_nil_r; reflexivity).
  rewrite Nat.min_l by lia.
  set (k := node_link sha 0 (map tlink ts)).
  assert (Hk : k = tlink (Node ts)).
  { symmetry. apply tlink_node; [destruct ts; cbn in *; congruence|assumption]. }
  assert (E1 : skipn (length pre + bf) (set_nth (length pre) k pending) = [tlink t]).
  { rewrite set_nth_skipn by lia. replace (length pre + bf) with (bf + length pre) by lia.
    rewrite <- skipn_skipn, Hs, skipn_map. rewrite <- Hlen, skipn_app, skipn_all, Nat.sub_diag.
    reflexivity. }
  assert (E2 : firstn (S (length pre)) (set_nth (length pre) k pending) = pre ++ [k]).
  { rewrite set_nth_firstn by lia. unfold pending. rewrite firstn_app, firstn_all, Nat.sub_diag.
    cbn. rewrite app_nil_r. reflexivity. }
  destruct fuel as [|fuel]; cbn [flush_level]; rewrite E1; cbn [position];
    rewrite k_depth_tlink, Ht; cbn [Nat.eqb option_map]; rewrite Nat.add_0_l, E1; cbn [length];
    (destruct (Nat.leb_spec 1 bf); [|lia]); cbn [negb andb]; rewrite E2, Hk, <- app_assoc; reflexivity.
Qed.

End Trees.
