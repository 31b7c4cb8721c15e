From Verif Require Import Base Wire FsConc.
Local Open Scope nat_scope.

Lemma upd_length {A} n (x : A) l : length (upd n x l) = length l.
Proof. revert n. induction l as [|y l IH]; intros [|n]; cbn; auto. Qed.
Lemma upd_nth_error {A} n (x : A) l m :
  nth_error (upd n x l) m = if m =? n then (if n <? length l then Some x else None) else nth_error l m.
Proof.
  revert n m. induction l as [|y l IH]; intros n m.
  - cbn [upd length]. replace (nth_error [] m) with (@None A) by (destruct m; reflexivity).
    replace (n <? 0) with false by (symmetry; apply Nat.ltb_ge; lia). destruct (m =? n); destruct m; reflexivity.
  - destruct n as [|n], m as [|m]; cbn [upd nth_error]; try reflexivity. rewrite IH. cbn. reflexivity.
Qed.
Lemma upd_nth {A} n (x d : A) l m : nth m (upd n x l) d = if (m =? n) && (n <? length l) then x else nth m l d.
Proof.
  revert n m. induction l as [|y l IH]; intros n m.
  - cbn [upd length]. replace (n <? 0) with false by (symmetry; apply Nat.ltb_ge; lia). rewrite andb_false_r. reflexivity.
  - destruct n as [|n], m as [|m]; cbn [upd nth length]; try reflexivity. rewrite IH. reflexivity.
Qed.

Section D.
Variable data : bytes.

Definition wins (b : blk) : bool :=
  match b with BOpen | BWrite _ _ | BRename | BOk => true | _ => false end.
Definition putting (t : task) : bool := match t with TPut _ b => wins b | _ => false end.

Definition blk_ok (tg tm : option nat) (ino : list bytes) (b : blk) : Prop :=
  match b with
  | BNot | BCreate => True
  | BLost => tg <> None
  | BOpen => exists i, tg = Some i /\ nth i ino [] = []
  | BWrite j k => tm = Some j /\ tg <> None /\ k <= length data /\ nth j ino [] = firstn k data
  | BRename => exists j, tm = Some j /\ tg <> None /\ nth j ino [] = data
  | BOk => exists i, tg = Some i /\ nth i ino [] = data
  | _ => False
  end.
Definition put_ok (a : put_st) (b : blk) : Prop :=
  match a with
  | PStart => b = BNot | PNew => b = BOk | PExisted | PRecv _ _ => b = BLost | PFailed | PPanic => False
  | _ => True
  end.
Definition get_ok (tm : option nat) (ino : list bytes) (g : get_st) : Prop :=
  match g with
  | GReading i acc =>
      i < length ino /\ tm <> Some i /\ (nth i ino [] = [] \/ nth i ino [] = data) /\
      acc = firstn (length acc) (nth i ino [])
  | GDone (Some x) => x = [] \/ x = data
  | GPanic => False
  | _ => True
  end.
Definition task_ok (tg tm : option nat) (ino : list bytes) (t : task) : Prop :=
  match t with
  | TPut a b => blk_ok tg tm ino b /\ put_ok a b
  | TGet g => get_ok tm ino g
  | TRm _ => False
  end.

Record inv (s : st) : Prop := {
  i_target : forall i, target s = Some i -> i < length (inodes s) /\ tmp s <> Some i;
  i_tmp : forall i, tmp s = Some i -> i < length (inodes s);
  i_tasks : forall n t, nth_error (tasks s) n = Some t -> task_ok (target s) (tmp s) (inodes s) t;
  i_uniq : forall m n t t', nth_error (tasks s) m = Some t -> nth_error (tasks s) n = Some t' ->
      putting t = true -> putting t' = true -> m = n;
  i_full : forall i, target s = Some i ->
      inode s i = data \/
      (inode s i = [] /\ exists n a b, nth_error (tasks s) n = Some (TPut a b) /\ wins b = true /\ b <> BOk);
  i_msgs : length (concat (chans s)) <= 1 /\ Forall (eq true) (concat (chans s)) /\
      (concat (chans s) <> [] -> exists n, nth_error (tasks s) n = Some (TPut PNew BOk))
}.

(** Changing one task and nothing else. *)
Lemma inv_task s n t t' :
  inv s -> nth_error (tasks s) n = Some t ->
  task_ok (target s) (tmp s) (inodes s) t' ->
  putting t' = putting t ->
  (forall a b, t = TPut a b -> wins b = true -> exists a', t' = TPut a' b /\ (a = PNew -> a' = PNew)) ->
  inv (set_task n t' s).
Proof.
  intros [H1 H2 H3 H4 H5 H6] Hn Hok Hp Hb.
  assert (Hlt : n <? length (tasks s) = true) by (apply Nat.ltb_lt, nth_error_Some; congruence).
  assert (T : forall m x, nth_error (tasks (set_task n t' s)) m = Some x ->
     (m = n /\ x = t') \/ (m <> n /\ nth_error (tasks s) m = Some x)).
  { intros m x. cbn. rewrite upd_nth_error, Hlt. destruct (Nat.eqb_spec m n); [intros [= <-]; auto|auto]. }
  assert (K : forall m a b, nth_error (tasks s) m = Some (TPut a b) -> wins b = true ->
    exists a', nth_error (tasks (set_task n t' s)) m = Some (TPut a' b) /\ (a = PNew -> a' = PNew)).
  { intros m a b Hm Wb. cbn. rewrite upd_nth_error, Hlt. destruct (Nat.eqb_spec m n) as [->|]; [|exists a; auto].
    rewrite Hn in Hm. injection Hm as ->. destruct (Hb _ _ eq_refl Wb) as (a' & -> & Ha). eauto. }
  split; try assumption.
  - intros m x Hx. apply T in Hx as [[-> ->]|[_ Hx]]; [exact Hok|eauto].
  - intros m m' x x' Hx Hx' P P'.
    apply T in Hx as [[-> ->]|[Hne Hx]]; apply T in Hx' as [[-> ->]|[Hne' Hx']]; try reflexivity.
    + rewrite Hp in P. exact (H4 _ _ _ _ Hn Hx' P P').
    + rewrite Hp in P'. exact (H4 _ _ _ _ Hx Hn P P').
    + exact (H4 _ _ _ _ Hx Hx' P P').
  - intros i Hi. destruct (H5 i Hi) as [E|[E (m & a & b & Hm & W & NO)]]; [left; exact E|right].
    split; [exact E|]. destruct (K _ _ _ Hm W) as (a' & Hm' & _). exists m, a', b. auto.
  - destruct H6 as (M1 & M2 & M3). split; [exact M1|]. split; [exact M2|]. intros Hc. destruct (M3 Hc) as [m Hm].
    destruct (K _ _ _ Hm eq_refl) as (a' & Hm' & Ha). rewrite (Ha eq_refl) in Hm'. eauto.
Qed.

(** The same when only the map of ongoing writes changes too. *)
Lemma inv_writes s w : inv s -> inv (set_writes w s).
Proof. intros [H1 H2 H3 H4 H5 H6]. split; assumption. Qed.

Lemma inv_new_chan s : inv s -> inv (set_chans (chans s ++ [[]]) s).
Proof.
  intros [H1 H2 H3 H4 H5 H6]. split; try assumption. cbn. rewrite concat_app. cbn. rewrite app_nil_r. exact H6.
Qed.

(** A step of the blocking task of the winner (or of the future winner): no other task holds
    anything of the files except readers of finished or empty files. *)
Lemma inv_files s n a b b' tg tm ino :
  inv s -> nth_error (tasks s) n = Some (TPut a b) ->
  (wins b = true \/ target s = None) -> wins b' = true ->
  a <> PNew ->
  put_ok a b' -> blk_ok tg tm ino b' -> tg <> None ->
  (forall i, tg = Some i -> i < length ino /\ tm <> Some i /\ (nth i ino [] = data \/ (nth i ino [] = [] /\ b' <> BOk))) ->
  (forall i, tm = Some i -> i < length ino) ->
  length (inodes s) <= length ino ->
  (forall i, i < length (inodes s) -> tmp s <> Some i -> tm <> Some i /\ nth i ino [] = nth i (inodes s) []) ->
  inv (set_task n (TPut a b') (mk_st tg tm ino (writes s) (chans s) (tasks s))).
Proof.
  intros [H1 H2 H3 H4 H5 H6] Hn Hw Hw' Ha Hpo Hbo Htg Ht Htm Hlen Hino.
  assert (Hlt : n <? length (tasks s) = true) by (apply Nat.ltb_lt, nth_error_Some; congruence).
  assert (T : forall m x, nth_error (upd n (TPut a b') (tasks s)) m = Some x ->
     (m = n /\ x = TPut a b') \/ (m <> n /\ nth_error (tasks s) m = Some x)).
  { intros m x. rewrite upd_nth_error, Hlt. destruct (Nat.eqb_spec m n); [intros [= <-]; auto|auto]. }
  (* the others are not writers *)
  assert (O : forall m x, m <> n -> nth_error (tasks s) m = Some x -> putting x = false).
  { intros m x Hm Hx. destruct (putting x) eqn:P; [|reflexivity]. exfalso. destruct Hw as [Hw|Hw].
    - apply Hm. exact (H4 _ _ _ _ Hx Hn P Hw).
    - destruct x as [a0 b0|g|r]; try discriminate P. destruct (H3 _ _ Hx) as [Hb0 _]. rewrite Hw in Hb0.
      destruct b0; cbn in P; try discriminate P; cbn in Hb0.
      + destruct Hb0 as (i & ? & _); discriminate.
      + destruct Hb0 as (_ & ? & _); congruence.
      + destruct Hb0 as (i & _ & ? & _); congruence.
      + destruct Hb0 as (i & ? & _); discriminate. }
  split; cbn [set_task target tmp inodes tasks chans].
  - intros i Hi. destruct (Ht i Hi) as (A & B & _). auto.
  - exact Htm.
  - intros m x Hx. apply T in Hx as [[-> ->]|[Hm Hx]]; [split; assumption|].
    pose proof (H3 _ _ Hx) as Hok. pose proof (O _ _ Hm Hx) as P. destruct x as [a0 b0|g|r]; cbn in *.
    + destruct Hok as [Hb0 Hp0]. split; [|exact Hp0]. destruct b0; try discriminate P; cbn in *; auto.
    + destruct g; try exact Hok. cbn in *. destruct Hok as (A & B & C & D).
      destruct (Hino i A B) as [B' E]. rewrite E. repeat split; auto. lia.
    + exact Hok.
  - intros m m' x x' Hx Hx' P P'.
    apply T in Hx as [[-> ->]|[Hne Hx]]; apply T in Hx' as [[-> ->]|[Hne' Hx']]; try reflexivity.
    + rewrite (O _ _ Hne' Hx') in P'. discriminate.
    + rewrite (O _ _ Hne Hx) in P. discriminate.
    + rewrite (O _ _ Hne Hx) in P. discriminate.
  - intros i Hi. destruct (Ht i Hi) as (_ & _ & [E|[E NO]]); [left; exact E|right]. split; [exact E|].
    exists n, a, b'. rewrite upd_nth_error, Nat.eqb_refl, Hlt. auto.
  - destruct H6 as (M1 & M2 & M3). split; [exact M1|]. split; [exact M2|]. intros Hc. destruct (M3 Hc) as [m Hm].
    exists m. rewrite upd_nth_error. destruct (Nat.eqb_spec m n) as [->|]; [|exact Hm].
    rewrite Hn in Hm. injection Hm as ->. congruence.
Qed.

Lemma write_at_append k n (c : bytes) : c = firstn k data -> k <= length data ->
  write_at k (firstn n (skipn k data)) c = firstn (k + length (firstn n (skipn k data))) data.
Proof.
  intros -> Hk. unfold write_at. set (chunk := firstn n (skipn k data)).
  assert (L : length (firstn k data) = k) by (rewrite firstn_length; lia).
  rewrite firstn_app, firstn_firstn, Nat.min_id, L, Nat.sub_diag, firstn_O, app_nil_r.
  rewrite (skipn_all2 (firstn k data)) by lia. rewrite app_nil_r.
  rewrite <- (firstn_skipn k data) at 2. rewrite firstn_app, firstn_firstn, L.
  replace (Nat.min (k + length chunk) k) with k by lia. f_equal. replace (k + length chunk - k) with (length chunk) by lia.
  unfold chunk. rewrite firstn_length. destruct (Nat.le_gt_cases n (length (skipn k data))).
  - rewrite Nat.min_l by lia. reflexivity.
  - rewrite Nat.min_r by lia. rewrite firstn_all, firstn_all2; [reflexivity|lia].
Qed.

Lemma blk_inv s n a b k s' b' : inv s -> nth_error (tasks s) n = Some (TPut a b) ->
  blk_step data false k s b = Some (s', b') -> inv (set_task n (TPut a b') s').
Proof.
  intros Hi Hn E. pose proof Hi as [H1 H2 H3 H4 H5 H6]. destruct (H3 _ _ Hn) as [Hb Hp].
  assert (NA : b <> BOk -> a <> PNew) by (intros Hne ->; cbn in Hp; congruence).
  assert (NP : forall b'', b <> BLost -> b <> BOk -> b <> BNot -> put_ok a b'').
  { intros b'' A B C. destruct a; cbn in *; auto; congruence. }
  destruct b as [| | |j w| | | | |]; cbn [blk_step] in E; try discriminate E; cbn in Hb; try contradiction.
  - (* create *)
    destruct (target s) as [i|] eqn:Et; injection E as <- <-.
    + (* lost *)
      apply (inv_task s n (TPut a BCreate)); auto; [|intros a0 b0 [= <- <-]; discriminate].
      split; [cbn; congruence|]. apply NP; discriminate.
    + apply inv_files with (s := s) (b := BCreate); cbn; auto.
      * apply NA. discriminate.
      * apply NP; discriminate.
      * exists (length (inodes s)). split; [reflexivity|]. rewrite app_nth2, Nat.sub_diag by lia. reflexivity.
      * discriminate.
      * intros i [= <-]. rewrite app_length. cbn. split; [lia|]. split.
        -- intros Ht. apply H2 in Ht. lia.
        -- right. rewrite app_nth2, Nat.sub_diag by lia. split; [reflexivity|discriminate].
      * intros i Ht. apply H2 in Ht. rewrite app_length. lia.
      * rewrite app_length. lia.
      * intros i Hlt Hne. split; [exact Hne|]. apply app_nth1. exact Hlt.
  - (* open *)
    destruct Hb as (i & Et & Ei). destruct (H1 _ Et) as [Lt Ne].
    destruct (tmp s) as [j|] eqn:Em; injection E as <- <-.
    + pose proof (H2 _ eq_refl) as Lj.
      apply inv_files with (s := s) (b := BOpen); cbn; rewrite ?upd_length; auto.
      * apply NA. discriminate.
      * apply NP; discriminate.
      * rewrite upd_nth, Nat.eqb_refl. replace (j <? length (inodes s)) with true by (symmetry; apply Nat.ltb_lt; lia).
        cbn. repeat split; [exact Em|congruence|lia].
      * congruence.
      * intros i' Et'. assert (i' = i) by congruence. subst i'. split; [exact Lt|]. rewrite Em. split; [exact Ne|].
        right. split; [|discriminate]. rewrite upd_nth.
        destruct (Nat.eqb_spec i j); [congruence|]. cbn. exact Ei.
      * rewrite Em. intros i' [= <-]. exact Lj.
      * intros i' Hlt Hne. split; [exact Hne|]. rewrite upd_nth. destruct (Nat.eqb_spec i' j); [congruence|]. reflexivity.
    + apply inv_files with (s := s) (b := BOpen); cbn; rewrite ?app_length; cbn; auto.
      * apply NA. discriminate.
      * apply NP; discriminate.
      * rewrite app_nth2, Nat.sub_diag by lia. cbn. repeat split; [congruence|lia].
      * congruence.
      * intros i' Et'. assert (i' = i) by congruence. subst i'. split; [lia|]. split; [intros [= X]; lia|].
        right. split; [|discriminate]. rewrite app_nth1 by exact Lt. exact Ei.
      * intros i' [= <-]. lia.
      * lia.
      * intros i' Hlt _. split; [intros [= X]; lia|]. apply app_nth1. exact Hlt.
  - (* write *)
    destruct Hb as (Em & Et & Lk & Ej). pose proof (H2 _ Em) as Lj.
    destruct (skipn w data) as [|x r] eqn:Ed.
    + injection E as <- <-.
      apply inv_files with (s := s) (b := BWrite j w) (tg := target s) (tm := tmp s) (ino := inodes s); cbn; auto.
      * apply NA. discriminate.
      * apply NP; discriminate.
      * exists j. split; [exact Em|]. split; [exact Et|]. rewrite Ej. apply firstn_all2.
        apply (f_equal (@length N)) in Ed. rewrite skipn_length in Ed. cbn in Ed. lia.
      * intros i Hi'. destruct (H1 _ Hi') as [A B]. split; [exact A|]. split; [exact B|].
        destruct (H5 _ Hi') as [X|[X _]]; [left; exact X|right; split; [exact X|discriminate]].
    + rewrite <- Ed in E. injection E as <- <-. unfold inode.
      apply inv_files with (s := s) (b := BWrite j w); cbn; rewrite ?upd_length; auto.
      * apply NA. discriminate.
      * apply NP; discriminate.
      * split; [exact Em|]. split; [exact Et|]. split.
        -- assert (length (firstn (S k) (skipn w data)) <= length data - w) by (rewrite firstn_length, skipn_length; lia).
           cbn [firstn] in *. lia.
        -- rewrite upd_nth, Nat.eqb_refl. replace (j <? length (inodes s)) with true by (symmetry; apply Nat.ltb_lt; lia).
           cbn [andb]. apply (write_at_append w (S k)); assumption.
      * intros i Hi'. destruct (H1 _ Hi') as [A B]. split; [exact A|]. split; [exact B|]. rewrite upd_nth.
        destruct (Nat.eqb_spec i j); [congruence|]. cbn [andb].
        destruct (H5 _ Hi') as [X|[X _]]; [left; exact X|right; split; [exact X|discriminate]].
      * intros i' Hlt Hne. split; [exact Hne|]. rewrite upd_nth. destruct (Nat.eqb_spec i' j); [congruence|]. reflexivity.
  - (* rename *)
    destruct Hb as (j & Em & Et & Ej). pose proof (H2 _ Em) as Lj. rewrite Em in E. injection E as <- <-.
    apply inv_files with (s := s) (b := BRename); cbn; auto.
    + apply NA. discriminate.
    + apply NP; discriminate.
    + exists j. auto.
    + discriminate.
    + intros i [= <-]. split; [exact Lj|]. split; [discriminate|]. left. exact Ej.
    + discriminate.
    + intros i' Hlt Hne. split; [discriminate|reflexivity].
Qed.

Lemma messages_sub (l : list (list bool)) ch : length (nth ch l []) <= length (concat l) /\
  (Forall (eq true) (concat l) -> Forall (eq true) (nth ch l [])).
Proof.
  revert ch. induction l as [|x l IH]; intros ch; [destruct ch; cbn; auto|].
  cbn [concat]. rewrite app_length, Forall_app. destruct ch as [|ch]; cbn [nth]; [split; [lia|tauto]|].
  destruct (IH ch) as [A B]. split; [lia|tauto].
Qed.

Lemma receive_inv s ch pos : inv s -> receive s ch pos = Blocked \/ receive s ch pos = Got true \/ receive s ch pos = Closed.
Proof.
  intros [_ _ _ _ _ (M1 & M2 & _)]. unfold receive, messages.
  destruct (messages_sub (chans s) ch) as [A B]. specialize (B M2).
  assert (L : length (skipn pos (nth ch (chans s) [])) <= 1) by (rewrite skipn_length; lia).
  assert (F : Forall (eq true) (skipn pos (nth ch (chans s) []))).
  { rewrite <- (firstn_skipn pos (nth ch (chans s) [])) in B. apply Forall_app in B. tauto. }
  destruct (skipn pos (nth ch (chans s) [])) as [|m [|m' r]]; [destruct (is_open s ch); auto| |cbn in L; lia].
  inversion F; subst. auto.
Qed.

Lemma concat_nil (l : list (list bool)) : concat l = [] -> forall ch, nth ch l [] = [].
Proof.
  intros H ch. destruct (messages_sub l ch) as [A _]. rewrite H in A. cbn in A. destruct (nth ch l []); [reflexivity|cbn in A; lia].
Qed.
Lemma concat_upd (l : list (list bool)) ch m : concat l = [] -> concat (upd ch [m] l) = [m] \/ concat (upd ch [m] l) = [].
Proof.
  revert ch. induction l as [|x l IH]; intros ch H; [destruct ch; cbn; auto|]. cbn [concat] in H.
  apply app_eq_nil in H as [-> H]. destruct ch as [|ch]; cbn [upd concat app]; [rewrite H; auto|]. apply IH. exact H.
Qed.

Lemma inv_send s n ch pos : inv s -> nth_error (tasks s) n = Some (TPut (PReturned ch pos) BOk) ->
  inv (set_task n (TPut PNew BOk) (send s ch true)).
Proof.
  intros Hi Hn. pose proof Hi as [H1 H2 H3 H4 H5 (M1 & M2 & M3)].
  assert (Ec : concat (chans s) = []).
  { destruct (concat (chans s)) eqn:Ec; [reflexivity|]. destruct (M3 ltac:(discriminate)) as [m Hm].
    pose proof (H4 _ _ _ _ Hm Hn eq_refl eq_refl) as ->. rewrite Hn in Hm. discriminate Hm. }
  assert (G : inv (set_task n (TPut PNew BOk) s)).
  { apply (inv_task s n (TPut (PReturned ch pos) BOk)); auto.
    - split; [exact (proj1 (H3 _ _ Hn))|reflexivity].
    - intros a b [= <- <-] _. exists PNew. auto. }
  destruct G as [G1 G2 G3 G4 G5 _]. split; try assumption. cbn.
  unfold messages. rewrite (concat_nil _ Ec). cbn [app].
  assert (X : exists n0, nth_error (upd n (TPut PNew BOk) (tasks s)) n0 = Some (TPut PNew BOk)).
  { exists n. rewrite upd_nth_error, Nat.eqb_refl.
    replace (n <? length (tasks s)) with true by (symmetry; apply Nat.ltb_lt, nth_error_Some; congruence). reflexivity. }
  destruct (concat_upd (chans s) ch true Ec) as [-> | ->]; cbn; auto.
Qed.

Lemma put_inv s n a b s' t' : inv s -> nth_error (tasks s) n = Some (TPut a b) ->
  put_step s a b = Some (s', t') -> inv (set_task n t' s').
Proof.
  intros Hi Hn E. pose proof Hi as [H1 H2 H3 H4 H5 H6]. destruct (H3 _ _ Hn) as [Hb Hp].
  destruct a as [|ch pos|ch pos|ch pos| | | | |]; cbn [put_step] in E; try discriminate E; cbn in Hp.
  - subst b. destruct (writes s); injection E as <- <-.
    + apply (inv_task s n (TPut PStart BNot)); auto; [split; exact I|]. intros a b [= <- <-]; discriminate.
    + apply (inv_task _ n (TPut PStart BNot)); auto.
      * apply inv_writes, inv_new_chan, Hi.
      * split; exact I.
      * intros a b [= <- <-]; discriminate.
  - destruct b; try discriminate E; cbn in Hb; try contradiction; injection E as <- <-.
    + apply (inv_task _ n (TPut (PWait ch pos) BOk)); auto.
      * apply inv_writes, Hi.
      * split; [exact Hb|exact I].
      * intros a b [= <- <-] _. exists (PReturned ch pos). split; [reflexivity|discriminate].
    + apply (inv_task _ n (TPut (PWait ch pos) BLost)); auto.
      * apply inv_writes, Hi.
      * split; [exact Hb|exact I].
      * intros a b [= <- <-]; discriminate.
  - destruct b; try discriminate E; cbn in Hb; try contradiction; injection E as <- <-.
    + apply inv_send with (pos := pos); assumption.
    + apply (inv_task _ n (TPut (PReturned ch pos) BLost)); auto.
      * split; [exact Hb|reflexivity].
      * intros a b [= <- <-]; discriminate.
  - subst b. assert (G : inv (set_task n (TPut PExisted BLost) s)).
    { apply (inv_task _ n (TPut (PRecv ch pos) BLost)); auto.
      * split; [exact Hb|reflexivity].
      * intros a b [= <- <-]; discriminate. }
    destruct (receive_inv s ch pos Hi) as [R|[R|R]]; rewrite R in E; [discriminate| |]; injection E as <- <-; exact G.
Qed.

Lemma read_more (c acc : bytes) m : acc = firstn (length acc) c ->
  acc ++ firstn m (skipn (length acc) c) = firstn (length (acc ++ firstn m (skipn (length acc) c))) c.
Proof.
  intros E. set (x := acc ++ _).
  assert (P : c = x ++ skipn m (skipn (length acc) c)).
  { unfold x. rewrite <- app_assoc, firstn_skipn. rewrite <- (firstn_skipn (length acc) c) at 1. rewrite <- E. reflexivity. }
  rewrite P. rewrite firstn_app, Nat.sub_diag, firstn_all, firstn_O, app_nil_r. reflexivity.
Qed.

Lemma get_ok_step s n g k g' : inv s -> nth_error (tasks s) n = Some (TGet g) ->
  get_step k s g = Some g' -> get_ok (tmp s) (inodes s) g'.
Proof.
  intros Hi Hn E. pose proof Hi as [H1 H2 H3 H4 H5 H6]. pose proof (H3 _ _ Hn) as Hg. cbn in Hg.
  destruct g as [|ch pos| |i acc|r| |]; cbn [get_step] in E; try discriminate E.
  - destruct (writes s); injection E as <-; exact I.
  - destruct (receive_inv s ch pos Hi) as [R|[R|R]]; rewrite R in E; [discriminate| |]; injection E as <-; exact I.
  - destruct (target s) as [i|] eqn:Et; injection E as <-; [|exact I]. destruct (H1 _ eq_refl) as [A B].
    cbn. repeat split; auto. destruct (H5 _ eq_refl) as [X|[X _]]; auto.
  - cbn in Hg. destruct Hg as (A & B & C & D). destruct (skipn (length acc) (inode s i)) as [|x r] eqn:Er.
    + injection E as <-. cbn.
      assert (X : acc = nth i (inodes s) []).
      { unfold inode in Er. rewrite <- (firstn_skipn (length acc) (nth i (inodes s) [])). rewrite Er, app_nil_r. exact D. }
      rewrite X. exact C.
    + rewrite <- Er in E. injection E as <-. cbn [get_ok]. split; [exact A|]. split; [exact B|]. split; [exact C|].
      apply (read_more (nth i (inodes s) []) acc (S k)). exact D.
Qed.
Lemma get_inv s n g k g' : inv s -> nth_error (tasks s) n = Some (TGet g) ->
  get_step k s g = Some g' -> inv (set_task n (TGet g') s).
Proof.
  intros Hi Hn E. apply (inv_task s n (TGet g)); auto; [exact (get_ok_step s n g k g' Hi Hn E)|discriminate].
Qed.

Lemma drop_inv s n t s' t' : inv s -> nth_error (tasks s) n = Some t ->
  drop_step s t = Some (s', t') -> inv (set_task n t' s').
Proof.
  intros Hi Hn E. pose proof (i_tasks _ Hi _ _ Hn) as Hok. destruct t as [a b|g|r]; cbn in Hok; [| |contradiction].
  - destruct Hok as [Hb Hp]. destruct a; cbn [drop_step] in E; try discriminate E; injection E as <- <-.
    + apply (inv_task s n (TPut PStart b)); auto; [split; [exact Hb|exact I]|].
      intros a' b' [= <- <-] _. exists PDropped. split; [reflexivity|discriminate].
    + apply (inv_task _ n (TPut (PWait ch pos) b)); auto; [apply inv_writes, Hi|split; [exact Hb|exact I]|].
      intros a' b' [= <- <-] _. exists PDropped. split; [reflexivity|discriminate].
    + apply (inv_task s n (TPut (PRecv ch pos) b)); auto; [split; [exact Hb|exact I]|].
      intros a' b' [= <- <-] _. exists PDropped. split; [reflexivity|discriminate].
  - assert (G : inv (set_task n (TGet GDropped) s)).
    { apply (inv_task s n (TGet g)); auto; [exact I|discriminate]. }
    destruct g; cbn [drop_step] in E; try discriminate E; injection E as <- <-; exact G.
Qed.

Definition no_fail (c : nat * label) : Prop := snd c <> Fail.

Lemma step_inv s c : no_fail c -> inv s -> inv (step data s c).
Proof.
  intros Hf Hi. destruct c as [n l]. unfold step. cbn [fst snd].
  destruct (nth_error (tasks s) n) as [t|] eqn:Hn; [|exact Hi].
  destruct (task_step data s t l) as [[s' t']|] eqn:E; [|exact Hi].
  pose proof (i_tasks _ Hi _ _ Hn) as Hok.
  destruct l as [|k| |]; cbn [task_step] in E.
  - destruct t as [a b|g|r]; [|destruct (get_step 0 s g) as [g'|] eqn:Eg; [|discriminate]; injection E as <- <-|contradiction].
    + exact (put_inv _ _ _ _ _ _ Hi Hn E).
    + exact (get_inv _ _ _ _ _ Hi Hn Eg).
  - destruct t as [a b|g|r]; [| |contradiction].
    + destruct (blk_step data false k s b) as [[s1 b1]|] eqn:Eb; [|discriminate]. injection E as <- <-.
      exact (blk_inv _ _ _ _ _ _ _ Hi Hn Eb).
    + destruct (get_step k s g) as [g'|] eqn:Eg; [|discriminate]. injection E as <- <-.
      exact (get_inv _ _ _ _ _ Hi Hn Eg).
  - exfalso. apply Hf. reflexivity.
  - exact (drop_inv _ _ _ _ _ Hi Hn E).
Qed.

Lemma run_inv sched : forall s, Forall no_fail sched -> inv s -> inv (run data s sched).
Proof.
  induction sched as [|c l IH]; intros s Hf Hi; [exact Hi|]. inversion Hf; subst. cbn. apply IH; [assumption|].
  apply step_inv; assumption.
Qed.

Lemma start_inv present leftover calls : ~ In KRemove calls -> inv (start data present leftover calls).
Proof.
  intros Hr. assert (T : forall n t, nth_error (map fresh calls) n = Some t -> t = TPut PStart BNot \/ t = TGet GStart).
  { intros n t Ht. apply nth_error_In, in_map_iff in Ht as (k & <- & Hk). destruct k; cbn; auto. contradiction. }
  split; cbn.
  - intros i Hi. destruct present; [|discriminate]. injection Hi as <-. split; [lia|]. destruct leftover; discriminate.
  - intros i Hi. destruct leftover; [|discriminate]. injection Hi as <-. lia.
  - intros n t Ht. destruct (T _ _ Ht) as [->| ->]; cbn; auto.
  - intros m n t t' Ht _ P _. destruct (T _ _ Ht) as [->| ->]; discriminate P.
  - intros i Hi. destruct present; [|discriminate]. injection Hi as <-. left. reflexivity.
  - split; [lia|]. split; [constructor|]. intros H; contradiction.
Qed.

(** * The block file once complete *)
Definition full (s : st) : Prop := exists i, target s = Some i /\ inode s i = data.

(** The invariant has no removing tasks, so only blocking tasks touch the files. *)
Lemma step_files s c : no_fail c -> inv s ->
  (target (step data s c) = target s /\ tmp (step data s c) = tmp s /\ inodes (step data s c) = inodes s) \/
  exists n a b k s' b', c = (n, Block k) /\ nth_error (tasks s) n = Some (TPut a b) /\
    blk_step data false k s b = Some (s', b') /\ step data s c = set_task n (TPut a b') s'.
Proof.
  intros Hf Hi. destruct c as [n l]. unfold step. cbn [fst snd].
  destruct (nth_error (tasks s) n) as [t|] eqn:Hn; [|auto].
  destruct (task_step data s t l) as [[s' t']|] eqn:E; [|auto].
  pose proof (i_tasks _ Hi _ _ Hn) as Hok.
  destruct l as [|k| |]; cbn [task_step] in E.
  - left. destruct t as [a b|g|r]; [|destruct (get_step 0 s g) as [g'|] eqn:Eg; [|discriminate]; injection E as <- <-; auto|contradiction].
    destruct a; cbn [put_step] in E; try discriminate E.
    + destruct (writes s); injection E as <- <-; auto.
    + destruct b; try discriminate E; injection E as <- <-; auto.
    + destruct b; try discriminate E; injection E as <- <-; auto.
    + destruct (receive s ch pos) as [|[]| |]; try discriminate E; injection E as <- <-; auto.
  - destruct t as [a b|g|r]; [| |contradiction].
    + right. destruct (blk_step data false k s b) as [[s1 b1]|] eqn:Eb; [|discriminate]. injection E as <- <-.
      exists n, a, b, k, s1, b1. auto.
    + left. destruct (get_step k s g) as [g'|] eqn:Eg; [|discriminate]. injection E as <- <-. auto.
  - exfalso. apply Hf. reflexivity.
  - left. destruct t as [a b|g|r]; [| |contradiction].
    + destruct a; cbn [drop_step] in E; try discriminate E; injection E as <- <-; auto.
    + destruct g; cbn [drop_step] in E; try discriminate E; injection E as <- <-; auto.
Qed.

Lemma blk_files s n a b k s' b' : inv s -> nth_error (tasks s) n = Some (TPut a b) ->
  blk_step data false k s b = Some (s', b') ->
  (full s -> full s') /\ length (inodes s) <= length (inodes s') /\
  (forall i, i < length (inodes s) -> tmp s <> Some i -> tmp s' <> Some i /\ inode s' i = inode s i) /\
  writes s' = writes s /\ chans s' = chans s /\ tasks s' = tasks s.
Proof.
  intros Hi Hn E. pose proof Hi as [H1 H2 H3 H4 H5 H6]. destruct (H3 _ _ Hn) as [Hb Hp].
  destruct b as [| | |j w| | | | |]; cbn [blk_step] in E; try discriminate E; cbn in Hb; try contradiction.
  - destruct (target s) as [i|] eqn:Et; injection E as <- <-.
    + repeat split; auto.
    + split; [intros (i & X & _); congruence|]. cbn. rewrite app_length. split; [lia|]. split; [|auto].
      intros i Hlt Hne. split; [exact Hne|]. unfold inode. cbn. apply app_nth1. exact Hlt.
  - destruct Hb as (i & Et & Ei). destruct (H1 _ Et) as [Lt Ne].
    destruct (tmp s) as [j|] eqn:Em; injection E as <- <-; unfold full, inode; cbn; rewrite ?upd_length, ?app_length.
    + split; [|split; [lia|]].
      * intros (i' & X & Y). exists i'. split; [exact X|]. rewrite upd_nth. destruct (Nat.eqb_spec i' j); [congruence|exact Y].
      * split; [|auto]. intros i' Hlt Hne. split; [congruence|]. rewrite upd_nth. destruct (Nat.eqb_spec i' j); [congruence|reflexivity].
    + split; [|split; [lia|]].
      * intros (i' & X & Y). exists i'. split; [exact X|]. rewrite app_nth1 by (destruct (H1 _ X); lia). exact Y.
      * split; [|auto]. intros i' Hlt _. split; [intros [= X]; lia|]. apply app_nth1. exact Hlt.
  - destruct Hb as (Em & Et & Lk & Ej). pose proof (H2 _ Em) as Lj.
    destruct (skipn w data) as [|x r] eqn:Ed.
    + injection E as <- <-. repeat split; auto.
    + rewrite <- Ed in E. injection E as <- <-. unfold full, inode; cbn; rewrite ?upd_length.
      split; [|split; [lia|]].
      * intros (i' & X & Y). exists i'. split; [exact X|]. destruct (H1 _ X). rewrite upd_nth. destruct (Nat.eqb_spec i' j); [congruence|exact Y].
      * split; [|auto]. intros i' Hlt Hne. split; [congruence|]. rewrite upd_nth. destruct (Nat.eqb_spec i' j); [congruence|reflexivity].
  - destruct Hb as (j & Em & Et & Ej). rewrite Em in E. injection E as <- <-. unfold full, inode; cbn.
    split; [|split; [lia|]].
    + intros _. exists j. auto.
    + split; [|auto]. intros i' _ _. split; [discriminate|reflexivity].
Qed.

Lemma full_step s c : no_fail c -> inv s -> full s -> full (step data s c).
Proof.
  intros Hf Hi F. destruct (step_files s c Hf Hi) as [(A & B & C)|(n & a & b & k & s' & b' & -> & Hn & E & ->)].
  - destruct F as (i & X & Y). exists i. unfold inode in *. rewrite A, C. auto.
  - destruct (blk_files _ _ _ _ _ _ _ Hi Hn E) as (G & _). exact (G F).
Qed.
Lemma frozen_step s c i : no_fail c -> inv s -> i < length (inodes s) -> tmp s <> Some i ->
  inode (step data s c) i = inode s i /\ i < length (inodes (step data s c)) /\ tmp (step data s c) <> Some i.
Proof.
  intros Hf Hi L N. destruct (step_files s c Hf Hi) as [(A & B & C)|(n & a & b & k & s' & b' & -> & Hn & E & ->)].
  - unfold inode. rewrite B, C. auto.
  - destruct (blk_files _ _ _ _ _ _ _ Hi Hn E) as (_ & G1 & G2 & _). destruct (G2 i L N) as [X Y]. cbn.
    split; [exact Y|]. split; [lia|exact X].
Qed.
Lemma full_run sched : forall s, Forall no_fail sched -> inv s -> full s -> full (run data s sched).
Proof.
  induction sched as [|c l IH]; intros s Hf Hi F; [exact F|]. inversion Hf; subst. cbn.
  apply IH; [assumption|apply step_inv; assumption|apply full_step; assumption].
Qed.

(** Which task a step changes. *)
Lemma step_other s n l m : m <> n -> nth_error (tasks (step data s (n, l))) m = nth_error (tasks s) m.
Proof.
  intros Hm. unfold step. cbn [fst snd]. destruct (nth_error (tasks s) n) as [t|] eqn:Hn; [|reflexivity].
  destruct (task_step data s t l) as [[s' t']|] eqn:E; [|reflexivity]. cbn [set_task tasks].
  rewrite upd_nth_error. destruct (Nat.eqb_spec m n); [contradiction|]. f_equal.
  destruct l as [|k| |]; cbn [task_step] in E.
  - destruct t as [a b|g|r].
    + destruct a; cbn [put_step] in E; try discriminate E.
      * destruct (writes s); injection E as <- <-; auto.
      * destruct b; try discriminate E; injection E as <- <-; auto.
      * destruct b; try discriminate E; injection E as <- <-; auto.
      * destruct (receive s ch pos) as [|[]| |]; try discriminate E; injection E as <- <-; auto.
    + destruct (get_step 0 s g); [|discriminate]. injection E as <- <-. auto.
    + destruct (rm_step s r) as [[s1 r1]|] eqn:Er; [|discriminate]. injection E as <- <-. cbn.
      destruct r; cbn in Er; try discriminate Er.
      * destruct (writes s); injection Er as <- <-; auto.
      * destruct (receive s ch pos) as [|[]| |]; try discriminate Er; injection Er as <- <-; auto.
      * destruct (target s); injection Er as <- <-; auto.
  - destruct t as [a b|g|r]; [| |discriminate].
    + destruct (blk_step data false k s b) as [[s1 b1]|] eqn:Eb; [|discriminate]. injection E as <- <-. cbn.
      destruct b; cbn [blk_step] in Eb; try discriminate Eb.
      * destruct (target s); injection Eb as <- <-; auto.
      * destruct (tmp s); injection Eb as <- <-; auto.
      * destruct (skipn k0 data); injection Eb as <- <-; auto.
      * destruct (tmp s); injection Eb as <- <-; auto.
      * injection Eb as <- <-; auto.
    + destruct (get_step k s g); [|discriminate]. injection E as <- <-. auto.
  - destruct t as [a b|g|r]; [|discriminate|discriminate].
    destruct (blk_step data true 0 s b) as [[s1 b1]|] eqn:Eb; [|discriminate]. injection E as <- <-. cbn.
    destruct b; cbn [blk_step] in Eb; try discriminate Eb; injection Eb as <- <-; auto.
  - destruct t as [a b|g|r].
    + destruct a; cbn [drop_step] in E; try discriminate E; injection E as <- <-; auto.
    + destruct g; cbn [drop_step] in E; try discriminate E; injection E as <- <-; auto.
    + destruct r; cbn [drop_step] in E; try discriminate E; injection E as <- <-; auto.
Qed.

(** * Gets that begin after the block is complete *)
Definition late (s : st) (g : get_st) : Prop :=
  match g with
  | GReading i _ => inode s i = data /\ i < length (inodes s) /\ tmp s <> Some i
  | GDone r => r = Some data
  | _ => True
  end.

Lemma late_step s c n g : no_fail c -> inv s -> full s -> nth_error (tasks s) n = Some (TGet g) -> late s g ->
  exists g', nth_error (tasks (step data s c)) n = Some (TGet g') /\ late (step data s c) g'.
Proof.
  intros Hf Hi F Hn Hl.
  assert (Keep : late (step data s c) g).
  { destruct g; cbn in *; auto. destruct Hl as (A & B & C). destruct (frozen_step s c i Hf Hi B C) as (X & Y & Z).
    rewrite X. auto. }
  destruct c as [m l]. destruct (Nat.eq_dec n m) as [<-|Hne].
  2: { exists g. rewrite step_other by exact Hne. auto. }
  pose proof (step_inv s (n, l) Hf Hi) as Hi'. revert Keep Hi'. unfold step. cbn [fst snd]. rewrite Hn.
  assert (Hlt : n <? length (tasks s) = true) by (apply Nat.ltb_lt, nth_error_Some; congruence).
  destruct (task_step data s (TGet g) l) as [[s' t']|] eqn:E; [|intros Keep _; exists g; auto].
  assert (G : forall k g', get_step k s g = Some g' -> inv (set_task n (TGet g') s) -> late (set_task n (TGet g') s) g').
  { intros k g' Eg Hi'. destruct g as [|ch pos| |i acc|r| |]; cbn [get_step] in Eg; try discriminate Eg.
    - destruct (writes s); injection Eg as <-; exact I.
    - destruct (receive_inv s ch pos Hi) as [R|[R|R]]; rewrite R in Eg; [discriminate| |]; injection Eg as <-; exact I.
    - destruct F as (i & X & Y). rewrite X in Eg. injection Eg as <-. destruct (i_target _ Hi _ X). cbn. auto.
    - cbn in Hl. destruct (skipn (length acc) (inode s i)) as [|x r] eqn:Er.
      + injection Eg as <-. cbn. f_equal.
        pose proof (i_tasks _ Hi _ _ Hn) as (_ & _ & _ & D). destruct Hl as [Hl _].
        rewrite <- (firstn_skipn (length acc) (inode s i)) in Hl. rewrite Er, app_nil_r in Hl. unfold inode in Hl. congruence.
      + injection Eg as <-. exact Hl. }
  assert (N : nth_error (tasks (set_task n t' s)) n = Some t').
  { cbn. rewrite upd_nth_error, Nat.eqb_refl, Hlt. reflexivity. }
  destruct l as [|k| |]; cbn [task_step] in E.
  - destruct (get_step 0 s g) as [g'|] eqn:Eg; [|discriminate]. injection E as <- <-. intros _ Hi'. exists g'. eauto.
  - destruct (get_step k s g) as [g'|] eqn:Eg; [|discriminate]. injection E as <- <-. intros _ Hi'. exists g'. eauto.
  - discriminate.
  - destruct g; cbn [drop_step] in E; try discriminate E; injection E as <- <-; intros _ _; exists GDropped; (split; [exact N|exact I]).
Qed.

Lemma late_run sched : forall s n g, Forall no_fail sched -> inv s -> full s ->
  nth_error (tasks s) n = Some (TGet g) -> late s g ->
  exists g', nth_error (tasks (run data s sched)) n = Some (TGet g') /\ late (run data s sched) g'.
Proof.
  induction sched as [|c l IH]; intros s n g Hf Hi F Hn Hl; [exists g; auto|]. inversion Hf; subst. cbn.
  destruct (late_step s c n g) as (g' & Hn' & Hl'); auto.
  apply (IH _ n g'); auto; [apply step_inv; assumption|apply full_step; assumption].
Qed.

(** * Two puts *)
Definition joined (a : put_st) : option nat :=
  match a with PWait ch _ | PReturned ch _ | PRecv ch _ => Some ch | _ => None end.
Definition early (a : put_st) (b : blk) : Prop :=
  match a with
  | PStart => b = BNot
  | PWait _ _ => b <> BOk
  | PReturned _ _ | PRecv _ _ => b = BLost
  | _ => False
  end.
Definition agree (w : option nat) (a a' : put_st) : Prop :=
  match joined a, joined a' with
  | None, None => w = None
  | Some ch, None | None, Some ch => w = Some ch
  | Some c, Some c' => c = c'
  end.
Lemma agree_sym w a a' : agree w a a' -> agree w a' a.
Proof. unfold agree. destruct (joined a), (joined a'); congruence. Qed.
Definition pair_ok (s : st) (n m : nat) : Prop :=
  exists a b a' b',
    nth_error (tasks s) n = Some (TPut a b) /\ nth_error (tasks s) m = Some (TPut a' b') /\
    early a b /\ early a' b' /\ concat (chans s) = [] /\ agree (writes s) a a'.
Lemma pair_sym s n m : pair_ok s n m -> pair_ok s m n.
Proof.
  intros (a & b & a' & b' & H1 & H2 & H3 & H4 & H5 & H6). exists a', b', a, b.
  repeat (split; [assumption|]). apply agree_sym. exact H6.
Qed.
(** The puts are the tasks 0 and 1. *)
Definition two (s : st) : Prop := forall n t, nth_error (tasks s) n = Some t ->
  match t with TPut _ _ => n = 0 \/ n = 1 | TGet _ => 2 <= n | TRm _ => False end.

Lemma full_dec s : full s \/ ~ full s.
Proof.
  destruct (target s) as [i|] eqn:Et.
  - destruct (list_eq_dec N.eq_dec (inode s i) data) as [E|E]; [left; exists i; auto|right].
    intros (j & Ej & X). congruence.
  - right. intros (j & Ej & _). congruence.
Qed.

Lemma get_step_state s n l m : nth_error (tasks s) n = Some (TGet m) ->
  writes (step data s (n, l)) = writes s /\ chans (step data s (n, l)) = chans s.
Proof.
  intros Hn. unfold step. cbn [fst snd]. rewrite Hn. destruct l as [|k| |]; cbn [task_step].
  - destruct (get_step 0 s m); auto.
  - destruct (get_step k s m); auto.
  - auto.
  - destruct m; cbn [drop_step]; auto.
Qed.

Lemma set_task_same n t s x : nth_error (tasks s) n = Some x -> nth_error (tasks (set_task n t s)) n = Some t.
Proof.
  intros H. cbn. rewrite upd_nth_error, Nat.eqb_refl.
  replace (n <? length (tasks s)) with true by (symmetry; apply Nat.ltb_lt, nth_error_Some; congruence). reflexivity.
Qed.
Lemma set_task_other n t s m : m <> n -> nth_error (tasks (set_task n t s)) m = nth_error (tasks s) m.
Proof. intros H. cbn. rewrite upd_nth_error. destruct (Nat.eqb_spec m n); [contradiction|reflexivity]. Qed.

Lemma pair_step s n m l : no_fail (n, l) -> l <> Drop -> inv s -> two s -> n <> m -> ~ full s ->
  (forall k t, nth_error (tasks s) k = Some t -> putting t = true -> k = n \/ k = m) ->
  pair_ok s n m -> full (step data s (n, l)) \/ pair_ok (step data s (n, l)) n m.
Proof.
  intros Hf Hd Hi Ht Hnm Hnf Hpm (a & b & a' & b' & Hn & Hm & He & He' & Hc & Hw).
  destruct (i_tasks _ Hi _ _ Hn) as [Hb Hp].
  (* when this put lost, the other is writing *)
  assert (Other : b = BLost -> exists ch pos, a' = PWait ch pos).
  { intros ->. cbn in Hb. destruct (target s) as [i|] eqn:Et; [|congruence].
    destruct (i_full _ Hi i Et) as [X|[_ (k & x & y & Hk & Wy & _)]]; [exfalso; apply Hnf; exists i; auto|].
    destruct (Hpm _ _ Hk Wy) as [->| ->].
    - rewrite Hn in Hk. injection Hk as <- <-. discriminate Wy.
    - rewrite Hm in Hk. injection Hk as <- <-. destruct a'; cbn in He'; subst; try discriminate Wy; try contradiction. eauto. }
  unfold step. cbn [fst snd]. rewrite Hn.
  destruct l as [|k| |]; cbn [task_step]; [| |exfalso; apply Hf; reflexivity|congruence].
  - destruct (put_step s a b) as [[s' t']|] eqn:E; [|right; exists a, b, a', b'; repeat (split; [assumption|]); assumption].
    right. destruct a as [|ch pos|ch pos|ch pos| | | | |]; cbn [put_step] in E; try discriminate E.
    + (* join *)
      assert (Hbn : b = BNot) by exact He. subst b. unfold agree in Hw. cbn [joined] in Hw.
      destruct (joined a') as [ch'|] eqn:Ej.
      * rewrite Hw in E. injection E as <- <-. exists (PWait ch' (length (messages s ch'))), BCreate, a', b'.
        split; [eapply set_task_same; exact Hn|]. split; [rewrite set_task_other by auto; exact Hm|].
        split; [discriminate|]. split; [exact He'|]. split; [exact Hc|].
        unfold agree. cbn [joined]. rewrite Ej. reflexivity.
      * rewrite Hw in E. injection E as <- <-. exists (PWait (length (chans s)) 0), BCreate, a', b'.
        split; [eapply set_task_same; exact Hn|]. split; [rewrite set_task_other by auto; exact Hm|].
        split; [discriminate|]. split; [exact He'|]. split.
        -- cbn. rewrite concat_app. cbn. rewrite app_nil_r. exact Hc.
        -- unfold agree. cbn [joined]. rewrite Ej. reflexivity.
    + (* cleanup *)
      destruct b; cbn in Hb; try discriminate E; try contradiction. injection E as <- <-.
      destruct (Other eq_refl) as (ch' & pos' & ->). exists (PReturned ch pos), BLost, (PWait ch' pos'), b'.
      split; [eapply set_task_same; exact Hn|]. split; [rewrite set_task_other by auto; exact Hm|].
      split; [reflexivity|]. split; [exact He'|]. split; [exact Hc|]. exact Hw.
    + assert (Hbn : b = BLost) by exact He. subst b. injection E as <- <-.
      exists (PRecv ch pos), BLost, a', b'.
      split; [eapply set_task_same; exact Hn|]. split; [rewrite set_task_other by auto; exact Hm|].
      split; [reflexivity|]. split; [exact He'|]. split; [exact Hc|]. exact Hw.
    + assert (Hbn : b = BLost) by exact He. subst b. destruct (Other eq_refl) as (ch' & pos' & ->).
      unfold agree in Hw. cbn [joined] in Hw. subst ch'.
      assert (R : receive s ch pos = Blocked).
      { unfold receive, messages. rewrite (concat_nil _ Hc). replace (skipn pos []) with (@nil bool) by (destruct pos; reflexivity).
        replace (is_open s ch) with true; [reflexivity|]. unfold is_open. symmetry. apply orb_true_iff. right.
        apply existsb_exists. exists (TPut (PWait ch pos') b'). split; [eapply nth_error_In; exact Hm|]. cbn. apply Nat.eqb_refl. }
      rewrite R in E. discriminate E.
  - destruct (blk_step data false k s b) as [[s' b1]|] eqn:E; cbn [option_map fst snd];
      [|right; exists a, b, a', b'; repeat (split; [assumption|]); assumption].
    destruct (blk_files _ _ _ _ _ _ _ Hi Hn E) as (_ & _ & _ & Ew & Ecs & Ets).
    assert (D : full s' \/ b1 <> BOk).
    { destruct b as [| | |j w| | | | |]; cbn [blk_step] in E; try discriminate E; cbn in Hb; try contradiction.
      - destruct (target s); injection E as <- <-; right; discriminate.
      - destruct (tmp s); injection E as <- <-; right; discriminate.
      - destruct (skipn w data); injection E as <- <-; right; discriminate.
      - destruct Hb as (j & Em & _ & Ej). rewrite Em in E. injection E as <- <-. left. exists j. auto. }
    destruct D as [D|D]; [left; exact D|right].
    destruct a as [|ch pos|ch pos|ch pos| | | | |]; cbn in He; try contradiction; subst; try discriminate E.
    exists (PWait ch pos), b1, a', b'.
    split; [eapply set_task_same; rewrite Ets; exact Hn|]. split; [rewrite set_task_other, Ets by auto; exact Hm|].
    split; [exact D|]. split; [exact He'|]. cbn [set_task chans writes]. rewrite Ecs, Ew. auto.
Qed.

Definition no_put_drop (c : nat * label) : Prop := snd c = Drop -> 2 <= fst c.

Lemma two_step s c : no_fail c -> inv s -> two s -> two (step data s c).
Proof.
  intros Hf Hi Ht n t Hn'. destruct c as [m l]. destruct (Nat.eq_dec n m) as [<-|Hne].
  2: { rewrite step_other in Hn' by exact Hne. exact (Ht _ _ Hn'). }
  revert Hn'. unfold step. cbn [fst snd]. destruct (nth_error (tasks s) n) as [x|] eqn:Hn; [|rewrite Hn; discriminate].
  destruct (task_step data s x l) as [[s' t']|] eqn:E; [|rewrite Hn; intros [= <-]; exact (Ht _ _ Hn)].
  cbn. rewrite upd_nth_error, Nat.eqb_refl. destruct (n <? length (tasks s')); [intros [= <-]|discriminate].
  pose proof (Ht _ _ Hn) as P. destruct l as [|k| |]; cbn [task_step] in E; destruct x as [a b|g|r]; try contradiction; try discriminate E.
  - destruct a; cbn [put_step] in E; try discriminate E.
    + destruct (writes s); injection E as <- <-; exact P.
    + destruct b; try discriminate E; injection E as <- <-; exact P.
    + destruct b; try discriminate E; injection E as <- <-; exact P.
    + destruct (receive s ch pos) as [|[]| |]; try discriminate E; injection E as <- <-; exact P.
  - destruct (get_step 0 s g); [|discriminate]. injection E as <- <-. exact P.
  - destruct (blk_step data false k s b) as [[s1 b1]|]; [|discriminate]. injection E as <- <-. exact P.
  - destruct (get_step k s g); [|discriminate]. injection E as <- <-. exact P.
  - destruct a; cbn [drop_step] in E; try discriminate E; injection E as <- <-; exact P.
  - destruct g; cbn [drop_step] in E; try discriminate E; injection E as <- <-; exact P.
Qed.

Lemma two_puts_step s c : no_fail c -> no_put_drop c -> inv s -> two s ->
  full s \/ pair_ok s 0 1 -> full (step data s c) \/ pair_ok (step data s c) 0 1.
Proof.
  intros Hf Hd Hi Ht H. destruct (full_dec s) as [F|NF]; [left; apply full_step; assumption|].
  destruct H as [F|P]; [contradiction|].
  assert (Q : forall k t, nth_error (tasks s) k = Some t -> putting t = true -> k = 0 \/ k = 1).
  { intros k t Hk Pk. pose proof (Ht _ _ Hk) as X. destruct t; [exact X|discriminate Pk|contradiction]. }
  destruct c as [n l]. destruct n as [|[|n]].
  - apply pair_step; auto. intros ->. specialize (Hd eq_refl). cbn in Hd. lia.
  - destruct (pair_step s 1 0 l) as [X|X]; auto.
    + intros ->. specialize (Hd eq_refl). cbn in Hd. lia.
    + intros k t Hk Pk. specialize (Q k t Hk Pk). tauto.
    + apply pair_sym. exact P.
    + right. apply pair_sym. exact X.
  - right. destruct P as (a & b & a' & b' & H0 & H1 & He & He' & Hc & Hw).
    exists a, b, a', b'. rewrite !step_other by lia.
    destruct (nth_error (tasks s) (S (S n))) as [t|] eqn:Hn.
    + pose proof (Ht _ _ Hn) as X. destruct t as [x y|g|r]; [lia| |contradiction].
      destruct (get_step_state s (S (S n)) l g Hn) as [-> ->]. auto 10.
    + unfold step. cbn [fst snd]. rewrite Hn. auto 10.
Qed.

Lemma two_puts_run sched : forall s, Forall no_fail sched -> Forall no_put_drop sched -> inv s -> two s ->
  full s \/ pair_ok s 0 1 -> full (run data s sched) \/ pair_ok (run data s sched) 0 1.
Proof.
  induction sched as [|c l IH]; intros s Hf Hd Hi Ht H; [exact H|]. inversion Hf; inversion Hd; subst. cbn.
  apply IH; auto; [apply step_inv; assumption|apply two_step; assumption|apply two_puts_step; assumption].
Qed.

(** * A block that is present is never written again *)
Definition quiet (s : st) : Prop :=
  target s <> None /\ forall n t, nth_error (tasks s) n = Some t -> putting t = false.
Lemma quiet_step s c : no_fail c -> inv s -> quiet s -> quiet (step data s c).
Proof.
  intros Hf Hi [Q1 Q2]. split.
  - destruct (step_files s c Hf Hi) as [(A & _ & _)|(n & a & b & k & s' & b' & -> & Hn & E & ->)]; [congruence|].
    pose proof (Q2 _ _ Hn) as W. pose proof (i_tasks _ Hi _ _ Hn) as [Hb _].
    destruct b; try discriminate W; cbn [blk_step] in E; try discriminate E; cbn in Hb; try contradiction.
    destruct (target s) eqn:Et; [|congruence]. injection E as <- <-. cbn. congruence.
  - intros n t Hn'. destruct c as [m l]. destruct (Nat.eq_dec n m) as [<-|Hne].
    2: { rewrite step_other in Hn' by exact Hne. exact (Q2 _ _ Hn'). }
    revert Hn'. unfold step. cbn [fst snd]. destruct (nth_error (tasks s) n) as [x|] eqn:Hn; [|rewrite Hn; discriminate].
    destruct (task_step data s x l) as [[s' t']|] eqn:E; [|rewrite Hn; intros [= <-]; exact (Q2 _ _ Hn)].
    cbn. rewrite upd_nth_error, Nat.eqb_refl. destruct (n <? length (tasks s')); [intros [= <-]|discriminate].
    pose proof (Q2 _ _ Hn) as P. pose proof (i_tasks _ Hi _ _ Hn) as Hok.
    destruct l as [|k| |]; cbn [task_step] in E; [| |exfalso; apply Hf; reflexivity|]; destruct x as [a b|g|r]; try contradiction; try discriminate E.
    + destruct a; cbn [put_step] in E; try discriminate E.
      * destruct (writes s); injection E as <- <-; reflexivity.
      * destruct b; try discriminate E; try discriminate P; injection E as <- <-; reflexivity.
      * destruct b; try discriminate E; try discriminate P; injection E as <- <-; reflexivity.
      * destruct (receive s ch pos) as [|[]| |]; try discriminate E; injection E as <- <-; exact P.
    + destruct (get_step 0 s g); [|discriminate]. injection E as <- <-. reflexivity.
    + destruct (blk_step data false k s b) as [[s1 b1]|] eqn:Eb; [|discriminate]. injection E as <- <-.
      destruct Hok as [Hb _].
      destruct b; try discriminate P; cbn [blk_step] in Eb; try discriminate Eb; cbn in Hb; try contradiction.
      destruct (target s) eqn:Et; [|congruence]. injection Eb as <- <-. reflexivity.
    + destruct (get_step k s g); [|discriminate]. injection E as <- <-. reflexivity.
    + destruct a; cbn [drop_step] in E; try discriminate E; injection E as <- <-; exact P.
    + destruct g; cbn [drop_step] in E; try discriminate E; injection E as <- <-; reflexivity.
Qed.
Lemma quiet_run sched : forall s, Forall no_fail sched -> inv s -> quiet s -> quiet (run data s sched).
Proof.
  induction sched as [|c l IH]; intros s Hf Hi F; [exact F|]. inversion Hf; subst. cbn.
  apply IH; [assumption|apply step_inv; assumption|apply quiet_step; assumption].
Qed.

Definition kind_of (t : task) : kind := match t with TPut _ _ => KPut | TGet _ => KGet | TRm _ => KRemove end.
Lemma task_step_kind s t l s' t' : task_step data s t l = Some (s', t') -> tasks s' = tasks s /\ kind_of t' = kind_of t.
Proof.
  intros E. destruct l as [|k| |]; cbn [task_step] in E.
  - destruct t as [a b|g|r].
    + destruct a; cbn [put_step] in E; try discriminate E.
      * destruct (writes s); injection E as <- <-; auto.
      * destruct b; try discriminate E; injection E as <- <-; auto.
      * destruct b; try discriminate E; injection E as <- <-; auto.
      * destruct (receive s ch pos) as [|[]| |]; try discriminate E; injection E as <- <-; auto.
    + destruct (get_step 0 s g); [|discriminate]. injection E as <- <-. auto.
    + destruct (rm_step s r) as [[s1 r1]|] eqn:Er; [|discriminate]. injection E as <- <-. split; [|reflexivity]. cbn.
      destruct r; cbn in Er; try discriminate Er.
      * destruct (writes s); injection Er as <- <-; auto.
      * destruct (receive s ch pos) as [|[]| |]; try discriminate Er; injection Er as <- <-; auto.
      * destruct (target s); injection Er as <- <-; auto.
  - destruct t as [a b|g|r]; [| |discriminate].
    + destruct (blk_step data false k s b) as [[s1 b1]|] eqn:Eb; [|discriminate]. injection E as <- <-. split; [|reflexivity]. cbn.
      destruct b; cbn [blk_step] in Eb; try discriminate Eb.
      * destruct (target s); injection Eb as <- <-; auto.
      * destruct (tmp s); injection Eb as <- <-; auto.
      * destruct (skipn k0 data); injection Eb as <- <-; auto.
      * destruct (tmp s); injection Eb as <- <-; auto.
      * injection Eb as <- <-; auto.
    + destruct (get_step k s g); [|discriminate]. injection E as <- <-. auto.
  - destruct t as [a b|g|r]; [|discriminate|discriminate].
    destruct (blk_step data true 0 s b) as [[s1 b1]|] eqn:Eb; [|discriminate]. injection E as <- <-. split; [|reflexivity]. cbn.
    destruct b; cbn [blk_step] in Eb; try discriminate Eb; injection Eb as <- <-; auto.
  - destruct t as [a b|g|r].
    + destruct a; cbn [drop_step] in E; try discriminate E; injection E as <- <-; auto.
    + destruct g; cbn [drop_step] in E; try discriminate E; injection E as <- <-; auto.
    + destruct r; cbn [drop_step] in E; try discriminate E; injection E as <- <-; auto.
Qed.
Lemma upd_map {A B} (f : A -> B) n x l y : nth_error l n = Some y -> f x = f y -> map f (upd n x l) = map f l.
Proof.
  revert n. induction l as [|z l IH]; intros [|n] H E; cbn in *; try discriminate.
  - injection H as ->. congruence.
  - f_equal. apply IH; assumption.
Qed.
Lemma step_kinds s c : map kind_of (tasks (step data s c)) = map kind_of (tasks s).
Proof.
  destruct c as [n l]. unfold step. cbn [fst snd]. destruct (nth_error (tasks s) n) as [t|] eqn:Hn; [|reflexivity].
  destruct (task_step data s t l) as [[s' t']|] eqn:E; [|reflexivity]. apply task_step_kind in E as [E1 E2].
  cbn. rewrite E1. exact (upd_map kind_of n t' _ t Hn E2).
Qed.
Lemma run_kinds sched : forall s, map kind_of (tasks (run data s sched)) = map kind_of (tasks s).
Proof. induction sched as [|c l IH]; intros s; [reflexivity|]. cbn. fold (run data (step data s c) l). rewrite IH. apply step_kinds. Qed.
End D.
