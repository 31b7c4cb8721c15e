(** Lemmas about the fields of tar headers. *)
From Verif Require Import Base Wire WireProofs Cid Pb FileVisit IpfsPath PathSpec IpfsPathProofs StdPath Walk WalkSpec WalkProofs Tar TarSpec.
Local Open Scope N_scope.

(** ** Numbers *)
Definition digits (k : nat) (v : N) : bytes := map (fun i => 48 + (v / 8 ^ N.of_nat i) mod 8) (rev (seq 0 k)).
Lemma digits_S k v : digits (S k) v = (48 + (v / 8 ^ N.of_nat k) mod 8) :: digits k v.
Proof. unfold digits. rewrite seq_S, rev_app_distr. reflexivity. Qed.
Lemma digits_length k v : length (digits k v) = k.
Proof. unfold digits. rewrite map_length, rev_length, seq_length. reflexivity. Qed.
Lemma digit_range a : 48 <= 48 + a mod 8 <= 55.
Proof. pose proof (N.mod_lt a 8). lia. Qed.
Lemma octal_digits k v : forall acc, octal acc (digits k v) = Some (acc * 8 ^ N.of_nat k + v mod 8 ^ N.of_nat k).
Proof.
  induction k as [|k IH]; intros acc.
  - cbn [digits octal]. unfold digits. cbn. f_equal. rewrite N.mod_1_r. lia.
  - rewrite digits_S. cbn [octal]. set (d := (v / 8 ^ N.of_nat k) mod 8).
    assert (d < 8) by (apply N.mod_lt; discriminate).
    replace ((48 <=? 48 + d) && (48 + d <=? 55)) with true by lia.
    rewrite IH. f_equal. replace (48 + d - 48) with d by lia.
    replace (N.of_nat (S k)) with (N.succ (N.of_nat k)) by lia. rewrite N.pow_succ_r by lia.
    assert (E : v mod (8 ^ N.of_nat k * 8) = v mod 8 ^ N.of_nat k + 8 ^ N.of_nat k * d).
    { apply N.mod_mul_r; [apply N.pow_nonzero; discriminate|discriminate]. }
    rewrite (N.mul_comm 8). rewrite E. lia.
Qed.
Lemma until_zero_app a b : ~ In 0 a -> b = [] \/ (exists t, b = 0 :: t) -> until_zero (a ++ b) = a.
Proof.
  intros Ha Hb. induction a as [|x a IH]; cbn.
  - destruct Hb as [->|(t & ->)]; reflexivity.
  - destruct (x =? 0) eqn:E; [exfalso; apply Ha; left; lia|]. rewrite IH; [reflexivity|]. intros H; apply Ha; right; exact H.
Qed.
Lemma digits_no_zero k v : ~ In 0 (digits k v).
Proof. unfold digits. intros H. apply in_map_iff in H as (i & E & _). pose proof (digit_range (v / 8 ^ N.of_nat i)). lia. Qed.
Lemma number_digits k v : (0 < k)%nat -> v < 8 ^ N.of_nat k -> number (digits k v ++ [0]) = Some v.
Proof.
  intros Hk Hv. unfold number. rewrite until_zero_app; [|apply digits_no_zero|right; eexists; reflexivity].
  assert (E := octal_digits k v 0). rewrite N.mod_small in E by exact Hv. destruct (digits k v) eqn:D; [|exact E].
  apply (f_equal (@length N)) in D. rewrite digits_length in D. cbn in D. lia.
Qed.
Lemma digits_wf k v : wf_bytes (digits k v).
Proof. unfold digits, wf_bytes. rewrite Forall_map, Forall_forall. intros i _. pose proof (digit_range (v / 8 ^ N.of_nat i)). unfold is_byte. lia. Qed.

(** A number field: as many bytes as it should have, the last of which is zero. *)
Definition num_field (n : nat) (b : bytes) : Prop := exists f, b = f ++ [0] /\ length f = n /\ wf_bytes f.
Lemma octal_into_field n b v : num_field n b -> octal_into b v = digits n v ++ [0].
Proof.
  intros (f & -> & L & _). unfold octal_into. rewrite app_length. cbn [length].
  replace (length f + 1 - 1)%nat with n by lia. fold (digits n v). rewrite <- L, skipn_app, skipn_all, Nat.sub_diag. reflexivity.
Qed.
Lemma digits_field n v : num_field n (digits n v ++ [0]).
Proof. exists (digits n v). repeat split; [apply digits_length|apply digits_wf]. Qed.
Lemma num_into_field b v : num_field 11 b -> fits v -> num_into b v = digits 11 v ++ [0].
Proof.
  intros H F. unfold num_into, fits in *. assert (L : length b = 12%nat) by (destruct H as (f & -> & L & _); rewrite app_length; cbn; lia).
  rewrite L. change (12 =? 8)%nat with false. change (8 ^ 11) with 8589934592 in F.
  replace (8589934592 <=? v) with false by lia. rewrite andb_false_r. cbn [orb]. apply octal_into_field, H.
Qed.
Lemma octal_into_length b v : b <> [] -> length (octal_into b v) = length b.
Proof.
  intros H. unfold octal_into. rewrite app_length, map_length, rev_length, seq_length, skipn_length.
  assert (length b <> 0)%nat by (intros E; destruct b; [congruence|discriminate]). lia.
Qed.
Lemma num_into_length b v : (8 <= length b)%nat -> length (num_into b v) = length b.
Proof.
  intros H. unfold num_into. destruct (_ || _).
  - unfold extended_into. assert (L : length (zeros (length b - 8) ++ map (fun i => (v / 256 ^ N.of_nat i) mod 256) (rev (seq 0 8))) = length b).
    { rewrite app_length, map_length, rev_length, seq_length. unfold zeros. rewrite repeat_length. lia. }
    destruct (_ ++ _); exact L.
  - apply octal_into_length. destruct b; [cbn in H; lia|discriminate].
Qed.

(** ** Copying texts into fields *)
Definition ended (b : bytes) : Prop := b = [] \/ exists t, b = 0 :: t.
Lemma put_ok pre tail b : ~ In 0 b -> (length b <= length tail)%nat ->
  exists tail', put (pre ++ tail) (length pre) b = Some (pre ++ b ++ tail') /\ (length b + length tail' = length tail)%nat /\ ended tail' /\
    (wf_bytes tail -> wf_bytes tail').
Proof.
  intros Hz L. unfold put.
  assert (E1 : (length (pre ++ tail) <? length pre + length b)%nat = false) by (rewrite app_length; lia).
  assert (E2 : existsb (N.eqb 0) b = false).
  { destruct (existsb _ b) eqn:E; [|reflexivity]. apply existsb_exists in E as (x & Hx & Ex). exfalso. apply Hz. assert (x = 0) by lia. subst. exact Hx. }
  rewrite E1, E2. cbn [orb].
  rewrite firstn_app, firstn_all, Nat.sub_diag. cbn [firstn]. rewrite app_nil_r.
  destruct (length pre + length b <? length (pre ++ tail))%nat eqn:E3.
  - exists (0 :: skipn (S (length b)) tail). rewrite app_length in E3. split; [|split; [|split]].
    + f_equal. f_equal. rewrite <- app_assoc. f_equal. cbn [app]. f_equal. rewrite skipn_app, skipn_all2 by (rewrite app_length; cbn; lia).
      cbn [app]. f_equal. rewrite app_length. cbn. lia.
    + cbn [length]. rewrite skipn_length. lia.
    + right. eexists. reflexivity.
    + intros W. constructor; [unfold is_byte; lia|]. unfold wf_bytes in *. rewrite Forall_forall in *. intros x Hx. apply W.
      rewrite <- (firstn_skipn (S (length b)) tail). apply in_or_app. right. exact Hx.
  - exists []. rewrite app_length in E3. split; [|split; [|split]].
    + f_equal. f_equal. rewrite app_nil_r. rewrite skipn_all2; [rewrite ?app_nil_r; reflexivity|]. rewrite ?app_nil_r, app_length. lia.
    + cbn. lia.
    + left. reflexivity.
    + intros _. constructor.
Qed.
Lemma put_long slot pos b : (length slot < pos + length b)%nat -> put slot pos b = None.
Proof. intros H. unfold put. replace (length slot <? pos + length b)%nat with true by lia. reflexivity. Qed.
Lemma put_length slot pos b s : put slot pos b = Some s -> length s = length slot.
Proof.
  unfold put. destruct (_ || _) eqn:E; [discriminate|]. apply orb_false_iff in E as [E _]. intros [= <-].
  destruct (pos + length b <? length slot)%nat eqn:E3; cbn zeta; rewrite ?app_nil_r; repeat rewrite ?app_length, ?firstn_length, ?skipn_length; cbn [length]; lia.
Qed.
Lemma put_wf slot pos b s : put slot pos b = Some s -> wf_bytes slot -> wf_bytes b -> wf_bytes s.
Proof.
  unfold put. destruct (_ || _) eqn:E; [discriminate|]. intros [= <-] W B.
  assert (F : forall n, wf_bytes (firstn n slot)) by (intros n; rewrite <- (firstn_skipn n slot) in W; apply wf_bytes_app in W; apply W).
  assert (S : forall n, wf_bytes (skipn n slot)) by (intros n; rewrite <- (firstn_skipn n slot) in W; apply wf_bytes_app in W; apply W).
  apply wf_bytes_app. split; [apply F|]. apply wf_bytes_app. split; [|apply S]. apply wf_bytes_app. split; [exact B|].
  destruct (pos + length b <? length slot)%nat; [constructor; [unfold is_byte; lia|constructor]|constructor].
Qed.

(** The text written for the components. *)
Fixpoint text (slash : bool) (l : list bytes) : bytes :=
  match l with [] => [] | c :: l => (if slash then [47] else []) ++ c ++ text true l end.
Lemma text_join l : text false l = join l.
Proof.
  assert (H : forall l, text true l = slashed l) by (clear; induction l as [|c l IH]; [reflexivity|cbn; rewrite IH; reflexivity]).
  destruct l as [|x l]; [reflexivity|]. rewrite join_slashed. cbn [text app]. rewrite H. reflexivity.
Qed.
(** Components which are all written. *)
Definition written (link : bool) (c : bytes) : Prop := ~ In 0 c /\ (link = false -> c <> [46] /\ c <> [46; 46]).
Lemma written_tests link c : written link c -> negb link && beq c [46; 46] = false /\ forall a, negb link && beq c [46] && a = false.
Proof.
  intros [_ H]. destruct link; [split; reflexivity|]. destruct (H eq_refl) as [H1 H2]. cbn [negb andb]. split.
  - destruct (beq_spec c [46; 46]); congruence.
  - intros a. destruct (beq_spec c [46]); [congruence|reflexivity].
Qed.
Lemma copy_comps_ok link alone l : forall slash pre tail emitted, Forall (written link) l -> (length (text slash l) <= length tail)%nat ->
  exists tail', copy_comps link alone l slash (pre ++ tail) (length pre) emitted =
    (pre ++ text slash l ++ tail', Some ((length pre + length (text slash l))%nat, match l with [] => emitted | _ => true end)) /\
    (length (text slash l) + length tail' = length tail)%nat /\ (l <> [] -> ended tail') /\ (l = [] -> tail' = tail).
Proof.
  induction l as [|c l IH]; intros slash pre tail emitted W L.
  - exists tail. cbn [copy_comps text]. rewrite Nat.add_0_r. repeat split; auto. congruence.
  - inversion W as [|? ? Wc Wl]; subst. cbn [copy_comps text] in *.
    destruct (written_tests _ _ Wc) as [T1 T2]. rewrite T1, T2. clear T1 T2.
    set (sl := if slash then [47] else []) in *. rewrite !app_length in L.
    assert (Z : ~ In 0 sl) by (subst sl; destruct slash; [intros [H|[]]; discriminate|intros []]).
    destruct (put_ok pre tail sl Z) as (t1 & P1 & L1 & _ & _); [lia|].
    destruct (put_ok (pre ++ sl) t1 c) as (t2 & P2 & L2 & D2 & _); [apply Wc|lia|].
    rewrite <- !app_assoc in P2. rewrite app_length in P2.
    assert (Q : exists t1', (if slash then put (pre ++ tail) (length pre) [47] else Some (pre ++ tail)) = Some (pre ++ sl ++ t1') /\
      exists t2', put (pre ++ sl ++ t1') (length pre + length sl) c = Some (pre ++ sl ++ c ++ t2') /\
        (length sl + length c + length t2' = length tail)%nat /\ ended t2').
    { subst sl. destruct slash.
      - exists t1. split; [exact P1|]. exists t2. split; [exact P2|]. split; [lia|exact D2].
      - exists tail. split; [reflexivity|]. cbn [app length] in *. destruct (put_ok pre tail c) as (t3 & P3 & L3 & D3 & _); [apply Wc|lia|].
        exists t3. rewrite Nat.add_0_r. split; [exact P3|]. split; [lia|exact D3]. }
    destruct Q as (t1' & Q1 & t2' & Q2 & L3 & D3).
    change (bytes) with (list N) in *. setoid_rewrite Q1.
    replace (if slash then S (length pre) else length pre) with (length pre + length sl)%nat by (subst sl; destruct slash; cbn; lia).
    rewrite Q2.
    destruct (IH true (pre ++ sl ++ c) t2' true Wl) as (t3 & E3 & L4 & D4 & D5); [lia|].
    rewrite !app_length, <- !app_assoc in E3. rewrite <- Nat.add_assoc. rewrite E3. exists t3. rewrite !app_length, <- !app_assoc.
    split; [|split; [lia|split; [|discriminate]]].
    + f_equal. f_equal. f_equal; [lia|]. destruct l; reflexivity.
    + intros _. destruct l as [|x l]; [rewrite (D5 eq_refl); exact D3|apply D4; discriminate].
Qed.
Lemma copy_comps_long link alone l : forall slash slot pos emitted, Forall (written link) l ->
  (length slot < pos + length (text slash l))%nat -> (pos <= length slot)%nat -> snd (copy_comps link alone l slash slot pos emitted) = None.
Proof.
  induction l as [|c l IH]; intros slash slot pos emitted W L P; cbn [text length copy_comps] in *; [lia|].
  inversion W as [|? ? Wc Wl]; subst. destruct (written_tests _ _ Wc) as [T1 T2]. rewrite T1, T2.
  rewrite !app_length in L.
  destruct slash.
  - destruct (put slot pos [47]) as [s|] eqn:E; [|reflexivity]. assert (E' := put_length _ _ _ _ E).
    destruct (put s (S pos) c) as [s'|] eqn:E2; [|reflexivity]. assert (E2' := put_length _ _ _ _ E2).
    cbn [length] in L. apply IH; [exact Wl|lia|].
    unfold put in E2. destruct (length s <? S pos + length c)%nat eqn:E3; [discriminate|]. lia.
  - destruct (put slot pos c) as [s'|] eqn:E2; [|reflexivity]. assert (E2' := put_length _ _ _ _ E2).
    cbn [length] in L. apply IH; [exact Wl|lia|].
    unfold put in E2. destruct (length slot <? pos + length c)%nat eqn:E3; [discriminate|]. lia.
Qed.
Lemma copy_comps_length link alone l : forall slash slot pos emitted, length (fst (copy_comps link alone l slash slot pos emitted)) = length slot.
Proof.
  induction l as [|c l IH]; intros slash slot pos emitted; cbn [copy_comps]; [reflexivity|].
  destruct (_ && _); [reflexivity|]. destruct (_ && _); [apply IH|].
  destruct slash.
  - destruct (put slot pos [47]) as [s|] eqn:E; [|reflexivity]. destruct (put s (S pos) c) as [s'|] eqn:E2; [|cbn; eapply put_length; exact E].
    rewrite IH. rewrite (put_length _ _ _ _ E2). eapply put_length; exact E.
  - destruct (put slot pos c) as [s'|] eqn:E2; [|reflexivity]. rewrite IH. eapply put_length; exact E2.
Qed.
Lemma copy_comps_wf link alone l : Forall wf_bytes l -> forall slash slot pos emitted, wf_bytes slot -> wf_bytes (fst (copy_comps link alone l slash slot pos emitted)).
Proof.
  induction 1 as [|c l Hc Hl IH]; intros slash slot pos emitted W; cbn [copy_comps]; [exact W|].
  destruct (_ && _); [exact W|]. destruct (_ && _); [apply IH, W|].
  assert (S : wf_bytes [47]) by (repeat constructor).
  destruct slash.
  - destruct (put slot pos [47]) as [s|] eqn:E; [|exact W]. assert (W2 := put_wf _ _ _ _ E W S).
    destruct (put s (Datatypes.S pos) c) as [s'|] eqn:E2; [|exact W2]. apply IH. exact (put_wf _ _ _ _ E2 W2 Hc).
  - destruct (put slot pos c) as [s'|] eqn:E2; [|exact W]. apply IH. exact (put_wf _ _ _ _ E2 W Hc).
Qed.

(** What [copy_path] writes. *)
Definition canon (p : bytes) : bytes :=
  (if is_absolute p then [47] else []) ++ text false (comps p) ++ (if ends_with_slash p then [47] else []).
Lemma split_slash_cons p : split_slash p <> [].
Proof. induction p as [|c p IH]; cbn; [discriminate|]. destruct (c =? 47); [discriminate|]. destruct (split_slash p); discriminate. Qed.
Lemma relative_comps p : p <> [] -> is_absolute p = false -> comps p <> [].
Proof.
  intros H A. unfold comps. destruct (split_slash p) as [|s0 rest] eqn:E; [exfalso; exact (split_slash_cons _ E)|].
  rewrite A. destruct p as [|c p]; [congruence|]. cbn [is_absolute] in A. cbn [split_slash] in E. rewrite A in E.
  destruct (split_slash p); injection E as <- <-; discriminate.
Qed.
Lemma copy_path_ok link slot p : Forall (written link) (comps p) -> (is_absolute p = true -> link = true) -> p <> [] ->
  (length (canon p) <= length slot)%nat ->
  exists tail, copy_path link slot p = (canon p ++ tail, true) /\ (length (canon p) + length tail = length slot)%nat /\ ended tail.
Proof.
  intros W A P L. unfold copy_path, canon in *. set (sl := if is_absolute p then [47] else []) in *. rewrite !app_length in L.
  match goal with |- context [match ?x with (_, _) => _ end] => set (start := x) end.
  assert (Q : exists t1, start = (sl ++ t1, Some (length sl, is_absolute p)) /\ (length sl + length t1 = length slot)%nat /\ (is_absolute p = true -> ended t1)).
  { subst start sl. destruct (is_absolute p).
    - rewrite (A eq_refl). destruct (put_ok [] slot [47]) as (t & E & Lt & D & _); [intros [H|[]]; discriminate|cbn in *; lia|].
      cbn [app length] in E. rewrite E. exists t. repeat split; auto.
    - exists slot. repeat split. discriminate. }
  destruct Q as (t1 & Q & L1 & D1). rewrite Q.
  destruct (copy_comps_ok link (negb (is_absolute p) && (length (comps p) =? 1)%nat) (comps p) false sl t1 (is_absolute p) W) as (t2 & E2 & L2 & D2 & D3); [lia|].
  rewrite E2. set (em := match comps p with [] => is_absolute p | _ => true end).
  assert (Em : em = true).
  { subst em. destruct (comps p) eqn:C; [|reflexivity]. destruct (is_absolute p) eqn:B; [reflexivity|]. exfalso. exact (relative_comps _ P B C). }
  assert (D : ended t2).
  { destruct (comps p) eqn:C; [|apply D2; discriminate]. rewrite (D3 eq_refl). apply D1. destruct (is_absolute p) eqn:B; [reflexivity|]. exfalso. exact (relative_comps _ P B C). }
  rewrite Em. cbn [negb]. destruct (ends_with_slash p).
  - destruct (put_ok (sl ++ text false (comps p)) t2 [47]) as (t3 & E3 & L3 & D4 & _); [intros [H|[]]; discriminate|cbn in *; lia|].
    rewrite app_length, <- !app_assoc in E3. rewrite E3. exists t3. rewrite <- !app_assoc. repeat split; [|exact D4].
    rewrite !app_length. lia.
  - exists t2. rewrite app_nil_r, <- !app_assoc. repeat split; [|exact D]. rewrite !app_length. lia.
Qed.
Lemma copy_path_long link slot p : Forall (written link) (comps p) -> (length slot < length (canon p))%nat ->
  snd (copy_path link slot p) = false.
Proof.
  intros W L. unfold copy_path, canon in *. set (sl := if is_absolute p then [47] else []) in *. rewrite !app_length in L.
  match goal with |- context [match ?x with (_, _) => _ end] => set (start := x) end.
  assert (Q : snd start = None \/ exists t1 e, start = (sl ++ t1, Some (length sl, e)) /\ (length sl + length t1 = length slot)%nat).
  { subst start sl. destruct (is_absolute p).
    - destruct link; [|left; reflexivity]. destruct (put slot 0 [47]) eqn:E; [|left; reflexivity]. right.
      assert (0 < length slot)%nat by (unfold put in E; destruct slot; [discriminate|cbn; lia]).
      destruct (put_ok [] slot [47]) as (t & E' & Lt & _); [intros [H'|[]]; discriminate|cbn in *; lia|].
      cbn [app length] in E'. exists t, true. split; [|exact Lt]. rewrite E in E'. injection E' as ->. reflexivity.
    - right. exists slot, false. split; reflexivity. }
  destruct Q as [Q|(t1 & e & Q & L1)].
  { destruct start as [s [x|]]; [discriminate|reflexivity]. }
  rewrite Q. destruct (Nat.le_gt_cases (length (text false (comps p))) (length t1)) as [C|C].
  - destruct (copy_comps_ok link (negb (is_absolute p) && (length (comps p) =? 1)%nat) (comps p) false sl t1 e W C) as (t2 & E2 & L2 & _).
    rewrite E2. match goal with |- snd (if negb ?x then _ else _) = _ => destruct (negb x); [reflexivity|] end. destruct (ends_with_slash p); [|cbn [length] in L; lia].
    cbn [length] in L. rewrite put_long; [reflexivity|]. rewrite !app_length. cbn [length]. lia.
  - assert (E := copy_comps_long link (negb (is_absolute p) && (length (comps p) =? 1)%nat) (comps p) false (sl ++ t1) (length sl) e W).
    rewrite app_length in E. destruct (copy_comps _ _ _ _ _ _ _) as [s [x|]]; [|reflexivity]. cbn [snd] in E. discriminate E; lia.
Qed.
Lemma copy_path_length link slot p : length (fst (copy_path link slot p)) = length slot.
Proof.
  unfold copy_path.
  match goal with |- context [match ?x with (_, _) => _ end] => assert (Q : length (fst x) = length slot); [|destruct x as [s [[pos e]|]]; cbn [fst] in *; [|exact Q]] end.
  { destruct (is_absolute p); [|reflexivity]. destruct link; [|reflexivity]. destruct (put slot 0 [47]) eqn:E; [|reflexivity]. exact (put_length _ _ _ _ E). }
  assert (C := copy_comps_length link (negb (is_absolute p) && (length (comps p) =? 1)%nat) (comps p) false s pos e).
  destruct (copy_comps _ _ _ _ _ _ _) as [s2 [[pos2 e2]|]]; cbn [fst] in *; [|congruence].
  destruct (negb e2); [cbn; congruence|]. destruct (ends_with_slash p); [|cbn; congruence].
  destruct (put s2 pos2 [47]) eqn:E; cbn [fst]; [rewrite (put_length _ _ _ _ E)|]; congruence.
Qed.
Lemma split_slash_wf p : wf_bytes p -> Forall wf_bytes (split_slash p).
Proof.
  induction 1 as [|c p Hc Hp IH]; cbn; [repeat constructor|]. destruct (c =? 47); [constructor; [constructor|exact IH]|].
  destruct (split_slash p) as [|s l]; [repeat constructor; exact Hc|]. inversion IH; subst. constructor; [constructor; assumption|assumption].
Qed.
Lemma comps_in p c : In c (comps p) -> In c (split_slash p).
Proof.
  unfold comps. destruct (split_slash p) as [|s0 rest]; [intros []|]. intros H.
  assert (F : forall x, In x (filter (fun s => negb (dropped s)) rest) -> In x rest) by (intros x Hx; apply filter_In in Hx; apply Hx).
  destruct (is_absolute p); [right; apply F, H|]. destruct (beq s0 []); [right; apply F, H|]. destruct H as [->|H]; [left; reflexivity|right; apply F, H].
Qed.
Lemma comps_wf p : wf_bytes p -> Forall wf_bytes (comps p).
Proof. intros H. apply split_slash_wf in H. rewrite Forall_forall in *. intros c Hc. apply H, comps_in, Hc. Qed.
Lemma copy_path_wf link slot p : wf_bytes slot -> wf_bytes p -> wf_bytes (fst (copy_path link slot p)).
Proof.
  intros W P. assert (S : wf_bytes [47]) by (repeat constructor). unfold copy_path.
  match goal with |- context [match ?x with (_, _) => _ end] => assert (Q : wf_bytes (fst x)); [|destruct x as [s [[pos e]|]]; cbn [fst] in *; [|exact Q]] end.
  { destruct (is_absolute p); [|exact W]. destruct link; [|exact W]. destruct (put slot 0 [47]) eqn:E; [|exact W]. exact (put_wf _ _ _ _ E W S). }
  assert (C := copy_comps_wf link (negb (is_absolute p) && (length (comps p) =? 1)%nat) (comps p) (comps_wf _ P) false s pos e Q).
  destruct (copy_comps _ _ _ _ _ _ _) as [s2 [[pos2 e2]|]]; cbn [fst] in *; [|exact C].
  destruct (negb e2); [exact C|]. destruct (ends_with_slash p); [|exact C].
  destruct (put s2 pos2 [47]) eqn:E; cbn [fst]; [exact (put_wf _ _ _ _ E C S)|exact C].
Qed.
