(** Lemmas about [HttpAdd]. *)
From Coq Require Import Permutation.
From Verif Require Import Base Wire WireProofs Cid CidProofs Pb PbProofs FileSpec FileAdder FileAdderProofs FileTreeProofs FileVisit FileProps
  BTree FMap IpfsPath PathSpec IpfsPathProofs TreeBuilder TreeSpec TreeBuilderProofs TreeIter TreeIterSpec TreeIterProofs TreeIterMain TreeOutSpec
  TreeSizes TreeOut TreeSteps HttpAdd HttpAddSpec.
Local Open Scope N_scope.

(** * Names *)
Lemma hex_val_spec c v : hex_val c = Some v <-> hex_digit c v.
Proof.
  unfold hex_val. split.
  - destruct ((48 <=? c) && (c <=? 57)) eqn:E1; [intros [= <-]; replace c with (48 + (c - 48)) at 1 by lia; constructor; lia|].
    destruct ((65 <=? c) && (c <=? 70)) eqn:E2; [intros [= <-]; replace c with (55 + (c - 55)) at 1 by lia; constructor; lia|].
    destruct ((97 <=? c) && (c <=? 102)) eqn:E3; [intros [= <-]; replace c with (87 + (c - 87)) at 1 by lia; constructor; lia|discriminate].
  - intros [x H|x H|x H].
    + replace ((48 <=? 48 + x) && (48 + x <=? 57)) with true by lia. f_equal. lia.
    + replace ((48 <=? 55 + x) && (55 + x <=? 57)) with false by lia. replace ((65 <=? 55 + x) && (55 + x <=? 70)) with true by lia. f_equal. lia.
    + replace ((48 <=? 87 + x) && (87 + x <=? 57)) with false by lia. replace ((65 <=? 87 + x) && (87 + x <=? 70)) with false by lia.
      replace ((97 <=? 87 + x) && (87 + x <=? 102)) with true by lia. f_equal. lia.
Qed.
Lemma percent_decodes n : forall s, (length s <= n)%nat -> decodes s (percent_decode s).
Proof.
  induction n as [|n IH]; intros s Hn; [destruct s; [constructor|cbn in Hn; lia]|].
  destruct s as [|c r]; [constructor|]. cbn [length] in Hn. cbn [percent_decode].
  assert (Hr : decodes r (percent_decode r)) by (apply IH; lia).
  destruct r as [|a [|b r']].
  - apply decodes_byte; [|exact Hr]. intros (? & ? & ? & ? & ? & H & _). discriminate.
  - apply decodes_byte; [|exact Hr]. intros (? & ? & ? & ? & ? & H & _). discriminate.
  - destruct (N.eqb_spec c 37) as [->|Hc].
    + destruct (hex_val a) as [x|] eqn:Ea.
      * destruct (hex_val b) as [y|] eqn:Eb.
        -- constructor; [apply hex_val_spec; exact Ea|apply hex_val_spec; exact Eb|]. apply IH. cbn [length] in Hn. lia.
        -- apply decodes_byte; [|exact Hr]. intros (a' & b' & x' & y' & r0 & [= <- <- <-] & _ & H2). apply hex_val_spec in H2. congruence.
      * apply decodes_byte; [|exact Hr]. intros (a' & b' & x' & y' & r0 & [= <- <- <-] & H1 & _). apply hex_val_spec in H1. congruence.
    + apply decodes_byte; [|exact Hr]. intros (a' & b' & x' & y' & r0 & [= E _ _ _] & _). congruence.
Qed.
Lemma decodes_fun s d : decodes s d -> forall d', decodes s d' -> d' = d.
Proof.
  induction 1 as [|a b x y s d Ha Hb H IH|c s d Hn H IH]; intros d' H'; inversion H'; subst.
  - reflexivity.
  - match goal with H1 : hex_digit a ?u, H2 : hex_digit b ?v |- _ => assert (u = x /\ v = y) as [-> ->] end; [|f_equal; auto].
    repeat match goal with H1 : hex_digit _ _ |- _ => apply hex_val_spec in H1 end. split; congruence.
  - exfalso. match goal with H1 : ~ escape _ |- _ => apply H1 end. exists a, b, x, y, s. auto.
  - exfalso. apply Hn. do 5 eexists. split; [reflexivity|]. split; eassumption.
  - f_equal. auto.
Qed.
Lemma decoded_name_spec raw name : decoded_name raw = Some name <-> names raw name.
Proof.
  unfold decoded_name, names. pose proof (percent_decodes _ raw (le_n _)) as Hd. split.
  - destruct (utf8 (percent_decode raw)) eqn:E; [|discriminate]. intros [= <-]. exists (percent_decode raw). split; [exact Hd|]. split; [exact E|].
    unfold relative. destruct (percent_decode raw) as [|c r]; [right; split; [reflexivity|discriminate]|].
    destruct (N.eqb_spec c 47) as [->|Hc]; [left; reflexivity|right; split; [reflexivity|intros r' [= E' _]; congruence]].
  - intros (d & H1 & H2 & H3). assert (percent_decode raw = d) by (eapply decodes_fun; eassumption). subst d. rewrite H2. f_equal.
    unfold relative. destruct H3 as [->|[-> H3]]; [reflexivity|]. destruct name as [|c r]; [reflexivity|]. destruct (N.eqb_spec c 47) as [->|Hc]; [exfalso; exact (H3 r eq_refl)|reflexivity].
Qed.
Lemma starts_with_spec a : forall b, starts_with a b = true <-> exists r, b = a ++ r.
Proof.
  induction a as [|x a IH]; intros b; cbn [starts_with app]; [split; [eauto|auto]|].
  destruct b as [|y b]; [split; [discriminate|intros [r [=]]]|]. rewrite andb_true_iff, N.eqb_eq, IH. split.
  - intros [-> [r ->]]. exists r. reflexivity.
  - intros [r [= -> ->]]. split; [reflexivity|exists r; reflexivity].
Qed.
Lemma field_ok_spec kind field : field_ok kind field = true <-> is_field kind field.
Proof.
  unfold field_ok, is_field. rewrite orb_true_iff, starts_with_spec, beq_eq. apply or_iff_compat_l.
  split; intros [r ->]; exists r; rewrite <- app_assoc; reflexivity.
Qed.

(** * Running *)
Lemma bind_inv {A B} (m : act A) (f : A -> act B) n t n' r : bind m f n = (t, n', r) ->
  (exists t1 n1 a t2, m n = (t1, n1, Go a) /\ f a n1 = (t2, n', r) /\ t = t1 ++ t2) \/
  (exists e, m n = (t, n', Stop e) /\ r = Stop e).
Proof.
  unfold bind. destruct (m n) as [[t1 n1] [a|e]].
  - left. destruct (f a n1) as [[t2 n2] r2] eqn:E. injection H as <- <- <-. eauto 10.
  - intros [= <- <- <-]. right. eauto.
Qed.
Lemma bind_go {A B} (m : act A) (f : A -> act B) n t n' b : bind m f n = (t, n', Go b) ->
  exists t1 n1 a t2, m n = (t1, n1, Go a) /\ f a n1 = (t2, n', Go b) /\ t = t1 ++ t2.
Proof. intros H. apply bind_inv in H as [H|(e & _ & [=])]. exact H. Qed.
Lemma bind_eval {A B} (m : act A) (f : A -> act B) n t1 n1 a : m n = (t1, n1, Go a) -> bind m f n = (let '(t2, n2, r) := f a n1 in (t1 ++ t2, n2, r)).
Proof. intros H. unfold bind. rewrite H. reflexivity. Qed.
Lemma plus_go {A} a b (f : N -> act A) n t n' r : plus a b f n = (t, n', Go r) -> a + b < u64_max1 /\ f (a + b) n = (t, n', Go r).
Proof. unfold plus, add64. destruct (N.ltb_spec (a + b) u64_max1); [auto|discriminate]. Qed.
Lemma plus_eval {A} a b (f : N -> act A) n : a + b < u64_max1 -> plus a b f n = f (a + b) n.
Proof. unfold plus, add64. destruct (N.ltb_spec (a + b) u64_max1); [auto|lia]. Qed.

(** Nothing is announced. *)
Definition quiet (t : list event) : Prop := forall l m, In (EItem l) t -> In m l -> exists n k, m = Progress n k.
Lemma quiet_app a b : quiet a -> quiet b -> quiet (a ++ b).
Proof. intros Ha Hb l m Hl. apply in_app_or in Hl as [H|H]; [exact (Ha l m H)|exact (Hb l m H)]. Qed.
Lemma quiet_nil : quiet [].
Proof. intros l m []. Qed.
Lemma quiet_put c b : quiet [EPut c b].
Proof. intros l m [[=]|[]]. Qed.
Lemma quiet_progress n k : quiet [EItem [Progress n k]].
Proof. intros l m [[= <-]|[]] [<-|[]]. eauto. Qed.
Definition hushed {A} (m : act A) : Prop := forall n t n' r, m n = (t, n', r) -> quiet t.
Lemma hushed_bind {A B} (m : act A) (f : A -> act B) : hushed m -> (forall a, hushed (f a)) -> hushed (bind m f).
Proof.
  intros Hm Hf n t n' r H. apply bind_inv in H as [(t1 & n1 & a & t2 & H1 & H2 & ->)|(e & H1 & _)]; [|exact (Hm _ _ _ _ H1)].
  apply quiet_app; [exact (Hm _ _ _ _ H1)|exact (Hf _ _ _ _ _ H2)].
Qed.
Lemma hushed_give {A} (a : A) : hushed (give a).
Proof. intros n t n' r [= <- _ _]. apply quiet_nil. Qed.
Lemma hushed_stop {A} e : hushed (@stop A e).
Proof. intros n t n' r [= <- _ _]. apply quiet_nil. Qed.
Lemma hushed_plus {A} a b (f : N -> act A) : (forall v, hushed (f v)) -> hushed (plus a b f).
Proof. intros H. unfold plus. destruct (add64 a b); [apply H|apply hushed_stop]. Qed.

Lemma put_blocks_app a b : put_blocks (a ++ b) = put_blocks a ++ put_blocks b.
Proof. apply flat_map_app. Qed.
Lemma messages_app a b : messages (a ++ b) = messages a ++ messages b.
Proof. apply flat_map_app. Qed.

Section Add.
Variable sha : bytes -> bytes.
Hypothesis sha_wf : forall b, wf_cid (CidV0 (sha b)).
Variables chunk bf : nat.
Variable put_ok : nat -> bool.
Variables progress wrap : bool.
Variable cid_text : cid -> bytes.

Notation put := (put put_ok).
Notation import_blocks := (import_blocks put_ok).
Notation push_all := (push_all sha chunk bf put_ok).
Notation file_loop := (file_loop sha chunk bf put_ok progress).
Notation add_file_part := (add_file_part sha chunk bf put_ok progress cid_text).
Notation add_part := (add_part sha chunk bf put_ok progress cid_text).
Notation add_parts := (add_parts sha chunk bf put_ok progress cid_text).
Notation add_nodes := (add_nodes put_ok).

Lemma hushed_put c b : hushed (put c b).
Proof. intros n t n' r. unfold HttpAdd.put. destruct (put_ok n); intros [= <- _ _]; [apply quiet_put|apply quiet_nil]. Qed.
Lemma hushed_import bs : forall last total, hushed (import_blocks bs last total).
Proof.
  induction bs as [|[c b] bs IH]; intros last total; cbn [HttpAdd.import_blocks]; [apply hushed_give|]. apply hushed_plus. intros v. apply hushed_bind; [apply hushed_put|intros _; apply IH].
Qed.
Lemma hushed_push fuel : forall s rest read saved written, hushed (push_all fuel s rest read saved written).
Proof.
  induction fuel as [|fuel IH]; intros s rest read saved written; cbn [HttpAdd.push_all]; destruct rest as [|x rest]; try apply hushed_give; try apply hushed_stop.
  destruct (push sha chunk bf s (x :: rest)) as [[[s' bs] used]| |]; try apply hushed_stop.
  apply hushed_bind; [apply hushed_import|]. intros t. apply hushed_plus. intros v. apply IH.
Qed.
Lemma hushed_loop name body broken : forall s written read, hushed (file_loop name body broken s written read).
Proof.
  induction body as [|next body IH]; intros s written read; cbn [HttpAdd.file_loop]; [destruct broken; [apply hushed_stop|apply hushed_give]|].
  apply hushed_bind; [apply hushed_push|]. intros [[[s' r] saved] w]. apply hushed_plus. intros v. apply hushed_plus. intros u. apply hushed_bind; [|intros _; apply IH].
  destruct (saved && progress); [|apply hushed_give]. intros n t n' rr [= <- _ _]. apply quiet_progress.
Qed.

Definition eputs (bs : list (cid * bytes)) : list event := map (fun p => EPut (fst p) (snd p)) bs.
Lemma eputs_app a b : eputs (a ++ b) = eputs a ++ eputs b.
Proof. apply map_app. Qed.
Lemma put_blocks_eputs bs : put_blocks (eputs bs) = bs.
Proof. induction bs as [|[c b] bs IH]; [reflexivity|]. cbn. f_equal. exact IH. Qed.
Lemma messages_eputs bs : messages (eputs bs) = [].
Proof. induction bs as [|[c b] bs IH]; [reflexivity|]. exact IH. Qed.

Definition import_result (bs : list (cid * bytes)) (last : option cid) (total : N) : option (cid * N) :=
  match rev bs with
  | (c, _) :: _ => Some (c, total + blocks_size bs)
  | [] => match last with Some c => Some (c, total) | None => None end
  end.
Lemma import_result_cons c b bs last total : import_result ((c, b) :: bs) last total = import_result bs (Some c) (total + blen b).
Proof.
  unfold import_result. cbn [rev]. destruct (rev bs) as [|[c0 b0] r] eqn:E; cbn [app].
  - assert (bs = []) by (apply (f_equal (@rev _)) in E; rewrite rev_involutive in E; exact E). subst. unfold blocks_size. cbn. f_equal. f_equal. lia.
  - unfold blocks_size. cbn [map sumN snd]. f_equal. f_equal. lia.
Qed.
Lemma import_go bs : forall last total n t n' r, import_blocks bs last total n = (t, n', Go r) ->
  t = eputs bs /\ r = import_result bs last total /\ (bs <> [] -> total + blocks_size bs < u64_max1).
Proof.
  induction bs as [|[c b] bs IH]; intros last total n t n' r H; cbn [HttpAdd.import_blocks] in H.
  - injection H as <- _ <-. split; [reflexivity|]. split; [reflexivity|congruence].
  - apply plus_go in H as [Hs H]. apply bind_go in H as (t1 & n1 & u & t2 & H1 & H2 & ->).
    unfold HttpAdd.put in H1. destruct (put_ok n); [|discriminate]. injection H1 as <- _ _. apply IH in H2 as (-> & -> & H3).
    split; [reflexivity|]. split; [rewrite import_result_cons; reflexivity|]. intros _. unfold blocks_size in *. cbn [map sumN snd].
    destruct bs as [|p bs]; [cbn; lia|]. specialize (H3 ltac:(discriminate)). lia.
Qed.
Lemma import_eval bs : (forall k, put_ok k = true) -> forall last total n, total + blocks_size bs < u64_max1 ->
  import_blocks bs last total n = (eputs bs, (n + length bs)%nat, Go (import_result bs last total)).
Proof.
  intros Hp. induction bs as [|[c b] bs IH]; intros last total n Hs; cbn [HttpAdd.import_blocks].
  - cbn [length]. rewrite Nat.add_0_r. reflexivity.
  - unfold blocks_size in Hs. cbn [map sumN snd] in Hs. fold (blocks_size bs) in Hs. rewrite plus_eval by lia.
    rewrite (bind_eval _ _ n [EPut c b] (S n) tt) by (unfold HttpAdd.put; rewrite Hp; reflexivity). rewrite IH by lia. rewrite import_result_cons. cbn [length app eputs map fst snd]. do 2 f_equal. lia.
Qed.
Lemma import_sum bs : match import_result bs None 0 with Some (_, n) => n | None => 0 end = blocks_size bs.
Proof. unfold import_result. destruct (rev bs) as [|[c b] r] eqn:E; [|lia]. apply (f_equal (@rev _)) in E. rewrite rev_involutive in E. subst. reflexivity. Qed.

Lemma push_used s input s' bs used : push sha chunk bf s input = Added (s', bs, used) -> (used <= length input)%nat.
Proof.
  unfold push, FileAdder.accept. destruct (chunk <? length (a_buf s))%nat; [discriminate|]. set (l := Nat.min _ _).
  assert (H : (length (firstn l input) <= length input)%nat) by (rewrite firstn_length; lia).
  destruct (_ || _); [|intros [= _ _ <-]; exact H]. destruct (flush_leaf _ _ _ _) as [ls [lf|]]; [|discriminate].
  destruct (flush_links _ _ _ _); [|discriminate|discriminate]. intros [= _ _ <-]. exact H.
Qed.
(** [push_all] stores the blocks of [push_slice]. *)
Lemma push_go fuel : forall s rest read saved written n t n' r, push_all fuel s rest read saved written n = (t, n', Go r) ->
  exists s' bs, push_slice sha fuel chunk bf s rest = Added (s', bs) /\ t = eputs bs /\
    fst (fst (fst r)) = s' /\ snd r = written + blocks_size bs /\ (snd r < u64_max1 \/ snd r = written) /\
    snd (fst (fst r)) = N.of_nat (read + length rest).
Proof.
  induction fuel as [|fuel IH]; intros s rest read saved written n t n' r H; cbn [HttpAdd.push_all push_slice] in *; destruct rest as [|x rest]; try discriminate.
  - injection H as <- _ <-. exists s, []. cbn. rewrite Nat.add_0_r. repeat split; auto. lia.
  - injection H as <- _ <-. exists s, []. cbn. rewrite Nat.add_0_r. repeat split; auto. lia.
  - destruct (push sha chunk bf s (x :: rest)) as [[[s' bs] used]| |] eqn:Ep; try discriminate. pose proof (push_used _ _ _ _ _ Ep) as Hu.
    apply bind_go in H as (t1 & n1 & o & t2 & H1 & H2 & ->). apply import_go in H1 as (-> & -> & _). apply plus_go in H2 as [Hs H2]. rewrite import_sum in *.
    apply IH in H2 as (s2 & bs2 & E & -> & E1 & E2 & E3 & E4). rewrite E. exists s2, (bs ++ bs2). split; [reflexivity|]. split; [symmetry; apply eputs_app|]. split; [exact E1|].
    assert (Hb : blocks_size (bs ++ bs2) = blocks_size bs + blocks_size bs2) by (unfold blocks_size; rewrite map_app, sumN_app; reflexivity).
    rewrite Hb. rewrite E2 in E3 |- *. split; [lia|]. split; [left; lia|]. rewrite E4, skipn_length. lia.
Qed.

Lemma push_eval fuel : (forall k, put_ok k = true) -> forall s rest read saved written n s' bs, push_slice sha fuel chunk bf s rest = Added (s', bs) ->
  written + blocks_size bs < u64_max1 -> exists n' saved',
  push_all fuel s rest read saved written n = (eputs bs, n', Go (s', N.of_nat (read + length rest), saved', written + blocks_size bs)).
Proof.
  intros Hp. induction fuel as [|fuel IH]; intros s rest read saved written n s' bs E Hs; cbn [HttpAdd.push_all push_slice] in *; destruct rest as [|x rest]; try discriminate.
  - injection E as <- <-. exists n, saved. cbn [length eputs map]. rewrite Nat.add_0_r, N.add_0_r. reflexivity.
  - injection E as <- <-. exists n, saved. cbn [length eputs map]. rewrite Nat.add_0_r, N.add_0_r. reflexivity.
  - destruct (push sha chunk bf s (x :: rest)) as [[[s1 b1] used]| |] eqn:Ep; try discriminate. pose proof (push_used _ _ _ _ _ Ep) as Hu.
    destruct (push_slice sha fuel chunk bf s1 (skipn used (x :: rest))) as [[s2 b2]| |] eqn:E2; try discriminate. injection E as <- <-.
    assert (Hb : blocks_size (b1 ++ b2) = blocks_size b1 + blocks_size b2) by (unfold blocks_size; rewrite map_app, sumN_app; reflexivity).
    rewrite Hb in *. rewrite (bind_eval _ _ _ _ _ _ (import_eval b1 Hp None 0 n ltac:(lia))). rewrite plus_eval by (rewrite import_sum; lia). rewrite import_sum.
    destruct (IH s1 (skipn used (x :: rest)) (read + used)%nat (saved || match import_result b1 None 0 with Some _ => true | None => false end)
                (written + blocks_size b1) (n + length b1)%nat s2 b2 E2 ltac:(lia)) as (n' & sv & ->).
    exists n', sv. rewrite eputs_app, skipn_length, N.add_assoc.
    replace (read + used + (length (x :: rest) - used))%nat with (read + length (x :: rest))%nat by lia. reflexivity.
Qed.

(** The loop over the pieces of a file. *)
Lemma rising_snoc l : forall v, rising l -> (forall x, In x l -> x <= v) -> rising (l ++ [v]).
Proof.
  induction l as [|a l IH]; intros v Hr Hv; [exact Logic.I|]. destruct l as [|b l]; cbn [app].
  - split; [apply Hv; left; reflexivity|exact Logic.I].
  - destruct Hr as [H1 H2]. split; [exact H1|]. apply (IH v H2). intros x Hx. apply Hv. right. exact Hx.
Qed.
Lemma loop_go name body : forall s written read n t n' r, file_loop name body false s written read n = (t, n', Go r) ->
  exists s' bs reports, push_slices sha chunk bf s body = Added (s', bs) /\ put_blocks t = bs /\ messages t = map (Progress name) reports /\
    r = (s', written + blocks_size bs, read + blen (concat body)) /\ (body <> [] -> written + blocks_size bs < u64_max1) /\
    (progress = false -> reports = []) /\ rising reports /\
    Forall (fun v => read <= v <= read + blen (concat body) /\ exists k, v = read + blen (concat (firstn k body))) reports.
Proof.
  induction body as [|next body IH]; intros s written read n t n' r H; cbn [HttpAdd.file_loop push_slices] in *.
  - injection H as <- _ <-. exists s, [], []. cbn. rewrite !N.add_0_r. repeat split; auto. congruence.
  - apply bind_go in H as (t1 & n1 & [[[s1 r1] sv] w1] & t2 & H1 & H2 & ->). apply push_go in H1 as (s1' & b1 & E1 & -> & X1 & X2 & X3 & X4). cbn [fst snd] in *. subst s1' w1 r1.
    rewrite N.add_0_l in *. apply plus_go in H2 as [Hw H2]. apply plus_go in H2 as [Hr H2]. apply bind_go in H2 as (t3 & n3 & u & t4 & H3 & H4 & ->).
    apply IH in H4 as (s' & bs & reports & E2 & Y1 & Y2 & -> & Y3 & Y4 & Y5 & Y6). rewrite E1, E2. cbn [Nat.add] in *.
    assert (Hb : blocks_size (b1 ++ bs) = blocks_size b1 + blocks_size bs) by (unfold blocks_size; rewrite map_app, sumN_app; reflexivity).
    assert (Hc : blen (concat (next :: body)) = N.of_nat (length next) + blen (concat body)) by (cbn [concat]; unfold blen; rewrite app_length; lia).
    assert (Hrep : Forall (fun v => read <= v <= read + blen (concat (next :: body)) /\ exists k, v = read + blen (concat (firstn k (next :: body)))) reports).
    { eapply Forall_impl; [|exact Y6]. cbv beta. intros v (Hv & k & Hk). rewrite Hc. split; [lia|]. exists (S k). cbn [firstn concat]. unfold blen in *. rewrite app_length. lia. }
    exists s', (b1 ++ bs), (if sv && progress then (read + N.of_nat (length next)) :: reports else reports).
    split; [reflexivity|]. rewrite !put_blocks_app, !messages_app, put_blocks_eputs, messages_eputs, Y1, Y2, Hb, Hc, !N.add_assoc.
    assert (Hw' : written + blocks_size b1 + blocks_size bs < u64_max1) by (destruct body as [|x0 y0]; [injection E2 as _ <-; cbn; lia|apply Y3; discriminate]).
    destruct (sv && progress) eqn:Es; injection H3 as <- _ _; cbn [put_blocks messages flat_map app map].
    + split; [reflexivity|]. split; [reflexivity|]. split; [reflexivity|]. split; [intros _; exact Hw'|]. split; [intros ->; rewrite andb_false_r in Es; discriminate|]. split.
      * destruct reports as [|v reports]; [exact Logic.I|]. split; [|exact Y5]. inversion Y6 as [|? ? [Hv _] _]. lia.
      * constructor; [|rewrite <- N.add_assoc, <- Hc; exact Hrep]. split; [lia|]. exists 1%nat. cbn [firstn concat]. rewrite app_nil_r. unfold blen. lia.
    + split; [reflexivity|]. split; [reflexivity|]. split; [reflexivity|]. split; [intros _; exact Hw'|]. split; [exact Y4|]. split; [exact Y5|]. rewrite <- N.add_assoc, <- Hc. exact Hrep.
Qed.
Lemma loop_eval name body : (forall k, put_ok k = true) -> forall s written read n s' bs, push_slices sha chunk bf s body = Added (s', bs) ->
  written + blocks_size bs < u64_max1 -> read + blen (concat body) < u64_max1 -> exists t n',
  file_loop name body false s written read n = (t, n', Go (s', written + blocks_size bs, read + blen (concat body))).
Proof.
  intros Hp. induction body as [|next body IH]; intros s written read n s' bs E Hw Hr; cbn [HttpAdd.file_loop push_slices] in *.
  - injection E as <- <-. exists [], n. cbn. rewrite !N.add_0_r. reflexivity.
  - destruct (push_slice sha (length next) chunk bf s next) as [[s1 b1]| |] eqn:E1; try discriminate.
    destruct (push_slices sha chunk bf s1 body) as [[s2 b2]| |] eqn:E2; try discriminate. injection E as <- <-.
    assert (Hb : blocks_size (b1 ++ b2) = blocks_size b1 + blocks_size b2) by (unfold blocks_size; rewrite map_app, sumN_app; reflexivity).
    assert (Hc : blen (concat (next :: body)) = N.of_nat (length next) + blen (concat body)) by (cbn [concat]; unfold blen; rewrite app_length; lia).
    rewrite Hb, Hc in *.
    destruct (push_eval (length next) Hp s next 0 false 0 n s1 b1 E1 ltac:(lia)) as (n1 & sv & Ee). rewrite (bind_eval _ _ _ _ _ _ Ee). cbn [Nat.add]. rewrite N.add_0_l.
    rewrite plus_eval by lia. rewrite plus_eval by lia.
    assert (Ei : exists t3 n3, (if sv && progress then item [Progress name (read + N.of_nat (length next))] else give tt) n1 = (t3, n3, Go tt)) by (destruct (sv && progress); eexists _, _; reflexivity).
    destruct Ei as (t3 & n3 & Ei). rewrite (bind_eval _ _ _ _ _ _ Ei).
    destruct (IH s1 (written + blocks_size b1) (read + N.of_nat (length next)) n3 s2 b2 E2 ltac:(lia) ltac:(lia)) as (t4 & n4 & ->).
    exists (eputs b1 ++ t3 ++ t4), n4. rewrite !N.add_assoc. reflexivity.
Qed.

(** * Messages mean something *)
Variable parts : list (option part).
Notation meant := (meant sha chunk bf cid_text parts).
Fixpoint sound (t0 t : list event) : Prop :=
  match t with
  | [] => True
  | e :: r => (forall l n c s, e = EItem l -> In (AddedMsg n c s) l -> meant t0 n c s) /\ sound (t0 ++ [e]) r
  end.
Lemma sound_app a : forall t0 b, sound t0 (a ++ b) <-> sound t0 a /\ sound (t0 ++ a) b.
Proof.
  induction a as [|e a IH]; intros t0 b; cbn [app sound]; [rewrite app_nil_r; tauto|]. rewrite IH, <- app_assoc. cbn [app]. tauto.
Qed.
Lemma sound_split t1 l t2 : sound [] (t1 ++ EItem l :: t2) -> forall n c s, In (AddedMsg n c s) l -> meant t1 n c s.
Proof. intros H n c s Hin. apply sound_app in H as [_ [H _]]. exact (H l n c s eq_refl Hin). Qed.
Lemma sound_quiet t : forall t0, quiet t -> sound t0 t.
Proof.
  induction t as [|e t IH]; intros t0 Hq; [exact Logic.I|]. split.
  - intros l n c s -> Hin. destruct (Hq l _ (or_introl eq_refl) Hin) as (x & k & [=]).
  - apply IH. intros l m Hl. apply Hq. right. exact Hl.
Qed.

Lemma file_part_spec b field raw name p : p_field p = Some field -> p_filename p = Some raw -> names raw name -> p_type p = Some s_octets -> In (Some p) parts ->
  forall n t n' r t0, add_file_part b field name p n = (t, n', r) -> sound t0 t /\
  match r with
  | Go b' => exists blocks root reports, did_for sha chunk bf progress p (DidFile name (concat (p_body p)) blocks root reports) /\
      put_link b name root (blocks_size blocks) = (b', Ok tt) /\
      put_blocks t = blocks /\ messages t = did_messages cid_text (DidFile name (concat (p_body p)) blocks root reports)
  | Stop _ => True
  end.
Proof.
  intros Hf Hraw Hname Ht Hin n t n' r t0 H. unfold HttpAdd.add_file_part in H.
  destruct (field_ok s_file field) eqn:Ef; cbn [negb] in H; [|injection H as <- _ <-; split; exact Logic.I].
  apply bind_inv in H as [(t1 & n1 & [[s w] rd] & t2 & H1 & H2 & ->)|(e & H1 & ->)];
    [|split; [apply sound_quiet; eapply hushed_loop; exact H1|exact Logic.I]].
  assert (Hq1 : quiet t1) by (eapply hushed_loop; exact H1).
  assert (Hbr : p_broken p = false).
  { destruct (p_broken p) eqn:Eb; [exfalso|reflexivity]. clear - H1.
    assert (G : forall body s w rd n t n' r, HttpAdd.file_loop sha chunk bf put_ok progress name body true s w rd n <> (t, n', Go r)).
    { clear. induction body as [|x body IH]; intros s w rd n t n' r H; cbn [HttpAdd.file_loop] in H; [discriminate|].
      apply bind_go in H as (t1 & n1 & [[[s1 r1] sv] w1] & t2 & H1 & H2 & ->). apply plus_go in H2 as [_ H2]. apply plus_go in H2 as [_ H2].
      apply bind_go in H2 as (t3 & n3 & u & t4 & H3 & H4 & ->). exact (IH _ _ _ _ _ _ _ H4). }
    exact (G _ _ _ _ _ _ _ _ H1). }
  rewrite Hbr in H1. apply loop_go in H1 as (s' & bs & reports & E1 & X1 & X2 & [= -> -> ->] & X3 & X4 & X5 & X6). rewrite !N.add_0_l in *.
  destruct (finish sha bf s') as [fs| |] eqn:Efin; [|injection H2 as <- _ <-; split; [apply sound_app; split; [apply sound_quiet; exact Hq1|exact Logic.I]|exact Logic.I]
                                                   |injection H2 as <- _ <-; split; [apply sound_app; split; [apply sound_quiet; exact Hq1|exact Logic.I]|exact Logic.I]].
  apply bind_inv in H2 as [(t3 & n3 & o & t4 & H3 & H4 & ->)|(e & H3 & ->)];
    [|split; [apply sound_app; split; [apply sound_quiet; exact Hq1|apply sound_quiet; eapply hushed_import; exact H3]|exact Logic.I]].
  apply import_go in H3 as (-> & -> & H3).
  assert (Hq : quiet (t1 ++ eputs fs)).
  { apply quiet_app; [exact Hq1|]. clear. induction fs as [|[c x] fs IH]; [apply quiet_nil|]. apply (quiet_app [EPut c x] (eputs fs)); [apply quiet_put|exact IH]. }
  assert (Hstop : forall (m : act builder), hushed m -> (forall n t n' r, m n = (t, n', r) -> exists e, r = Stop e) -> m n3 = (t4, n', r) -> sound t0 (t1 ++ eputs fs ++ t4) /\
    match r with Go b' => exists blocks root reports, did_for sha chunk bf progress p (DidFile name (concat (p_body p)) blocks root reports) /\
      put_link b name root (blocks_size blocks) = (b', Ok tt) /\ put_blocks (t1 ++ eputs fs ++ t4) = blocks /\
      messages (t1 ++ eputs fs ++ t4) = did_messages cid_text (DidFile name (concat (p_body p)) blocks root reports) | Stop _ => True end).
  { intros m Hm Hs E. destruct (Hs _ _ _ _ E) as [e ->]. split; [|exact Logic.I]. rewrite app_assoc. apply sound_quiet. apply quiet_app; [exact Hq|eapply Hm; exact E]. }
  unfold import_result in H4. destruct (rev fs) as [|[root blk] rfs] eqn:Er.
  { apply (Hstop (stop Crash)); [apply hushed_stop|intros ? ? ? ? [= _ _ <-]; eauto|exact H4]. }
  assert (Efs : fs = rev rfs ++ [(root, blk)]) by (rewrite <- (rev_involutive fs), Er; reflexivity).
  unfold plus in H4. destruct (add64 (blocks_size bs) (0 + blocks_size fs)) as [total|] eqn:Ea;
    [|apply (Hstop (stop Crash)); [apply hushed_stop|intros ? ? ? ? [= _ _ <-]; eauto|exact H4]].
  unfold add64 in Ea. destruct (N.ltb_spec (blocks_size bs + (0 + blocks_size fs)) u64_max1) as [Htot|]; [|discriminate]. injection Ea as Ea. rewrite N.add_0_l in *.
  assert (Hbs : blocks_size (bs ++ fs) = total) by (unfold blocks_size in *; rewrite map_app, sumN_app; exact Ea).
  destruct (put_link b name root total) as [b' [[]|e|]] eqn:Ep;
    [|apply (Hstop (stop (Broken (TreeGathering e)))); [apply hushed_stop|intros ? ? ? ? [= _ _ <-]; eauto|exact H4]
     |apply (Hstop (stop Crash)); [apply hushed_stop|intros ? ? ? ? [= _ _ <-]; eauto|exact H4]].
  unfold bind, item, give in H4. injection H4 as <- _ <-. cbn [app].
  set (rep := reports ++ if progress then [blen (concat (p_body p))] else []).
  assert (Hadd : add_file sha chunk bf (p_body p) = Added (bs ++ fs)) by (unfold add_file; rewrite E1, Efin; reflexivity).
  assert (Hasks : asks p (AskFile name (concat (p_body p)))).
  { split; [exact Hbr|]. exists field, raw. split; [exact Hf|]. split; [exact Hraw|]. split; [exact Hname|]. split; [reflexivity|]. split; [exact Ht|]. apply field_ok_spec. exact Ef. }
  assert (Hputs : put_blocks (t1 ++ eputs fs) = bs ++ fs) by (rewrite put_blocks_app, put_blocks_eputs, X1; reflexivity).
  split.
  - rewrite app_assoc. apply sound_app. split; [apply sound_quiet; exact Hq|]. split; [|exact Logic.I].
    intros l n0 c s0 [= <-] Hm. left.
    assert (Hm' : AddedMsg n0 c s0 = AddedMsg (match name with [] => cid_text root | _ => name end) root total).
    { apply in_app_or in Hm as [Hm|[Hm|[]]]; [destruct progress; [destruct Hm as [[=]|[]]|destruct Hm]|congruence]. }
    injection Hm' as -> -> ->. exists p, name, (concat (p_body p)), (bs ++ fs), (bs ++ rev rfs), blk.
    split; [exact Hin|]. split; [exact Hasks|]. split; [reflexivity|]. split; [exact Hadd|]. split; [rewrite Efs, app_assoc; reflexivity|].
    split; [symmetry; exact Hbs|]. split; [rewrite <- Ea; exact Htot|]. exists (put_blocks t0). rewrite put_blocks_app, Hputs. reflexivity.
  - exists (bs ++ fs), root, rep. split; [|split; [|split]].
    + split; [exact Hasks|]. split; [exact Hadd|]. split; [rewrite Hbs, <- Ea; exact Htot|]. split; [exists (bs ++ rev rfs), blk; rewrite Efs, app_assoc; reflexivity|].
      unfold report_ok, rep. destruct progress; [|rewrite (X4 eq_refl); reflexivity]. split; [|split].
      * apply rising_snoc; [exact X5|]. intros x Hx. rewrite Forall_forall in X6. apply X6 in Hx as [Hx _]. lia.
      * eauto.
      * apply Forall_app. split; [eapply Forall_impl; [|exact X6]; cbv beta; intros v (_ & k & Hk); exists k; lia|].
        constructor; [|constructor]. exists (length (p_body p)). rewrite firstn_all. reflexivity.
    + rewrite Hbs. exact Ep.
    + rewrite app_assoc, put_blocks_app, Hputs. cbn. apply app_nil_r.
    + rewrite app_assoc, !messages_app, messages_eputs, X2, app_nil_r. unfold did_messages, rep. rewrite map_app, <- app_assoc. f_equal.
      unfold messages. cbn [flat_map]. rewrite app_nil_r, Hbs. destruct progress; reflexivity.
Qed.

Lemma add_part_spec b p : In (Some p) parts -> forall n t n' r t0, add_part b p n = (t, n', r) -> sound t0 t /\
  match r with
  | Go b' => exists d, did_for sha chunk bf progress p d /\ do_call b (did_call d) = (b', Ok tt) /\
      put_blocks t = did_blocks d /\ messages t = did_messages cid_text d
  | Stop _ => True
  end.
Proof.
  intros Hin n t n' r t0 H. unfold HttpAdd.add_part in H.
  assert (Hs : forall e, @stop builder e n = (t, n', r) -> sound t0 t /\
    match r with Go b' => exists d, did_for sha chunk bf progress p d /\ do_call b (did_call d) = (b', Ok tt) /\
      put_blocks t = did_blocks d /\ messages t = did_messages cid_text d | Stop _ => True end).
  { intros e [= <- _ <-]. split; exact Logic.I. }
  destruct (p_field p) as [field|] eqn:Ef; [|destruct (p_filename p); exact (Hs _ H)].
  destruct (p_filename p) as [raw|] eqn:Er; [|exact (Hs _ H)].
  destruct (decoded_name raw) as [name|] eqn:En; [|exact (Hs _ H)]. apply decoded_name_spec in En.
  destruct (p_type p) as [ty|] eqn:Et; [|exact (Hs _ H)].
  destruct (beq_spec ty s_octets) as [->|_].
  - destruct (file_part_spec b field raw name p Ef Er En Et Hin n t n' r t0 H) as [H1 H2]. split; [exact H1|].
    destruct r as [b'|]; [|exact Logic.I]. destruct H2 as (blocks & root & reports & H2 & H3 & H4 & H5).
    exists (DidFile name (concat (p_body p)) blocks root reports). auto.
  - destruct (beq_spec ty s_directory) as [->|_]; [|exact (Hs _ H)].
    unfold add_dir_part in H. destruct (field_ok s_dir field) eqn:Efk; cbn [negb] in H; [|exact (Hs _ H)].
    destruct (p_broken p) eqn:Eb; [exact (Hs _ H)|].
    destruct (set_metadata b name meta0) as [b' [[]|e|]] eqn:Em; [|exact (Hs _ H)|exact (Hs _ H)].
    injection H as <- _ <-. split; [exact Logic.I|]. exists (DidDir name). split; [|split; [exact Em|split; reflexivity]].
    split; [exact Eb|]. exists field, raw. split; [exact Ef|]. split; [exact Er|]. split; [exact En|]. split; [exact Et|]. apply field_ok_spec. exact Efk.
Qed.

Definition all_did (l : list (option part)) (ds : list did) : Prop := Forall2 (fun o d => exists p, o = Some p /\ did_for sha chunk bf progress p d) l ds.
Lemma add_parts_spec l : incl l parts -> forall b n t n' r t0, add_parts b l n = (t, n', r) -> sound t0 t /\
  match r with
  | Go b' => exists ds, all_did l ds /\ do_calls b (map did_call ds) = (b', map (fun _ => Ok tt) ds) /\
      put_blocks t = concat (map did_blocks ds) /\ messages t = concat (map (did_messages cid_text) ds)
  | Stop _ => True
  end.
Proof.
  induction l as [|[p|] l IH]; intros Hin b n t n' r t0 H; cbn [HttpAdd.add_parts] in H.
  - injection H as <- _ <-. split; [exact Logic.I|]. exists []. split; [constructor|]. split; [reflexivity|]. split; reflexivity.
  - apply bind_inv in H as [(t1 & n1 & b1 & t2 & H1 & H2 & ->)|(e & H1 & ->)].
    + destruct (add_part_spec b p (Hin _ (or_introl eq_refl)) _ _ _ _ t0 H1) as [S1 (d & D1 & D2 & D3 & D4)].
      destruct (IH (fun x Hx => Hin x (or_intror Hx)) _ _ _ _ _ (t0 ++ t1) H2) as [S2 G]. split; [apply sound_app; split; assumption|].
      destruct r as [b'|]; [|exact Logic.I]. destruct G as (ds & G1 & G2 & G3 & G4). exists (d :: ds).
      split; [constructor; [exists p; auto|exact G1]|]. cbn [map do_calls concat]. rewrite D2, G2. split; [reflexivity|].
      rewrite put_blocks_app, messages_app, D3, D4, G3, G4. split; reflexivity.
    + destruct (add_part_spec b p (Hin _ (or_introl eq_refl)) _ _ _ _ t0 H1) as [S1 _]. split; [exact S1|exact Logic.I].
  - injection H as <- _ <-. split; exact Logic.I.
Qed.

(** * The directories *)
Definition node_put (o : out) : list (cid * bytes) := match o with Node _ c _ b => [(c, b)] | Failed _ => [] end.
Definition node_msg (o : out) : list response := match o with Node p c s _ => [AddedMsg p c s] | Failed _ => [] end.
Lemma announced_in t n c s : In (AddedMsg n c s) (messages t) -> In (n, c, s) (announced (messages t)).
Proof. intros H. apply in_flat_map. eexists. split; [exact H|]. left. reflexivity. Qed.
Lemma announced_messages_app a b : announced (messages (a ++ b)) = announced (messages a) ++ announced (messages b).
Proof. rewrite messages_app. unfold announced. apply flat_map_app. Qed.

Lemma add_nodes_spec ok limit l e : forall em,
  (forall l1 o l2, l = l1 ++ o :: l2 -> node_ok sha limit ok (em ++ l1) o) ->
  forall n t n' r t0, add_nodes l e n = (t, n', r) ->
  (forall c s, ok c s -> exists name, In (name, c, s) (announced (messages t0))) ->
  (forall p c s b, In (Node p c s b) em -> exists name, In (name, c, s) (announced (messages t0))) ->
  sound t0 t /\
  match r with
  | Go _ => e = Some Finished /\ (forall x, ~ In (Failed x) l) /\ put_blocks t = flat_map node_put l /\ messages t = flat_map node_msg l
  | Stop _ => True
  end.
Proof.
  induction l as [|[path c size block|x] l IH]; intros em Hok n t n' r t0 H Hl Hem; cbn [HttpAdd.add_nodes] in H.
  - destruct e as [[|]|]; injection H as <- _ <-; (split; [exact Logic.I|]); [|exact Logic.I|exact Logic.I].
    split; [reflexivity|]. split; [intros x []|]. split; reflexivity.
  - apply bind_inv in H as [(t1 & n1 & [] & t2 & H1 & H2 & ->)|(e' & H1 & ->)]; [|split; [apply sound_quiet; eapply hushed_put; exact H1|exact Logic.I]].
    unfold HttpAdd.put in H1. destruct (put_ok n); [|discriminate]. injection H1 as <- <-.
    apply bind_inv in H2 as [(t3 & n3 & [] & t4 & H3 & H4 & ->)|(e' & H3 & ->)]; [|discriminate]. unfold item in H3. injection H3 as <- <-.
    destruct (Hok [] _ l eq_refl) as (es & Ec & Es & Eb & Htot & _ & Hes). rewrite app_nil_r in Hes.
    assert (Hmean : meant (t0 ++ [EPut c block]) path c size).
    { right. exists es. split; [exact Ec|]. split; [exact Es|]. split; [rewrite Es; exact Htot|]. split.
      - rewrite put_blocks_app. apply in_or_app. right. left. rewrite Eb. reflexivity.
      - intros nn c' s' Hn. rewrite announced_messages_app. cbn [messages flat_map announced]. rewrite app_nil_r.
        destruct (Hes nn c' s' Hn) as [_ [Hk|(p & b & Hk)]]; [exact (Hl _ _ Hk)|exact (Hem _ _ _ _ Hk)]. }
    set (t0' := t0 ++ [EPut c block; EItem [AddedMsg path c size]]).
    assert (Et0 : announced (messages t0') = announced (messages t0) ++ [(path, c, size)]) by (unfold t0'; rewrite announced_messages_app; reflexivity).
    destruct (IH (em ++ [Node path c size block])) with (n := S n) (t := t4) (n' := n') (r := r) (t0 := t0') as [S1 G].
    { intros l1 o l2 ->. rewrite <- app_assoc. cbn [app]. apply (Hok (Node path c size block :: l1) o l2). reflexivity. }
    { exact H4. }
    { intros c' s' Hk. destruct (Hl c' s' Hk) as [name Hn]. exists name. rewrite Et0. apply in_or_app. left. exact Hn. }
    { intros p c' s' b Hk. rewrite Et0. apply in_app_or in Hk as [Hk|[[= <- <- <- <-]|[]]].
      - destruct (Hem _ _ _ _ Hk) as [name Hn]. exists name. apply in_or_app. left. exact Hn.
      - exists path. apply in_or_app. right. left. reflexivity. }
    split.
    + cbn [app sound]. split; [intros ? ? ? ? [=]|]. split; [intros l' nn c' s' [= <-] [[= <- <- <-]|[]]; exact Hmean|].
      unfold t0' in S1. rewrite <- app_assoc. exact S1.
    + destruct r as [u|]; [|exact Logic.I]. destruct G as (-> & G1 & G2 & G3). split; [reflexivity|].
      split; [intros x [[=]|Hx]; exact (G1 _ Hx)|]. cbn [app flat_map node_put node_msg]. rewrite <- G2, <- G3. split; reflexivity.
  - injection H as <- _ <-. split; exact Logic.I.
Qed.
End Add.
