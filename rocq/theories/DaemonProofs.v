(** Proofs about [Daemon]. *)
From Coq Require Import Ascii String.
From Verif Require Import Base Wire Addr RefsHttpSpec Endpoints EndpointsSpec EndpointsProofs Str Daemon DaemonSpec.
Local Open Scope N_scope.

(** * The text *)
Lemma api_text_names ip port : ip < 4294967296 -> names_address (api_text ip port) ip port.
Proof.
  intros L. exists (ip / 16777216), (ip / 65536 mod 256), (ip / 256 mod 256), (ip mod 256), (dec (ip / 16777216)), (dec (ip / 65536 mod 256)), (dec (ip / 256 mod 256)), (dec (ip mod 256)), (dec port).
  split; [apply N.div_lt_upper_bound; lia|]. do 3 (split; [apply N.mod_lt; lia|]). split.
  { replace 16777216 with (256 * 256 * 256) by reflexivity. replace 65536 with (256 * 256) by reflexivity. rewrite <- !N.div_div by lia.
    pose proof (N.div_mod' ip 256). pose proof (N.div_mod' (ip / 256) 256). pose proof (N.div_mod' (ip / 256 / 256) 256). lia. }
  do 5 (split; [apply dec_decimal|]). unfold api_text, ip_text. rewrite <- !app_assoc. reflexivity.
Qed.
Lemma decimal_prefix s n s' n' x y c c' : decimal s n -> decimal s' n' -> (c < 48 \/ 57 < c) -> (c' < 48 \/ 57 < c') -> s ++ c :: x = s' ++ c' :: y -> s = s' /\ c :: x = c' :: y.
Proof.
  intros D D'. assert (G : forall s n, decimal s n -> Forall (fun c => 48 <= c <= 57) s).
  { clear. induction 1 as [c v D|s n c v H IH D]; unfold digit in D; [constructor; [lia|constructor]|]. apply Forall_app. split; [exact IH|]. constructor; [lia|constructor]. }
  apply G in D. apply G in D'. revert s' D'. induction D as [|z s Z D IH]; intros s' D' C C' E.
  - destruct D' as [|z' s' Z' D']; [split; [reflexivity|exact E]|]. cbn in E. injection E as E _. lia.
  - destruct D' as [|z' s' Z' D']; cbn in E; [injection E as E _; lia|]. injection E as -> E. destruct (IH s' D' C C' E) as [-> R]. split; [reflexivity|exact R].
Qed.
Lemma decimal_whole s n s' n' : decimal s n -> decimal s' n' -> s = s' -> n = n'.
Proof. intros D D' ->. exact (decimal_one_value _ _ D _ D'). Qed.
Lemma names_one s ip port ip' port' : names_address s ip port -> names_address s ip' port' -> ip = ip' /\ port = port'.
Proof.
  intros (a & b & c & d & ta & tb & tc & td & tp & _ & _ & _ & _ & -> & A & B & C & D & P & ->) (a' & b' & c' & d' & ta' & tb' & tc' & td' & tp' & _ & _ & _ & _ & -> & A' & B' & C' & D' & P' & E).
  apply app_inv_head in E. change (text ".") with [46] in E. cbn [app] in E. change (text "/tcp/") with (47 :: [116; 99; 112; 47]) in E. cbn [app] in E.
  apply (decimal_prefix _ _ _ _ _ _ _ _ A A') in E as [-> E]; [|left; reflexivity|left; reflexivity]. injection E as E.
  apply (decimal_prefix _ _ _ _ _ _ _ _ B B') in E as [-> E]; [|left; reflexivity|left; reflexivity]. injection E as E.
  apply (decimal_prefix _ _ _ _ _ _ _ _ C C') in E as [-> E]; [|left; reflexivity|left; reflexivity]. injection E as E.
  apply (decimal_prefix _ _ _ _ _ _ _ _ D D') in E as [-> E]; [|left; reflexivity|left; reflexivity]. injection E as E. subst tp'.
  rewrite (decimal_one_value _ _ A _ A'), (decimal_one_value _ _ B _ B'), (decimal_one_value _ _ C _ C'), (decimal_one_value _ _ D _ D'), (decimal_one_value _ _ P _ P'). split; reflexivity.
Qed.

(** * One step *)
Lemma write_more t k n : (k + n <= length t)%nat -> write_at k (firstn n (skipn k t)) (firstn k t) = firstn (k + n) t.
Proof.
  intros L. unfold write_at. assert (Lk : length (firstn k t) = k) by (rewrite firstn_length; lia).
  set (x := firstn n (skipn k t)). rewrite (firstn_all2 (n := k) (firstn k t)) by lia. rewrite Lk, Nat.sub_diag, (skipn_all2 (n := k + length x) (firstn k t)) by lia.
  cbn [repeat app]. rewrite app_nil_r. subst x.
  rewrite <- (firstn_skipn k t) at 3. rewrite firstn_app, Lk, (firstn_all2 (n := k + n) (firstn k t)) by lia. replace (k + n - k)%nat with n by lia. reflexivity.
Qed.
Definition txt (d : daemon) : bytes := api_text (fst (bound d)) (snd (bound d)).
Lemma put_same i d m : put i d m i = d.
Proof. unfold put. rewrite Nat.eqb_refl. reflexivity. Qed.
Lemma put_other i j d m : j <> i -> put i d m j = m j.
Proof. intros H. unfold put. destruct (Nat.eqb_spec j i); [contradiction|reflexivity]. Qed.

Ltac cases H := unfold dstep in H; repeat match type of H with
  | context [match ?x with _ => _ end] => let E := fresh "E" in destruct x eqn:E; try discriminate H
  end; try (injection H as <- <-).
Ltac parts := cbn [set_phase at_ bound queue closed exit_sent inflight waiting ready told fst snd] in *.

Lemma some_pair {A B : Type} (a c : A) (b d : B) : Some (a, b) = Some (c, d) -> c = a /\ d = b.
Proof. intros [= -> ->]. split; reflexivity. Qed.

(** ** The file *)
(** What the phase of a daemon says about the file. *)
Definition says (f : option bytes) (d : daemon) : Prop :=
  match at_ d with
  | Writing k => (k < length (txt d))%nat /\ f = Some (firstn k (txt d))
  | Serving true | Ended true | Released true => f = Some (txt d)
  | _ => True
  end.
Lemma txt_length d : (0 < length (txt d))%nat.
Proof. unfold txt, api_text. rewrite app_length. change (length (text "/ip4/")) with 5%nat. lia. Qed.
Lemma dstep_says {b} f d e f' d' : says f d -> dstep b f d e = Some (f', d') -> says f' d'.
Proof.
  intros S H. unfold says in *. destruct (at_ d) as [| | |k|wr|wr|wr| |] eqn:A; destruct e; unfold dstep in H; rewrite A in H; try discriminate H.
  all: try (injection H as <- <-; parts; exact Logic.I).
  all: try (repeat match type of H with context [if ?x then _ else _] => destruct x; try discriminate H end; injection H as <- <-; parts; rewrite ?A; exact S).
  - destruct (socket_addr api) as [[ip pp]|], port as [g|]; try (injection H as <- <-; exact Logic.I). destruct (_ || _); [|discriminate H]. injection H as <- <-. exact Logic.I.
  - destruct ok; injection H as <- <-; [|exact Logic.I]. parts. split; [apply txt_length|reflexivity].
  - cbv zeta in H. fold (txt d) in H. destruct S as [S1 ->]. destruct ((0 <? n)%nat && (k + n <=? length (txt d))%nat) eqn:B; [|discriminate H]. apply some_pair in H as [-> ->]. apply andb_prop in B as [_ B]. apply Nat.leb_le in B.
    cbn [content]. rewrite write_more by exact B. parts. destruct (Nat.eqb_spec (k + n) (length (txt d))) as [Q|Q].
    + rewrite Q, firstn_all. exact eq_refl.
    + change (txt (set_phase d (Writing (k + n)))) with (txt d). split; [lia|reflexivity].
  - destruct (List.find _ _) as [[? ?]|]; [|discriminate H]. injection H as <- <-. parts. rewrite ?A. exact S.
  - destruct wr; injection H as <- <-; exact Logic.I.
  - destruct wr; injection H as <- <-; exact Logic.I.
Qed.
Lemma over_says f d : over d -> says f d.
Proof. unfold says. intros [-> |[-> | ->]]; exact Logic.I. Qed.
Lemma dstep_bound {b} f d e f' d' : dstep b f d e = Some (f', d') -> (at_ d <> New -> at_ d <> Started -> bound d' = bound d /\ at_ d' <> New /\ at_ d' <> Started).
Proof.
  intros H N1 N2. destruct (at_ d) as [| | |k|wr|wr|wr| |] eqn:A; try contradiction; destruct e; unfold dstep in H; rewrite A in H; try discriminate H.
  all: repeat match type of H with context [match ?x with _ => _ end] => destruct x; try discriminate H end.
  all: apply some_pair in H as [-> ->]; parts; rewrite ?A; repeat split; try discriminate; try (rewrite A; discriminate).
  all: destruct (_ =? _)%nat; discriminate.
Qed.

(** Nothing to do with the file any more, or not yet. *)
Definition idle (d : daemon) : Prop := over d \/ at_ d = Released false.
Lemma over_idle d : over d -> idle d.
Proof. left. exact H. Qed.
Lemma idle_says f d : idle d -> says f d.
Proof. intros [O|A]; [apply over_says, O|]. unfold says. rewrite A. exact Logic.I. Qed.
Lemma idle_dec d : idle d \/ ~ idle d.
Proof. unfold idle, over. destruct (at_ d) as [| | |k|wr|wr|[]| |]; try (left; tauto); right; intros [[X|[X|X]]|X]; discriminate X. Qed.
Definition alone (w : world) : Prop := forall i j, i <> j -> idle (daemons w i) \/ idle (daemons w j).
Definition locked (w : world) : Prop := forall i, keeps (daemons w i) = true <-> lock w = Some i.
Definition all_say (w : world) : Prop := alone w /\ locked w /\ forall i, says (api_file w) (daemons w i).
Lemma wstep_cases w i e w' : wstep w (i, e) = Some w' -> exists f d, dstep (free w) (api_file w) (daemons w i) e = Some (f, d) /\ w' = mk_world f (lock_after i d (lock w)) (put i d (daemons w)).
Proof. unfold wstep. cbn [fst snd]. destruct (dstep _ _ _ _) as [[f d]|]; [|discriminate]. intros [= <-]. exists f, d. split; reflexivity. Qed.
(** The lock. *)
Lemma running_keeps d : running d -> keeps d = true.
Proof. unfold keeps. intros [-> |[-> |[[k ->]|[b ->]]]]; reflexivity. Qed.
Lemma keeps_before f d e f' d' : dstep false f d e = Some (f', d') -> keeps d' = true -> keeps d = true.
Proof.
  intros H K. unfold keeps in *. destruct (at_ d) as [| | |k|wr|wr|wr| |] eqn:A; try reflexivity; exfalso; destruct e; unfold dstep in H; rewrite A in H; try discriminate H; try (destruct ok; discriminate H).
  all: repeat match type of H with context [match ?x with _ => _ end] => destruct x; try discriminate H end; apply some_pair in H as [_ ->]; discriminate K.
Qed.
Lemma wstep_locked w i e w' : locked w -> wstep w (i, e) = Some w' -> locked w'.
Proof.
  intros L H. apply wstep_cases in H as (f & d & H & ->). intros j. cbn [daemons lock]. unfold lock_after.
  assert (O : keeps d = true -> forall k, lock w = Some k -> k = i).
  { intros K k E. destruct (Nat.eq_dec k i) as [Q|Q]; [exact Q|]. unfold free in H. rewrite E in H. apply keeps_before in H; [|exact K]. apply L in H. congruence. }
  destruct (Nat.eq_dec j i) as [->|J].
  - rewrite put_same. destruct (keeps d); [split; reflexivity|]. split; [discriminate|]. destruct (lock w) as [k|]; [|discriminate]. destruct (Nat.eqb_spec k i); [discriminate|congruence].
  - rewrite put_other by exact J. specialize (L j). destruct (keeps d).
    + split; [intros X; apply L in X; rewrite (O eq_refl _ X) in J; contradiction|congruence].
    + rewrite L. destruct (lock w) as [k|]; [|reflexivity]. destruct (Nat.eqb_spec k i) as [->|]; [|reflexivity]. split; congruence.
Qed.
Lemma run_locked l : forall w w', locked w -> run w l = Some w' -> locked w'.
Proof.
  induction l as [|[i e] l IH]; intros w w' L H; cbn [run] in *; [injection H as <-; exact L|]. destruct (wstep w (i, e)) as [w1|] eqn:E; [|discriminate]. exact (IH _ _ (wstep_locked _ _ _ _ L E) H).
Qed.
Lemma init_locked f : locked (init f).
Proof. intros i. split; discriminate. Qed.
(** Either nothing happens to the file, or no one else has to do with it. *)
Lemma idle_step free f d e f' d' : idle d -> (e <> Start \/ free = false) -> dstep free f d e = Some (f', d') -> f' = f /\ idle d'.
Proof.
  intros [[A|[A|A]]|A] F H; destruct e; unfold dstep in H; rewrite A in H; try discriminate H; try (destruct ok; discriminate H).
  all: try (apply some_pair in H as [-> ->]; split; [reflexivity|]; left; unfold over; parts; tauto).
  destruct F as [F| ->]; [contradiction|]. apply some_pair in H as [-> ->]. split; [reflexivity|]. left. right. right. reflexivity.
Qed.
Lemma others_idle w i e f d : all_say w -> (e = Start -> forall j, at_ (daemons w j) <> Released true) -> dstep (free w) (api_file w) (daemons w i) e = Some (f, d) ->
  (idle (daemons w i) /\ f = api_file w /\ idle d) \/ forall j, j <> i -> idle (daemons w j).
Proof.
  intros (A & L & S) X H. destruct (idle_dec (daemons w i)) as [O|O].
  - assert (D : (e <> Start \/ free w = false) \/ (e = Start /\ free w = true)) by (destruct (free w); [|tauto]; destruct e; try (left; left; discriminate); tauto).
    destruct D as [D|[-> D]]; [left; split; [exact O|]; exact (idle_step _ _ _ _ _ _ O D H)|]. right. intros j J. specialize (X eq_refl j). specialize (L j). unfold free in D. destruct (lock w); [discriminate D|].
    unfold idle, over. unfold keeps in L. destruct (at_ (daemons w j)) as [| | |k|wr|wr|[]| |]; try tauto; first [exfalso; apply X; reflexivity|discriminate (proj1 L eq_refl)].
  - right. intros j J. destruct (A j i J) as [Y|Y]; [exact Y|contradiction].
Qed.
Lemma wstep_say w i e w' : all_say w -> (e = Start -> forall j, at_ (daemons w j) <> Released true) -> wstep w (i, e) = Some w' -> all_say w'.
Proof.
  intros W X H. pose proof (wstep_locked _ _ _ _ (proj1 (proj2 W)) H) as L'. apply wstep_cases in H as (f & d & H & E). subst w'. pose proof (others_idle _ _ _ _ _ W X H) as O. destruct W as (A & L & S). split; [|split; [exact L'|]].
  - intros a b N. cbn [daemons]. destruct O as [(O & -> & D)|O].
    + destruct (Nat.eq_dec a i) as [->|Na]; [left; rewrite put_same; exact D|]. destruct (Nat.eq_dec b i) as [->|Nb]; [right; rewrite put_same; exact D|]. rewrite !put_other by assumption. exact (A a b N).
    + destruct (Nat.eq_dec a i) as [->|Na]; [right; rewrite put_other by congruence; apply O; congruence|left; rewrite put_other by exact Na; apply O, Na].
  - intros j. cbn [daemons api_file]. destruct (Nat.eq_dec j i) as [->|J].
    + rewrite put_same. exact (dstep_says _ _ _ _ _ (S i) H).
    + rewrite put_other by exact J. destruct O as [(_ & -> & _)|O]; [exact (S j)|apply idle_says, O, J].
Qed.
Lemma run_say l : forall w w', all_say w -> apart w l -> run w l = Some w' -> all_say w'.
Proof.
  induction l as [|[i e] l IH]; intros w w' S X H; cbn [run apart] in *; [injection H as <-; exact S|]. destruct X as [X1 X2].
  destruct (wstep w (i, e)) as [w1|] eqn:E; [|discriminate]. exact (IH _ _ (wstep_say _ _ _ _ S X1 E) X2 H).
Qed.
Lemma init_say f : all_say (init f).
Proof. split; [intros i j _; left; left; left; reflexivity|]. split; [apply init_locked|intros i; exact Logic.I]. Qed.

(** Every content there is at some time. *)
Definition bounded (d : daemon) : Prop := at_ d <> New /\ at_ d <> Started.
Definition seen (f0 : option bytes) (w : world) : Prop :=
  api_file w = f0 \/ exists i k, bounded (daemons w i) /\ api_file w = Some (firstn k (txt (daemons w i))).
Lemma dstep_file {b} f d e f' d' : says f d -> dstep b f d e = Some (f', d') -> f' = f \/ (bounded d /\ exists k, f' = Some (firstn k (txt d'))).
Proof.
  intros S H. destruct (at_ d) as [| | |k|wr|wr|wr| |] eqn:A; destruct e; unfold dstep in H; rewrite A in H; try discriminate H.
  all: try (repeat match type of H with context [match ?x with _ => _ end] => destruct x; try discriminate H end; apply some_pair in H as [-> _]; left; reflexivity).
  - destruct ok; apply some_pair in H as [-> ->]; [|left; reflexivity]. right. split; [unfold bounded; rewrite A; split; discriminate|]. exists 0%nat. reflexivity.
  - cbv zeta in H. fold (txt d) in H. unfold says in S. rewrite A in S. destruct S as [S1 ->]. destruct ((0 <? n)%nat && (k + n <=? length (txt d))%nat) eqn:B; [|discriminate H]. apply some_pair in H as [-> ->]. apply andb_prop in B as [_ B]. apply Nat.leb_le in B.
    right. split; [unfold bounded; rewrite A; split; discriminate|]. exists (k + n)%nat. cbn [content]. rewrite write_more by exact B. reflexivity.
  - destruct wr, ok; apply some_pair in H as [-> ->]; try (left; reflexivity). right. split; [unfold bounded; rewrite A; split; discriminate|]. exists 0%nat. reflexivity.
  - destruct wr, ok; apply some_pair in H as [-> ->]; try (left; reflexivity). right. split; [unfold bounded; rewrite A; split; discriminate|]. exists 0%nat. reflexivity.
Qed.
Lemma wstep_seen f0 w i e w' : all_say w -> seen f0 w -> wstep w (i, e) = Some w' -> seen f0 w'.
Proof.
  intros (_ & _ & S) F H. apply wstep_cases in H as (f & d & H & ->). unfold seen. cbn [api_file daemons].
  pose proof (dstep_bound _ _ _ _ _ H) as B. destruct (dstep_file _ _ _ _ _ (S i) H) as [-> |[[N1 N2] (k & ->)]].
  - destruct F as [F|(j & k & J & F)]; [left; exact F|]. right. exists j, k. destruct (Nat.eq_dec j i) as [->|Nj].
    + rewrite put_same. destruct J as [J1 J2]. destruct (B J1 J2) as (B1 & B2 & B3). split; [split; assumption|]. unfold txt. rewrite B1. exact F.
    + rewrite put_other by exact Nj. split; [exact J|exact F].
  - right. exists i, k. rewrite put_same. split; [|reflexivity]. destruct (B N1 N2) as (B1 & B2 & B3). split; assumption.
Qed.
Lemma run_seen f0 l : forall w w', all_say w -> seen f0 w -> apart w l -> run w l = Some w' -> seen f0 w'.
Proof.
  induction l as [|[i e] l IH]; intros w w' S F X H; cbn [run apart] in *; [injection H as <-; exact F|]. destruct X as [X1 X2].
  destruct (wstep w (i, e)) as [w1|] eqn:E; [|discriminate]. exact (IH _ _ (wstep_say _ _ _ _ S X1 E) (wstep_seen _ _ _ _ _ S F E) X2 H).
Qed.

(** Nothing goes wrong: the file is the old one or empty, or a daemon has written it. *)
Definition writes (d : daemon) : Prop := (exists k, at_ d = Writing k) \/ at_ d = Serving true \/ at_ d = Ended true \/ at_ d = Released true.
Definition tidy (f0 : option bytes) (w : world) : Prop := (exists i, writes (daemons w i)) \/ api_file w = f0 \/ api_file w = Some [].
Lemma writes_not_idle d : writes d -> idle d -> False.
Proof. intros [[k A]|[A|[A|A]]] [[B|[B|B]]|B]; congruence. Qed.
Lemma dstep_tidy {b} f d e f' d' : e <> Kill -> e <> WriteFails -> e <> Truncate false -> dstep b f d e = Some (f', d') ->
  (writes d -> writes d' \/ f' = Some []) /\ (~ writes d -> writes d' \/ f' = f).
Proof.
  intros K1 K2 K3 H. destruct (at_ d) as [| | |k|wr|wr|wr| |] eqn:A; destruct e; try contradiction; unfold dstep in H; rewrite A in H; try discriminate H.
  all: try (split; [intros [[? W]|[W|[W|W]]]; congruence|]; intros _; repeat match type of H with context [match ?x with _ => _ end] => destruct x; try discriminate H end; apply some_pair in H as [-> _]; right; reflexivity).
  all: try (destruct ok; discriminate H).
  all: try (assert (G : (at_ d' = Serving wr \/ at_ d' = Ended wr \/ at_ d' = Released wr) /\ f' = f) by
    (repeat match type of H with context [match ?x with _ => _ end] => destruct x; try discriminate H end; apply some_pair in H as [-> ->]; parts; tauto);
    destruct G as [G1 ->]; split; [intros [[? W]|[W|[W|W]]]; try congruence; assert (wr = true) by congruence; subst wr; left; right; exact G1|intros _; right; reflexivity]).
  - destruct ok; apply some_pair in H as [-> ->]; (split; [intros [[? W]|[W|[W|W]]]; congruence|]; intros _); [left; left; exists 0%nat|right]; reflexivity.
  - split; intros _; left; cbv zeta in H; destruct (_ && _); try discriminate H; apply some_pair in H as [_ ->]; unfold writes; parts; (destruct (_ =? _)%nat; [right; left; reflexivity|left; eexists; reflexivity]).
  - destruct wr, ok; try contradiction; apply some_pair in H as [-> ->]; split; try (intros _; right; reflexivity); try (intros [[? W]|[W|[W|W]]]; congruence).
    intros W. destruct W. right. right. left. exact A.
  - destruct wr, ok; try contradiction; apply some_pair in H as [-> ->]; split; try (intros _; right; reflexivity); try (intros [[? W]|[W|[W|W]]]; congruence).
    intros W. destruct W. right. right. right. exact A.
Qed.
Lemma wstep_tidy f0 w i e w' : all_say w -> (e = Start -> forall j, at_ (daemons w j) <> Released true) -> e <> Kill -> e <> WriteFails -> e <> Truncate false ->
  tidy f0 w -> wstep w (i, e) = Some w' -> tidy f0 w'.
Proof.
  intros A X K1 K2 K3 T H. apply wstep_cases in H as (f & d & H & ->). pose proof (others_idle _ _ _ _ _ A X H) as O. destruct (dstep_tidy _ _ _ _ _ K1 K2 K3 H) as [G1 G2]. unfold tidy. cbn [daemons api_file].
  destruct O as [(O & -> & D)|O].
  { destruct T as [[j J]|T]; [|right; exact T]. left. exists j. assert (j <> i) by (intros ->; exact (writes_not_idle _ J O)). rewrite put_other by assumption. exact J. }
  assert (Z : writes d -> exists j, writes (put i d (daemons w) j)) by (intros W; exists i; rewrite put_same; exact W).
  destruct T as [[j J]|T].
  - assert (j = i) as -> by (destruct (Nat.eq_dec j i) as [Q|Q]; [exact Q|destruct (writes_not_idle _ J (O j Q))]). destruct (G1 J) as [W| ->]; [left; exact (Z W)|right; right; reflexivity].
  - assert (D : writes (daemons w i) \/ ~ writes (daemons w i)).
    { unfold writes. destruct (at_ (daemons w i)) as [| | |k|[]|[]|[]| |]; try (left; eauto; fail); right; intros [[? W]|[W|[W|W]]]; discriminate W. }
    destruct D as [D|D]; [destruct (G1 D) as [W| ->]; [left; exact (Z W)|right; right; reflexivity]|]. destruct (G2 D) as [W| ->]; [left; exact (Z W)|right; exact T].
Qed.
Lemma run_tidy f0 l : forall w w', all_say w -> tidy f0 w -> smooth l -> apart w l -> run w l = Some w' -> tidy f0 w'.
Proof.
  induction l as [|[i e] l IH]; intros w w' S F M X H; cbn [run apart] in *; [injection H as <-; exact F|]. destruct X as [X1 X2]. inversion_clear M as [|? ? (M1 & M2 & M3) M']. cbn [snd] in *.
  destruct (wstep w (i, e)) as [w1|] eqn:E; [|discriminate]. exact (IH _ _ (wstep_say _ _ _ _ S X1 E) (wstep_tidy _ _ _ _ _ S X1 M1 M2 M3 F E) M' X2 H).
Qed.

(** ** Shutdown *)
Definition times (r : N) (d : daemon) : nat :=
  (count_occ N.eq_dec (inflight d) r + count_occ N.eq_dec (waiting d) r + count_occ N.eq_dec (map fst (ready d)) r + count_occ N.eq_dec (map fst (told d)) r)%nat.
Definition verdict (d : daemon) (x : N * N) : Prop := (snd x = 200 /\ (queue d = true \/ exit_sent d = true)) \/ (snd x = 501 /\ exit_sent d = true).
Record sound (d : daemon) : Prop := {
  s_times : forall r, (times r d <= 1)%nat;
  s_exit : closed d = exit_sent d;
  s_after : closed d = true -> waiting d = [] /\ queue d = false;
  s_wait : waiting d <> [] -> queue d = true;
  s_told : forall x, In x (ready d ++ told d) -> verdict d x;
  s_phase : closed d = true \/ queue d = true \/ inflight d <> [] \/ ready d <> [] -> match at_ d with Serving _ | Ended _ | Released _ | Done | Dead => True | _ => False end }.
Lemma count_remove r x l : count_occ N.eq_dec (remove_id r l) x = if N.eq_dec x r then 0%nat else count_occ N.eq_dec l x.
Proof.
  unfold remove_id. induction l as [|y l IH]; [destruct (N.eq_dec x r); reflexivity|]. cbn [filter]. destruct (N.eqb_spec y r) as [->|Y]; cbn [negb].
  - rewrite IH. destruct (N.eq_dec x r) as [|Q]; [reflexivity|]. cbn [count_occ]. destruct (N.eq_dec r x); [congruence|reflexivity].
  - cbn [count_occ]. rewrite IH. destruct (N.eq_dec y x) as [->|]; [destruct (N.eq_dec x r); [contradiction|reflexivity]|reflexivity].
Qed.
Lemma map_fst_filter r (l : list (N * N)) : map fst (filter (fun x => negb (fst x =? r)) l) = remove_id r (map fst l).
Proof. induction l as [|[a b] l IH]; [reflexivity|]. cbn [filter map fst remove_id]. unfold remove_id in *. cbn [filter]. destruct (a =? r); cbn [negb map fst]; congruence. Qed.
Lemma mem_count r l : mem r l = false -> count_occ N.eq_dec l r = 0%nat.
Proof. intros H. apply count_occ_not_In. intros X. enough (mem r l = true) by congruence. apply existsb_exists. exists r. split; [exact X|apply N.eqb_refl]. Qed.
Lemma mem_in r l : mem r l = true -> In r l.
Proof. intros H. apply existsb_exists in H as (x & X & E). apply N.eqb_eq in E as ->. exact X. Qed.
Lemma mem_count1 r l : mem r l = true -> (1 <= count_occ N.eq_dec l r)%nat.
Proof. intros H. apply mem_in in H. apply (count_occ_In N.eq_dec) in H. lia. Qed.
Lemma fresh_sound : sound fresh.
Proof. split; cbn; try (intros; lia); try (intros H; exfalso; intuition congruence); try reflexivity. Qed.
Lemma sound_phase d p : sound d -> match p with Serving _ | Ended _ | Released _ | Done | Dead => True | _ => False end -> sound (set_phase d p).
Proof. intros [A B C D E F] P. split; parts; try assumption. intros _. exact P. Qed.
Lemma sound_early d p b : sound d -> match at_ d with New | Started | Bound | Writing _ => True | _ => False end ->
  sound (mk_daemon p b (queue d) (closed d) (exit_sent d) (inflight d) (waiting d) (ready d) (told d)).
Proof. intros [A B C D E F] P. split; parts; try assumption. intros X. specialize (F X). destruct (at_ d); contradiction. Qed.
Lemma verdict_exit d d' x : verdict d x -> (queue d = true \/ exit_sent d = true -> queue d' = true \/ exit_sent d' = true) -> (exit_sent d = true -> exit_sent d' = true) -> verdict d' x.
Proof. unfold verdict. tauto. Qed.
Lemma find_ready r l x : List.find (fun y : N * N => fst y =? r) l = Some x -> fst x = r /\ In x l.
Proof. intros H. apply find_some in H as [H E]. apply N.eqb_eq in E. split; assumption. Qed.
Lemma dstep_sound {b} f d e f' d' : sound d -> dstep b f d e = Some (f', d') -> sound d'.
Proof.
  intros S H. destruct (at_ d) as [| | |k|wr|wr|wr| |] eqn:A; destruct e; unfold dstep in H; rewrite A in H; try discriminate H; try (destruct ok; discriminate H).
  all: try (apply some_pair in H as [_ ->]; apply sound_phase; [exact S|exact Logic.I]).
  all: try (apply some_pair in H as [_ ->]; apply sound_early; [exact S|rewrite A; exact Logic.I]).
  - destruct (socket_addr api) as [[ip pp]|], port as [g|]; try (apply some_pair in H as [_ ->]; apply sound_phase; [exact S|exact Logic.I]). destruct (_ || _); [|discriminate H]. apply some_pair in H as [_ ->]. apply sound_early; [exact S|rewrite A; exact Logic.I].
  - destruct ok; apply some_pair in H as [_ ->]; apply sound_early; try exact S; rewrite A; exact Logic.I.
  - cbv zeta in H. destruct (_ && _); [|discriminate H]. apply some_pair in H as [_ ->]. apply sound_early; [exact S|rewrite A; exact Logic.I].
  - (* Accept *) destruct (closed d || mem r (inflight d) || mem r (waiting d) || mem r (map fst (ready d)) || mem r (map fst (told d))) eqn:B; [discriminate H|]. apply some_pair in H as [_ ->].
    apply orb_false_elim in B as [B B4]. apply orb_false_elim in B as [B B3]. apply orb_false_elim in B as [B B2]. apply orb_false_elim in B as [B0 B1].
    destruct S as [S1 S2 S3 S4 S5 S6]. split; parts; try assumption; [|intros _; exact Logic.I].
    intros x. specialize (S1 x). unfold times in *. parts. cbn [count_occ]. destruct (N.eq_dec r x) as [->|]; [|exact S1]. rewrite !mem_count by assumption. lia.
  - (* Shutdown *) destruct (mem r (inflight d)) eqn:M; [|discriminate H]. cbv zeta in H. apply mem_count1 in M. destruct S as [S1 S2 S3 S4 S5 S6].
    assert (T : forall x, (count_occ N.eq_dec (remove_id r (inflight d)) x + (if N.eq_dec r x then 1 else 0) + count_occ N.eq_dec (waiting d) x + count_occ N.eq_dec (map fst (ready d)) x + count_occ N.eq_dec (map fst (told d)) x <= 1)%nat).
    { intros x. specialize (S1 x). unfold times in S1. rewrite count_remove. destruct (N.eq_dec x r) as [->|]; destruct (N.eq_dec r _); try congruence; lia. }
    destruct (closed d) eqn:C; [|destruct (queue d) eqn:Q]; apply some_pair in H as [_ ->].
    + split; parts; try assumption; [| |intros _; exact Logic.I].
      * intros x. specialize (T x). unfold times. parts. rewrite map_app, count_occ_app. cbn [map fst count_occ]. destruct (N.eq_dec r x); lia.
      * intros x X. rewrite <- app_assoc in X. apply in_app_or in X as [X|[X|X]].
        -- apply S5, in_or_app. left. exact X.
        -- subst x. right. split; [reflexivity|symmetry; exact S2].
        -- apply S5, in_or_app. right. exact X.
    + split; parts; try assumption; try (intros _; exact Logic.I); try discriminate; try (intros _; reflexivity).
      * intros x. specialize (T x). unfold times. parts. rewrite count_occ_app. cbn [count_occ]. destruct (N.eq_dec r x); lia.
      * intros x X. eapply verdict_exit; [apply S5, X|intros _; left; reflexivity|intros Z; exact Z].
    + split; parts; try assumption; try (intros _; exact Logic.I); try discriminate; try (intros _; reflexivity).
      * intros x. specialize (T x). unfold times. parts. rewrite map_app, count_occ_app. cbn [map fst count_occ]. destruct (N.eq_dec r x); lia.
      * intros x X. rewrite <- app_assoc in X. apply in_app_or in X as [X|[X|X]].
        -- eapply verdict_exit; [apply S5, in_or_app; left; exact X|intros _; left; reflexivity|intros Z; exact Z].
        -- subst x. left. split; [reflexivity|left; reflexivity].
        -- eapply verdict_exit; [apply S5, in_or_app; right; exact X|intros _; left; reflexivity|intros Z; exact Z].
  - (* Signal *) destruct (queue d && negb (closed d)) eqn:B; [|discriminate H]. apply some_pair in H as [_ ->]. destruct S as [S1 S2 S3 S4 S5 S6].
    set (ans := match waiting d with [] => [] | r :: l => (r, if lucky then 200 else 501) :: map (fun x => (x, 501)) l end).
    assert (F : map fst ans = waiting d) by (subst ans; destruct (waiting d); [reflexivity|]; cbn [map fst]; rewrite map_map; cbn [fst]; rewrite map_id; reflexivity).
    assert (V : forall x, In x ans -> snd x = 200 \/ snd x = 501).
    { subst ans. destruct (waiting d) as [|r0 l0]; [intros x X; destruct X|]. intros x [<-|X]; [destruct lucky; [left|right]; reflexivity|]. apply in_map_iff in X as (y & <- & _). right. reflexivity. }
    split; parts; try reflexivity.
    + intros x. specialize (S1 x). unfold times in *. parts. rewrite map_app, count_occ_app, F. cbn [count_occ]. lia.
    + intros _. split; reflexivity.
    + intros X. contradiction.
    + intros x X. rewrite <- app_assoc in X. assert (O : In x (ready d ++ told d) \/ In x ans) by (rewrite !in_app_iff in *; tauto). destruct O as [O|O].
      * eapply verdict_exit; [apply S5, O|intros _; right; reflexivity|intros _; reflexivity].
      * destruct (V x O) as [W|W]; [left|right]; (split; [exact W|]); [right|]; reflexivity.
  - (* Answer *) destruct (List.find _ _) as [[r' st]|] eqn:B; [|discriminate H]. apply some_pair in H as [_ ->]. apply find_ready in B as [B1 B2]. cbn [fst] in B1. subst r'. destruct S as [S1 S2 S3 S4 S5 S6].
    split; parts; try assumption; [| |intros _; exact Logic.I].
    + intros x. specialize (S1 x). unfold times in *. parts. rewrite map_fst_filter, map_app, count_occ_app, count_remove. cbn [map fst count_occ].
      assert (1 <= count_occ N.eq_dec (map fst (ready d)) r)%nat by (apply (count_occ_In N.eq_dec); apply in_map_iff; exists (r, st); split; [reflexivity|exact B2]).
      destruct (N.eq_dec x r) as [->|]; destruct (N.eq_dec r _); try congruence; lia.
    + intros x X. apply S5. apply in_app_or in X as [X|X]; [apply filter_In in X as [X _]; apply in_or_app; left; exact X|]. apply in_app_or in X as [X|[<-|[]]]; apply in_or_app; [right; exact X|left; exact B2].
  - (* Finish *) destruct (mem r (inflight d)); [|discriminate H]. apply some_pair in H as [_ ->]. destruct S as [S1 S2 S3 S4 S5 S6]. split; parts; try assumption; [|intros _; exact Logic.I].
    intros x. specialize (S1 x). unfold times in *. parts. rewrite count_remove. destruct (N.eq_dec x r); lia.
  - (* Leave *) destruct (_ || _); [|discriminate H]. apply some_pair in H as [_ ->]. destruct S as [S1 S2 S3 S4 S5 S6]. split; parts; try assumption; [| | | |intros _; exact Logic.I].
    + intros x. specialize (S1 x). unfold times in *. parts. rewrite map_fst_filter, !count_remove. destruct (N.eq_dec x r); lia.
    + intros C. destruct (S3 C) as [-> Q]. split; [reflexivity|exact Q].
    + intros W. apply S4. intros Z. rewrite Z in W. apply W. reflexivity.
    + intros x X. apply S5. apply in_app_or in X as [X|X]; apply in_or_app; [left; apply filter_In in X as [X _]; exact X|right; exact X].
  - (* Drain *) destruct (closed d); [|discriminate H]. destruct (inflight d), (waiting d), (ready d); try discriminate H. apply some_pair in H as [_ ->]. apply sound_phase; [exact S|exact Logic.I].
  - destruct wr; apply some_pair in H as [_ ->]; apply sound_phase; try exact S; exact Logic.I.
  - destruct wr; apply some_pair in H as [_ ->]; apply sound_phase; try exact S; exact Logic.I.
Qed.
Lemma run_sound l : forall w w' i, sound (daemons w i) -> run w l = Some w' -> sound (daemons w' i).
Proof.
  induction l as [|[j e] l IH]; intros w w' i S H; cbn [run] in H; [injection H as <-; exact S|]. destruct (wstep w (j, e)) as [w1|] eqn:E; [|discriminate]. apply (IH w1 w' i); [|exact H].
  apply wstep_cases in E as (f & d & E & ->). cbn [daemons]. destruct (Nat.eq_dec i j) as [->|N]; [rewrite put_same; exact (dstep_sound _ _ _ _ _ S E)|rewrite put_other by exact N; exact S].
Qed.

(** ** What a state comes from *)
Lemma run_app l : forall w l', run w (l ++ l') = match run w l with Some w' => run w' l' | None => None end.
Proof. induction l as [|x l IH]; intros w l'; [reflexivity|]. cbn [app run]. destruct (wstep w x); [apply IH|reflexivity]. Qed.
Record from (i : nat) (l : list (nat * ev)) (d : daemon) : Prop := {
  f_asked : queue d = true \/ exit_sent d = true -> exists r, In (i, Shutdown r) l;
  f_told : forall r, In r (waiting d ++ map fst (ready d) ++ map fst (told d)) -> In (i, Shutdown r) l;
  f_bound : match at_ d with New | Started | Dead => True | _ =>
    exists ip port given, In (i, Bind [PIp4 ip; PTcp port] (Some given)) l /\ bound d = (ip, given) /\ (port = 0 \/ port = given) end }.
Lemma from_more i l x d : from i l d -> from i (l ++ [x]) d.
Proof.
  intros [A B C]. split.
  - intros H. destruct (A H) as [r R]. exists r. apply in_or_app. left. exact R.
  - intros r R. apply in_or_app. left. exact (B r R).
  - destruct (at_ d); try exact Logic.I; destruct C as (ip & port & g & C1 & C2); exists ip, port, g; (split; [apply in_or_app; left; exact C1|exact C2]).
Qed.
Lemma from_phase i l d p : from i l d -> match at_ d with New | Started | Dead => match p with New | Started | Dead => True | _ => False end | _ => True end -> from i l (set_phase d p).
Proof. intros [A B C] P. split; parts; try assumption. destruct (at_ d), p; try contradiction; try exact Logic.I; exact C. Qed.
Lemma socket_shape api ip port : socket_addr api = Some (ip, port) -> api = [PIp4 ip; PTcp port].
Proof. unfold socket_addr. repeat match goal with |- context [match ?x with _ => _ end] => destruct x; try discriminate end. intros [= -> ->]. reflexivity. Qed.
Lemma dstep_from {b} i l f d e f' d' : from i l d -> dstep b f d e = Some (f', d') -> from i (l ++ [(i, e)]) d'.
Proof.
  intros F0 H. pose proof (from_more i l (i, e) d F0) as F. destruct (at_ d) as [| | |k|wr|wr|wr| |] eqn:A; destruct e; unfold dstep in H; rewrite A in H; try discriminate H; try (destruct ok; discriminate H).
  all: try (apply some_pair in H as [_ ->]; apply from_phase; [exact F|rewrite A; exact Logic.I]).
  - apply some_pair in H as [_ ->]. apply from_phase; [exact F|]. rewrite A. destruct b; exact Logic.I.
  - destruct (socket_addr api) as [[ip pp]|] eqn:B, port as [g|]; try (apply some_pair in H as [_ ->]; apply from_phase; [exact F|rewrite A; exact Logic.I]). destruct ((pp =? 0) || (pp =? g)) eqn:Z; [|discriminate H]. apply some_pair in H as [_ ->].
    destruct F as [F1 F2 F3]. split; parts; try assumption. apply socket_shape in B as ->. exists ip, pp, g. split; [apply in_or_app; right; left; reflexivity|]. split; [reflexivity|]. apply orb_prop in Z as [Z|Z]; apply N.eqb_eq in Z; [left|right]; exact Z.
  - destruct ok; apply some_pair in H as [_ ->]; (apply from_phase; [exact F|rewrite A; exact Logic.I]).
  - cbv zeta in H. destruct (_ && _); [|discriminate H]. apply some_pair in H as [_ ->]. apply from_phase; [exact F|rewrite A; exact Logic.I].
  - destruct (_ || _); [discriminate H|]. apply some_pair in H as [_ ->]. destruct F as [F1 F2 F3]. split; parts; try assumption. rewrite A in F3. exact F3.
  - destruct (mem r (inflight d)); [|discriminate H]. cbv zeta in H. assert (M : In (i, Shutdown r) (l ++ [(i, Shutdown r)])) by (apply in_or_app; right; left; reflexivity). destruct F as [F1 F2 F3]. rewrite A in F3.
    destruct (closed d); [|destruct (queue d)]; apply some_pair in H as [_ ->]; (split; parts; [intros _; exists r; exact M| |exact F3]); intros x X; rewrite ?map_app in X; repeat (apply in_app_or in X as [X|X]); try (apply F2; rewrite !in_app_iff; tauto); destruct X as [<-|[]]; exact M.
  - destruct (queue d && negb (closed d)) eqn:B; [|discriminate H]. apply some_pair in H as [_ ->]. destruct F as [F1 F2 F3]. rewrite A in F3. apply andb_prop in B as [B _]. split; parts.
    + intros _. apply F1. left. exact B.
    + intros x X. apply F2. cbn [app] in X. rewrite map_app in X.
      assert (Q : map fst (match waiting d with [] => [] | r :: l => (r, if lucky then 200 else 501) :: map (fun x => (x, 501)) l end) = waiting d) by (destruct (waiting d); [reflexivity|]; cbn [map fst]; rewrite map_map; cbn [fst]; rewrite map_id; reflexivity).
      rewrite Q in X. rewrite !in_app_iff in *. tauto.
    + exact F3.
  - destruct (List.find _ _) as [[r' st]|] eqn:B; [|discriminate H]. apply some_pair in H as [_ ->]. apply find_ready in B as [B1 B2]. cbn [fst] in B1. subst r'. destruct F as [F1 F2 F3]. rewrite A in F3. split; parts; try assumption.
    intros x X. apply F2. rewrite map_app, map_fst_filter in X. rewrite !in_app_iff in *. destruct X as [X|[X|[X|[X|[]]]]]; try tauto.
    + apply filter_In in X as [X _]. tauto.
    + right. left. subst x. apply in_map_iff. exists (r, st). split; [reflexivity|exact B2].
  - destruct (mem r (inflight d)); [|discriminate H]. apply some_pair in H as [_ ->]. destruct F as [F1 F2 F3]. rewrite A in F3. split; parts; assumption.
  - destruct (_ || _); [|discriminate H]. apply some_pair in H as [_ ->]. destruct F as [F1 F2 F3]. rewrite A in F3. split; parts; try assumption.
    intros x X. apply F2. rewrite map_fst_filter in X. rewrite !in_app_iff in *. destruct X as [X|[X|X]]; try (apply filter_In in X as [X _]); tauto.
  - destruct (closed d); [|discriminate H]. destruct (inflight d), (waiting d), (ready d); try discriminate H. apply some_pair in H as [_ ->]. apply from_phase; [exact F|rewrite A; exact Logic.I].
  - destruct wr; apply some_pair in H as [_ ->]; (apply from_phase; [exact F|rewrite A; exact Logic.I]).
  - destruct wr; apply some_pair in H as [_ ->]; (apply from_phase; [exact F|rewrite A; exact Logic.I]).
Qed.
Lemma run_from f i l : forall w, run (init f) l = Some w -> from i l (daemons w i).
Proof.
  induction l as [|[j e] l IH] using rev_ind; intros w H.
  - injection H as <-. split; cbn; try (intros [H|H]; discriminate H); [intros r []|exact Logic.I].
  - rewrite run_app in H. destruct (run (init f) l) as [w1|]; [|discriminate]. cbn [run] in H. destruct (wstep w1 (j, e)) as [w2|] eqn:E; [|discriminate]. injection H as <-. specialize (IH w1 eq_refl).
    apply wstep_cases in E as (f' & d & E & ->). cbn [daemons]. destruct (Nat.eq_dec i j) as [->|N]; [rewrite put_same; exact (dstep_from _ _ _ _ _ _ _ IH E)|rewrite put_other by exact N; apply from_more, IH].
Qed.

(** ** The end *)
Definition left_ (d : daemon) : nat :=
  (2 * length (inflight d) + length (ready d) + match at_ d with Serving _ => 3 | Ended _ => 2 | Released _ => 1 | _ => 0 end)%nat.
Lemma filter_not_longer {A} (f : A -> bool) l : (length (filter f l) <= length l)%nat.
Proof. induction l as [|x l IH]; [reflexivity|]. cbn [filter]. destruct (f x); cbn [length]; lia. Qed.
Lemma remove_shorter r l : In r l -> (length (remove_id r l) < length l)%nat.
Proof.
  unfold remove_id. induction l as [|x l IH]; [intros []|]. intros [->|I]; cbn [filter].
  - rewrite N.eqb_refl. cbn [negb length]. pose proof (filter_not_longer (fun x => negb (x =? r)) l). lia.
  - specialize (IH I). destruct (negb (x =? r)); cbn [length]; lia.
Qed.
Lemma dstep_left {b} f d e f' d' : sound d -> closed d = true -> dstep b f d e = Some (f', d') -> closed d' = true /\ (left_ d' < left_ d)%nat.
Proof.
  intros S C H. pose proof (s_phase _ S (or_introl C)) as P. destruct (at_ d) as [| | |k|wr|wr|wr| |] eqn:A; try contradiction; destruct e; unfold dstep in H; rewrite A in H; try discriminate H; try (destruct ok; discriminate H); unfold left_.
  all: try (apply some_pair in H as [_ ->]; parts; rewrite A; split; [exact C|lia]).
  - rewrite C in H. discriminate H.
  - destruct (mem r (inflight d)) eqn:M; [|discriminate H]. cbv zeta in H. rewrite C in H. apply some_pair in H as [_ ->]. parts. rewrite A, app_length. apply mem_in, remove_shorter in M. cbn [length]. split; [reflexivity|lia].
  - rewrite C, andb_false_r in H. discriminate H.
  - destruct (List.find _ _) as [[r' st]|] eqn:B; [|discriminate H]. apply some_pair in H as [_ ->]. apply find_ready in B as [B1 B2]. cbn [fst] in B1. subst r'. parts. rewrite A. split; [exact C|].
    assert (M : In r (map fst (ready d))) by (apply in_map_iff; exists (r, st); split; [reflexivity|exact B2]). apply remove_shorter in M. rewrite <- map_fst_filter, !map_length in M. lia.
  - destruct (mem r (inflight d)) eqn:M; [|discriminate H]. apply some_pair in H as [_ ->]. parts. rewrite A. apply mem_in, remove_shorter in M. split; [exact C|lia].
  - destruct (s_after _ S C) as [W _]. rewrite W in H. cbn [mem existsb orb] in H. destruct (mem r (map fst (ready d))) eqn:M; [|discriminate H]. apply some_pair in H as [_ ->]. parts. rewrite A. apply mem_in, remove_shorter in M. rewrite <- map_fst_filter, !map_length in M. split; [exact C|lia].
  - rewrite C in H. destruct (inflight d) eqn:I1, (waiting d) eqn:I2, (ready d) eqn:I3; try discriminate H. apply some_pair in H as [_ ->]. parts. rewrite ?A, ?I1, ?I3. split; [exact C|cbn [length]; lia].
  - destruct wr; apply some_pair in H as [_ ->]; parts; rewrite A; (split; [exact C|lia]).
  - destruct wr; apply some_pair in H as [_ ->]; parts; rewrite A; (split; [exact C|lia]).
Qed.
Lemma run_left i l : forall w w', sound (daemons w i) -> closed (daemons w i) = true -> run w l = Some w' -> (events_of i l + left_ (daemons w' i) <= left_ (daemons w i))%nat.
Proof.
  induction l as [|[j e] l IH]; intros w w' S C H; cbn [run] in H; [injection H as <-; reflexivity|]. destruct (wstep w (j, e)) as [w1|] eqn:E; [|discriminate].
  apply wstep_cases in E as (f & d & E & ->). unfold events_of in *. cbn [filter fst]. destruct (Nat.eqb_spec j i) as [->|N].
  - destruct (dstep_left _ _ _ _ _ S C E) as [C' L]. specialize (IH (mk_world f (lock_after i d (lock w)) (put i d (daemons w))) w' ltac:(cbn [daemons]; rewrite put_same; exact (dstep_sound _ _ _ _ _ S E)) ltac:(cbn [daemons]; rewrite put_same; exact C') H). cbn [daemons] in IH. rewrite put_same in IH. cbn [length]. lia.
  - specialize (IH (mk_world f (lock_after j d (lock w)) (put j d (daemons w))) w' ltac:(cbn [daemons]; rewrite put_other by congruence; exact S) ltac:(cbn [daemons]; rewrite put_other by congruence; exact C) H). cbn [daemons] in IH. rewrite put_other in IH by congruence. exact IH.
Qed.
Lemma dstep_goes_on {b} f d : sound d -> closed d = true \/ queue d = true -> at_ d <> Done -> at_ d <> Dead ->
  exists e f' d', e <> Kill /\ (forall r, e <> Accept r) /\ dstep b f d e = Some (f', d').
Proof.
  intros S C N1 N2. assert (P : match at_ d with Serving _ | Ended _ | Released _ | Done | Dead => True | _ => False end) by (apply (s_phase _ S); tauto).
  destruct (at_ d) as [| | |k|wr|wr|wr| |] eqn:A; try contradiction.
  - destruct (closed d) eqn:Cl.
    + destruct (s_after _ S Cl) as [W Q]. destruct (ready d) as [|[r st] rs] eqn:R.
      * destruct (inflight d) as [|r rs] eqn:I.
        -- exists Drain. unfold dstep. rewrite A, Cl, I, W, R. eexists _, _. split; [discriminate|]. split; [discriminate|reflexivity].
        -- exists (Finish r). unfold dstep. rewrite A, I. cbn [mem existsb]. rewrite N.eqb_refl. cbn [orb]. eexists _, _. split; [discriminate|]. split; [discriminate|reflexivity].
      * exists (Answer r). unfold dstep. rewrite A, R. cbn [List.find fst]. rewrite N.eqb_refl. eexists _, _. split; [discriminate|]. split; [discriminate|reflexivity].
    + destruct C as [C|C]; [discriminate C|]. exists (Signal true). unfold dstep. rewrite A, C, Cl. cbn [negb andb]. eexists _, _. split; [discriminate|]. split; [discriminate|reflexivity].
  - exists (Truncate true). unfold dstep. rewrite A. destruct wr; eexists _, _; (split; [discriminate|]; split; [discriminate|reflexivity]).
  - exists (Truncate true). unfold dstep. rewrite A. destruct wr; eexists _, _; (split; [discriminate|]; split; [discriminate|reflexivity]).
Qed.
