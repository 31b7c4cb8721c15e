(** Lemmas on bodies in chunks. *)
From Coq Require Import Lia.
From Verif Require Import Base Wire Cid Cat Tar Walk Bodies BodiesSpec.
Local Open Scope N_scope.

Lemma digit_fun c v v' : digit c v -> digit c v' -> v = v'.
Proof. unfold digit. lia. Qed.
Lemma number_nonempty s n : number s n -> s <> [].
Proof. intros [c v _|s' m c v _ _]; [discriminate|]. destruct s'; discriminate. Qed.
Lemma number_fun s n : number s n -> forall m, number s m -> n = m.
Proof.
  induction 1 as [c v D|s n c v H IH D]; intros m Hm; inversion Hm as [c' v' D' E|s' n' c' v' H' D' E]; subst.
  - eapply digit_fun; eassumption.
  - destruct s' as [|x [|y s']]; [destruct (number_nonempty _ _ H' eq_refl)| |]; discriminate E.
  - symmetry in E. destruct s as [|x [|y s]]; [destruct (number_nonempty _ _ H eq_refl)| |]; discriminate E.
  - apply app_inj_tail in E as [<- <-]. rewrite (IH _ H'), (digit_fun _ _ _ D D'). reflexivity.
Qed.
Lemma number_no_cr s n : number s n -> ~ In 13 s.
Proof.
  induction 1 as [c v D|s n c v H IH D]; [|rewrite in_app_iff; intros [?|Hc]; [auto|revert Hc]];
    intros [->|[]]; revert D; unfold digit; lia.
Qed.
Lemma cr_split (a a' x x' : list N) : ~ In 13 a -> ~ In 13 a' -> a ++ 13 :: x = a' ++ 13 :: x' -> a = a' /\ x = x'.
Proof.
  revert a'. induction a as [|c a IH]; intros [|c' a'] H H' E; cbn in E.
  - injection E as ->. auto.
  - injection E as E1 E2. destruct H'. left. symmetry. exact E1.
  - injection E as E1 E2. destruct H. left. exact E1.
  - injection E as E1 E2. destruct (IH a') as [-> ->]; [intros X; apply H; right; exact X|intros X; apply H'; right; exact X|exact E2|]. subst. auto.
Qed.

Lemma hex_char_digit v : v < 16 -> digit (hex_char v) v.
Proof. intros H. unfold hex_char, digit. destruct (N.ltb_spec v 10); lia. Qed.
Lemma hex_n_step f n : hex_n (S f) n = if n <? 16 then [hex_char n] else hex_n f (n / 16) ++ [hex_char (n mod 16)].
Proof. reflexivity. Qed.
Lemma hex_n_number f : forall n, n < 16 ^ N.of_nat (S f) -> number (hex_n (S f) n) n.
Proof.
  induction f as [|f IH]; intros n H; rewrite hex_n_step; destruct (N.ltb_spec n 16) as [Hn|Hn].
  - constructor. apply hex_char_digit, Hn.
  - cbn in H. lia.
  - constructor. apply hex_char_digit, Hn.
  - assert (M : number (hex_n (S f) (n / 16) ++ [hex_char (n mod 16)]) (16 * (n / 16) + n mod 16)).
    { constructor; [|apply hex_char_digit, N.mod_lt; discriminate]. apply IH.
      apply N.div_lt_upper_bound; [discriminate|]. rewrite (Nat2N.inj_succ (S f)), N.pow_succ_r' in H. exact H. }
    rewrite <- N.div_mod in M by discriminate. exact M.
Qed.
Lemma size_nat_bound n : n < 2 ^ N.of_nat (N.size_nat n).
Proof.
  destruct n as [|p]; [reflexivity|]. cbn [N.size_nat]. induction p as [p IH|p IH|]; cbn [Pos.size_nat]; [| |reflexivity];
    rewrite Nat2N.inj_succ, N.pow_succ_r'; lia.
Qed.
Lemma hex_number n : number (hex n) n.
Proof.
  unfold hex. apply hex_n_number. eapply N.lt_le_trans; [apply size_nat_bound|].
  rewrite Nat2N.inj_succ, N.pow_succ_r'. transitivity (16 ^ N.of_nat (N.size_nat n)); [apply N.pow_le_mono_l; discriminate|lia].
Qed.

Lemma app_inj_length {A} (a b r s : list A) : a ++ r = b ++ s -> length a = length b -> a = b /\ r = s.
Proof.
  revert b. induction a as [|x a IH]; intros [|y b] E H; try discriminate H; [auto|]. cbn in *. injection E as -> E. injection H as H.
  destruct (IH b E H) as [-> ->]. auto.
Qed.

(** * What is sent when the end is reached *)
Definition end_mark : bytes := [48] ++ crlf ++ crlf.
Lemma end_chunked : chunked end_mark [] [].
Proof. apply (chunked_last [48] []); [constructor; left; split; [lia|reflexivity]|constructor]. Qed.
Lemma chunks_chunked l : chunked (concat (map chunk l) ++ end_mark) (concat l) [].
Proof.
  induction l as [|b l IH]; [exact end_chunked|]. cbn [map concat]. destruct b as [|x b]; [exact IH|]. unfold chunk.
  rewrite <- !app_assoc. constructor; [apply hex_number|discriminate|exact IH].
Qed.

(** * What is whole was sent whole *)
Lemma number_cons_cr s n x : number s n -> forall y, s ++ x = 13 :: y -> False.
Proof.
  intros H y E. pose proof (number_nonempty _ _ H). pose proof (number_no_cr _ _ H) as Hc. destruct s as [|c s]; [congruence|].
  injection E as -> _. apply Hc. left. reflexivity.
Qed.
Lemma fields_none fs lost : Forall field fs -> concat (map (fun f => f ++ [13; 10]) fs) ++ [13; 10] ++ lost = [13; 10] -> fs = [] /\ lost = [].
Proof.
  intros [|f fs' (Hne & Hc & _) _] E; [cbn in E; injection E as ->; auto|]. exfalso. destruct f as [|c f]; [congruence|].
  cbn in E. injection E as -> _. apply Hc. left. reflexivity.
Qed.
Lemma end_only w b fs : chunked w b fs -> forall lost, end_mark = w ++ lost -> b = [] /\ fs = [] /\ lost = [].
Proof.
  intros [s fs' Hs Hf|s d w' b' fs' Hs Hd _] lost E; unfold end_mark, crlf in E; rewrite <- !app_assoc in E; cbn [app] in E;
    apply (cr_split [48] s) in E as [<- E]; [|intros [?|[]]; discriminate|exact (number_no_cr _ _ Hs)| |intros [?|[]]; discriminate|exact (number_no_cr _ _ Hs)].
  - injection E as E. symmetry in E. destruct (fields_none _ _ Hf E) as [-> ->]. auto.
  - exfalso. assert (Z : number [48] 0) by (constructor; left; split; [lia|reflexivity]).
    pose proof (number_fun _ _ Hs _ Z). destruct d; [congruence|]. cbn in *. lia.
Qed.
Lemma chunk_some d : d <> [] -> chunk d = hex (N.of_nat (length d)) ++ [13; 10] ++ d ++ [13; 10].
Proof. destruct d; [congruence|reflexivity]. Qed.
Lemma chunks_only l tail : forall w b fs lost, chunked w b fs -> concat (map chunk l) ++ tail = w ++ lost ->
  exists w' b', chunked w' b' fs /\ tail = w' ++ lost /\ b = concat l ++ b'.
Proof.
  induction l as [|p l IH]; intros w b fs lost H E; [exists w, b; auto|]. cbn [map concat] in *. destruct p as [|x p]; [eapply IH; eassumption|].
  rewrite chunk_some in E by discriminate. assert (Hd0 : x :: p <> []) by discriminate. revert E Hd0. generalize (x :: p). clear x p. intros d E Hd0. rewrite <- !app_assoc in E. cbn [app] in E.
  destruct H as [s fs' Hs Hf|s d' w' b' fs' Hs Hd H]; rewrite <- !app_assoc in E; cbn [app] in E;
    apply cr_split in E as [E0 E]; try exact (number_no_cr _ _ (hex_number _)); try exact (number_no_cr _ _ Hs); subst s;
    pose proof (number_fun _ _ (hex_number _) _ Hs) as Hn.
  - exfalso. destruct d; [congruence|]. cbn [length] in Hn. lia.
  - injection E as E. apply Nat2N.inj in Hn.
    apply app_inj_length in E as [-> E]; [|exact Hn]. injection E as E.
    destruct (IH w' b' fs' lost H E) as (w2 & b2 & H2 & E2 & ->). exists w2, b2. split; [exact H2|]. split; [exact E2|]. apply app_assoc.
Qed.

(** * What is taken from a part of it *)
Lemma app_prefix {A} (a b r s : list A) : a ++ r = b ++ s -> (length a <= length b)%nat -> exists x, b = a ++ x.
Proof.
  revert b. induction a as [|x a IH]; intros b E H; [exists b; reflexivity|]. destruct b as [|y b]; [cbn in H; lia|]. cbn in *. injection E as -> E.
  destruct (IH b E ltac:(lia)) as (z & ->). exists z. reflexivity.
Qed.
Lemma end_so_far tail w b lost : tail = [] \/ tail = end_mark -> so_far w b -> tail = w ++ lost -> b = [].
Proof.
  intros T H E. assert (Z : number [48] 0) by (constructor; left; split; [lia|reflexivity]).
  destruct H as [w|s n d Hs Hl|s d w b Hs Hd _]; [reflexivity| |]; (destruct T as [->| ->];
    [exfalso; pose proof (number_nonempty _ _ Hs); destruct s; [congruence|discriminate E]|]);
    unfold end_mark, crlf in E; rewrite <- !app_assoc in E; cbn [app] in E;
    apply (cr_split [48] s) in E as [<- E]; [|intros [?|[]]; discriminate|exact (number_no_cr _ _ Hs)| |intros [?|[]]; discriminate|exact (number_no_cr _ _ Hs)];
    pose proof (number_fun _ _ Hs _ Z); (destruct d; [try congruence; reflexivity|cbn [length] in *; lia]).
Qed.
Lemma chunks_so_far l tail : tail = [] \/ tail = end_mark -> forall w b lost, so_far w b -> concat (map chunk l) ++ tail = w ++ lost ->
  exists rest, concat l = b ++ rest.
Proof.
  intros T. induction l as [|p l IH]; intros w b lost H E; [exists []; rewrite (end_so_far _ _ _ _ T H E); reflexivity|].
  cbn [map concat] in *. destruct p as [|x p]; [eapply IH; eassumption|].
  rewrite chunk_some in E by discriminate. revert E. generalize (x :: p). clear x p. intros d E. rewrite <- !app_assoc in E. cbn [app] in E.
  destruct H as [w|s n d' Hs Hl|s d' w b Hs Hd H]; [exists (d ++ concat l); reflexivity| |]; rewrite <- !app_assoc in E; cbn [app] in E;
    apply cr_split in E as [E0 E]; try exact (number_no_cr _ _ (hex_number _)); try exact (number_no_cr _ _ Hs); subst s;
    pose proof (number_fun _ _ (hex_number _) _ Hs) as Hn; injection E as E.
  - subst n. symmetry in E. apply app_prefix in E as (z & ->); [|lia]. exists (z ++ concat l). symmetry. apply app_assoc.
  - apply Nat2N.inj in Hn. apply app_inj_length in E as [-> E]; [|exact Hn]. injection E as E.
    destruct (IH w b lost H E) as (rest & ->). exists rest. apply app_assoc.
Qed.
