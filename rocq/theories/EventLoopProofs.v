(** Lemmas about [EventLoop]. *)
From Verif Require Import Base EventLoop EventLoopSpec.

Section Proofs.
  Context {node sev req ans rev : Type}.
  Variable next : node -> option (sev * node).
  Variable on_swarm : node -> sev -> node.
  Variable on_request : node -> req -> node * ans.
  Variable on_repo : node -> rev -> node.
  Notation op := (op node req rev).
  Notation task := (task node req ans rev).
  Notation act := (@act node sev req ans rev).
  Notation step := (step next on_swarm on_request on_repo).
  Notation apply := (apply next on_swarm on_request on_repo).
  Notation run := (run next on_swarm on_request on_repo).
  Notation follows := (follows next on_swarm on_request on_repo).

  Lemma run_app n h g : run n (h ++ g) = fold_left apply g (run n h).
  Proof. apply fold_left_app. Qed.
  Lemma run_snoc n h o : run n (h ++ [o]) = apply (run n h) o.
  Proof. apply fold_left_app. Qed.

  (** ** Who is woken *)
  Definition seen (t : task) : Prop := w_facade t = true /\ facade t = [] /\ dropped t = false.
  Definition seen2 (t : task) : Prop := seen t /\ w_events t = true /\ events t = [].
  Definition wakes (t : task) : Prop :=
    match at_ t with
    | Asleep => woken t = true \/ (seen2 t /\ w_swarm t = true /\ next (inner t) = None)
    | AtSwarm true => woken t = true \/ seen2 t
    | AtRepo => woken t = true \/ seen t
    | _ => True
    end.

  Lemma wakes_step t : wakes t -> wakes (step t).
  Proof.
    destruct t as [p n fa dr ev ws wf we wo ma ou]. unfold wakes, seen2, seen, EventLoop.step. cbn.
    destruct p as [|d| | |]; cbn; intro H; try exact H.
    - destruct (next n) as [[e n']|] eqn:En; cbn; [exact I|].
      destruct d; cbn; [|exact I]. destruct H as [H|H]; [left; exact H | right; tauto].
    - destruct fa as [|[i q|] r]; cbn.
      + destruct dr; cbn; [exact I|]. right. auto.
      + destruct (on_request n q) as [n' a]. cbn. exact I.
      + exact I.
    - destruct ev as [|e r]; cbn.
      + destruct H as [H|H]; [left; exact H | right; tauto].
      + exact H.
  Qed.

  Lemma wakes_apply t o : wakes t -> wakes (apply t o).
  Proof.
    destruct o; cbn [EventLoop.apply]; try apply wakes_step;
      destruct t as [p n fa dr ev ws wf we wo ma ou]; unfold wakes, seen2, seen;
      unfold call_facade, call_events, call_swarm; cbn; intro H.
    - destruct dr; cbn; [exact H|]. destruct p as [|[|]| | |], wf; cbn in *; intuition congruence.
    - destruct dr; cbn; [exact H|]. destruct p as [|[|]| | |], wf; cbn in *; intuition congruence.
    - destruct p as [|[|]| | |], wf; cbn in *; intuition congruence.
    - destruct p as [|[|]| | |], we; cbn in *; intuition congruence.
    - destruct p as [|[|]| | |], ws; cbn in *; intuition congruence.
    - destruct p as [|[|]| | |], wo; cbn in *; intuition congruence.
  Qed.

  Lemma wakes_run n h : wakes (run n h).
  Proof.
    induction h as [|o h IH] using rev_ind; [left; reflexivity|].
    rewrite run_snoc. apply wakes_apply, IH.
  Qed.

  (** ** What happened to each request *)
  Definition is_drop (o : op) : bool := match o with DropAll => true | _ => false end.
  Definition is_end (o : op) : bool := match o with DropAll | ExitDaemon => true | _ => false end.
  Definition ids (l : list (message req)) : list nat := flat_map (fun m => match m with Ask i _ => [i] | Exit => [] end) l.
  Definition idx (x : nat * req * ans) : nat := fst (fst x).

  Lemma calls_snoc (h : list op) o :
    calls (h ++ [o]) = if existsb is_drop h then calls h else calls h ++ match o with Call q => [q] | _ => [] end.
  Proof.
    induction h as [|x h IH]; cbn; [destruct o; reflexivity|].
    destruct x; cbn; rewrite ?IH; try reflexivity; destruct (existsb is_drop h); reflexivity.
  Qed.
  Lemma in_time_snoc (h : list op) o :
    in_time (h ++ [o]) = if existsb is_end h then in_time h else in_time h ++ match o with Call q => [q] | _ => [] end.
  Proof.
    induction h as [|x h IH]; cbn; [destruct o; reflexivity|].
    destruct x; cbn; rewrite ?IH; try reflexivity; destruct (existsb is_end h); reflexivity.
  Qed.
  Lemma ids_app l m : ids (l ++ m) = ids l ++ ids m.
  Proof. apply flat_map_app. Qed.
  Lemma lost_ids l : lost (ans := ans) l = map (fun i => (i, Gone)) (ids l).
  Proof. induction l as [|[i q|] l IH]; cbn; [reflexivity| |exact IH]. f_equal. exact IH. Qed.

  Record kept (n0 : node) (h : list op) (t : task) (l : list act) (g : list nat) : Prop := mk_kept {
    k_dropped : dropped t = existsb is_drop h;
    k_made : made t = length (calls h);
    k_follows : follows n0 l (inner t);
    k_outcomes : outcomes t = map (fun x => (idx x, Told (snd x))) (answered l) ++ map (fun i => (i, Gone)) g;
    k_order : map idx (answered l) ++ g ++ ids (facade t) = seq 0 (made t);
    k_asked : Forall (fun x => nth_error (calls h) (idx x) = Some (snd (fst x))) (answered l);
    k_queue : Forall (fun m => match m with Ask i q => nth_error (calls h) i = Some q | Exit => True end) (facade t);
    k_posts : exists r, posts h = done l ++ events t ++ r /\ (at_ t <> Over -> r = []);
    k_nets : exists r, nets h = felt l ++ r /\ (at_ t <> Over -> r = []);
    k_running : at_ t <> Over -> g = [] /\
      ((~ In Exit (facade t) /\ in_time h = calls h /\ existsb is_end h = existsb is_drop h) \/
       (exists l1 l2, facade t = l1 ++ Exit :: l2 /\ length (answered l) + length (ids l1) = length (in_time h) /\ ~ In Exit l1 /\ existsb is_end h = true));
    k_over : at_ t = Over -> facade t = [] /\ events t = [] /\ length (answered l) = length (in_time h) /\ existsb is_end h = true }.

  Lemma nth_snoc {A} (l : list A) i x y : nth_error l i = Some x -> nth_error (l ++ y) i = Some x.
  Proof. intro H. rewrite nth_error_app1; [exact H|]. apply nth_error_Some. congruence. Qed.
  Lemma calls_grow (h : list op) o i q : nth_error (calls h) i = Some q -> nth_error (calls (h ++ [o])) i = Some q.
  Proof. rewrite calls_snoc. destruct (existsb is_drop h); [auto|apply nth_snoc]. Qed.

  Lemma answered_snoc (l : list act) x : answered (l ++ [x]) = answered l ++ match x with Served i q a => [(i, q, a)] | _ => [] end.
  Proof. unfold answered. rewrite flat_map_app. cbn. rewrite app_nil_r. reflexivity. Qed.
  Lemma done_snoc (l : list act) x : done (l ++ [x]) = done l ++ match x with Did e => [e] | _ => [] end.
  Proof. unfold done. rewrite flat_map_app. cbn. rewrite app_nil_r. reflexivity. Qed.
  Lemma felt_snoc (l : list act) x : felt (l ++ [x]) = felt l ++ match x with Felt f => [f] | _ => [] end.
  Proof. unfold felt. rewrite flat_map_app. cbn. rewrite app_nil_r. reflexivity. Qed.
  Lemma posts_snoc (h : list op) o : posts (h ++ [o]) = posts h ++ match o with Post e => [e] | _ => [] end.
  Proof. unfold posts. rewrite flat_map_app. cbn. rewrite app_nil_r. reflexivity. Qed.
  Lemma nets_snoc (h : list op) o : nets (h ++ [o]) = nets h ++ match o with Net f => [f] | _ => [] end.
  Proof. unfold nets. rewrite flat_map_app. cbn. rewrite app_nil_r. reflexivity. Qed.
  Lemma exists_snoc (f : op -> bool) h o : existsb f (h ++ [o]) = existsb f h || f o.
  Proof. rewrite existsb_app. cbn. rewrite orb_false_r. reflexivity. Qed.
  Lemma drop_end (h : list op) : existsb is_drop h = true -> existsb is_end h = true.
  Proof.
    intro H. apply existsb_exists in H. destruct H as (o & Ho & Hd). apply existsb_exists. exists o.
    split; [exact Ho|]. destruct o; cbn in *; congruence.
  Qed.
  Lemma drop_calls (h : list op) o : existsb is_drop h = true -> calls (h ++ [o]) = calls h.
  Proof. intro H. rewrite calls_snoc, H. reflexivity. Qed.

  (** A step of the poll, or nothing at all. *)
  Lemma kept_same n0 h t l g o :
    match o with Poll | Step => True | _ => False end -> kept n0 h t l g -> kept n0 (h ++ [o]) t l g.
  Proof.
    intros Ho [A1 A2 A3 A4 A5 A6 A7 A8 A9 A10 A11].
    assert (C : calls (h ++ [o]) = calls h) by (rewrite calls_snoc; destruct o; try contradiction; destruct (existsb is_drop h); rewrite ?app_nil_r; reflexivity).
    assert (T : in_time (h ++ [o]) = in_time h) by (rewrite in_time_snoc; destruct o; try contradiction; destruct (existsb is_end h); rewrite ?app_nil_r; reflexivity).
    assert (P : posts (h ++ [o]) = posts h) by (rewrite posts_snoc; destruct o; try contradiction; apply app_nil_r).
    assert (Q : nets (h ++ [o]) = nets h) by (rewrite nets_snoc; destruct o; try contradiction; apply app_nil_r).
    assert (D : existsb is_drop (h ++ [o]) = existsb is_drop h) by (rewrite exists_snoc; destruct o; try contradiction; apply orb_false_r).
    assert (E : existsb is_end (h ++ [o]) = existsb is_end h) by (rewrite exists_snoc; destruct o; try contradiction; apply orb_false_r).
    constructor; rewrite ?C, ?T, ?P, ?Q, ?D, ?E; assumption.
  Qed.

  Lemma kept_finish n0 h t l r :
    kept n0 h t l [] -> ids (facade t) = ids r -> length (answered l) = length (in_time h) -> existsb is_end h = true ->
    kept n0 h (finish (with_facade r t)) l (ids r).
  Proof.
    intros [A1 A2 A3 A4 A5 A6 A7 A8 A9 A10 A11] Hr Hl He. unfold finish.
    constructor; cbn; try assumption.
    - change (outcomes t ++ lost r = map (fun x => (idx x, Told (snd x))) (answered l) ++ map (fun i => (i, Gone)) (ids r)).
      rewrite A4, lost_ids, app_nil_r. reflexivity.
    - rewrite app_nil_r, <- Hr. exact A5.
    - constructor.
    - destruct A8 as (x & Hx & _). exists (events t ++ x). split; [exact Hx|]. intro H. destruct H. reflexivity.
    - destruct A9 as (x & Hx & _). exists x. split; [exact Hx|]. intro H. destruct H. reflexivity.
    - intro H. destruct H. reflexivity.
    - intros _. auto.
  Qed.
  Lemma finish_eta (t : task) : finish t = finish (with_facade (facade t) t).
  Proof. destruct t. reflexivity. Qed.

  Lemma kept_step n0 h t l g : kept n0 h t l g -> exists l' g', kept n0 h (step t) l' g'.
  Proof.
    intro K. unfold EventLoop.step. destruct (at_ t) as [|d| | |] eqn:Ea; [exists l, g; exact K| | | |exists l, g; exact K].
    - destruct K as [A1 A2 A3 A4 A5 A6 A7 A8 A9 A10 A11].
      destruct (next (inner t)) as [[e n]|] eqn:En.
      + exists (l ++ [Took e]), g.
        constructor; cbn; rewrite ?answered_snoc, ?done_snoc, ?felt_snoc, ?app_nil_r; try assumption.
        * eapply follows_took; eassumption.
        * destruct A8 as (r & Hr & H0). exists r. split; [exact Hr|]. intros _. apply H0. congruence.
        * destruct A9 as (r & Hr & H0). exists r. split; [exact Hr|]. intros _. apply H0. congruence.
        * intros _. apply A10. congruence.
        * discriminate.
      + exists l, g.
        constructor; cbn; try assumption.
        * destruct A8 as (r & Hr & H0). exists r. split; [exact Hr|]. intros _. apply H0. congruence.
        * destruct A9 as (r & Hr & H0). exists r. split; [exact Hr|]. intros _. apply H0. congruence.
        * intros _. apply A10. congruence.
        * destruct d; discriminate.
    - assert (Hn : at_ t <> Over) by congruence.
      destruct (k_running _ _ _ _ _ K Hn) as [-> Hr].
      destruct (facade t) as [|[i q|] r] eqn:Ef.
      + destruct Hr as [(_ & Ht & He)|(l1 & l2 & H0 & _)]; [|destruct l1; discriminate].
        destruct (dropped t) eqn:Ed.
        * exists l, (ids (facade t)). rewrite finish_eta. apply kept_finish; try assumption; [reflexivity| |].
          -- rewrite Ht, <- (k_made _ _ _ _ _ K), <- (seq_length (made t) 0), <- (k_order _ _ _ _ _ K), Ef.
             cbn. rewrite app_nil_r, map_length. reflexivity.
          -- rewrite He, <- (k_dropped _ _ _ _ _ K). exact Ed.
        * destruct K as [A1 A2 A3 A4 A5 A6 A7 A8 A9 A10 A11]. exists l, [].
          constructor; cbn; try assumption.
          -- destruct A8 as (r & Hr & H0). exists r. split; [exact Hr|]. intros _. apply H0. exact Hn.
          -- destruct A9 as (r & Hr & H0). exists r. split; [exact Hr|]. intros _. apply H0. exact Hn.
          -- intros _. split; [reflexivity|]. left. rewrite Ef. auto.
          -- discriminate.
      + destruct K as [A1 A2 A3 A4 A5 A6 A7 A8 A9 A10 A11]. rewrite Ef in *.
        destruct (on_request (inner t) q) as [n a] eqn:Eq.
        exists (l ++ [Served i q a]), [].
        assert (F : follows n0 (l ++ [Served i q a]) n).
        { pose proof (follows_served next on_swarm on_request on_repo _ _ _ i q A3) as F. rewrite Eq in F. exact F. }
        constructor; cbn; rewrite ?answered_snoc, ?done_snoc, ?felt_snoc, ?app_nil_r; try assumption.
        * rewrite A4, map_app. cbn. rewrite app_nil_r. reflexivity.
        * rewrite map_app. cbn in *. rewrite <- app_assoc. exact A5.
        * apply Forall_app. split; [exact A6|]. constructor; [|constructor]. inversion A7; subst. assumption.
        * inversion A7; subst. assumption.
        * intro H. destruct (A10 H) as [_ [(B1 & B2 & B3)|(l1 & l2 & B1 & B2 & B3 & B4)]]; (split; [reflexivity|]).
          -- left. split; [|auto]. intro Hin. apply B1. right. exact Hin.
          -- right. destruct l1 as [|m l1]; [discriminate|]. cbn in B1. injection B1 as <- ->.
             exists l1, l2. split; [reflexivity|]. split; [|split; [intro Hin; apply B3; right; exact Hin|exact B4]].
             rewrite app_length. change (length (ids (Ask i q :: l1))) with (S (length (ids l1))) in B2. cbn [length]. lia.
        * intro H. destruct (Hn H).
      + destruct Hr as [(Hx & _)|(l1 & l2 & Hl & Hc & Hx & He)]; [destruct Hx; left; reflexivity|].
        destruct l1 as [|m l1]; [|cbn in Hl; injection Hl as <- _; destruct Hx; left; reflexivity].
        cbn in Hl. injection Hl as ->.
        exists l, (ids l2). apply kept_finish; try assumption; [rewrite Ef; reflexivity|].
        rewrite <- Hc. cbn. lia.
    - destruct K as [A1 A2 A3 A4 A5 A6 A7 A8 A9 A10 A11].
      assert (Hn : at_ t <> Over) by congruence.
      destruct (events t) as [|e r] eqn:Ee.
      + exists l, g. constructor; cbn; rewrite ?Ee; try assumption.
        * destruct A8 as (r & Hr & H0). exists r. split; [exact Hr|]. intros _. apply H0. exact Hn.
        * destruct A9 as (r & Hr & H0). exists r. split; [exact Hr|]. intros _. apply H0. exact Hn.
        * intros _. apply A10. exact Hn.
        * discriminate.
      + exists (l ++ [Did e]), g.
        constructor; cbn; rewrite ?answered_snoc, ?done_snoc, ?felt_snoc, ?app_nil_r; try assumption.
        * apply follows_did, A3.
        * destruct A8 as (x & Hx & H0). exists x. split; [|exact H0]. rewrite Hx, <- app_assoc. reflexivity.
        * intro H. destruct (Hn H).
  Qed.

  Lemma kept_flags n0 h t t' l g :
    at_ t' = at_ t -> dropped t' = dropped t -> made t' = made t -> inner t' = inner t -> outcomes t' = outcomes t ->
    facade t' = facade t -> events t' = events t -> kept n0 h t l g -> kept n0 h t' l g.
  Proof.
    intros E1 E2 E3 E4 E5 E6 E7 [A1 A2 A3 A4 A5 A6 A7 A8 A9 A10 A11].
    constructor; rewrite ?E1, ?E2, ?E3, ?E4, ?E5, ?E6, ?E7; assumption.
  Qed.
  Lemma kept_call_facade n0 h t l g : kept n0 h t l g -> kept n0 h (call_facade t) l g.
  Proof. apply kept_flags; unfold call_facade; destruct (w_facade t); reflexivity. Qed.
  Lemma kept_call_events n0 h t l g : kept n0 h t l g -> kept n0 h (call_events t) l g.
  Proof. apply kept_flags; unfold call_events; destruct (w_events t); reflexivity. Qed.
  Lemma kept_call_swarm n0 h t l g : kept n0 h t l g -> kept n0 h (call_swarm t) l g.
  Proof. apply kept_flags; unfold call_swarm; destruct (w_swarm t); reflexivity. Qed.

  Definition place_eq (p : place) : {p = Over} + {p <> Over}.
  Proof. destruct p; (left; reflexivity) || (right; discriminate). Defined.
  Lemma over_if {A} (p : place) (x y : A) : p <> Over -> match p with Over => x | _ => y end = y.
  Proof. destruct p; intro H; try reflexivity. destruct H. reflexivity. Qed.

  Lemma queue_grow (h : list op) o (l : list (message req)) :
    Forall (fun m => match m with Ask i q => nth_error (calls h) i = Some q | Exit => True end) l ->
    Forall (fun m => match m with Ask i q => nth_error (calls (h ++ [o])) i = Some q | Exit => True end) l.
  Proof. apply Forall_impl. intros [i q|] H; [apply calls_grow, H|exact I]. Qed.
  Lemma asked_grow (h : list op) o (l : list act) :
    Forall (fun x => nth_error (calls h) (idx x) = Some (snd (fst x))) (answered l) ->
    Forall (fun x => nth_error (calls (h ++ [o])) (idx x) = Some (snd (fst x))) (answered l).
  Proof. apply Forall_impl. intros x H. apply calls_grow, H. Qed.
  Lemma nth_new {A} (l : list A) x : nth_error (l ++ [x]) (length l) = Some x.
  Proof. rewrite nth_error_app2, Nat.sub_diag by lia. reflexivity. Qed.

  Lemma kept_call n0 h t l g q : kept n0 h t l g -> exists l' g', kept n0 (h ++ [Call q]) (apply t (Call q)) l' g'.
  Proof.
    intros [A1 A2 A3 A4 A5 A6 A7 A8 A9 A10 A11]. cbn [EventLoop.apply].
    assert (P : posts (h ++ [Call q]) = posts h) by (rewrite posts_snoc; apply app_nil_r).
    assert (Q : nets (h ++ [Call q]) = nets h) by (rewrite nets_snoc; apply app_nil_r).
    assert (D : existsb is_drop (h ++ [Call q]) = existsb is_drop h) by (rewrite exists_snoc; apply orb_false_r).
    assert (E : existsb is_end (h ++ [Call q]) = existsb is_end h) by (rewrite exists_snoc; apply orb_false_r).
    destruct (dropped t) eqn:Ed.
    { pose proof A1 as Hd. symmetry in Hd.
      assert (C : calls (h ++ [Call q]) = calls h) by (apply drop_calls, Hd).
      assert (T : in_time (h ++ [Call q]) = in_time h) by (rewrite in_time_snoc, (drop_end _ Hd); reflexivity).
      exists l, g. constructor; rewrite ?C, ?T, ?P, ?Q, ?D, ?E; try assumption. congruence. }
    assert (C : calls (h ++ [Call q]) = calls h ++ [q]) by (rewrite calls_snoc, <- A1; reflexivity).
    pose proof (queue_grow h (Call q) _ A7) as B7. pose proof (asked_grow h (Call q) _ A6) as B6.
    destruct (place_eq (at_ t)) as [Ho|Hn].
    - rewrite Ho. destruct (A11 Ho) as (F & V & L & Ee).
      assert (T : in_time (h ++ [Call q]) = in_time h) by (rewrite in_time_snoc, Ee; reflexivity).
      exists l, (g ++ [made t]).
      constructor; cbn; rewrite ?T, ?P, ?Q, ?D, ?E; try assumption.
      + congruence.
      + rewrite C, app_length, A2. cbn. lia.
      + rewrite A4, map_app, <- app_assoc. reflexivity.
      + rewrite F in *. cbn in *. rewrite app_nil_r in *. rewrite app_assoc, A5. apply (eq_sym (seq_S (made t) 0)).
      + intro H. destruct (H Ho).
    - rewrite over_if by exact Hn. destruct (A10 Hn) as [-> R].
      exists l, []. apply kept_call_facade.
      constructor; cbn; rewrite ?P, ?Q, ?D, ?E; try assumption.
      + congruence.
      + rewrite C, app_length, A2. cbn. lia.
      + rewrite ids_app, app_assoc. cbn in A5. rewrite A5. apply (eq_sym (seq_S (made t) 0)).
      + apply Forall_app. split; [exact B7|]. constructor; [|constructor]. rewrite C, A2. apply nth_new.
      + intros _. split; [reflexivity|]. destruct R as [(R1 & R2 & R3)|(l1 & l2 & R1 & R2 & R3 & R4)].
        * left. split; [|split; [|exact R3]].
          -- intro Hin. apply in_app_iff in Hin. destruct Hin as [Hin|[Hin|[]]]; [exact (R1 Hin)|discriminate].
          -- rewrite in_time_snoc, R3, <- A1, C, R2. reflexivity.
        * right. exists l1, (l2 ++ [Ask (made t) q]). split; [rewrite R1, <- app_assoc; reflexivity|].
          rewrite in_time_snoc, R4. auto.
      + intro H. destruct (Hn H).
  Qed.

  Lemma kept_exit n0 h t l g : kept n0 h t l g -> exists l' g', kept n0 (h ++ [ExitDaemon]) (apply t ExitDaemon) l' g'.
  Proof.
    intros [A1 A2 A3 A4 A5 A6 A7 A8 A9 A10 A11]. cbn [EventLoop.apply].
    assert (P : posts (h ++ [ExitDaemon]) = posts h) by (rewrite posts_snoc; apply app_nil_r).
    assert (Q : nets (h ++ [ExitDaemon]) = nets h) by (rewrite nets_snoc; apply app_nil_r).
    assert (D : existsb is_drop (h ++ [ExitDaemon]) = existsb is_drop h) by (rewrite exists_snoc; apply orb_false_r).
    assert (E : existsb is_end (h ++ [ExitDaemon]) = true) by (rewrite exists_snoc; apply orb_true_r).
    assert (C : calls (h ++ [ExitDaemon]) = calls h) by (rewrite calls_snoc; destruct (existsb is_drop h); rewrite ?app_nil_r; reflexivity).
    assert (T : in_time (h ++ [ExitDaemon]) = in_time h) by (rewrite in_time_snoc; destruct (existsb is_end h); rewrite ?app_nil_r; reflexivity).
    destruct (dropped t) eqn:Ed.
    { pose proof A1 as Hd. symmetry in Hd.
      exists l, g. constructor; rewrite ?C, ?T, ?P, ?Q, ?D; try assumption.
      - congruence.
      - rewrite E, Hd. rewrite (drop_end _ Hd), Hd in A10. exact A10.
      - rewrite E. rewrite (drop_end _ Hd) in A11. exact A11. }
    destruct (place_eq (at_ t)) as [Ho|Hn].
    - rewrite Ho. exists l, g. constructor; rewrite ?C, ?T, ?P, ?Q, ?D; try assumption.
      + congruence.
      + intro H. destruct (H Ho).
      + rewrite E. intro H. destruct (A11 H) as (F & V & L & Ee). auto.
    - rewrite over_if by exact Hn. destruct (A10 Hn) as [-> R].
      exists l, []. apply kept_call_facade.
      constructor; cbn; rewrite ?C, ?T, ?P, ?Q, ?D; try assumption.
      + congruence.
      + rewrite ids_app. cbn. rewrite app_nil_r. exact A5.
      + apply Forall_app. split; [exact A7|]. constructor; [exact I|constructor].
      + intros _. split; [reflexivity|]. right. destruct R as [(R1 & R2 & R3)|(l1 & l2 & R1 & R2 & R3 & R4)].
        * exists (facade t), []. split; [reflexivity|]. split; [|split; [exact R1|exact E]].
          rewrite R2, <- A2, <- (seq_length (made t) 0), <- A5, !app_length, map_length. reflexivity.
        * exists l1, (l2 ++ [Exit]). split; [rewrite R1, <- app_assoc; reflexivity|]. auto.
      + intro H. destruct (Hn H).
  Qed.

  Lemma kept_drop n0 h t l g : kept n0 h t l g -> kept n0 (h ++ [DropAll]) (apply t DropAll) l g.
  Proof.
    intros [A1 A2 A3 A4 A5 A6 A7 A8 A9 A10 A11]. cbn [EventLoop.apply].
    assert (P : posts (h ++ [DropAll]) = posts h) by (rewrite posts_snoc; apply app_nil_r).
    assert (Q : nets (h ++ [DropAll]) = nets h) by (rewrite nets_snoc; apply app_nil_r).
    assert (D : existsb is_drop (h ++ [DropAll]) = true) by (rewrite exists_snoc; apply orb_true_r).
    assert (E : existsb is_end (h ++ [DropAll]) = true) by (rewrite exists_snoc; apply orb_true_r).
    assert (C : calls (h ++ [DropAll]) = calls h) by (rewrite calls_snoc; destruct (existsb is_drop h); rewrite ?app_nil_r; reflexivity).
    assert (T : in_time (h ++ [DropAll]) = in_time h) by (rewrite in_time_snoc; destruct (existsb is_end h); rewrite ?app_nil_r; reflexivity).
    assert (K : kept n0 (h ++ [DropAll]) (with_dropped t) l g).
    { constructor; cbn; rewrite ?C, ?T, ?P, ?Q, ?D, ?E; try assumption; try reflexivity.
      - intro H. destruct (A10 H) as [-> [(R1 & R2 & R3)|(l1 & l2 & R1 & R2 & R3 & R4)]]; (split; [reflexivity|]).
        + left. auto.
        + right. exists l1, l2. auto.
      - intro H. destruct (A11 H) as (F & V & L & Ee). auto. }
    destruct (place_eq (at_ t)) as [Ho|Hn]; [rewrite Ho; exact K|].
    rewrite over_if by exact Hn. apply kept_call_facade, K.
  Qed.

  Lemma kept_post n0 h t l g e : kept n0 h t l g -> kept n0 (h ++ [Post e]) (apply t (Post e)) l g.
  Proof.
    intros [A1 A2 A3 A4 A5 A6 A7 A8 A9 A10 A11]. cbn [EventLoop.apply].
    assert (Q : nets (h ++ [Post e]) = nets h) by (rewrite nets_snoc; apply app_nil_r).
    assert (D : existsb is_drop (h ++ [Post e]) = existsb is_drop h) by (rewrite exists_snoc; apply orb_false_r).
    assert (E : existsb is_end (h ++ [Post e]) = existsb is_end h) by (rewrite exists_snoc; apply orb_false_r).
    assert (C : calls (h ++ [Post e]) = calls h) by (rewrite calls_snoc; destruct (existsb is_drop h); rewrite ?app_nil_r; reflexivity).
    assert (T : in_time (h ++ [Post e]) = in_time h) by (rewrite in_time_snoc; destruct (existsb is_end h); rewrite ?app_nil_r; reflexivity).
    destruct A8 as (r & Hr & H0).
    destruct (place_eq (at_ t)) as [Ho|Hn].
    - rewrite Ho. constructor; rewrite ?C, ?T, ?Q, ?D, ?E; try assumption.
      exists (r ++ [e]). split; [rewrite posts_snoc, Hr, <- !app_assoc; reflexivity|]. intro H. destruct (H Ho).
    - rewrite over_if by exact Hn. apply kept_call_events.
      constructor; cbn; rewrite ?C, ?T, ?Q, ?D, ?E; try assumption.
      + exists []. split; [|auto]. rewrite posts_snoc, Hr, (H0 Hn), !app_nil_r, <- !app_assoc. reflexivity.
      + intro H. destruct (Hn H).
  Qed.

  Lemma kept_net n0 h t l g f : kept n0 h t l g -> exists l', kept n0 (h ++ [Net f]) (apply t (Net f)) l' g.
  Proof.
    intros [A1 A2 A3 A4 A5 A6 A7 A8 A9 A10 A11]. cbn [EventLoop.apply].
    assert (P : posts (h ++ [Net f]) = posts h) by (rewrite posts_snoc; apply app_nil_r).
    assert (D : existsb is_drop (h ++ [Net f]) = existsb is_drop h) by (rewrite exists_snoc; apply orb_false_r).
    assert (E : existsb is_end (h ++ [Net f]) = existsb is_end h) by (rewrite exists_snoc; apply orb_false_r).
    assert (C : calls (h ++ [Net f]) = calls h) by (rewrite calls_snoc; destruct (existsb is_drop h); rewrite ?app_nil_r; reflexivity).
    assert (T : in_time (h ++ [Net f]) = in_time h) by (rewrite in_time_snoc; destruct (existsb is_end h); rewrite ?app_nil_r; reflexivity).
    destruct A9 as (r & Hr & H0).
    destruct (place_eq (at_ t)) as [Ho|Hn].
    - rewrite Ho. exists l. constructor; rewrite ?C, ?T, ?P, ?D, ?E; try assumption.
      exists (r ++ [f]). split; [rewrite nets_snoc, Hr, <- !app_assoc; reflexivity|]. intro H. destruct (H Ho).
    - rewrite over_if by exact Hn. exists (l ++ [Felt f]). apply kept_call_swarm.
      constructor; cbn; rewrite ?answered_snoc, ?done_snoc, ?felt_snoc, ?app_nil_r, ?C, ?T, ?P, ?D, ?E; try assumption.
      + apply follows_felt, A3.
      + exists []. split; [|auto]. rewrite nets_snoc, Hr, (H0 Hn), !app_nil_r. reflexivity.
  Qed.

  Lemma kept_apply n0 h t l g o : kept n0 h t l g -> exists l' g', kept n0 (h ++ [o]) (apply t o) l' g'.
  Proof.
    intro K. destruct o as [q| | |e|f| |].
    - exact (kept_call _ _ _ _ _ q K).
    - exact (kept_exit _ _ _ _ _ K).
    - exists l, g. apply kept_drop, K.
    - exists l, g. apply kept_post, K.
    - destruct (kept_net _ _ _ _ _ f K) as [l' K']. exists l', g. exact K'.
    - exists l, g. apply kept_same; [exact I|]. cbn [EventLoop.apply].
      destruct (at_ t) eqn:Ea; try exact K. destruct (woken t); [|exact K].
      destruct K as [A1 A2 A3 A4 A5 A6 A7 A8 A9 A10 A11].
      constructor; cbn; try assumption; rewrite Ea in *; try assumption; try discriminate.
      + destruct A8 as (r & Hr & H0). exists r. split; [exact Hr|]. intros _. apply H0. discriminate.
      + destruct A9 as (r & Hr & H0). exists r. split; [exact Hr|]. intros _. apply H0. discriminate.
      + intros _. apply A10. discriminate.
    - cbn [EventLoop.apply]. destruct (kept_step _ _ _ _ _ K) as (l' & g' & K'). exists l', g'. apply kept_same; [exact I|exact K'].
  Qed.

  Lemma kept_run n0 h : exists l g, kept n0 h (run n0 h) l g.
  Proof.
    induction h as [|o h (l & g & K)] using rev_ind.
    - exists [], []. apply mk_kept; cbn.
      + reflexivity. + reflexivity. + apply follows_nil. + reflexivity. + reflexivity. + constructor. + constructor.
      + exists []. auto. + exists []. auto.
      + intros _. split; [reflexivity|]. left. auto.
      + discriminate.
    - rewrite run_snoc. apply (kept_apply _ _ _ _ _ o K).
  Qed.

  (** ** The poll comes to an end *)
  Lemma iter_add (a b : nat) (t : task) : Nat.iter (a + b) step t = Nat.iter a step (Nat.iter b step t).
  Proof. induction a as [|a IH]; cbn; [reflexivity|]. f_equal. exact IH. Qed.

  Section Settles.
    Variable w : node -> nat.
    Hypothesis w_less : forall n e n', next n = Some (e, n') -> w (on_swarm n' e) < w n.

    (** The swarm is polled until it has nothing. *)
    Lemma swarm_out n t d : w (inner t) <= n -> at_ t = AtSwarm d ->
      exists k, let t' := Nat.iter k step t in
        next (inner t') = None /\ facade t' = facade t /\ events t' = events t /\ dropped t' = dropped t /\
        (exists d', at_ t' = AtSwarm d' /\ (d' = true -> d = true)).
    Proof.
      revert t d. induction n as [|n IH]; intros t d Hw Ha.
      - exists 0. cbn. destruct (next (inner t)) as [[e n']|] eqn:En; [apply w_less in En; lia|].
        repeat split. exists d. auto.
      - destruct (next (inner t)) as [[e n']|] eqn:En; [|exists 0; cbn; repeat split; [exact En|]; exists d; auto].
        assert (Hs : step t = go (AtSwarm false) (with_inner (on_swarm n' e) t)) by (unfold EventLoop.step; rewrite Ha, En; reflexivity).
        apply w_less in En.
        destruct (IH (step t) false) as (k & K1 & K2 & K3 & K4 & d' & K5 & K6).
        { rewrite Hs. cbn. lia. } { rewrite Hs. reflexivity. }
        exists (k + 1). cbv zeta. rewrite iter_add. cbn [Nat.iter nat_rect].
        rewrite K2, K3, K4, Hs. rewrite Hs in K1, K5. cbn. repeat split; [exact K1|]. exists d'. split; [exact K5|].
        intro H. apply K6 in H. discriminate.
    Qed.

    Lemma facade_out l t : facade t = l -> at_ t = AtFacade ->
      exists k, let t' := Nat.iter k step t in
        (at_ t' = Over \/ at_ t' = AtRepo /\ facade t' = []).
    Proof.
      revert t. induction l as [|[i q|] l IH]; intros t Hf Ha.
      - exists 1. cbn. unfold EventLoop.step. rewrite Ha, Hf. destruct (dropped t); cbn; [left; reflexivity|right; auto].
      - destruct (IH (step t)) as (k & K).
        { unfold EventLoop.step. rewrite Ha, Hf. destruct (on_request (inner t) q). reflexivity. }
        { unfold EventLoop.step. rewrite Ha, Hf. destruct (on_request (inner t) q). exact Ha. }
        exists (k + 1). cbv zeta. rewrite iter_add. exact K.
      - exists 1. cbn. unfold EventLoop.step. rewrite Ha, Hf. left. reflexivity.
    Qed.

    Lemma repo_out l t : events t = l -> at_ t = AtRepo ->
      exists k, let t' := Nat.iter k step t in
        at_ t' = AtSwarm true /\ facade t' = facade t /\ events t' = [].
    Proof.
      revert t. induction l as [|e l IH]; intros t He Ha.
      - exists 1. cbn. unfold EventLoop.step. rewrite Ha, He. auto.
      - destruct (IH (step t)) as (k & K1 & K2 & K3).
        { unfold EventLoop.step. rewrite Ha, He. reflexivity. }
        { unfold EventLoop.step. rewrite Ha, He. exact Ha. }
        exists (k + 1). cbv zeta. rewrite iter_add. cbn [Nat.iter nat_rect]. split; [exact K1|]. split; [|exact K3].
        rewrite K2. unfold EventLoop.step. rewrite Ha, He. reflexivity.
    Qed.

    Definition stops (t : task) : Prop := exists k, at_ (Nat.iter k step t) = Asleep \/ at_ (Nat.iter k step t) = Over.
    Lemma stops_more k t : stops (Nat.iter k step t) -> stops t.
    Proof. intros (j & Hj). exists (j + k). rewrite iter_add. exact Hj. Qed.

    (** With nothing queued the rounds end when the swarm does. *)
    Lemma stops_quiet t : at_ t = AtSwarm false -> next (inner t) = None -> facade t = [] -> events t = [] -> stops t.
    Proof.
      intros Ha Hn Hf He. destruct (dropped t) eqn:Ed; [exists 2|exists 4]; cbn;
        unfold EventLoop.step; rewrite Ha, Hn; cbn; rewrite Hf, Ed; cbn; [right; reflexivity|].
      rewrite He. cbn. rewrite Hn. left. reflexivity.
    Qed.
    Lemma stops_true t : at_ t = AtSwarm true -> facade t = [] -> events t = [] -> stops t.
    Proof.
      intros Ha Hf He. destruct (swarm_out (w (inner t)) t true (le_n _) Ha) as (k & K1 & K2 & K3 & _ & d & K5 & _).
      apply (stops_more k). destruct d; [|apply stops_quiet; congruence].
      clear K2 K3. revert K1 K5. generalize (Nat.iter k step t). intros u K1 K5.
      exists 1. cbn. unfold EventLoop.step. rewrite K5, K1. left. reflexivity.
    Qed.
    Lemma stops_repo t : at_ t = AtRepo -> facade t = [] -> stops t.
    Proof.
      intros Ha Hf. destruct (repo_out _ t eq_refl Ha) as (k & K1 & K2 & K3).
      apply (stops_more k). apply stops_true; congruence.
    Qed.
    Lemma stops_facade t : at_ t = AtFacade -> stops t.
    Proof.
      intro Ha. destruct (facade_out _ t eq_refl Ha) as (k & [K|[K1 K2]]).
      - exists k. right. exact K.
      - apply (stops_more k), stops_repo; assumption.
    Qed.
    Lemma stops_swarm t d : at_ t = AtSwarm d -> stops t.
    Proof.
      intro Ha. destruct (swarm_out (w (inner t)) t d (le_n _) Ha) as (k & K1 & K2 & K3 & _ & d' & K5 & _).
      apply (stops_more k). clear K2 K3. revert K1 K5. generalize (Nat.iter k step t). intros u K1 K5. apply (stops_more 1).
      assert (Hs : step u = go (if d' then Asleep else AtFacade) (keep_swarm true u)) by (unfold EventLoop.step; rewrite K5, K1; reflexivity).
      cbn [Nat.iter nat_rect]. rewrite Hs. destruct d'.
      - exists 0. left. reflexivity.
      - apply stops_facade. reflexivity.
    Qed.
    Lemma stops_all t : stops t.
    Proof.
      destruct (at_ t) as [|d| | |] eqn:Ea.
      - exists 0. left. exact Ea.
      - eapply stops_swarm, Ea.
      - apply stops_facade, Ea.
      - destruct (repo_out _ t eq_refl Ea) as (k & K1 & _). apply (stops_more k). eapply stops_swarm, K1.
      - exists 0. right. exact Ea.
    Qed.

    Lemma woken_step t : woken (step t) = woken t.
    Proof.
      unfold EventLoop.step. destruct (at_ t) as [|d| | |]; try reflexivity.
      - destruct (next (inner t)) as [[e n']|]; reflexivity.
      - destruct (facade t) as [|[i q|] r]; [destruct (dropped t); reflexivity| |reflexivity].
        destruct (on_request (inner t) q). reflexivity.
      - destruct (events t); reflexivity.
    Qed.
    Lemma woken_steps k t : woken (Nat.iter k step t) = woken t.
    Proof. induction k as [|k IH]; [reflexivity|]. cbn. rewrite woken_step. exact IH. Qed.

    Lemma fold_steps k t : fold_left apply (repeat Step k) t = Nat.iter k step t.
    Proof.
      revert t. induction k as [|k IH]; intro t; [reflexivity|]. cbn [repeat fold_left EventLoop.apply]. rewrite IH.
      change (step t) with (Nat.iter 1 step t). rewrite <- iter_add. replace (k + 1) with (S k) by lia. reflexivity.
    Qed.
    Lemma quiet_steps k : @quiet node req rev (repeat Step k).
    Proof. induction k; constructor; auto. Qed.

    Lemma settle n0 h : exists g, quiet g /\ idle (run n0 (h ++ g)).
    Proof.
      destruct (stops_all (run n0 h)) as (k & Hk).
      assert (E1 : run n0 (h ++ repeat Step k) = Nat.iter k step (run n0 h)) by (rewrite run_app; apply fold_steps).
      destruct Hk as [Hk|Hk]; [|exists (repeat Step k); split; [apply quiet_steps|]; right; rewrite E1; exact Hk].
      destruct (woken (run n0 h)) eqn:Ew.
      2: { exists (repeat Step k). split; [apply quiet_steps|]. left. rewrite E1, woken_steps. auto. }
      set (t1 := Nat.iter k step (run n0 h)) in *.
      set (t2 := go (AtSwarm false) (with_woken false t1)).
      assert (E2 : apply t1 Poll = t2) by (cbn; rewrite Hk; unfold t1; rewrite woken_steps, Ew; reflexivity).
      destruct (stops_all t2) as (j & Hj).
      exists (repeat Step k ++ Poll :: repeat Step j).
      split; [apply Forall_app; split; [apply quiet_steps|]; constructor; [auto|apply quiet_steps]|].
      rewrite app_assoc, run_app, E1. cbn [fold_left]. fold t1. rewrite E2, fold_steps.
      destruct Hj as [Hj|Hj]; [left|right; exact Hj]. split; [exact Hj|]. rewrite woken_steps. reflexivity.
    Qed.
  End Settles.
End Proofs.
