(** The links shown by [pending_links] are the ones the walk will load. *)
From Verif Require Import Base Wire Cid Pb FileVisit DirLookup IpfsPath StdPath Walk WalkSpec.
Local Open Scope N_scope.

Lemma in_order_app {A} (a b l : list A) : in_order (a ++ b) l -> in_order b l.
Proof.
  induction a as [|x a IH]; cbn [app]; intros H; [exact H|]. apply IH. clear IH.
  remember (x :: a ++ b) as y eqn:E. revert E. induction H; intros E; try discriminate.
  - constructor. auto.
  - injection E as -> ->. constructor. assumption.
Qed.

Definition ongoing (w : walker) : option visit :=
  match w_current w with Some (mk_inner _ (KFile (Some v) _) _ _ _) => Some v | _ => None end.
(** The entries which wait. *)
Definition waiting (w : walker) : list item := match w_next w with Some i => i :: w_pending w | None => [] end.
Definition tidy (w : walker) : Prop :=
  (w_next w = None -> w_pending w = []) /\
  w_continue w = (match ongoing w with Some _ => true | None => false end || match w_next w with Some _ => true | None => false end).
Definition item_cids (l : list item) : list cid := map (fun i => fst (fst i)) l.

Lemma pending_is w : tidy w ->
  pending_links w = match ongoing w with
                    | Some v => match v_pending v with [] => [] | _ => map fst (v_pending v) ++ item_cids (waiting w) end
                    | None => item_cids (waiting w)
                    end.
Proof.
  intros [T1 _]. unfold pending_links, first_pending, rest_pending, ongoing, waiting, item_cids.
  destruct (w_current w) as [[ec ek ep em ed]|].
  - destruct ek as [| | | | |[v|] sz|]; try (destruct (w_next w) as [[[c n] d]|]; [reflexivity|reflexivity]).
    unfold next_link. destruct (v_pending v) as [|[c r] l]; [reflexivity|]. cbn [tl map fst app].
    destruct (w_next w) as [[[c' n] d]|]; [reflexivity|]. rewrite (T1 eq_refl). reflexivity.
  - destruct (w_next w) as [[[c n] d]|]; reflexivity.
Qed.

Lemma visit_rest v b content v' : visit_continue v b = Ok (content, Some v') ->
  exists x p, v_pending v = x :: tl (v_pending v) /\ v_pending v' = p ++ tl (v_pending v).
Proof.
  unfold visit_continue. destruct (v_pending v) as [|[c rg] rest]; [discriminate|].
  destruct (trav_continue (v_state v) b rg) as [fr|e|]; try discriminate.
  destruct (fr_links fr) as [|l ls].
  - destruct (maybe_slice _ _ _); try discriminate. destruct rest; [discriminate|]. intros [= _ <-]. exists (c, rg), []. auto.
  - destruct (to_pending _ _ _ _ _) as [p|e|]; try discriminate. intros [= _ <-]. exists (c, rg), p. auto.
Qed.
Lemma visit_last v b content : visit_continue v b = Ok (content, None) -> exists x, v_pending v = [x].
Proof.
  unfold visit_continue. destruct (v_pending v) as [|[c rg] rest]; [discriminate|].
  destruct (trav_continue (v_state v) b rg) as [fr|e|]; try discriminate.
  destruct (fr_links fr) as [|l ls].
  - destruct (maybe_slice _ _ _); try discriminate. destruct rest; [|discriminate]. eauto.
  - destruct (to_pending _ _ _ _ _) as [p|e|]; discriminate.
Qed.

Definition kind_step (k : kind) : option visit := match k with KFile s _ => s | _ => None end.
Lemma enter_kind dbg rk k cur c n d m ie : enter dbg rk k cur c n d m = Some ie -> e_kind ie = rk \/ e_kind ie = k.
Proof.
  unfold enter, new_root, become. destruct cur as [[ec ek ep em ed]|]; [|intros [= <-]; left; reflexivity].
  cbn [e_kind e_depth e_path]. destruct ek as [| | | | |[v|] sz|]; try discriminate; destruct (set_path _ _ _ _ _); try discriminate; intros [= <-]; right; reflexivity.
Qed.
Lemma as_bucket_kind ie c n d ie' : as_bucket ie c n d = Some ie' -> kind_step (e_kind ie') = None.
Proof.
  unfold as_bucket. destruct ie as [ec ek ep em ed]. cbn [e_kind e_depth e_path e_meta].
  destruct ek as [| | | | |[v|] sz|]; try discriminate; try (destruct (ed =? d)%nat; [intros [= <-]; reflexivity|discriminate]);
    destruct n; try discriminate; destruct (pop_above ed d ep) as [[d' p]|]; try discriminate; destruct (d' =? d)%nat; try discriminate;
    intros [= <-]; reflexivity.
Qed.
Definition fresh_step (w : walker) (w' : walker) : Prop :=
  exists ie items, w' = mk_walker (Some ie) (hd_error (items ++ w_pending w)) (tl (items ++ w_pending w))
    (match kind_step (e_kind ie) with Some _ => true | None => false end || match items ++ w_pending w with [] => false | _ => true end)
    /\ w_next w <> None.
Lemma fresh_ok dbg w b w' o : ongoing w = None -> walk_next dbg w b = Ok (w', o) -> fresh_step w w'.
Proof.
  intros Ho H. unfold walk_next in H.
  assert (H2 : exists cur, match flat_parse b with
      | inr e => Err (parse_err e)
      | inl f =>
          let m := meta_of (f_data f) in
          let after todo := (hd_error todo, tl todo, match todo with [] => false | _ => true end) in
          match u_type (f_data f) with
          | TDirectory =>
              if check_directory_supported (f_data f) then
                match w_next w with
                | None => Panic
                | Some (c, name, depth) =>
                    match convert_all (convert_link (S depth)) 0 (f_links f) with
                    | Err e => Err e
                    | Panic => Panic
                    | Ok items =>
                        let '(n, p, g) := after (items ++ w_pending w) in
                        match enter dbg KRootDirectory KDirectory cur c name depth m with
                        | None => Panic
                        | Some ie =>
                            Ok (mk_walker (Some ie) n p g,
                                match cur with
                                | None => ORootDirectory (e_cid ie) (e_path ie) (e_meta ie)
                                | Some _ => ODirectory (e_cid ie) (e_path ie) (e_meta ie)
                                end)
                        end
                    end
                end
              else Err WUnsupportedDirectory
          | THAMTShard =>
              if check_supported (f_data f) then
                match w_next w with
                | None => Panic
                | Some (c, name, depth) =>
                    match convert_all (convert_sharded_link (S depth) depth) 0 (f_links f) with
                    | Err e => Err e
                    | Panic => Panic
                    | Ok items =>
                        let '(n, p, g) := after (items ++ w_pending w) in
                        match cur, name with
                        | Some ie, [] =>
                            match as_bucket ie c name depth with
                            | None => Panic
                            | Some ie => Ok (mk_walker (Some ie) n p g, OBucket (e_cid ie) (e_path ie))
                            end
                        | _, _ =>
                            match enter dbg KBucketAtRoot KRootBucket cur c name depth m with
                            | None => Panic
                            | Some ie => Ok (mk_walker (Some ie) n p g, ORootDirectory (e_cid ie) (e_path ie) (e_meta ie))
                            end
                        end
                    end
                end
              else Err WUnsupportedShard
          | TRaw | TFile =>
              match visit_start None b with
              | Err e => file_err e
              | Panic => Panic
              | Ok (bs, size, fm, step) =>
                  match w_next w with
                  | None => Panic
                  | Some (c, name, depth) =>
                      let continues := match step with Some _ => true | None => false end in
                      match enter dbg (KFile step size) (KFile step size) cur c name depth fm with
                      | None => Panic
                      | Some ie =>
                          let '(n, p, g) := after (w_pending w) in
                          Ok (mk_walker (Some ie) n p (continues || g),
                              OFile bs true (negb continues) (e_cid ie) (e_path ie) (e_meta ie) size)
                      end
                  end
              end
          | TMetadata => Err (WUnsupportedType TMetadata)
          | TSymlink =>
              match w_next w with
              | None => Panic
              | Some (c, name, depth) =>
                  match enter dbg KSymlink KSymlink cur c name depth m with
                  | None => Panic
                  | Some ie =>
                      let '(n, p, g) := after (w_pending w) in
                      Ok (mk_walker (Some ie) n p g,
                          OSymlink (match u_data (f_data f) with Some d => d | None => [] end)
                            (e_cid ie) (e_path ie) (e_meta ie))
                  end
              end
          end
      end = Ok (w', o)).
  { unfold ongoing in Ho. destruct (w_current w) as [[ec ek ep em ed]|]; [|exists None; exact H].
    destruct ek as [| | | | |[v|] sz|]; try discriminate Ho; eexists (Some (mk_inner ec _ ep em ed)); exact H. }
  clear H Ho. destruct H2 as [cur H]. destruct (flat_parse b) as [f|]; [|discriminate]. cbv zeta in H.
  destruct (u_type (f_data f)).
  - destruct (visit_start None b) as [[[[bs size] fm] step]|e|]; [|destruct e; discriminate|discriminate].
    destruct (w_next w) as [[[c name] depth]|] eqn:En; [|discriminate].
    destruct (enter _ _ _ _ _ _ _ _) as [ie|] eqn:Ee; [|discriminate]. injection H as <- <-. exists ie, []. cbn [app]. split; [|congruence].
    destruct (enter_kind _ _ _ _ _ _ _ _ _ Ee) as [E|E]; rewrite E; reflexivity.
  - destruct (check_directory_supported (f_data f)); [|discriminate].
    destruct (w_next w) as [[[c name] depth]|] eqn:En; [|discriminate].
    destruct (convert_all _ _ _) as [items| |]; try discriminate.
    destruct (enter _ _ _ _ _ _ _ _) as [ie|] eqn:Ee; [|discriminate]. injection H as <- <-. exists ie, items. split; [|congruence].
    destruct (enter_kind _ _ _ _ _ _ _ _ _ Ee) as [E|E]; rewrite E; reflexivity.
  - destruct (visit_start None b) as [[[[bs size] fm] step]|e|]; [|destruct e; discriminate|discriminate].
    destruct (w_next w) as [[[c name] depth]|] eqn:En; [|discriminate].
    destruct (enter _ _ _ _ _ _ _ _) as [ie|] eqn:Ee; [|discriminate]. injection H as <- <-. exists ie, []. cbn [app]. split; [|congruence].
    destruct (enter_kind _ _ _ _ _ _ _ _ _ Ee) as [E|E]; rewrite E; reflexivity.
  - discriminate.
  - destruct (w_next w) as [[[c name] depth]|] eqn:En; [|discriminate].
    destruct (enter _ _ _ _ _ _ _ _) as [ie|] eqn:Ee; [|discriminate]. injection H as <- <-. exists ie, []. cbn [app]. split; [|congruence].
    destruct (enter_kind _ _ _ _ _ _ _ _ _ Ee) as [E|E]; rewrite E; reflexivity.
  - destruct (check_supported (f_data f)); [|discriminate].
    destruct (w_next w) as [[[c name] depth]|] eqn:En; [|discriminate].
    destruct (convert_all _ _ _) as [items| |]; try discriminate.
    assert (HE : forall r : outcome (walker * walked) walk_err, match enter dbg KBucketAtRoot KRootBucket cur c name depth (meta_of (f_data f)) with
        | Some ie => Ok (mk_walker (Some ie) (hd_error (items ++ w_pending w)) (tl (items ++ w_pending w)) (match items ++ w_pending w with [] => false | _ => true end),
                         ORootDirectory (e_cid ie) (e_path ie) (e_meta ie))
        | None => Panic end = r -> r = Ok (w', o) -> fresh_step w w').
    { intros r <- H'. destruct (enter _ _ _ _ _ _ _ _) as [ie|] eqn:Ee; [|discriminate]. injection H' as <- <-. exists ie, items. split; [|congruence].
      destruct (enter_kind _ _ _ _ _ _ _ _ _ Ee) as [E|E]; rewrite E; reflexivity. }
    destruct cur as [ie|]; [|eapply HE; [reflexivity|exact H]]. destruct name as [|x n]; [|eapply HE; [reflexivity|exact H]].
    clear HE. destruct (as_bucket ie c [] depth) as [ie'|] eqn:Ee; [|discriminate]. injection H as <- <-. exists ie', items. split; [|congruence].
    rewrite (as_bucket_kind _ _ _ _ _ Ee). reflexivity.
Qed.

(** One step: the first link goes, new ones may come in front of the others. *)
Lemma step_pending dbg w b w' o : tidy w -> w_continue w = true -> walk_next dbg w b = Ok (w', o) ->
  tidy w' /\ exists c new, pending_links w = c :: tl (pending_links w) /\
    (pending_links w' = new ++ tl (pending_links w) \/ (first_pending w' = None /\ w_continue w' = true)).
Proof.
  intros HT Hc H. rewrite (pending_is w HT). pose proof HT as [T1 T2]. rewrite Hc in T2.
  destruct (ongoing w) as [v|] eqn:Eo.
  - unfold ongoing in Eo. unfold walk_next in H. destruct (w_current w) as [[ec ek ep em ed]|] eqn:Ecur; [|discriminate].
    destruct ek as [| | | | |[v0|] sz|]; try discriminate. injection Eo as ->.
    destruct (visit_continue v b) as [[bs step]|e|] eqn:Ev; [|destruct e; discriminate|discriminate].
    injection H as <- <-.
    assert (TW : tidy (mk_walker (Some (mk_inner ec (KFile step sz) ep em ed)) (w_next w) (w_pending w)
              (match step with Some _ => true | None => false end || match w_next w with Some _ => true | None => false end))).
    { split; [exact T1|]. unfold ongoing. cbn [w_current w_next w_continue]. destruct step; reflexivity. }
    split; [exact TW|]. rewrite (pending_is _ TW). unfold ongoing, waiting. cbn [w_current w_next w_pending].
    destruct step as [v'|].
    + destruct (visit_rest _ _ _ _ Ev) as (x & p & E1 & E2). rewrite E1. cbn [map app]. exists (fst x), (map fst p).
      split; [reflexivity|]. destruct (v_pending v') as [|y l] eqn:E3.
      * right. unfold first_pending, next_link. cbn [w_current w_continue]. rewrite E3. split; reflexivity.
      * left. rewrite E2, map_app, <- app_assoc. reflexivity.
    + destruct (visit_last _ _ _ Ev) as (x & E1). rewrite E1. exists (fst x), []. split; [reflexivity|]. left. reflexivity.
  - destruct (fresh_ok dbg w b w' o Eo H) as (ie & items & -> & Hn).
    set (todo := items ++ w_pending w).
    assert (Ho : forall g, ongoing (mk_walker (Some ie) (hd_error todo) (tl todo) g) = kind_step (e_kind ie)).
    { intros g. unfold ongoing. cbn [w_current]. destruct ie as [ec ek ep em ed]. destruct ek; try reflexivity. destruct v; reflexivity. }
    match goal with |- tidy ?w' /\ _ => assert (TW : tidy w') end.
    { split; [cbn [w_next w_pending]; destruct todo; [reflexivity|discriminate]|]. rewrite Ho. cbn [w_continue w_next]. destruct todo; reflexivity. }
    split; [exact TW|]. rewrite (pending_is _ TW), Ho. unfold waiting. cbn [w_next w_pending].
    destruct (w_next w) as [[[c n] d]|] eqn:En; [|congruence]. cbn [item_cids map fst tl].
    assert (Hw : match hd_error todo with Some i => i :: tl todo | None => [] end = todo) by (destruct todo; reflexivity).
    rewrite Hw. exists c.
    destruct (kind_step (e_kind ie)) as [v|] eqn:Ek.
    + destruct (v_pending v) as [|x l] eqn:Ev.
      * exists []. split; [reflexivity|]. right. split; [|reflexivity].
        unfold first_pending. cbn [w_current]. destruct ie as [ec ek ep em ed]. cbn [e_kind kind_step] in Ek. destruct ek; try discriminate. cbn [kind_step] in Ek. subst v0.
        unfold next_link. rewrite Ev. reflexivity.
      * exists (map fst (x :: l) ++ item_cids items). split; [reflexivity|]. left. unfold todo, item_cids. rewrite map_app, <- app_assoc. reflexivity.
    + exists (item_cids items). split; [reflexivity|]. left. unfold todo, item_cids. rewrite map_app. reflexivity.
Qed.

Lemma loads_pending dbg get w cs : tidy w -> loads dbg get w cs -> in_order (pending_links w) cs.
Proof.
  intros HT H. induction H as [w Hc|w c b w' o cs Hc Hf Hg Hn Hl IH].
  - pose proof HT as [T1 T2]. rewrite (pending_is w HT). rewrite Hc in T2. unfold waiting. destruct (ongoing w); [discriminate|].
    destruct (w_next w); [discriminate|]. constructor.
  - destruct (step_pending dbg w b w' o HT Hc Hn) as (HT' & c' & new & E & [E'|[E' Ec]]).
    + specialize (IH HT'). rewrite E' in IH. apply in_order_app in IH.
      assert (c' = c).
      { unfold pending_links in E. rewrite Hf in E. cbn [tl] in E. congruence. }
      subst c'. rewrite E. apply in_order_take. exact IH.
    + inversion Hl; subst; congruence.
Qed.
Lemma tidy_new c name : tidy (walker_new c name).
Proof. split; [reflexivity|]. reflexivity. Qed.
Lemma comes_tidy dbg get c name w : comes_up dbg get (walker_new c name) w -> tidy w.
Proof.
  induction 1 as [|w x b w' o Hw IH Hc Hf Hg Hn]; [apply tidy_new|].
  destruct (step_pending dbg w b w' o IH Hc Hn) as [H _]. exact H.
Qed.
Lemma walk_loads dbg get k : forall w os, walk dbg k get w = (os, Done) -> exists cs, loads dbg get w cs /\ length cs = length os.
Proof.
  induction k as [|k IH]; intros w os; cbn [walk]; destruct (w_continue w) eqn:Ec; intros H.
  - discriminate.
  - injection H as <-. exists []. split; [constructor; exact Ec|reflexivity].
  - destruct (first_pending w) as [c|] eqn:Ef; [|discriminate]. destruct (get c) as [b|] eqn:Eg; [|discriminate].
    destruct (walk_next dbg w b) as [[w' o]|e|] eqn:En; try discriminate.
    destruct (walk dbg k get w') as [os' e] eqn:Ew. injection H as <- ->. destruct (IH _ _ Ew) as (cs & H1 & H2).
    exists (c :: cs). split; [econstructor; eassumption|cbn; lia].
  - injection H as <-. exists []. split; [constructor; exact Ec|reflexivity].
Qed.

(** * Errors about a link name the link *)
Lemma convert_all_err conv links : (forall i l e, conv i l = Err e -> e = WInvalidCid i /\ link_cid l = None) ->
  forall i e, convert_all conv i links = Err e ->
  exists n l, e = WInvalidCid (i + n) /\ nth_error links n = Some l /\ link_cid l = None.
Proof.
  intros HC. induction links as [|l links IH]; intros i e; cbn [convert_all]; [discriminate|].
  destruct (convert_all conv (S i) links) as [items|e'|] eqn:E; try discriminate.
  - destruct (conv i l) as [x|e'|] eqn:Ec; try discriminate. intros [= ->]. destruct (HC _ _ _ Ec) as [-> Hl].
    exists 0%nat, l. rewrite Nat.add_0_r. auto.
  - intros [= ->]. destruct (IH _ _ E) as (n & l' & -> & H1 & H2). exists (S n), l'. rewrite Nat.add_succ_r. auto.
Qed.
Lemma convert_link_err d i l e : convert_link d i l = Err e -> e = WInvalidCid i /\ link_cid l = None.
Proof.
  unfold convert_link. destruct (link_cid l); [|intros [= <-]; auto]. destruct (link_name l); [discriminate|]. destruct (has_slash _); discriminate.
Qed.
Lemma convert_shard_err d s i l e : convert_sharded_link d s i l = Err e -> e = WInvalidCid i /\ link_cid l = None.
Proof.
  unfold convert_sharded_link. destruct (link_cid l); [|intros [= <-]; auto]. destruct (link_name l) as [|a [|x [|y n]]]; try discriminate.
  destruct (cont y); [discriminate|]. destruct (has_slash _); discriminate.
Qed.
Lemma to_pending_err links : forall i base sizes t n, to_pending i base links sizes t = Err (InvalidCidInLink n) ->
  exists k l, n = (i + k)%nat /\ nth_error links k = Some l /\ link_cid l = None.
Proof.
  induction links as [|l links IH]; intros i base sizes t n; cbn [to_pending]; [discriminate|].
  destruct sizes as [|sz sizes]; [discriminate|]. destruct (add64 base sz) as [e|]; [|discriminate].
  assert (HR : to_pending (S i) e links sizes t = Err (InvalidCidInLink n) -> exists k l0, n = (i + k)%nat /\ nth_error (l :: links) k = Some l0 /\ link_cid l0 = None).
  { intros H. destruct (IH _ _ _ _ _ H) as (k & l' & -> & H1 & H2). exists (S k), l'. rewrite Nat.add_succ_r. auto. }
  destruct (in_target _ _); [|exact HR]. unfold link_cid in *. destruct (cid_from_bytes _) as [c|] eqn:Ec.
  - destruct (to_pending _ _ _ _ _) as [p|x|] eqn:E; try discriminate. intros [= ->]. apply HR. reflexivity.
  - intros [= <-]. exists 0%nat, l. rewrite Nat.add_0_r. auto.
Qed.
Lemma from_parts_no_cid f off md n : from_parts f off md <> Err (InvalidCidInLink n).
Proof.
  unfold from_parts. intros H.
  repeat match type of H with
         | context [match ?x with _ => _ end] =>
             lazymatch x with
             | context [match _ with _ => _ end] => fail
             | _ => destruct x; try discriminate H
             end
         end.
Qed.
Lemma from_parts_links f off md r : from_parts f off md = Ok r -> fr_links r = f_links f.
Proof.
  unfold from_parts. intros H.
  repeat match type of H with
         | context [match ?x with _ => _ end] =>
             lazymatch x with
             | context [match _ with _ => _ end] => fail
             | f_links f => destruct (f_links f) eqn:?; try discriminate H
             | _ => destruct x; try discriminate H
             end
         end; injection H as <-; cbn; congruence.
Qed.
Lemma maybe_slice_no_cid c b t n : maybe_slice c b t <> Err (InvalidCidInLink n).
Proof.
  unfold maybe_slice, target_slice. destruct t; [|discriminate]. destruct (negb _); [discriminate|].
  destruct (if r_start r <? r_start b then _ else _) as [[x y]|]; [|discriminate]. destruct (slice _ _ _); discriminate.
Qed.
Lemma start_invalid_cid t b n : visit_start t b = Err (InvalidCidInLink n) ->
  exists f l, flat_parse b = inl f /\ nth_error (f_links f) n = Some l /\ link_cid l = None.
Proof.
  unfold visit_start, from_block. destruct (flat_parse b) as [f|]; [|discriminate].
  destruct (from_parts f 0 (meta_of (f_data f))) as [r|e|] eqn:E; [| |discriminate].
  - pose proof (from_parts_links _ _ _ _ E) as EL. destruct (fr_links r) as [|l ls] eqn:El.
    + destruct (maybe_slice _ _ _) eqn:Em; try discriminate. intros [= ->]. exfalso. eapply maybe_slice_no_cid. exact Em.
    + destruct (to_pending _ _ _ _ _) as [p|e|] eqn:Ep; [destruct p; discriminate| |discriminate]. intros [= ->].
      destruct (to_pending_err _ _ _ _ _ _ Ep) as (k & l' & -> & H1 & H2). exists f, l'. rewrite <- EL. auto.
  - intros [= ->]. exfalso. eapply from_parts_no_cid. exact E.
Qed.
Lemma continue_invalid_cid v b n : visit_continue v b = Err (InvalidCidInLink n) ->
  exists f l, flat_parse b = inl f /\ nth_error (f_links f) n = Some l /\ link_cid l = None.
Proof.
  unfold visit_continue, trav_continue. destruct (v_pending v) as [|[c rg] rest]; [discriminate|].
  destruct (check_next _ _ _) as [e|] eqn:Ec.
  { intros [= ->]. unfold check_next in Ec. destruct (tr_ending _); repeat match type of Ec with context [if ?x then _ else _] => destruct x; try discriminate Ec end. }
  destruct (flat_parse b) as [f|]; [|discriminate].
  destruct (u_mode (f_data f)); [discriminate|]. destruct (u_mtime (f_data f)); [discriminate|].
  destruct (from_parts f (r_start rg) (tr_meta (v_state v))) as [r|e|] eqn:E; [| |discriminate].
  - pose proof (from_parts_links _ _ _ _ E) as EL. destruct (fr_links r) as [|l ls] eqn:El.
    + destruct (maybe_slice _ _ _) eqn:Em; [destruct rest; discriminate| |discriminate]. intros [= ->]. exfalso. eapply maybe_slice_no_cid. exact Em.
    + destruct (to_pending _ _ _ _ _) as [p|e|] eqn:Ep; [discriminate| |discriminate]. intros [= ->].
      destruct (to_pending_err _ _ _ _ _ _ Ep) as (k & l' & -> & H1 & H2). exists f, l'. rewrite <- EL. auto.
  - intros [= ->]. exfalso. eapply from_parts_no_cid. exact E.
Qed.
Lemma file_err_cid {A} e n : @file_err A e = Err (WInvalidCid n) -> e = InvalidCidInLink n.
Proof. destruct e; try discriminate. intros [= ->]. reflexivity. Qed.
Lemma next_invalid_cid dbg w b n : walk_next dbg w b = Err (WInvalidCid n) ->
  exists f l, flat_parse b = inl f /\ nth_error (f_links f) n = Some l /\ link_cid l = None.
Proof.
  intros H. unfold walk_next in H.
  assert (HD : forall d f e, convert_all (convert_link d) 0 (f_links f) = Err e -> e = WInvalidCid n -> exists l, nth_error (f_links f) n = Some l /\ link_cid l = None).
  { intros d f e E ->. destruct (convert_all_err _ _ (convert_link_err d) _ _ E) as (k & l & [= ->] & H1 & H2). eauto. }
  assert (HS : forall d s f e, convert_all (convert_sharded_link d s) 0 (f_links f) = Err e -> e = WInvalidCid n -> exists l, nth_error (f_links f) n = Some l /\ link_cid l = None).
  { intros d s f e E ->. destruct (convert_all_err _ _ (convert_shard_err d s) _ _ E) as (k & l & [= ->] & H1 & H2). eauto. }
  assert (HF : forall e, visit_start None b = Err e -> @file_err (walker * walked) e = Err (WInvalidCid n) ->
     exists f l, flat_parse b = inl f /\ nth_error (f_links f) n = Some l /\ link_cid l = None).
  { intros e E X. apply file_err_cid in X. subst e. eapply start_invalid_cid. exact E. }
  assert (HC : forall v e, visit_continue v b = Err e -> @file_err (walker * walked) e = Err (WInvalidCid n) ->
     exists f l, flat_parse b = inl f /\ nth_error (f_links f) n = Some l /\ link_cid l = None).
  { intros v e E X. apply file_err_cid in X. subst e. eapply continue_invalid_cid. exact E. }
  assert (HN : forall r, match flat_parse b with inl f => r f | inr e => Err (parse_err e) end = @Err (walker * walked) _ (WInvalidCid n) ->
     exists f, flat_parse b = inl f /\ r f = Err (WInvalidCid n)).
  { intros r X. destruct (flat_parse b) as [f|e]; [eauto|]. destruct e; discriminate. }
  destruct (w_current w) as [[c [ | | | | |[v|] sz| ] path m depth]|].
  all: try (destruct (visit_continue v b) as [[bs st]|e|] eqn:E; try discriminate H; first [eapply HC; [exact E|exact H]|eapply HC; [reflexivity|exact H]]).
  all: apply HN in H; destruct H as (f & Ef & H); cbv zeta in H; destruct (u_type (f_data f)); try discriminate H.
  all: try (destruct (visit_start None b) as [[[[bs size] fm] st]|e|] eqn:E; try discriminate H;
            [exfalso; clear HF|eapply HF; [reflexivity|exact H]]).
  all: try (destruct (check_directory_supported (f_data f)); [|discriminate H]).
  all: try (destruct (check_supported (f_data f)); [|discriminate H]).
  all: destruct (w_next w) as [[[c0 name] dp]|]; try discriminate H.
  all: try (destruct (convert_all _ _ _) as [items|e|] eqn:E; [exfalso| |discriminate H]).
  all: try (match goal with E : convert_all (convert_link _) _ _ = Err _ |- _ => destruct (HD _ _ _ E) as (l & H1 & H2); [congruence|eauto] end).
  all: try (match goal with E : convert_all (convert_sharded_link _ _) _ _ = Err _ |- _ => destruct (HS _ _ _ _ E) as (l & H1 & H2); [congruence|eauto] end).
  all: try destruct name; cbv beta iota in H.
  all: try (match type of H with context [enter ?a ?b ?c ?d ?e ?f ?g] => destruct (enter a b c d e f g) end; discriminate H).
  all: try (match type of H with context [as_bucket ?a ?b ?c ?d] => destruct (as_bucket a b c d) end; discriminate H).
Qed.
