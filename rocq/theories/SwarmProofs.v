(** Lemmas about [Swarm]. *)
From Coq Require Import Permutation.
From Verif Require Import Base Wire Cid FMap Addr AddrProofs BlockSpec SubsSpec Subs SubsProofs Swarm SwarmSpec.
Local Open Scope N_scope.

(** * Lists *)
Section Vec.
  Context {T : Type}.
  Variable eqb : T -> T -> bool.
  Hypothesis eqb_spec : forall a b, reflect (a = b) (eqb a b).
  Lemma position_none x l : position eqb x l = None <-> ~ In x l.
  Proof.
    induction l as [|y l IH]; cbn [position In]; [tauto|]. destruct (eqb_spec y x) as [->|Hn]; [split; [discriminate|intros H; exfalso; auto]|].
    destruct (position eqb x l); cbn [option_map]; [|tauto]. split; [discriminate|]. intros H. exfalso. assert (X : ~ In x l) by tauto. apply IH in X. discriminate.
  Qed.
  Lemma position_split x l : forall i, position eqb x l = Some i -> exists a b, l = a ++ x :: b /\ length a = i.
  Proof.
    induction l as [|y l IH]; intros i H; cbn [position] in H; [discriminate|]. destruct (eqb_spec y x) as [->|Hn]; [injection H as <-; exists [], l; auto|].
    destruct (position eqb x l) as [j|]; [|discriminate]. injection H as <-. destruct (IH j eq_refl) as (a & b & -> & E). exists (y :: a), b. cbn. auto.
  Qed.
  Lemma swap_remove_at (a b : list T) x : Permutation (swap_remove (length a) (a ++ x :: b)) (a ++ b).
  Proof.
    unfold swap_remove. rewrite skipn_app, skipn_all, Nat.sub_diag. cbn [app skipn].
    rewrite firstn_app, firstn_all, Nat.sub_diag. cbn [firstn]. rewrite app_nil_r. destruct b as [|y b]; [rewrite app_nil_r; apply Permutation_refl|].
    apply Permutation_app_head. destruct (exists_last (l := y :: b)) as (c & z & E); [discriminate|].
    assert (El : last b y = z). { assert (X : last (y :: b) y = z) by (rewrite E; apply last_last). destruct b; [exact X|exact X]. }
    rewrite El, E, removelast_last. apply Permutation_cons_append.
  Qed.
  Lemma swap_remove_perm x l i : position eqb x l = Some i -> Permutation l (x :: swap_remove i l).
  Proof.
    intros H. destruct (position_split _ _ _ H) as (a & b & -> & <-). rewrite swap_remove_at. symmetry. apply Permutation_middle.
  Qed.
End Vec.

Lemma peqb_spec a b : reflect (a = b) (peqb a b).
Proof. apply mh_eqb_spec. Qed.
Lemma peqb_refl p : peqb p p = true.
Proof. destruct (peqb_spec p p); congruence. Qed.
Lemma wp_eqb_refl w : wp_eqb w w = true.
Proof. destruct (wp_eqb_spec w w); congruence. Qed.

Lemma at_mset {T} p q (l : list T) m : at_peer p (mset peqb q l m) = if peqb p q then l else at_peer p m.
Proof. unfold at_peer. rewrite (mget_mset _ peqb_spec). destruct (peqb p q); reflexivity. Qed.
Lemma at_mdel {T} p q (m : list (peer * list T)) : at_peer p (mdel peqb q m) = if peqb p q then [] else at_peer p m.
Proof. unfold at_peer. rewrite (mget_mdel _ peqb_spec). destruct (peqb p q); reflexivity. Qed.
(** Writing back a list, or removing an empty one. *)
Lemma at_put {T} p q (l : list T) m :
  at_peer p (put_back q l m) = if peqb p q then l else at_peer p m.
Proof. destruct l; [apply at_mdel|apply at_mset]. Qed.
Lemma at_get {T} p (m : list (peer * list T)) l : mget peqb p m = Some l -> at_peer p m = l.
Proof. unfold at_peer. intros ->. reflexivity. Qed.

Section Proofs.
  Variable debug : bool.
  Notation step := (step debug).
  Notation run := (run debug).
  Notation rrun := (Subs.run wp_eqb debug).
  Notation life := (SubsSpec.life_of wp_eqb).
  Notation act := (act with_peer outcome).

  (** * The registry *)
  Definition fin_acts (l : list (with_peer * outcome)) : list act := rev (map (fun x => Finish (fst x) (snd x)) l).
  Lemma finish_run w r L g : finish debug w r (rrun L) = Some g -> g = rrun (Finish w r :: L).
  Proof.
    unfold finish. cbn [Subs.run]. destruct (Subs.step wp_eqb debug (rrun L) (Finish w r)) as [g' e]. cbn [fst].
    destruct (ans e); intros H; try discriminate; injection H as <-; reflexivity.
  Qed.
  Lemma finish_all_run l : forall L g, finish_all debug l (rrun L) = Some g -> g = rrun (fin_acts l ++ L).
  Proof.
    induction l as [|[w r] l IH]; intros L g H; cbn [finish_all] in H.
    - injection H as <-. reflexivity.
    - destruct (finish debug w r (rrun L)) as [g1|] eqn:E; [|discriminate]. apply finish_run in E. subst g1. apply IH in H.
      unfold fin_acts in *. cbn [map rev fst snd]. rewrite <- app_assoc. exact H.
  Qed.
  (** The first finish of a target. *)
  Fixpoint first_fin (w : with_peer) (l : list (with_peer * outcome)) : option outcome :=
    match l with [] => None | (v, r) :: l => if wp_eqb v w then Some r else first_fin w l end.
  Lemma first_fin_in w l r : first_fin w l = Some r -> In (w, r) l.
  Proof.
    induction l as [|[v x] l IH]; cbn [first_fin]; [discriminate|]. destruct (wp_eqb_spec v w) as [->|]; [intros [= ->]; left; reflexivity|].
    intros H. right. auto.
  Qed.
  Lemma first_fin_none w l : first_fin w l = None <-> forall r, ~ In (w, r) l.
  Proof.
    induction l as [|[v x] l IH]; cbn [first_fin]; [split; auto|]. destruct (wp_eqb_spec v w) as [->|Hn].
    - split; [discriminate|]. intros H. exfalso. apply (H x). left. reflexivity.
    - rewrite IH. split; intros H r; [intros [[= -> ->]|Hin]; [contradiction|apply (H r Hin)]|intros Hin; apply (H r); right; exact Hin].
  Qed.
  Lemma life_fins l : forall L i, life (fin_acts l ++ L) i =
    match life L i with
    | Waiting w n k => match first_fin w l with Some r => Decided w r | None => Waiting w n k end
    | x => x
    end.
  Proof.
    induction l as [|[v r] l IH]; intros L i.
    - cbn. destruct (life L i); reflexivity.
    - unfold fin_acts in *. cbn [map rev fst snd first_fin]. rewrite <- app_assoc. cbn [app]. rewrite IH. cbn [SubsSpec.life_of].
      destruct (life L i) as [| |w n k| | | | | |]; try reflexivity. destruct (wp_eqb v w); reflexivity.
  Qed.
  Lemma flagged_fins l L : flagged (fin_acts l ++ L) = flagged L.
  Proof. unfold flagged. rewrite existsb_app. replace (existsb _ (fin_acts l)) with false; [reflexivity|]. symmetry. unfold fin_acts.
    apply not_true_iff_false. rewrite existsb_exists. intros (x & Hx & E). apply in_rev, in_map_iff in Hx as ([w r] & <- & _). discriminate. Qed.
  Lemma begins_fins l L : begins (fin_acts l ++ L) = begins L.
  Proof.
    unfold fin_acts. induction l as [|[w r] l IH] using rev_ind; [reflexivity|]. rewrite map_app, rev_app_distr. cbn [map rev app begins fst snd]. exact IH.
  Qed.

  (** * What a call finishes *)
  Definition established_fins (c : core) (p : peer) (e : endpoint) : list (with_peer * outcome) * list (peer * list with_peer) :=
    let d := match e, mget peqb p (c_out c) with
             | Dialer d, Some l =>
                 match split_peer debug d with
                 | AOk w => match position wp_eqb w l with
                            | Some n => Some (w, put_back p (swap_remove n l) (c_out c))
                            | None => None
                            end
                 | _ => None
                 end
             | _, _ => None
             end in
    let o := match d with Some (_, o) => o | None => c_out c end in
    (match d with Some (w, _) => [(w, COk)] | None => [] end ++ map (fun w => (w, CAnother)) (at_peer p (c_wait c) ++ at_peer p o), mdel peqb p o).
  Lemma established_shape s p e s' : established debug s p e = Some s' ->
    exists a, point_addr debug e = Some a /\
    let c := core_of s in let fo := established_fins c p e in
    finish_all debug (fst fo) (reg s) = Some (reg s') /\
    core_of s' = mk_core (c_dials c) (set_add p (c_peers c)) (mset addr_eqb a p (c_conns c)) (c_rtt c)
                   (mset peqb p (at_peer p (c_open c) ++ [a]) (c_open c)) (c_times c) (mdel peqb p (c_wait c)) (snd fo).
  Proof.
    unfold established. destruct (point_addr debug e) as [a|] eqn:Ea; [|discriminate]. intros H. exists a. split; [reflexivity|]. cbn zeta in *.
    unfold established_fins. destruct e as [d|d].
    - destruct (mget peqb p (c_out (core_of s))) as [l|] eqn:El.
      + destruct (split_peer debug d) as [w| |] eqn:Es; try discriminate. destruct (position wp_eqb w l) as [n|] eqn:Ep.
        * match type of H with match finish_all _ ?l _ with _ => _ end = _ => destruct (finish_all debug l (reg s)) as [g|] eqn:Eg end; [|discriminate].
          injection H as <-. cbn [fst snd reg core_of]. split; [first [exact Eg|reflexivity]|reflexivity].
        * match type of H with match finish_all _ ?l _ with _ => _ end = _ => destruct (finish_all debug l (reg s)) as [g|] eqn:Eg end; [|discriminate].
          injection H as <-. cbn [fst snd reg core_of]. split; [first [exact Eg|reflexivity]|reflexivity].
      + match type of H with match finish_all _ ?l _ with _ => _ end = _ => destruct (finish_all debug l (reg s)) as [g|] eqn:Eg end; [|discriminate].
        injection H as <-. cbn [fst snd reg core_of]. split; [first [exact Eg|reflexivity]|reflexivity].
    - match type of H with match finish_all _ ?l _ with _ => _ end = _ => destruct (finish_all debug l (reg s)) as [g|] eqn:Eg end; [|discriminate].
      injection H as <-. cbn [fst snd reg core_of]. split; [first [exact Eg|reflexivity]|reflexivity].
  Qed.

  Definition closed_fins (c : core) (p : peer) (e : endpoint) (a : multiaddr) : list (with_peer * outcome) * list (peer * list with_peer) :=
    match e, mget peqb p (c_out c) with
    | Dialer _, Some l =>
        match position wp_eqb (mk_wp a p) l with
        | Some n => ([(mk_wp a p, CReset)], put_back p (swap_remove n l) (c_out c))
        | None => ([], put_back p l (c_out c))
        end
    | _, _ => ([], c_out c)
    end.
  Lemma closed_shape s p e s' : closed debug s p e = Some s' ->
    exists a, point_addr debug e = Some a /\ (debug = true -> mget addr_eqb a (c_conns (core_of s)) <> None) /\
    let c := core_of s in let fo := closed_fins c p e a in
    finish_all debug (fst fo) (reg s) = Some (reg s') /\
    core_of s' = mk_core (c_dials c) (c_peers c) (mdel addr_eqb a (c_conns c)) (c_rtt c)
                   (match mget peqb p (c_open c) with
                    | Some l => put_back p (match position addr_eqb a l with Some n => swap_remove n l | None => l end) (c_open c)
                    | None => c_open c
                    end) (mdel peqb p (c_times c)) (c_wait c) (snd fo).
  Proof.
    unfold closed. destruct (point_addr debug e) as [a|] eqn:Ea; [|discriminate]. intros H. exists a. split; [reflexivity|]. cbn zeta in *.
    match type of H with (if ?b then _ else _) = _ => destruct b eqn:Eb end; [discriminate|]. split.
    { intros ->. cbn [andb] in Eb. destruct (mget addr_eqb a (c_conns (core_of s))); [discriminate|discriminate Eb]. }
    unfold closed_fins. destruct e as [d|d].
    - destruct (mget peqb p (c_out (core_of s))) as [l|] eqn:El.
      + destruct (position wp_eqb (mk_wp a p) l) as [n|] eqn:Ep; cbn [fst snd];
          match type of H with match finish_all _ ?l _ with _ => _ end = _ => destruct (finish_all debug l (reg s)) as [g|] eqn:Eg end; try discriminate;
          injection H as <-; cbn [reg core_of]; (split; [first [exact Eg|reflexivity]|reflexivity]).
      + cbn [fst snd]. match type of H with match finish_all _ ?l _ with _ => _ end = _ => destruct (finish_all debug l (reg s)) as [g|] eqn:Eg end; try discriminate.
        injection H as <-; cbn [reg core_of]; (split; [first [exact Eg|reflexivity]|reflexivity]).
    - cbn [fst snd]. match type of H with match finish_all _ ?l _ with _ => _ end = _ => destruct (finish_all debug l (reg s)) as [g|] eqn:Eg end; try discriminate.
      injection H as <-; cbn [reg core_of]; (split; [first [exact Eg|reflexivity]|reflexivity]).
  Qed.

  (** The failed addresses: what is finished, and what remains of a list. *)
  Fixpoint transport_fins (l : list (multiaddr * N)) : list (with_peer * outcome) :=
    match l with
    | [] => []
    | (d, e) :: l => match split_peer debug d with AOk w => [(w, CFailed e)] | _ => [] end ++ transport_fins l
    end.
  Fixpoint without_all (l : list (with_peer * outcome)) (out : list with_peer) : list with_peer :=
    match l with
    | [] => out
    | (w, _) :: l => without_all l (match position wp_eqb w out with Some n => swap_remove n out | None => out end)
    end.
  Lemma failed_shape l : forall out g out' g', failed_addrs debug l out g = Some (out', g') ->
    finish_all debug (transport_fins l) g = Some g' /\ out' = without_all (transport_fins l) out /\
    forall d e, In (d, e) l -> exists w, split_peer debug d = AOk w.
  Proof.
    induction l as [|[d e] l IH]; intros out g out' g' H; cbn [failed_addrs transport_fins] in *.
    - injection H as <- <-. split; [reflexivity|]. split; [reflexivity|]. intros d e [].
    - destruct (split_peer debug d) as [w| |] eqn:Es; try discriminate. destruct (finish debug w (CFailed e) g) as [g1|] eqn:Eg; [|discriminate].
      destruct (IH _ _ _ _ H) as (H1 & H2 & H3). cbn [app finish_all without_all]. rewrite Eg. split; [exact H1|]. split; [exact H2|].
      intros d' e' [[= -> ->]|Hin]; eauto.
  Qed.
  Lemma transport_fins_in l w r : In (w, r) (transport_fins l) <-> exists d e, In (d, e) l /\ split_peer debug d = AOk w /\ r = CFailed e.
  Proof.
    induction l as [|[d e] l IH]; cbn [transport_fins].
    - split; [intros []|]. intros (d & e & [] & _).
    - rewrite in_app_iff, IH. split.
      + intros [H|(d' & e' & H1 & H2)].
        * exists d, e. destruct (split_peer debug d) as [v| |]; try contradiction. destruct H as [[= -> ->]|[]]. split; [left; reflexivity|auto].
        * exists d', e'. split; [right; exact H1|exact H2].
      + intros (d' & e' & [[= -> ->]|H1] & H2 & ->).
        * left. rewrite H2. left. reflexivity.
        * right. eauto.
  Qed.
  Lemma without_all_keeps l : forall out w, In w out -> (forall r, ~ In (w, r) l) -> In w (without_all l out).
  Proof.
    induction l as [|[v r] l IH]; intros out w H N; cbn [without_all]; [exact H|]. apply IH.
    - destruct (position wp_eqb v out) as [n|] eqn:E; [|exact H]. pose proof (swap_remove_perm wp_eqb wp_eqb_spec _ _ _ E) as P.
      apply (Permutation_in _ P) in H. destruct H as [->|H]; [|exact H]. exfalso. apply (N r). left. reflexivity.
    - intros r' Hin. apply (N r'). right. exact Hin.
  Qed.
  Lemma without_all_incl l : forall out w, In w (without_all l out) -> In w out.
  Proof.
    induction l as [|[v r] l IH]; intros out w H; cbn [without_all] in H; [exact H|]. apply IH in H.
    destruct (position wp_eqb v out) as [n|] eqn:E; [|exact H]. pose proof (swap_remove_perm wp_eqb wp_eqb_spec _ _ _ E) as P.
    apply (Permutation_in _ (Permutation_sym P)). right. exact H.
  Qed.

  Definition failed_fins (c : core) (p : option peer) (e : dial_error) : list (with_peer * outcome) * list (peer * list with_peer) :=
    match p with
    | None => ([], c_out c)
    | Some p =>
        match mget peqb p (c_out c) with
        | None => ([], c_out c)
        | Some l =>
            match e with
            | Transport addrs => (transport_fins addrs, put_back p (without_all (transport_fins addrs) l) (c_out c))
            | WrongPeer n => (map (fun w => (w, CFailed n)) l, mdel peqb p (c_out c))
            | OtherError => ([], put_back p l (c_out c))
            end
        end
    end.
  Definition with_out (c : core) o : core := mk_core (c_dials c) (c_peers c) (c_conns c) (c_rtt c) (c_open c) (c_times c) (c_wait c) o.
  Lemma dial_failed_shape s p e s' : dial_failed debug s p e = Some s' ->
    let fo := failed_fins (core_of s) p e in
    finish_all debug (fst fo) (reg s) = Some (reg s') /\ core_of s' = with_out (core_of s) (snd fo).
  Proof.
    assert (X : with_out (core_of s) (c_out (core_of s)) = core_of s) by (unfold with_out; destruct (core_of s); reflexivity).
    unfold dial_failed, failed_fins. destruct p as [p|]; [|intros [= <-]; cbn zeta; cbn [fst snd]; rewrite X; split; reflexivity].
    destruct (mget peqb p (c_out (core_of s))) as [l|]; [|intros [= <-]; cbn zeta; cbn [fst snd]; rewrite X; split; reflexivity].
    destruct e as [addrs|n|]; cbn zeta.
    - destruct (failed_addrs debug addrs l (reg s)) as [[l' g]|] eqn:E; [|discriminate]. destruct (failed_shape _ _ _ _ _ E) as (H1 & -> & _).
      intros [= <-]. cbn [fst snd reg core_of]. split; [exact H1|reflexivity].
    - destruct (finish_all debug (map (fun w => (w, CFailed n)) l) (reg s)) as [g|] eqn:E; cbn [option_map]; [|discriminate].
      intros [= <-]. cbn [fst snd reg core_of]. split; [exact E|reflexivity].
    - intros [= <-]. cbn [fst snd reg core_of]. split; [reflexivity|reflexivity].
  Qed.

  (** * The log of the registry *)
  Definition fins (c : core) (o : op) : list (with_peer * outcome) :=
    match o with
    | Established p e => fst (established_fins c p e)
    | Closed p e => match point_addr debug e with Some a => fst (closed_fins c p e a) | None => [] end
    | DialFailed p e => fst (failed_fins c p e)
    | _ => []
    end.
  Definition new_acts (c : core) (o : op) (a : reply) : list act :=
    match o, a with
    | Connect w _, AFuture i => [Insert i; Begin w false]
    | FutPoll i k, _ => [Poll i k]
    | FutDrop i, _ => [DropNotify i; DropFut i]
    | _, _ => fin_acts (fins c o)
    end.
  Lemma rrun_cons (a : act) (L : list act) : rrun (a :: L) = fst (Subs.step wp_eqb debug (rrun L) a).
  Proof. reflexivity. Qed.
  Lemma step_log s o s' a (L : list act) : step s o = Some (s', a) -> reg s = rrun L -> flagged L = false ->
    reg s' = rrun (new_acts (core_of s) o a ++ L) /\ flagged (new_acts (core_of s) o a ++ L) = false /\
    match o with
    | Connect w _ => a = AAlready \/ a = AFuture (begins L)
    | FutPoll i _ => a = AFut (poll_answer (life L i))
    | _ => True
    end.
  Proof.
    intros H Hr Hf. unfold Swarm.step in H. destruct o as [w now|p| |p e|p e|p e|p|p|p d| |i k|i].
    - injection H as H. unfold connect in H. destruct (existsb _ _).
      + injection H as <- <-. split; [exact Hr|]. split; [exact Hf|]. left. reflexivity.
      + rewrite Hr in H. pose proof (eff_begin wp_eqb wp_eqb_spec debug L w false) as Eb. unfold effect_of in Eb.
        pose proof (rrun_cons (Begin w false) L) as Er.
        destruct (Subs.step wp_eqb debug (rrun L) (Begin w false)) as [g e]. cbn [snd fst] in Eb, Er. subst e g. cbn [ans] in H.
        pose proof (rrun_cons (Insert (begins L)) (Begin w false :: L)) as Er2.
        destruct (Subs.step wp_eqb debug (rrun (Begin w false :: L)) (Insert (begins L))) as [g2 e2]. cbn [fst] in Er2. subst g2.
        injection H as <- <-. cbn [reg new_acts app]. split; [reflexivity|]. split; [exact Hf|]. right. reflexivity.
    - destruct (handout p (core_of s)). injection H as <- <-. split; [exact Hr|]. split; [exact Hf|exact I].
    - destruct (handout_all _ (core_of s)). injection H as <- <-. split; [exact Hr|]. split; [exact Hf|exact I].
    - destruct (established debug s p e) as [s1|] eqn:E; [|discriminate]. injection H as <- <-. destruct (established_shape _ _ _ _ E) as (a & _ & H1 & _).
      rewrite Hr in H1. apply finish_all_run in H1. cbn [new_acts fins]. rewrite flagged_fins. auto.
    - destruct (closed debug s p e) as [s1|] eqn:E; [|discriminate]. injection H as <- <-. destruct (closed_shape _ _ _ _ E) as (a & Ea & _ & H1 & _).
      rewrite Hr in H1. apply finish_all_run in H1. cbn [new_acts fins]. rewrite flagged_fins, Ea. auto.
    - destruct (dial_failed debug s p e) as [s1|] eqn:E; [|discriminate]. injection H as <- <-. destruct (dial_failed_shape _ _ _ _ E) as (H1 & _).
      rewrite Hr in H1. apply finish_all_run in H1. cbn [new_acts fins]. rewrite flagged_fins. auto.
    - injection H as <- <-. split; [exact Hr|]. split; [exact Hf|exact I].
    - injection H as <- <-. split; [exact Hr|]. split; [exact Hf|exact I].
    - injection H as <- <-. split; [exact Hr|]. split; [exact Hf|exact I].
    - destruct (c_dials (core_of s)); injection H as <- <-; (split; [exact Hr|]; split; [exact Hf|exact I]).
    - rewrite Hr in H. pose proof (eff_poll wp_eqb wp_eqb_spec debug L i k) as Eb. unfold effect_of in Eb.
      pose proof (rrun_cons (Poll i k) L) as Er. destruct (Subs.step wp_eqb debug (rrun L) (Poll i k)) as [g e]. cbn [snd fst] in Eb, Er. subst e g.
      injection H as <- <-. cbn [reg new_acts app ans quiet]. split; [reflexivity|]. split; [exact Hf|reflexivity].
    - rewrite Hr in H. pose proof (rrun_cons (DropFut i) L) as Er. destruct (Subs.step wp_eqb debug (rrun L) (DropFut i)) as [g e]. cbn [fst] in Er. subst g.
      pose proof (rrun_cons (DropNotify i) (DropFut i :: L)) as Er. destruct (Subs.step wp_eqb debug (rrun (DropFut i :: L)) (DropNotify i)) as [g e2]. cbn [fst] in Er. subst g.
      injection H as <- <-. cbn [reg new_acts app]. split; [reflexivity|]. split; [exact Hf|exact I].
  Qed.

  (** The life of a request after a call. *)
  Lemma life_new c (L : list act) o a i : flagged L = false -> (a = AFuture (begins L) \/ forall j, a <> AFuture j) ->
    life (new_acts c o a ++ L) i =
    match o, a with
    | Connect w _, AFuture j => if (j =? i)%nat then Waiting w false None else life L i
    | FutPoll j k, _ => if (j =? i)%nat then match life L i with Waiting w n _ => Waiting w n (Some k) | Decided w _ | Rejected w => Collected w | x => x end else life L i
    | FutDrop j, _ => if (j =? i)%nat then match life L i with
                                           | Waiting _ _ _ | Decided _ _ | Rejected _ | Lost _ | Collected _ | Dropping _ _ _ _ => Dropped
                                           | x => x end else life L i
    | _, _ => match life L i with
              | Waiting w n k => match first_fin w (fins c o) with Some r => Decided w r | None => Waiting w n k end
              | x => x
              end
    end.
  Proof.
    intros Hf Ha. assert (G : forall l, life (fin_acts l ++ L) i = match life L i with
              | Waiting w n k => match first_fin w l with Some r => Decided w r | None => Waiting w n k end
              | x => x end) by (intros; apply life_fins).
    destruct o as [w now|p| |p e|p e|p e|p|p|p d| |j k|j]; cbn [new_acts]; try apply G.
    - destruct a; try apply G. destruct Ha as [[= ->]|Ha]; [|exfalso; eapply Ha; reflexivity].
      cbn [app SubsSpec.life_of]. destruct (begins L =? i)%nat eqn:E; rewrite ?Hf; reflexivity.
    - cbn [app SubsSpec.life_of]. destruct (j =? i)%nat; [|reflexivity]. destruct (life L i); reflexivity.
    - cbn [app SubsSpec.life_of]. destruct (j =? i)%nat; [|reflexivity]. destruct (life L i); reflexivity.
  Qed.

  (** * Requests are in one of the two lists *)
  Notation waits_at w c := (In w (at_peer (wp_peer w) (c_wait c))).
  Notation out_at w c := (In w (at_peer (wp_peer w) (c_out c))).
  Definition owned (c : core) : Prop :=
    (forall p w, In w (at_peer p (c_wait c)) -> wp_peer w = p) /\ (forall p w, In w (at_peer p (c_out c)) -> wp_peer w = p).

  Lemma handout_at p c c' l : handout p c = (c', l) ->
    (forall q, at_peer q (c_wait c') = if peqb q p then [] else at_peer q (c_wait c)) /\
    (forall q, at_peer q (c_out c') = if peqb q p then at_peer p (c_out c) ++ at_peer p (c_wait c) else at_peer q (c_out c)) /\
    l = map join_peer (at_peer p (c_wait c)).
  Proof.
    unfold handout. intros [= <- <-]. cbn [c_wait c_out]. split; [intros q; apply at_mdel|]. split; [intros q; apply at_mset|reflexivity].
  Qed.
  Lemma handout_all_at ps : forall c c' l, handout_all ps c = (c', l) ->
    (forall q w, In w (at_peer q (c_wait c')) <-> In w (at_peer q (c_wait c)) /\ ~ In q ps) /\
    (forall q w, In w (at_peer q (c_out c')) <-> In w (at_peer q (c_out c)) \/ (In q ps /\ In w (at_peer q (c_wait c)))) /\
    map fst l = ps.
  Proof.
    induction ps as [|p ps IH]; intros c c' l H; cbn [handout_all] in H.
    - injection H as <- <-. split; [intros; cbn [In]; tauto|]. split; [intros; cbn [In]; tauto|reflexivity].
    - destruct (handout p c) as [c1 l1] eqn:E1. destruct (handout_all ps c1) as [c2 l2] eqn:E2. injection H as <- <-.
      destruct (handout_at _ _ _ _ E1) as (A1 & A2 & _). destruct (IH _ _ _ E2) as (B1 & B2 & B3). split; [|split].
      + intros q w. rewrite B1, A1. cbn [In]. destruct (peqb_spec q p) as [->|Hn]; cbn [In]; [tauto|]. split; [intros [X Y]; split; [exact X|intros [->|Z]; [congruence|auto]]|tauto].
      + intros q w. rewrite B2, A1, A2. cbn [In]. destruct (peqb_spec q p) as [->|Hn]; cbn [In]; [rewrite in_app_iff; tauto|].
        split; [tauto|]. intros [X|[[X|X] Y]]; [tauto|congruence|tauto].
      + cbn [map fst]. rewrite B3. reflexivity.
  Qed.

  Lemma established_keeps c p e w : owned c -> wp_peer w = p ->
    In w (at_peer p (c_wait c)) \/ In w (at_peer p (c_out c)) -> exists r, In (w, r) (fst (established_fins c p e)).
  Proof.
    intros _ Hw H. unfold established_fins. cbn [fst].
    assert (G : In w (at_peer p (c_wait c) ++ at_peer p (c_out c)) -> exists r, In (w, r) ([] ++ map (fun w => (w, CAnother)) (at_peer p (c_wait c) ++ at_peer p (c_out c)))).
    { intros Hin. exists CAnother. cbn [app]. apply in_map_iff. eauto. }
    rewrite <- in_app_iff in H. destruct e as [d|d]; [|apply G; exact H]. destruct (mget peqb p (c_out c)) as [l|] eqn:El; [|apply G; exact H].
    destruct (split_peer debug d) as [v| |]; try (apply G; exact H). destruct (position wp_eqb v l) as [n|] eqn:En; [|apply G; exact H].
    pose proof (swap_remove_perm wp_eqb wp_eqb_spec _ _ _ En) as P. rewrite (at_get _ _ _ El) in H. rewrite at_put, peqb_refl.
    rewrite in_app_iff in H. destruct H as [H|H].
    - exists CAnother. apply in_app_iff. right. apply in_map_iff. exists w. split; [reflexivity|]. apply in_app_iff. auto.
    - apply (Permutation_in _ P) in H. destruct H as [->|H].
      + exists COk. apply in_app_iff. left. left. reflexivity.
      + exists CAnother. apply in_app_iff. right. apply in_map_iff. exists w. split; [reflexivity|]. apply in_app_iff. auto.
  Qed.
  Lemma established_at c p e q : at_peer q (snd (established_fins c p e)) = if peqb q p then [] else at_peer q (c_out c).
  Proof.
    unfold established_fins. cbn [snd]. rewrite at_mdel. destruct (peqb q p) eqn:E; [reflexivity|].
    destruct e as [d|d]; [|reflexivity]. destruct (mget peqb p (c_out c)) as [l|]; [|reflexivity]. destruct (split_peer debug d); try reflexivity.
    destruct (position wp_eqb v l); [|reflexivity]. rewrite at_put, E. reflexivity.
  Qed.
  (** What established connections finish. *)
  Lemma established_fins_in c p e w r : owned c -> In (w, r) (fst (established_fins c p e)) ->
    wp_peer w = p /\ (r = CAnother \/ (r = COk /\ exists d, e = Dialer d /\ split_peer debug d = AOk w /\ In w (at_peer p (c_out c)))).
  Proof.
    intros [O1 O2]. unfold established_fins. cbn [fst].
    assert (G : forall o, (forall w, In w (at_peer p o) -> wp_peer w = p) ->
       In (w, r) (map (fun w => (w, CAnother)) (at_peer p (c_wait c) ++ at_peer p o)) -> wp_peer w = p /\ r = CAnother).
    { intros o Ho Hin. apply in_map_iff in Hin as (v & [= -> <-] & Hin). split; [|reflexivity]. apply in_app_iff in Hin as [Hin|Hin]; [apply O1|apply Ho]; exact Hin. }
    intros H. destruct e as [d|d]; [|apply (G (c_out c) (O2 p)) in H; tauto]. destruct (mget peqb p (c_out c)) as [l|] eqn:El; [|apply (G (c_out c) (O2 p)) in H; tauto].
    destruct (split_peer debug d) as [v| |] eqn:Es; try (apply (G (c_out c) (O2 p)) in H; tauto). destruct (position wp_eqb v l) as [n|] eqn:En; [|apply (G (c_out c) (O2 p)) in H; tauto].
    pose proof (swap_remove_perm wp_eqb wp_eqb_spec _ _ _ En) as P. assert (Hv : In v l) by (apply (Permutation_in _ (Permutation_sym P)); left; reflexivity).
    rewrite <- (at_get _ _ _ El) in Hv. apply in_app_iff in H as [[[= -> <-]|[]]|H].
    - split; [apply O2; exact Hv|]. right. split; [reflexivity|]. exists d. auto.
    - apply G in H; [tauto|]. intros u Hu. rewrite at_put, peqb_refl in Hu. apply O2. rewrite (at_get _ _ _ El). apply (Permutation_in _ (Permutation_sym P)). right. exact Hu.
  Qed.

  Lemma closed_at c p e a q w : In w (at_peer q (snd (closed_fins c p e a))) -> In w (at_peer q (c_out c)).
  Proof.
    unfold closed_fins. destruct e as [d|d]; [|auto]. destruct (mget peqb p (c_out c)) as [l|] eqn:El; [|auto].
    destruct (position wp_eqb (mk_wp a p) l) as [n|] eqn:En; cbn [snd]; rewrite at_put; (destruct (peqb_spec q p) as [->|]; [|auto]); rewrite (at_get _ _ _ El); [|auto].
    pose proof (swap_remove_perm wp_eqb wp_eqb_spec _ _ _ En) as P. intros H. apply (Permutation_in _ (Permutation_sym P)). right. exact H.
  Qed.
  Lemma closed_keeps c p e a q w : In w (at_peer q (c_out c)) -> In w (at_peer q (snd (closed_fins c p e a))) \/ exists r, In (w, r) (fst (closed_fins c p e a)).
  Proof.
    unfold closed_fins. destruct e as [d|d]; [|auto]. destruct (mget peqb p (c_out c)) as [l|] eqn:El; [|auto].
    destruct (position wp_eqb (mk_wp a p) l) as [n|] eqn:En; cbn [snd fst]; rewrite at_put; (destruct (peqb_spec q p) as [->|]; [|auto]); rewrite (at_get _ _ _ El); [|auto].
    pose proof (swap_remove_perm wp_eqb wp_eqb_spec _ _ _ En) as P. intros H. apply (Permutation_in _ P) in H. destruct H as [<-|H]; [|auto].
    right. eexists. left. reflexivity.
  Qed.
  Lemma closed_fins_in c p e a w r : In (w, r) (fst (closed_fins c p e a)) -> r = CReset /\ w = mk_wp a p /\ exists d, e = Dialer d.
  Proof.
    unfold closed_fins. destruct e as [d|d]; [|intros []]. destruct (mget peqb p (c_out c)) as [l|] eqn:El; [|intros []].
    destruct (position wp_eqb (mk_wp a p) l) as [n|]; cbn [fst]; [|intros []]. intros [[= <- <-]|[]]. eauto.
  Qed.

  Lemma failed_at c p e q w : In w (at_peer q (snd (failed_fins c p e))) -> In w (at_peer q (c_out c)).
  Proof.
    unfold failed_fins. destruct p as [p|]; [|auto]. destruct (mget peqb p (c_out c)) as [l|] eqn:El; [|auto].
    destruct e as [addrs|n|]; cbn [snd].
    - rewrite at_put. destruct (peqb_spec q p) as [->|]; [|auto]. rewrite (at_get _ _ _ El). apply without_all_incl.
    - rewrite at_mdel. destruct (peqb q p); [intros []|auto].
    - rewrite at_put. destruct (peqb_spec q p) as [->|]; [|auto]. rewrite (at_get _ _ _ El). auto.
  Qed.
  Lemma failed_keeps c p e q w : In w (at_peer q (c_out c)) -> In w (at_peer q (snd (failed_fins c p e))) \/ exists r, In (w, r) (fst (failed_fins c p e)).
  Proof.
    unfold failed_fins. destruct p as [p|]; [|auto]. destruct (mget peqb p (c_out c)) as [l|] eqn:El; [|auto].
    destruct e as [addrs|n|]; cbn [snd fst].
    - rewrite at_put. destruct (peqb_spec q p) as [->|]; [|auto]. rewrite (at_get _ _ _ El). intros H.
      destruct (first_fin w (transport_fins addrs)) as [r|] eqn:E; [right; exists r; apply first_fin_in; exact E|].
      left. apply without_all_keeps; [exact H|]. apply first_fin_none. exact E.
    - rewrite at_mdel. destruct (peqb_spec q p) as [->|]; [|auto]. rewrite (at_get _ _ _ El). intros H. right. exists (CFailed n). apply in_map_iff. eauto.
    - rewrite at_put. destruct (peqb_spec q p) as [->|]; [|auto]. rewrite (at_get _ _ _ El). auto.
  Qed.
  Lemma failed_fins_in c p e w r : owned c -> In (w, r) (fst (failed_fins c p e)) ->
    exists q, p = Some q /\ match e with
    | Transport l => exists d n, In (d, n) l /\ split_peer debug d = AOk w /\ r = CFailed n
    | WrongPeer n => wp_peer w = q /\ r = CFailed n
    | OtherError => False
    end.
  Proof.
    intros [O1 O2]. unfold failed_fins. destruct p as [p|]; [|intros []]. destruct (mget peqb p (c_out c)) as [l|] eqn:El; [|intros []].
    intros H. exists p. split; [reflexivity|]. destruct e as [addrs|n|]; cbn [fst] in H.
    - apply transport_fins_in in H. exact H.
    - apply in_map_iff in H as (v & [= -> <-] & Hv). split; [|reflexivity]. apply O2. rewrite (at_get _ _ _ El). exact Hv.
    - contradiction.
  Qed.

  Record tracked (s : state) (L : list act) : Prop := {
    t_reg : reg s = rrun L;
    t_flag : flagged L = false;
    t_owned : owned (core_of s);
    t_pending : forall i w n k, life L i = Waiting w n k -> waits_at w (core_of s) \/ out_at w (core_of s)
  }.
  Lemma tracked_init : tracked init [].
  Proof.
    constructor; try reflexivity; [|discriminate]. split; intros p w [].
  Qed.

  (** A call moves targets between the lists, or finishes them. *)
  Lemma step_core s o s' a : step s o = Some (s', a) -> owned (core_of s) ->
    owned (core_of s') /\
    (forall w, out_at w (core_of s) -> out_at w (core_of s') \/ exists r, In (w, r) (fins (core_of s) o)) /\
    (forall w, waits_at w (core_of s) -> waits_at w (core_of s') \/ out_at w (core_of s') \/ exists r, In (w, r) (fins (core_of s) o)) /\
    (forall w, waits_at w (core_of s) -> asked_for (wp_peer w) (o, a) -> out_at w (core_of s')) /\
    (forall w t i, o = Connect w t -> a = AFuture i -> waits_at w (core_of s')).
  Proof.
    intros H O. pose proof O as [O1 O2]. unfold Swarm.step in H.
    assert (Same : forall c, c_wait c = c_wait (core_of s) -> c_out c = c_out (core_of s) -> o <> Addrs ->
               (forall w t, o <> Connect w t) -> (forall p, o <> Handout p) ->
               owned c /\
    (forall w, out_at w (core_of s) -> out_at w c \/ exists r, In (w, r) (fins (core_of s) o)) /\
    (forall w, waits_at w (core_of s) -> waits_at w c \/ out_at w c \/ exists r, In (w, r) (fins (core_of s) o)) /\
    (forall w, waits_at w (core_of s) -> asked_for (wp_peer w) (o, a) -> out_at w c) /\
    (forall w t i, o = Connect w t -> a = AFuture i -> waits_at w c)).
    { intros c E1 E2 N1 N2 N3. unfold owned. rewrite E1, E2. split; [exact O|]. split; [auto|]. split; [auto|]. split.
      - intros w Hw Ha. destruct o; cbn [asked_for] in Ha; try contradiction; congruence.
      - intros w t i E. exfalso. eapply N2. exact E. }
    destruct o as [w now|p| |p e|p e|p e|p|p|p d| |i k|i].
    - injection H as H. unfold connect in H. destruct (existsb _ _).
      + injection H as <- <-. split; [exact O|]. split; [auto|]. split; [auto|]. split; [intros v Hv []|discriminate].
      + destruct (Subs.step wp_eqb debug (reg s) (Begin w false)) as [g e]. destruct (Subs.step wp_eqb debug g _) as [g2 e2]. injection H as <- <-.
        cbn [core_of]. unfold owned. cbn [c_wait c_out]. split; [|split; [|split; [|split]]].
        * split; [|exact O2]. intros q v. rewrite at_mset. destruct (peqb_spec q (wp_peer w)) as [->|]; [|apply O1]. rewrite in_app_iff. intros [Hv|[->|[]]]; [apply O1; exact Hv|reflexivity].
        * auto.
        * intros v Hv. left. rewrite at_mset. destruct (peqb_spec (wp_peer v) (wp_peer w)) as [E|]; [|exact Hv]. rewrite <- E. apply in_app_iff. auto.
        * intros v Hv [].
        * intros v t i [= -> ->] _. rewrite at_mset, peqb_refl. apply in_app_iff. right. left. reflexivity.
    - destruct (handout p (core_of s)) as [c l] eqn:E. injection H as <- <-. destruct (handout_at _ _ _ _ E) as (A1 & A2 & _). cbn [core_of].
      split; [|split; [|split; [|split]]].
      + split; intros q w; [rewrite A1|rewrite A2]; destruct (peqb_spec q p) as [->|]; try (intros []); auto. rewrite in_app_iff. intros [Hw|Hw]; auto.
      + intros w Hw. left. rewrite A2. destruct (peqb_spec (wp_peer w) p) as [<-|]; [apply in_app_iff|]; auto.
      + intros w Hw. rewrite A1, A2. destruct (peqb_spec (wp_peer w) p) as [<-|]; [|auto]. right. left. apply in_app_iff. auto.
      + intros w Hw Ha. cbn [asked_for] in Ha. subst p. rewrite A2, peqb_refl. apply in_app_iff. auto.
      + discriminate.
    - destruct (handout_all (c_peers (core_of s)) (core_of s)) as [c l] eqn:E. injection H as <- <-. destruct (handout_all_at _ _ _ _ E) as (A1 & A2 & A3). cbn [core_of].
      split; [|split; [|split; [|split]]].
      + split; intros q w; [rewrite A1|rewrite A2]; [intros [Hw _]|intros [Hw|[_ Hw]]]; auto.
      + intros w Hw. left. rewrite A2. auto.
      + intros w Hw. rewrite A1, A2. destruct (existsb (peqb (wp_peer w)) (c_peers (core_of s))) eqn:X.
        * apply existsb_exists in X as (q & Hq & X). destruct (peqb_spec (wp_peer w) q) as [<-|]; [|discriminate]. auto.
        * left. split; [exact Hw|]. intros Hin. apply not_true_iff_false in X. apply X. apply existsb_exists. exists (wp_peer w). split; [exact Hin|apply peqb_refl].
      + intros w Hw Ha. cbn [asked_for] in Ha. rewrite A3 in Ha. rewrite A2. auto.
      + discriminate.
    - destruct (established debug s p e) as [s1|] eqn:E; [|discriminate]. injection H as <- <-. destruct (established_shape _ _ _ _ E) as (a & _ & _ & Ec).
      rewrite Ec. unfold owned. cbn [c_wait c_out]. split; [|split; [|split; [|split]]].
      + split; intros q w; [rewrite at_mdel|rewrite established_at]; (destruct (peqb q p); [intros []|auto]).
      + intros w Hw. rewrite established_at. destruct (peqb_spec (wp_peer w) p) as [Ep|]; [|auto]. right. apply established_keeps; auto. rewrite <- Ep. auto.
      + intros w Hw. rewrite established_at, at_mdel. destruct (peqb_spec (wp_peer w) p) as [Ep|]; [|auto]. right. right. apply established_keeps; auto. rewrite <- Ep. auto.
      + intros w Hw [].
      + discriminate.
    - destruct (closed debug s p e) as [s1|] eqn:E; [|discriminate]. injection H as <- <-. destruct (closed_shape _ _ _ _ E) as (a & Ea & _ & _ & Ec).
      rewrite Ec. unfold owned. cbn [c_wait c_out fins]. rewrite Ea. split; [|split; [|split; [|split]]].
      + split; [exact O1|]. intros q w Hw. apply closed_at in Hw. auto.
      + intros w Hw. apply closed_keeps. exact Hw.
      + auto.
      + intros w Hw [].
      + discriminate.
    - destruct (dial_failed debug s p e) as [s1|] eqn:E; [|discriminate]. injection H as <- <-. destruct (dial_failed_shape _ _ _ _ E) as (_ & Ec).
      rewrite Ec. unfold owned, with_out. cbn [c_wait c_out fins]. split; [|split; [|split; [|split]]].
      + split; [exact O1|]. intros q w Hw. apply failed_at in Hw. auto.
      + intros w Hw. apply failed_keeps. exact Hw.
      + auto.
      + intros w Hw [].
      + discriminate.
    - injection H as <- <-. apply Same; try reflexivity; discriminate.
    - injection H as <- <-. apply Same; try reflexivity; discriminate.
    - injection H as <- <-. apply Same; try reflexivity; discriminate.
    - destruct (c_dials (core_of s)); injection H as <- <-; apply Same; try reflexivity; discriminate.
    - destruct (Subs.step wp_eqb debug (reg s) (Poll i k)) as [g e]. injection H as <- <-. apply Same; try reflexivity; discriminate.
    - destruct (Subs.step wp_eqb debug (reg s) (DropFut i)) as [g e]. destruct (Subs.step wp_eqb debug g (DropNotify i)) as [g2 e2]. injection H as <- <-. apply Same; try reflexivity; discriminate.
  Qed.

  Lemma reply_future s o s' a j : step s o = Some (s', a) -> a = AFuture j -> exists w t, o = Connect w t.
  Proof.
    intros H E. subst a. unfold Swarm.step in H. destruct o as [w now|p| |p e|p e|p e|p|p|p d| |i k|i]; [eauto|..]; exfalso.
    - destruct (handout p (core_of s)). discriminate.
    - destruct (handout_all _ (core_of s)). discriminate.
    - destruct (established debug s p e); discriminate.
    - destruct (closed debug s p e); discriminate.
    - destruct (dial_failed debug s p e); discriminate.
    - discriminate.
    - discriminate.
    - discriminate.
    - destruct (c_dials (core_of s)); discriminate.
    - destruct (Subs.step wp_eqb debug (reg s) (Poll i k)). discriminate.
    - destruct (Subs.step wp_eqb debug (reg s) (DropFut i)). destruct (Subs.step wp_eqb debug s0 (DropNotify i)). discriminate.
  Qed.
  Lemma reply_fresh s o s' a (L : list act) : step s o = Some (s', a) -> reg s = rrun L -> flagged L = false ->
    a = AFuture (begins L) \/ forall j, a <> AFuture j.
  Proof.
    intros H Hr Hf. destruct a; try (right; discriminate). destruct (reply_future _ _ _ _ _ H eq_refl) as (w & t & ->).
    destruct (step_log _ _ _ _ _ H Hr Hf) as (_ & _ & [X|X]); [discriminate|]. left. exact X.
  Qed.

  Lemma tracked_step s o s' a L : tracked s L -> step s o = Some (s', a) -> tracked s' (new_acts (core_of s) o a ++ L).
  Proof.
    intros T H. destruct (step_log _ _ _ _ _ H (t_reg _ _ T) (t_flag _ _ T)) as (R & F & _).
    destruct (step_core _ _ _ _ H (t_owned _ _ T)) as (O & C1 & C2 & C3 & C4). constructor; auto.
    intros i w n k Hl. rewrite (life_new _ _ _ _ _ (t_flag _ _ T) (reply_fresh _ _ _ _ _ H (t_reg _ _ T) (t_flag _ _ T))) in Hl.
    assert (K : forall k', life L i = Waiting w n k' -> (forall r, ~ In (w, r) (fins (core_of s) o)) -> waits_at w (core_of s') \/ out_at w (core_of s')).
    { intros k' Hw N. destruct (t_pending _ _ T _ _ _ _ Hw) as [X|X].
      - destruct (C2 w X) as [?|[?|(r & Hr)]]; auto. exfalso. eapply N; eauto.
      - destruct (C1 w X) as [?|(r & Hr)]; auto. exfalso. eapply N; eauto. }
    assert (G : match life L i with
              | Waiting w n k => match first_fin w (fins (core_of s) o) with Some r => Decided w r | None => Waiting w n k end
              | x => x end = Waiting w n k -> waits_at w (core_of s') \/ out_at w (core_of s')).
    { destruct (life L i) as [| |v m q| | | | | |] eqn:E; try discriminate. destruct (first_fin v _) eqn:Ef; [discriminate|]. intros [= -> -> ->]. eapply K; eauto. apply first_fin_none. exact Ef. }
    destruct o as [v now|p| |p e|p e|p e|p|p|p d| |j q|j]; try (apply G; exact Hl).
    - destruct a; try (apply G; exact Hl). destruct (i0 =? i)%nat.
      + injection Hl as -> <- <-. left. eapply C4; reflexivity.
      + eapply K; eauto.
    - destruct (j =? i)%nat; [|eapply K; eauto]. destruct (life L i) eqn:E; try discriminate. injection Hl as -> -> <-. eapply K; eauto.
    - destruct (j =? i)%nat; [|eapply K; eauto]. destruct (life L i) eqn:E; discriminate.
  Qed.

  (** * Histories *)
  Lemma run_snoc h o a s : run (h ++ [(o, a)]) s -> exists s0, run h s0 /\ step s0 o = Some (s, a).
  Proof.
    intros H. inversion H as [E|h0 s0 o0 s1 a0 H1 H2 E]; [destruct h; discriminate|]. apply app_inj_tail in E as [-> [= -> ->]]. eauto.
  Qed.
  Lemma run_app h1 h2 s : run (h1 ++ h2) s -> exists s0, run h1 s0.
  Proof.
    revert s. induction h2 as [|[o a] h2 IH] using rev_ind; intros s H; [rewrite app_nil_r in H; eauto|].
    rewrite app_assoc in H. apply run_snoc in H as (s0 & H & _). eauto.
  Qed.
  Lemma run_tracked h s : run h s -> exists L, tracked s L.
  Proof. induction 1 as [|h s o s' a H [L T] Hs]; [exists []; apply tracked_init|]. eexists. eapply tracked_step; eauto. Qed.

  Lemma run_after_connect h w t i s : run (h ++ [(Connect w t, AFuture i)]) s ->
    exists L, tracked s L /\ life L i = Waiting w false None /\ waits_at w (core_of s).
  Proof.
    intros H. apply run_snoc in H as (s0 & H & Hs). destruct (run_tracked _ _ H) as (L & T). eexists. split; [eapply tracked_step; eauto|]. split.
    - rewrite (life_new _ _ _ _ _ (t_flag _ _ T) (reply_fresh _ _ _ _ _ Hs (t_reg _ _ T) (t_flag _ _ T))). rewrite Nat.eqb_refl. reflexivity.
    - destruct (step_core _ _ _ _ Hs (t_owned _ _ T)) as (_ & _ & _ & _ & C4). eapply C4; reflexivity.
  Qed.

  (** Finishing is what the call says. *)
  Lemma result_more w h1 h2 r : result_is_true debug w h1 r -> result_is_true debug w (h1 ++ h2) r.
  Proof.
    destruct r; cbn [result_is_true].
    - intros (d & H & E). exists d. split; [apply in_app_iff; auto|exact E].
    - intros (d & H). exists d. apply in_app_iff; auto.
    - intros (d & v & H & E). exists d, v. split; [apply in_app_iff; auto|exact E].
    - intros [H|(q & l & d & H & E)]; [left; apply in_app_iff; auto|]. right. exists q, l, d. split; [apply in_app_iff; auto|exact E].
  Qed.
  Lemma fins_true s o s' a w r h : step s o = Some (s', a) -> owned (core_of s) -> In (w, r) (fins (core_of s) o) ->
    result_is_true debug w (h ++ [(o, a)]) r.
  Proof.
    intros H O Hin. assert (Hl : In (o, a) (h ++ [(o, a)])) by (apply in_app_iff; right; left; reflexivity).
    unfold Swarm.step in H. destruct o as [v now|p| |p e|p e|p e|p|p|p d| |j q|j]; try contradiction; cbn [fins] in Hin.
    - destruct (established debug s p e) as [s1|]; [|discriminate]. injection H as _ <-.
      destruct (established_fins_in _ _ _ _ _ O Hin) as (<- & [->|(-> & d & -> & Hd & _)]); cbn [result_is_true]; eauto.
    - destruct (closed debug s p e) as [s1|] eqn:E; [|discriminate]. injection H as _ <-. destruct (closed_shape _ _ _ _ E) as (a & Ea & _).
      rewrite Ea in Hin. destruct (closed_fins_in _ _ _ _ _ _ Hin) as (-> & -> & d & ->). cbn [point_addr] in Ea. cbn [result_is_true wp_peer wp_addr].
      destruct (split_peer debug d) as [v| |] eqn:Es; try discriminate. injection Ea as <-. exists d, v. auto.
    - destruct (dial_failed debug s p e) as [s1|]; [|discriminate]. injection H as _ <-. destruct (failed_fins_in _ _ _ _ _ O Hin) as (q & -> & X).
      destruct e as [l|n|]; [|destruct X as (<- & ->)|contradiction].
      + destruct X as (d & n & Hd & Es & ->). cbn [result_is_true]. right. exists q, l, d. auto.
      + cbn [result_is_true]. auto.
  Qed.
  Lemma silent_fins s o s' a w r : step s o = Some (s', a) -> owned (core_of s) -> silent debug w o -> ~ In (w, r) (fins (core_of s) o).
  Proof.
    intros H O S Hin. unfold Swarm.step in H. destruct o as [v now|p| |p e|p e|p e|p|p|p d| |j q|j]; try contradiction; cbn [fins silent] in *.
    - destruct (established_fins_in _ _ _ _ _ O Hin) as (<- & _). congruence.
    - destruct (closed debug s p e) as [s1|] eqn:E; [|discriminate]. destruct (closed_shape _ _ _ _ E) as (a0 & Ea & _).
      rewrite Ea in Hin. destruct (closed_fins_in _ _ _ _ _ _ Hin) as (-> & -> & d & ->). cbn [wp_peer wp_addr point_addr] in *.
      destruct (split_peer debug d) as [v| |] eqn:Es; try discriminate. injection Ea as <-. destruct S as [S|S]; [congruence|]. exact (S v eq_refl eq_refl).
    - destruct (failed_fins_in _ _ _ _ _ O Hin) as (q & -> & X). destruct e as [l|n|]; [|destruct X as (<- & ->); congruence|contradiction].
      destruct X as (d & n & Hd & Es & ->). exact (S d n Hd Es).
  Qed.
  Lemma join_target w : target_ok w -> split_peer debug (wp_addr w ++ [PP2p (wp_peer w)]) = AOk w.
  Proof.
    intros [[H1 H2] V]. unfold split_peer. rewrite find_p2p_at by exact H1. rewrite last_last. cbn [is_p2p orb negb]. rewrite andb_false_r, V.
    change (fun p => negb (is_p2p p || is_circuit p)) with plain_proto. rewrite filter_app, filter_plain by assumption. cbn [filter plain_proto is_p2p orb negb]. rewrite app_nil_r.
    destruct w; reflexivity.
  Qed.
  Lemma over_fins s o s' a w : step s o = Some (s', a) -> target_ok w -> out_at w (core_of s) -> dial_over w o -> exists r, In (w, r) (fins (core_of s) o).
  Proof.
    intros H Tw Ho D. unfold Swarm.step in H. destruct o as [v now|p| |p e|p e|p e|p|p|p d| |j q|j]; try contradiction; cbn [fins dial_over] in *.
    - destruct e as [d|d]; [|contradiction]. destruct D as (-> & ->). unfold point_addr. rewrite join_target by exact Tw.
      unfold closed_fins. unfold at_peer in Ho. destruct (mget peqb (wp_peer w) (c_out (core_of s))) as [l|]; [|contradiction].
      replace (mk_wp (wp_addr w) (wp_peer w)) with w by (destruct w; reflexivity).
      destruct (position wp_eqb w l) as [n|] eqn:En; [exists CReset; left; reflexivity|]. apply (position_none wp_eqb wp_eqb_spec) in En. contradiction.
    - destruct p as [p|]; [|contradiction]. unfold failed_fins. destruct e as [l|n|]; [destruct D as (-> & e & D)|subst p|contradiction];
        unfold at_peer in Ho; (destruct (mget peqb (wp_peer w) (c_out (core_of s))) as [lo|]; [|contradiction]); cbn [fst].
      + exists (CFailed e). apply transport_fins_in. eexists. exists e. split; [exact D|]. split; [apply join_target; exact Tw|reflexivity].
      + exists (CFailed n). apply in_map_iff. eauto.
  Qed.

  (** The life of a request. *)
  Lemma request_phase h1 w t i h2 : forall s, run (h1 ++ (Connect w t, AFuture i) :: h2) s -> (forall r, ~ In (FutDrop i, r) h2) ->
    exists L, tracked s L /\
    (((exists k, life L i = Waiting w false k) /\ ((exists x, In x h2 /\ asked_for (wp_peer w) x) -> out_at w (core_of s))) \/
     (exists r, life L i = Decided w r /\ result_is_true debug w h2 r) \/
     (life L i = Collected w /\ exists k r, In (FutPoll i k, AFut (OReady (AVal r))) h2)).
  Proof.
    induction h2 as [|[o a] h2 IH] using rev_ind; intros s H D.
    - destruct (run_after_connect _ _ _ _ _ H) as (L & T & Hl & Hw). exists L. split; [exact T|]. left. split; [eauto|]. intros (x & [] & _).
    - rewrite app_comm_cons, app_assoc in H. apply run_snoc in H as (s0 & H & Hs).
      destruct (IH _ H) as (L & T & X). { intros r Hr. apply (D r). apply in_app_iff. auto. }
      eexists. split; [eapply tracked_step; eauto|].
      pose proof (life_new (core_of s0) L o a i (t_flag _ _ T) (reply_fresh _ _ _ _ _ Hs (t_reg _ _ T) (t_flag _ _ T))) as Hl.
      destruct (step_core _ _ _ _ Hs (t_owned _ _ T)) as (_ & C1 & C2 & C3 & C4).
      destruct (step_log _ _ _ _ _ Hs (t_reg _ _ T) (t_flag _ _ T)) as (_ & _ & Rp).
      assert (Nd : o <> FutDrop i). { intros ->. apply (D a). apply in_app_iff. right. left. reflexivity. }
      assert (Nc : forall v t' j, o = Connect v t' -> a = AFuture j -> life L i <> Unborn -> (j =? i)%nat = false).
      { intros v t' j -> -> Hn. apply Nat.eqb_neq. intros ->. destruct Rp as [Rp|[= ->]]; [discriminate|]. apply Hn.
        apply (i_unborn _ _ _ (run_inv wp_eqb wp_eqb_spec debug L)). lia. }
      destruct X as [[(k & Hk) Ha]|[(r & Hr & Htrue)|(Hc & Hp)]].
      + assert (Hout : (exists x, In x (h2 ++ [(o, a)]) /\ asked_for (wp_peer w) x) -> (forall r, ~ In (w, r) (fins (core_of s0) o)) -> out_at w (core_of s)).
        { intros (x & Hx & Hax) N. apply in_app_iff in Hx as [Hx|[<-|[]]].
          - destruct (C1 w) as [?|(r & Hr)]; auto; [apply Ha; eauto|exfalso; eapply N; eauto].
          - destruct (t_pending _ _ T _ _ _ _ Hk) as [Y|Y]; [apply C3; auto|]. destruct (C1 w Y) as [?|(r & Hr)]; auto. exfalso; eapply N; eauto. }
        assert (G : life (new_acts (core_of s0) o a ++ L) i = match first_fin w (fins (core_of s0) o) with Some r => Decided w r | None => Waiting w false k end ->
          ((exists k0, life (new_acts (core_of s0) o a ++ L) i = Waiting w false k0) /\ ((exists x, In x (h2 ++ [(o, a)]) /\ asked_for (wp_peer w) x) -> out_at w (core_of s))) \/
          (exists r, life (new_acts (core_of s0) o a ++ L) i = Decided w r /\ result_is_true debug w (h2 ++ [(o, a)]) r) \/
          (life (new_acts (core_of s0) o a ++ L) i = Collected w /\ exists k0 r, In (FutPoll i k0, AFut (OReady (AVal r))) (h2 ++ [(o, a)]))).
        { intros E. destruct (first_fin w (fins (core_of s0) o)) as [r|] eqn:Ef.
          - right. left. exists r. split; [exact E|]. eapply fins_true; eauto using t_owned. apply first_fin_in. exact Ef.
          - left. split; [eauto|]. intros Hx. apply Hout; [exact Hx|]. apply first_fin_none. exact Ef. }
        rewrite Hk in Hl. destruct o as [v now|p| |p e|p e|p e|p|p|p d| |j q|j]; try (apply G; exact Hl).
        * destruct a; try (apply G; exact Hl). rewrite (Nc v now i0 eq_refl eq_refl) in Hl by congruence. apply G. exact Hl.
        * destruct (j =? i)%nat; left; (split; [eexists; exact Hl|]); intros Hx; apply Hout; auto.
        * destruct (Nat.eqb_spec j i) as [->|]; [congruence|]. left. split; [eauto|]. intros Hx; apply Hout; auto.
      + rewrite Hr in Hl. right.
        assert (G : life (new_acts (core_of s0) o a ++ L) i = Decided w r ->
           (exists r0, life (new_acts (core_of s0) o a ++ L) i = Decided w r0 /\ result_is_true debug w (h2 ++ [(o, a)]) r0) \/
           (life (new_acts (core_of s0) o a ++ L) i = Collected w /\ exists k r, In (FutPoll i k, AFut (OReady (AVal r))) (h2 ++ [(o, a)]))).
        { intros E. left. exists r. split; [exact E|]. apply result_more. exact Htrue. }
        destruct o as [v now|p| |p e|p e|p e|p|p|p d| |j q|j]; try (apply G; exact Hl).
        * destruct a; try (apply G; exact Hl). rewrite (Nc v now i0 eq_refl eq_refl) in Hl by congruence. apply G. exact Hl.
        * destruct (Nat.eqb_spec j i) as [->|]; [|apply G; exact Hl]. right. split; [exact Hl|]. rewrite Hr in Rp. cbn [poll_answer] in Rp. subst a.
          exists q, r. apply in_app_iff. right. left. reflexivity.
        * destruct (Nat.eqb_spec j i) as [->|]; [congruence|]. apply G. exact Hl.
      + rewrite Hc in Hl. right. right. split.
        * destruct o as [v now|p| |p e|p e|p e|p|p|p d| |j q|j]; try exact Hl.
          -- destruct a; try exact Hl. rewrite (Nc v now i0 eq_refl eq_refl) in Hl by congruence. exact Hl.
          -- destruct (j =? i)%nat; exact Hl.
          -- destruct (Nat.eqb_spec j i) as [->|]; [congruence|]. exact Hl.
        * destruct Hp as (k & r & Hp). exists k, r. apply in_app_iff. auto.
  Qed.

  Lemma run_det h : forall s s2, run h s -> run h s2 -> s2 = s.
  Proof.
    induction h as [|[o a] h IH] using rev_ind; intros s s2 H1 H2.
    - inversion H1 as [|h1 ? ? ? ? ? ? E1]; [|destruct h1; discriminate]. inversion H2 as [|h2 ? ? ? ? ? ? E2]; [|destruct h2; discriminate]. reflexivity.
    - apply run_snoc in H1 as (u & H1 & E1). apply run_snoc in H2 as (v & H2 & E2). rewrite (IH _ _ H1 H2) in E2. congruence.
  Qed.
  Lemma run_exec h : forall s0 h0 s rs, run h0 s0 -> exec debug s0 h = Some (s, rs) -> run (h0 ++ combine h rs) s /\ length rs = length h.
  Proof.
    induction h as [|o h IH]; intros s0 h0 s rs H E; cbn [exec] in E.
    - injection E as <- <-. rewrite app_nil_r. auto.
    - destruct (step s0 o) as [[s1 a]|] eqn:Es; [|discriminate]. destruct (exec debug s1 h) as [[s2 l]|] eqn:E2; cbn [option_map] in E; [|discriminate].
      injection E as <- <-. cbn [combine]. destruct (IH s1 (h0 ++ [(o, a)]) s2 l) as [H1 H2]; [econstructor; eauto|exact E2|]. rewrite <- app_assoc in H1. cbn [app] in H1.
      split; [exact H1|]. cbn [length]. cbn [fst snd] in *. rewrite H2. reflexivity.
  Qed.

  (** A request which is over stays so, with the same result until polled. *)
  Definition decided (l : SubsSpec.life with_peer outcome) : Prop := match l with Decided _ _ | Collected _ => True | _ => False end.
  Lemma extend h s L b i : run h s -> tracked s L -> decided (life L i) ->
    forall s2, run (h ++ b) s2 -> (forall r, ~ In (FutDrop i, r) b) ->
    exists L2, tracked s2 L2 /\ decided (life L2 i) /\ ((forall k r, ~ In (FutPoll i k, r) b) -> life L2 i = life L i).
  Proof.
    intros H T Hd. induction b as [|[o a] b IH] using rev_ind; intros s2 H2 D.
    - rewrite app_nil_r in H2. rewrite (run_det _ _ _ H H2). exists L. auto.
    - rewrite app_assoc in H2. apply run_snoc in H2 as (s1 & H1 & Hs). destruct (IH _ H1) as (L1 & T1 & D1 & E1).
      { intros r Hr. apply (D r). apply in_app_iff. auto. }
      eexists. split; [eapply tracked_step; eauto|].
      pose proof (life_new (core_of s1) L1 o a i (t_flag _ _ T1) (reply_fresh _ _ _ _ _ Hs (t_reg _ _ T1) (t_flag _ _ T1))) as Hl.
      destruct (step_log _ _ _ _ _ Hs (t_reg _ _ T1) (t_flag _ _ T1)) as (_ & _ & Rp).
      assert (Nd : o <> FutDrop i). { intros ->. apply (D a). apply in_app_iff. right. left. reflexivity. }
      assert (G : (forall k, o <> FutPoll i k) -> life (new_acts (core_of s1) o a ++ L1) i = life L1 i).
      { intros Np. rewrite Hl. destruct o as [v now|p| |p e|p e|p e|p|p|p d| |j q|j]; try (destruct (life L1 i); try contradiction; reflexivity).
        - destruct a; try (destruct (life L1 i); try contradiction; reflexivity). destruct (Nat.eqb_spec i0 i) as [->|]; [|reflexivity].
          destruct Rp as [Rp|[= ->]]; [discriminate|]. rewrite (i_unborn _ _ _ (run_inv wp_eqb wp_eqb_spec debug L1)) in D1 by lia. contradiction.
        - destruct (Nat.eqb_spec j i) as [->|]; [|reflexivity]. exfalso. eapply Np. reflexivity.
        - destruct (Nat.eqb_spec j i) as [->|]; [congruence|]. reflexivity. }
      assert (Np : (forall k, o <> FutPoll i k) \/ exists k, o = FutPoll i k).
      { destruct o; try (left; discriminate). destruct (Nat.eq_dec i0 i) as [->|]; [right; eauto|left; congruence]. }
      destruct Np as [Np|(k & ->)].
      + rewrite (G Np). split; [exact D1|]. intros Hp. apply E1. intros k r Hr. apply (Hp k r). apply in_app_iff. auto.
      + rewrite Hl, Nat.eqb_refl. split; [destruct (life L1 i); try contradiction; exact I|].
        intros Hp. exfalso. apply (Hp k a). apply in_app_iff. right. left. reflexivity.
  Qed.
  Lemma poll_of s L i k : tracked s L -> exists s', step s (FutPoll i k) = Some (s', AFut (poll_answer (life L i))).
  Proof.
    intros T. cbn [Swarm.step]. rewrite (t_reg _ _ T). pose proof (eff_poll wp_eqb wp_eqb_spec debug L i k) as Eb. unfold effect_of in Eb.
    destruct (Subs.step wp_eqb debug (rrun L) (Poll i k)) as [g e]. cbn [snd] in Eb. subst e. cbn [ans quiet]. eauto.
  Qed.

  Lemma request_completes h1 w t i a o r b s : run (h1 ++ (Connect w t, AFuture i) :: a ++ (o, r) :: b) s ->
    (forall q, ~ In (FutDrop i, q) (a ++ (o, r) :: b)) -> target_ok w ->
    (exists e, o = Established (wp_peer w) e) \/ (dial_over w o /\ exists x, In x a /\ asked_for (wp_peer w) x) ->
    exists L v, tracked s L /\ (life L i = Decided w v /\ result_is_true debug w (a ++ [(o, r)]) v \/
                              (decided (life L i) /\ exists k q, In (FutPoll i k, q) (a ++ b))).
  Proof.
    intros H D Tw Hend.
    replace (h1 ++ (Connect w t, AFuture i) :: a ++ (o, r) :: b) with (((h1 ++ (Connect w t, AFuture i) :: a) ++ [(o, r)]) ++ b) in H
      by (rewrite <- !app_assoc; reflexivity).
    destruct (run_app _ _ _ H) as (s1 & H1). pose proof H1 as H1'. apply run_snoc in H1' as (s0 & H0 & Hs).
    destruct (request_phase _ _ _ _ _ _ H0) as (L & T & X). { intros q Hq. apply (D q). apply in_app_iff. auto. }
    pose proof (tracked_step _ _ _ _ _ T Hs) as T1.
    pose proof (life_new (core_of s0) L o r i (t_flag _ _ T) (reply_fresh _ _ _ _ _ Hs (t_reg _ _ T) (t_flag _ _ T))) as Hl.
    assert (Ho : match o with Established _ _ | Closed _ _ | DialFailed _ _ => True | _ => False end).
    { destruct Hend as [(e & ->)|[Ho _]]; [exact I|]. destruct o; try contradiction; exact I. }
    assert (Db : forall q, ~ In (FutDrop i, q) b). { intros q Hq. apply (D q). apply in_app_iff. right. right. exact Hq. }
    assert (Hl' : life (new_acts (core_of s0) o r ++ L) i = match life L i with
              | Waiting w n k => match first_fin w (fins (core_of s0) o) with Some r => Decided w r | None => Waiting w n k end
              | x => x end) by (destruct o; try contradiction; exact Hl). clear Hl.
    assert (Dec : (exists v, life (new_acts (core_of s0) o r ++ L) i = Decided w v /\ result_is_true debug w (a ++ [(o, r)]) v) \/
      (decided (life (new_acts (core_of s0) o r ++ L) i) /\ exists k q, In (FutPoll i k, q) a)).
    { destruct X as [[(k & Hk) Ha]|[(v & Hv & Htrue)|(Hc & k & q & Hp)]].
      - left. rewrite Hk in Hl'. assert (Hf : exists v, In (w, v) (fins (core_of s0) o)).
        { destruct Hend as [(e & ->)|[Ho' Hx]].
          - cbn [fins]. apply established_keeps; [exact (t_owned _ _ T)|reflexivity|]. exact (t_pending _ _ T _ _ _ _ Hk).
          - eapply over_fins; eauto. }
        destruct (first_fin w (fins (core_of s0) o)) as [v|] eqn:Ef.
        + exists v. split; [exact Hl'|]. eapply fins_true; eauto using t_owned. apply first_fin_in. exact Ef.
        + destruct Hf as (v & Hv). exfalso. exact (proj1 (first_fin_none _ _) Ef v Hv).
      - left. exists v. rewrite Hv in Hl'. split; [exact Hl'|]. apply result_more. exact Htrue.
      - right. rewrite Hc in Hl'. rewrite Hl'. split; [exact I|]. eauto. }
    destruct Dec as [(v & Ev & Htrue)|[Hd (k & q & Hp)]].
    - destruct (extend _ _ _ b i H1 T1) with (s2 := s) as (L2 & T2 & D2 & E2); auto. { rewrite Ev. exact I. }
      exists L2, v. split; [exact T2|]. destruct (existsb (fun x => match fst x with FutPoll j _ => (j =? i)%nat | _ => false end) b) eqn:Eb.
      + right. split; [exact D2|]. apply existsb_exists in Eb as ([o' q] & Hin & Eo). destruct o'; try discriminate. apply Nat.eqb_eq in Eo. cbn [fst] in Eo. subst.
        exists waker, q. apply in_app_iff. auto.
      + left. rewrite E2; [auto|]. intros k q Hq. apply not_true_iff_false in Eb. apply Eb. apply existsb_exists. exists (FutPoll i k, q). split; [exact Hq|]. apply Nat.eqb_refl.
    - destruct (extend _ _ _ b i H1 T1 Hd s H Db) as (L2 & T2 & D2 & _). exists L2, COk. split; [exact T2|]. right. split; [exact D2|].
      exists k, q. apply in_app_iff. auto.
  Qed.

  Lemma request_silent h1 w t i h2 : forall s, run (h1 ++ (Connect w t, AFuture i) :: h2) s -> (forall r, ~ In (FutDrop i, r) h2) ->
    (forall o r, In (o, r) h2 -> silent debug w o) -> exists L k, tracked s L /\ life L i = Waiting w false k /\
      ((exists x, In x h2 /\ asked_for (wp_peer w) x) -> out_at w (core_of s)).
  Proof.
    induction h2 as [|[o a] h2 IH] using rev_ind; intros s H D S.
    - destruct (run_after_connect _ _ _ _ _ H) as (L & T & Hl & Hw). exists L, None. split; [exact T|]. split; [exact Hl|]. intros (x & [] & _).
    - rewrite app_comm_cons, app_assoc in H. apply run_snoc in H as (s0 & H & Hs).
      destruct (IH _ H) as (L & k & T & X & Ha). { intros r Hr. apply (D r). apply in_app_iff. auto. } { intros o' r' Hr. apply (S o' r'). apply in_app_iff. auto. }
      pose proof (life_new (core_of s0) L o a i (t_flag _ _ T) (reply_fresh _ _ _ _ _ Hs (t_reg _ _ T) (t_flag _ _ T))) as Hl.
      destruct (step_log _ _ _ _ _ Hs (t_reg _ _ T) (t_flag _ _ T)) as (_ & _ & Rp). destruct (step_core _ _ _ _ Hs (t_owned _ _ T)) as (_ & C1 & C2 & C3 & C4).
      assert (N : forall r, ~ In (w, r) (fins (core_of s0) o)). { intros r. eapply silent_fins; eauto using t_owned. apply (S o a). apply in_app_iff. right. left. reflexivity. }
      assert (Ef : first_fin w (fins (core_of s0) o) = None) by (apply first_fin_none; exact N).
      assert (G : exists k', life (new_acts (core_of s0) o a ++ L) i = Waiting w false k').
      { rewrite Hl, X, Ef. destruct o as [v now|p| |p e|p e|p e|p|p|p d| |j q|j]; try (exists k; reflexivity).
        - destruct a; try (exists k; reflexivity). destruct (Nat.eqb_spec i0 i) as [->|]; [|exists k; reflexivity].
          destruct Rp as [Rp|[= ->]]; [discriminate|]. rewrite (i_unborn _ _ _ (run_inv wp_eqb wp_eqb_spec debug L)) in X by lia. discriminate.
        - destruct (j =? i)%nat; eexists; reflexivity.
        - destruct (Nat.eqb_spec j i) as [->|]; [|exists k; reflexivity]. exfalso. apply (D a). apply in_app_iff. right. left. reflexivity. }
      destruct G as (k' & Hk). exists (new_acts (core_of s0) o a ++ L), k'. split; [eapply tracked_step; eauto|]. split; [exact Hk|].
      intros (x & Hx & Hax). apply in_app_iff in Hx as [Hx|[<-|[]]].
      + destruct (C1 w) as [?|(r & Hr)]; auto; [apply Ha; eauto|exfalso; eapply N; eauto].
      + destruct (t_pending _ _ T _ _ _ _ X) as [Y|Y]; [apply C3; auto|]. destruct (C1 w Y) as [?|(r & Hr)]; auto. exfalso; eapply N; eauto.
  Qed.

  (** Success when the address handed out is the one connected. *)
  Lemma request_succeeds h1 w t i a r b s : run (h1 ++ (Connect w t, AFuture i) :: a ++ (Established (wp_peer w) (Dialer (wp_addr w ++ [PP2p (wp_peer w)])), r) :: b) s ->
    (forall q, ~ In (FutDrop i, q) (a ++ b)) -> (forall k q, ~ In (FutPoll i k, q) b) -> target_ok w ->
    (forall o q, In (o, q) a -> silent debug w o) -> (exists x, In x a /\ asked_for (wp_peer w) x) ->
    exists L, tracked s L /\ life L i = Decided w COk.
  Proof.
    intros H D P Tw S Ask. set (ev := Established (wp_peer w) (Dialer (wp_addr w ++ [PP2p (wp_peer w)]))) in *.
    replace (h1 ++ (Connect w t, AFuture i) :: a ++ (ev, r) :: b) with (((h1 ++ (Connect w t, AFuture i) :: a) ++ [(ev, r)]) ++ b) in H
      by (rewrite <- !app_assoc; reflexivity).
    destruct (run_app _ _ _ H) as (s1 & H1). pose proof H1 as H1'. apply run_snoc in H1' as (s0 & H0 & Hs).
    destruct (request_silent _ _ _ _ _ _ H0) as (L & k & T & X & Ha); [intros q Hq; apply (D q); apply in_app_iff; auto|exact S|]. specialize (Ha Ask).
    pose proof (tracked_step _ _ _ _ _ T Hs) as T1.
    pose proof (life_new (core_of s0) L ev r i (t_flag _ _ T) (reply_fresh _ _ _ _ _ Hs (t_reg _ _ T) (t_flag _ _ T))) as Hl.
    rewrite X in Hl. cbn iota in Hl.
    assert (Hl' : life (new_acts (core_of s0) ev r ++ L) i = match first_fin w (fins (core_of s0) ev) with Some r => Decided w r | None => Waiting w false k end) by exact Hl.
    clear Hl. assert (Ef : first_fin w (fins (core_of s0) ev) = Some COk).
    { cbn [fins ev]. unfold established_fins. unfold at_peer in Ha. destruct (mget peqb (wp_peer w) (c_out (core_of s0))) as [l|]; [|contradiction].
      rewrite join_target by exact Tw. destruct (position wp_eqb w l) as [n|] eqn:En.
      - cbn [fst app first_fin]. rewrite wp_eqb_refl. reflexivity.
      - apply (position_none wp_eqb wp_eqb_spec) in En. contradiction. }
    rewrite Ef in Hl'. destruct (extend _ _ _ b i H1 T1) with (s2 := s) as (L2 & T2 & D2 & E2); auto.
    - rewrite Hl'. exact I.
    - intros q Hq. apply (D q). apply in_app_iff. auto.
    - exists L2. split; [exact T2|]. rewrite E2; [exact Hl'|exact P].
  Qed.
End Proofs.
