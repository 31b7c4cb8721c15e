(** The in-memory pin store: what [list] and [query] answer. *)
From Verif Require Import Base Wire Cid CidProofs FMap BTree Text TextProofs FsPaths FsPathsProofs BlockSpec PinSpec PinSpecProofs MemPins MemPinsProofs.
Local Open Scope N_scope.

Definition mem_order : list mode := [Recursive; Indirect; Direct].

Lemma doc_mode_shown past g c : mrep past g -> wf_cid c -> doc_mode (look g c) = shown mem_order past c.
Proof.
  intros Hr Hc. pose proof Hr as (_ & H & _). destruct (H c Hc) as (Hd & _ & _).
  unfold doc_mode, shown, mem_order. cbn [find pinned_as]. rewrite (rec_of past g c Hr Hc), Hd.
  pose proof (by_empty past g c Hr Hc) as Hb. destruct (is_some (recursive past c)); [reflexivity|].
  destruct (d_by (look g c)) as [|t l].
  - rewrite (proj1 Hb eq_refl). reflexivity.
  - destruct (indirect past c); [reflexivity|]. discriminate (proj2 Hb eq_refl).
Qed.

Lemma shown_pinned past c : pinned past c = is_some (shown mem_order past c).
Proof.
  unfold pinned, shown, mem_order. cbn [find pinned_as].
  destruct (is_some (recursive past c)), (direct past c), (indirect past c); reflexivity.
Qed.

(** * [list] *)
Definition entry (kd : bytes * doc) : option (cid * mode) :=
  match cid_from_bytes (fst kd), doc_mode (snd kd) with
  | Some c, Some m => Some (c, m)
  | _, _ => None
  end.

Lemma entry_ok past g k d : mrep past g -> In (k, d) g ->
  exists c m, wf_cid c /\ k = cid_to_bytes c /\ entry (k, d) = Some (c, m) /\ shown mem_order past c = Some m.
Proof.
  intros Hr Hi. pose proof Hr as ([Hn Hg] & _). destruct (Hg k d Hi) as ((c & Hc & ->) & Hcr & _).
  assert (El : look g c = d).
  { unfold look, pget. rewrite (in_mget beq beq_spec _ d g Hn Hi). reflexivity. }
  assert (Ep : pget c g = Some d) by (apply (in_mget beq beq_spec _ d g Hn Hi)).
  pose proof (present_spec past g c Hr Hc) as Hp. rewrite Ep, shown_pinned in Hp. cbn [is_some] in Hp.
  destruct (shown mem_order past c) as [m|] eqn:Es; [|discriminate].
  exists c, m. split; [exact Hc|]. split; [reflexivity|]. split; [|exact Es].
  unfold entry. cbn [fst snd]. rewrite (cid_roundtrip c Hc). rewrite <- El, (doc_mode_shown past g c Hr Hc), Es. reflexivity.
Qed.

Lemma mem_list_ok past g req : mrep past g ->
  exists l, mem_pin_list g req = map Some l /\ NoDup (map fst l) /\
    forall c m, wf_cid c -> (In (c, m) l <-> shown mem_order past c = Some m /\ req_matches req m = true).
Proof.
  intros Hr. pose proof Hr as ([Hn _] & _). unfold mem_pin_list. fold entry.
  assert (H : forall g', incl g' g -> NoDup (mkeys g') ->
    exists l, map entry g' = map Some l /\ NoDup (map fst l) /\
      forall c m, In (c, m) l <-> (exists d, wf_cid c /\ In (cid_to_bytes c, d) g') /\ shown mem_order past c = Some m).
  { induction g' as [|[k d] g' IH]; intros Hi Hnd.
    - exists []. split; [reflexivity|]. split; [constructor|]. intros c m. cbn. split; [contradiction|]. intros ((d & _ & []) & _).
    - inversion Hnd as [|? ? Hk Hnd']; subst. destruct IH as (l & E & Hnl & Hl); [intros x Hx; apply Hi; right; exact Hx|exact Hnd'|].
      destruct (entry_ok past g k d Hr (Hi _ (or_introl eq_refl))) as (c & m & Hc & -> & Ee & Es).
      exists ((c, m) :: l). split; [cbn [map]; rewrite E, Ee; reflexivity|]. split.
      + cbn [map fst]. constructor; [|exact Hnl]. intros Hin. apply in_map_iff in Hin as ([c' m'] & E' & Hin). cbn in E'. subst c'.
        apply Hl in Hin as ((d' & _ & Hin) & _). apply Hk. cbn [fst]. apply in_map_iff. exists (cid_to_bytes c, d'). auto.
      + intros c' m'. cbn [In]. rewrite Hl. split.
        * intros [[= <- <-]|((d' & Hc' & Hin) & Es')]; [|eauto 6]. split; [exists d; auto|exact Es].
        * intros ((d' & Hc' & [[= Eb <-]|Hin]) & Es').
          -- left. apply cid_to_bytes_inj in Eb; auto. subst. congruence.
          -- right. eauto. }
  destruct (H g (incl_refl g) Hn) as (l & E & Hnl & Hl). fold entry.
  change (map (fun kd : bytes * doc => _) g) with (map entry g). rewrite E.
  exists (filter (fun cm => req_matches req (snd cm)) l). split; [|split].
  - clear. induction l as [|[c m] l IH]; [reflexivity|]. cbn [map filter snd]. rewrite IH. destruct (req_matches req m); reflexivity.
  - clear -Hnl. induction l as [|[c m] l IH]; [constructor|]. inversion Hnl as [|? ? Hni Hn']; subst. cbn [filter snd].
    destruct (req_matches req m); [|auto]. cbn [map fst]. constructor; [|auto].
    intros Hi. apply Hni. apply in_map_iff in Hi as (x & Ex & Hi). apply filter_In in Hi as [Hi _]. apply in_map_iff. eauto.
  - intros c m Hc. rewrite filter_In, Hl. cbn [snd]. split; [tauto|]. intros [Es Er]. split; [|exact Er]. split; [|exact Es].
    assert (Hp : pinned past c = true) by (rewrite shown_pinned, Es; reflexivity).
    rewrite <- (present_spec past g c Hr Hc) in Hp. destruct (pget c g) as [d|] eqn:Ep; [|discriminate].
    exists d. split; [exact Hc|]. apply pget_in. exact Ep.
Qed.

(** * [query] *)
Section Query.
  Variable other_base : N -> bytes -> option bytes.
  Variables (past : list pop) (g : pins).
  Hypothesis Hr : mrep past g.

  Definition mem_asked (req : option mode) (c : cid) : bool :=
    match shown mem_order past c with Some m => req_matches req m | None => false end.

  Lemma pick_ok c d : wf_cid c -> pget c g = Some d ->
    exists k, pick_kind other_base d = Ok k /\ kind_true to_v1 past c k /\ shown mem_order past c = Some (kind_mode k).
  Proof.
    intros Hc Ep. pose proof Hr as (Hg & H & _ & Hw). destruct (H c Hc) as (Hd & Hrec & Hb).
    pose proof (present_spec past g c Hr Hc) as Hp. rewrite Ep, shown_pinned in Hp. cbn [is_some] in Hp.
    pose proof (doc_mode_shown past g c Hr Hc) as Em.
    assert (El : look g c = d) by (unfold look; rewrite Ep; reflexivity). rewrite El in *.
    unfold pick_kind. destruct (doc_mode d) as [m|] eqn:E; rewrite <- Em in Hp |- *; [|discriminate].
    unfold doc_mode in E. destruct (rec_set (d_rec d)) eqn:Er.
    - injection E as <-. rewrite Hrec in *. destruct (recursive past c) eqn:Erc; [|discriminate].
      eexists. split; [reflexivity|]. cbn. split; [congruence|reflexivity].
    - destruct (d_by d) as [|t l] eqn:Eb.
      + destruct (d_direct d) eqn:Ed; [|discriminate]. injection E as <-. eexists. split; [reflexivity|]. cbn. split; [congruence|reflexivity].
      + injection E as <-. destruct (proj1 (Hb t) (or_introl eq_refl)) as (root & Hf & ->).
        assert (Hwr : wf_cid root).
        { apply Hw. apply refers_spec in Hf as (rs & Ers & _). eapply recursive_roots; eauto. }
        unfold text1. rewrite cid_text_roundtrip by (apply wf_to_v1; exact Hwr).
        eexists. split; [reflexivity|]. cbn. split; [eauto|reflexivity].
  Qed.

  Lemma mem_query_ok req ids : Forall wf_cid ids ->
    match mem_query other_base g ids req with
    | Ok ans =>
        map fst ans = ids /\
        forall c k, In (c, k) ans -> kind_true to_v1 past c k /\ req_matches req (kind_mode k) = true
    | Err _ => exists c, In c ids /\ mem_asked req c = false
    | Panic => False
    end.
  Proof.
    induction 1 as [|c ids Hc HF IH]; [split; [reflexivity|intros c k []]|]. cbn [mem_query].
    destruct (pget c g) as [d|] eqn:Ep.
    - destruct (pick_ok c d Hc Ep) as (k & -> & Hk & Es).
      destruct (req_matches req (kind_mode k)) eqn:Eq.
      + destruct (mem_query other_base g ids req) as [l|e|].
        * destruct IH as [A B]. split; [cbn; rewrite A; reflexivity|]. intros c' k' [[= <- <-]|Hi]; auto.
        * destruct IH as (x & Hx & E). exists x. split; [right; exact Hx|exact E].
        * exact IH.
      + exists c. split; [left; reflexivity|]. unfold mem_asked. rewrite Es. exact Eq.
    - exists c. split; [left; reflexivity|]. unfold mem_asked.
      pose proof (present_spec past g c Hr Hc) as Hp. rewrite Ep, shown_pinned in Hp.
      destruct (shown mem_order past c); [discriminate|reflexivity].
  Qed.
  Lemma mem_query_pinned req ids ans : Forall wf_cid ids -> mem_query other_base g ids req = Ok ans ->
    forall c, In c ids -> mem_asked req c = true.
  Proof.
    intros HF. revert ans. induction HF as [|c ids Hc HF IH]; intros ans E x Hx; [destruct Hx|]. cbn [mem_query] in E.
    destruct (pget c g) as [d|] eqn:Ep; [|discriminate].
    destruct (pick_ok c d Hc Ep) as (k & Ek & Hk & Es). rewrite Ek in E.
    destruct (req_matches req (kind_mode k)) eqn:Eq; [|discriminate].
    destruct (mem_query other_base g ids req) as [l|e|] eqn:El; try discriminate.
    destruct Hx as [<-|Hx]; [|apply (IH l eq_refl x Hx)]. unfold mem_asked. rewrite Es. exact Eq.
  Qed.
End Query.
