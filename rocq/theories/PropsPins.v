(** C19-C25: pins. *)
From Verif Require Import Base Wire Cid CidProofs Text FMap FsPaths FsPathsProofs BlockSpec MemBlocks MemBlocksProofs
  FsBlocks FsBlocksProofs PinSpec PinSpecProofs MemPins MemPinsProofs MemPinsReads FsPins FsPinsProofs FsPinsReads KvPins KvPinsProofs PinnedRepo.
Local Open Scope N_scope.

(** Pin calls whose cids are [Cid] values. *)
Notation wf_pop := PinSpec.wf_op.

(** Example cids: a directory, two files in it, another directory, and an alias of the first. *)
Definition hash (n : N) : bytes := repeat n 32.
Definition dir1 : cid := CidV0 (hash 1).
Definition dir1_v1 : cid := CidV1 112 (Build_multihash 18 (hash 1)).
Definition file_a : cid := CidV1 85 (Build_multihash 18 (hash 2)).
Definition file_b : cid := CidV0 (hash 3).
Definition dir2 : cid := CidV0 (hash 4).
Definition links (c : cid) : list cid :=
  if cid_eqb c dir1 then [file_a; file_b] else if cid_eqb c dir1_v1 then [file_a; file_b]
  else if cid_eqb c dir2 then [file_b] else [].
Definition of_dag (c : cid) : refs := mk_refs (links c) false.
Lemma ex_wf : wf_cid dir1 /\ wf_cid dir1_v1 /\ wf_cid file_a /\ wf_cid file_b /\ wf_cid dir2.
Proof. repeat split; try reflexivity; repeat constructor. Qed.
Lemma links_wf c : Forall wf_cid (links c).
Proof.
  destruct ex_wf as (A & B & C & D & E). unfold links.
  destruct (cid_eqb c dir1); [repeat constructor; assumption|]. destruct (cid_eqb c dir1_v1); [repeat constructor; assumption|].
  destruct (cid_eqb c dir2); repeat constructor; assumption.
Qed.
Lemma links_nodup c : NoDup (links c).
Proof.
  assert (H : NoDup [file_a; file_b]) by (constructor; [intros [[=]|[]]|constructor; [intros []|constructor]]).
  unfold links. destruct (cid_eqb c dir1); [exact H|]. destruct (cid_eqb c dir1_v1); [exact H|].
  destruct (cid_eqb c dir2); [|constructor]. constructor; [intros []|constructor].
Qed.
Ltac ex_ops := repeat (constructor; [split; [split; [apply ex_wf|try apply links_wf; try constructor]|cbn; auto]|]); try constructor.

(** * C20: the in-memory store *)

(** The roots of recursive pins are not given in two versions. *)
Definition one_version (h : list pop) : Prop :=
  forall a r b r', In (PinRec a r) h -> In (PinRec b r') h -> to_v1 a = to_v1 b -> a = b.

(** A cid pinned in several modes is shown in the first of these. *)
Definition mem_shown (past : list pop) (c : cid) : option mode := shown [Recursive; Indirect; Direct] past c.

Definition mem_agrees (past : list pop) (g : pins) : Prop :=
  (forall c, wf_cid c -> mem_is_pinned g c = pinned past c) /\
  (forall req, exists l, mem_pin_list g req = map Some l /\ NoDup (map fst l) /\
     forall c m, wf_cid c -> (In (c, m) l <-> mem_shown past c = Some m /\ req_matches req m = true)) /\
  (forall ob req ids, Forall wf_cid ids ->
     match mem_query ob g ids req with
     | Ok ans =>
         map fst ans = ids /\
         (forall c k, In (c, k) ans -> kind_true to_v1 past c k /\ mem_shown past c = Some (kind_mode k) /\ req_matches req (kind_mode k) = true)
     | Err _ => exists c, In c ids /\ forall m, mem_shown past c = Some m -> req_matches req m = false
     | Panic => False
     end).

Lemma mrep_agrees past g : mrep past g -> mem_agrees past g.
Proof.
  intros Hr. split; [|split].
  - intros c Hc. apply present_spec; assumption.
  - intros req. apply mem_list_ok. exact Hr.
  - intros ob req ids HF. pose proof (mem_query_ok ob past g Hr req ids HF) as H.
    destruct (mem_query ob g ids req) as [ans|e|] eqn:E; [|destruct H as (c & Hc & Ha)|exact H].
    + destruct H as [H1 H2]. split; [exact H1|]. intros c k Hi. destruct (H2 c k Hi) as [H3 H4]. split; [exact H3|]. split; [|exact H4].
      (* the kind is the one shown *)
      clear H1 H2 H3 H4. revert ans E Hi. induction HF as [|x ids Hx HF IH]; intros ans E Hi; cbn [mem_query] in E.
      { injection E as <-. destruct Hi. }
      destruct (pget x g) as [d|] eqn:Ep; [|discriminate]. destruct (pick_ok ob past g Hr x d Hx Ep) as (k' & Ek & _ & Es).
      rewrite Ek in E. destruct (req_matches req (kind_mode k')); [|discriminate].
      destruct (mem_query ob g ids req) as [l|e|]; try discriminate. injection E as <-.
      destruct Hi as [[= <- <-]|Hi]; [exact Es|]. apply (IH l eq_refl Hi).
    + exists c. split; [exact Hc|]. intros m Em. unfold mem_asked in Ha. unfold mem_shown in Em. change mem_order with [Recursive; Indirect; Direct] in Ha.
      rewrite Em in Ha. exact Ha.
Qed.

Lemma mem_history refs_of h :
  (forall c, NoDup (refs_of c)) -> Forall (fun o => wf_pop o /\ from_dag refs_of o) h -> one_version h ->
  let r := prun mem_pin_call [] [] h in rep refs_of (roots h) (snd r) (fst r).
Proof.
  intros Hn HF H1 r. apply history_rep; [exact Hn| |].
  - intros a b Ha Hb. apply roots_in in Ha as [ra Ha]. apply roots_in in Hb as [rb Hb]. eapply H1; eauto.
  - rewrite Forall_forall in *. intros o Ho. destruct (HF o Ho) as [Hw Hd]. split; [exact Hw|]. split; [exact Hd|].
    destruct o as [c|c rr|c|c rr]; auto. apply roots_in. eauto.
Qed.

(** After any history of calls whose reference streams list the (fixed) references of their root, and
    whose recursive roots are not given in two versions of one cid, [is_pinned] answers the pinned
    set, [list] shows each pinned cid once in its first mode, and [query] answers exactly when every
    cid is shown in the mode asked for, with true kinds. *)
Theorem c20_memory_pins_partial : forall refs_of h,
  (forall c, NoDup (refs_of c)) -> Forall (fun o => wf_pop o /\ from_dag refs_of o) h -> one_version h ->
  let (g, past) := prun mem_pin_call [] [] h in mem_agrees past g.
Proof.
  intros refs_of h Hn HF H1. pose proof (mem_history refs_of h Hn HF H1) as [Hr _].
  destruct (prun mem_pin_call [] [] h) as [g past]. apply mrep_agrees. exact Hr.
Qed.
Print Assumptions c20_memory_pins_partial.

(** Which calls succeed: pinning what is pinned recursively fails, and so does unpinning what is not
    pinned that way, or recursively unpinning a direct pin that something refers to. *)
Theorem c20_memory_calls_partial : forall refs_of h o,
  (forall c, NoDup (refs_of c)) -> Forall (fun o => wf_pop o /\ from_dag refs_of o) (o :: h) -> one_version (o :: h) ->
  let (g, past) := prun mem_pin_call [] [] h in
  (snd (mem_pin_call g o) = Ok tt <->
   match o with
   | PinDirect c | PinRec c _ => recursive past c = None
   | UnpinDirect c => direct past c = true
   | UnpinRec c _ => recursive past c <> None \/ (direct past c = true /\ indirect past c = false)
   end).
Proof.
  intros refs_of h o Hn HF H1.
  pose proof (mem_history refs_of (o :: h) Hn HF H1) as _.
  assert (Hrep : let r := prun mem_pin_call [] [] h in rep refs_of (roots (o :: h)) (snd r) (fst r)).
  { apply history_rep; [exact Hn| |].
    - intros a b Ha Hb. apply roots_in in Ha as [ra Ha]. apply roots_in in Hb as [rb Hb]. eapply H1; eauto.
    - rewrite Forall_forall in *. intros x Hx. destruct (HF x (or_intror Hx)) as [Hw Hd]. split; [exact Hw|]. split; [exact Hd|].
      destruct x as [c|c rr|c|c rr]; auto. apply roots_in. exists rr. right. exact Hx. }
  cbn zeta in Hrep. destruct (prun mem_pin_call [] [] h) as [g past]. cbn [fst snd] in Hrep.
  inversion HF as [|? ? [Hw Hd] _]; subst.
  pose proof (call_ok_result refs_of Hn (roots (o :: h))) as Hc.
  assert (Hv : forall a b, In a (roots (o :: h)) -> In b (roots (o :: h)) -> to_v1 a = to_v1 b -> a = b).
  { intros a b Ha Hb. apply roots_in in Ha as [ra Ha]. apply roots_in in Hb as [rb Hb]. eapply H1; eauto. }
  specialize (Hc Hv past g o Hrep).
  assert (Ho : call_ok refs_of (roots (o :: h)) o).
  { split; [exact Hw|]. split; [exact Hd|]. destruct o; auto. left. reflexivity. }
  specialize (Hc Ho). unfold result in Hc.
  assert (E : snd (mem_pin_call g o) = Ok tt <-> mem_accepts past o = true).
  { destruct (mem_accepts past o).
    - destruct Hc as (g' & -> & _). cbn. tauto.
    - destruct Hc as (e & ->). cbn. split; discriminate. }
  rewrite E. destruct o as [c|c r|c|c r]; cbn [mem_accepts].
  - destruct (recursive past c); cbn; split; congruence.
  - destruct (recursive past c); cbn; split; congruence.
  - reflexivity.
  - destruct (recursive past c); cbn [is_some orb]; [split; [left; discriminate|reflexivity]|].
    rewrite andb_true_iff, negb_true_iff. split; [right; assumption|]. intros [H|H]; [contradiction|exact H].
Qed.
Print Assumptions c20_memory_calls_partial.

Definition ex_pins : list pop :=
  [PinRec dir1 (of_dag dir1); PinDirect file_a; PinRec dir2 (of_dag dir2); UnpinRec dir1 (of_dag dir1); PinDirect dir2].
Example c20_example :
  (forall c, NoDup (links c)) /\ Forall (fun o => wf_pop o /\ from_dag links o) ex_pins /\ one_version ex_pins /\
  let (g, past) := prun mem_pin_call [] [] ex_pins in
  length past = 4%nat /\ map (pinned past) [dir1; file_a; file_b; dir2] = [false; true; true; true] /\
  mem_pin_list g None = [Some (file_b, Indirect); Some (file_a, Direct); Some (dir2, Recursive)].
Proof.
  split; [exact links_nodup|]. split; [ex_ops|]. split.
  - unfold one_version, ex_pins. cbn [In]. intros a r b r' Ha Hb.
    destruct Ha as [[= <- _]|[[=]|[[= <- _]|[[=]|[[=]|[]]]]]]; destruct Hb as [[= <- _]|[[=]|[[= <- _]|[[=]|[[=]|[]]]]]]; vm_compute; congruence.
  - vm_compute. repeat split; reflexivity.
Qed.

(** Pinning the same dag recursively under both versions of its cid and unpinning one of them unpins
    the blocks below the other. *)
Theorem c20_two_versions_refuted : exists h,
  Forall (fun o => wf_pop o /\ from_dag links o) h /\
  let (g, past) := prun mem_pin_call [] [] h in
  length past = length h /\ refers past dir1_v1 file_a = true /\ mem_is_pinned g dir1_v1 = true /\ mem_is_pinned g file_a = false.
Proof.
  exists [PinRec dir1 (of_dag dir1); PinRec dir1_v1 (of_dag dir1_v1); UnpinRec dir1 (of_dag dir1)].
  split; [ex_ops|]. vm_compute. repeat split; reflexivity.
Qed.
Print Assumptions c20_two_versions_refuted.

(** A direct pin on something also pinned indirectly is left out when direct pins are listed, and a
    query for it as a direct pin fails. *)
Theorem c20_direct_hidden_refuted : exists h c,
  Forall (fun o => wf_pop o /\ from_dag links o) h /\ wf_cid c /\
  let (g, past) := prun mem_pin_call [] [] h in
  direct past c = true /\ mem_pin_list g (Some Direct) = [] /\ mem_query (fun _ _ => None) g [c] (Some Direct) = Err ENotPinned.
Proof.
  exists [PinRec dir1 (of_dag dir1); PinDirect file_a], file_a.
  split; [ex_ops|]. split; [apply ex_wf|]. vm_compute. repeat split; reflexivity.
Qed.
Print Assumptions c20_direct_hidden_refuted.

(** * C21: the filesystem store *)

(** Whether a listing for [req] shows [c] in mode [m]: all pins are listed, those pinned in several
    modes in the first of recursive, direct, indirect; asked for one mode, the pins of that mode. *)
Definition fs_listed (past : list pop) (req : option mode) (c : cid) (m : mode) : Prop :=
  match req with
  | None => shown [Recursive; Direct; Indirect] past c = Some m
  | Some one => m = one /\ pinned_as past c one = true
  end.
(** A query asks for cids pinned in one mode, or pinned at all. *)
Definition asked_for (past : list pop) (req : option mode) (c : cid) : bool :=
  match req with Some m => pinned_as past c m | None => pinned past c end.
(** What can be wrong in a listing of the direct pins. *)
Definition fs_agrees (exact : bool) (past : list pop) (f : fs) : Prop :=
  forall ob,
  (forall c, wf_cid c -> fs_is_pinned ob f c = Some (pinned past c)) /\
  (forall req, exists l, fs_pin_list ob f req = (l, true) /\ NoDup (map fst l) /\
     forall c m, wf_cid c ->
       (fs_listed past req c m -> In (c, m) l) /\
       (In (c, m) l -> fs_listed past req c m \/ (exact = false /\ req = Some Direct /\ m = Direct /\ recursive past c <> None))) /\
  (forall req ids, Forall wf_cid ids ->
     match fs_query ob f ids req with
     | Some ans =>
         (forall c k, In (c, k) ans -> kind_true (fun r => r) past c k /\ req_matches req (kind_mode k) = true) /\
         (forall c, In c ids <-> In c (map fst ans)) /\ (NoDup ids -> map fst ans = ids) /\
         (forall c, In c ids -> asked_for past req c = true)
     | None => exists c, In c ids /\ asked_for past req c = false
     end).

Lemma listed_as_spec past req c m : listed_as past req c m = true <-> fs_listed past req c m.
Proof.
  unfold listed_as, fs_listed. destruct req as [one|].
  - rewrite andb_true_iff. destruct (mode_eqb_spec m one); intuition congruence.
  - destruct (shown [Recursive; Direct; Indirect] past c) as [m'|]; [|split; congruence].
    destruct (mode_eqb_spec m m'); split; congruence.
Qed.

Lemma frep_agrees exact past f : frep past f -> (exact = true -> unshadowed past f) -> fs_agrees exact past f.
Proof.
  intros Hr Hu ob. split; [|split].
  - intros c Hc. apply is_pinned_ok; assumption.
  - intros req. destruct (list_shape ob past f Hr req) as (l & El & Hn & Hl & Hd). exists l. split; [exact El|]. split; [exact Hn|].
    intros c m Hc. destruct (recursive past c) as [rs|] eqn:Er.
    2:{ assert (H : In (c, m) l <-> fs_listed past req c m) by (rewrite (Hl c m Hc), listed_as_spec by congruence; reflexivity). tauto. }
    assert (Hdec : req = Some Direct \/ req <> Some Direct) by (destruct req as [[| |]|]; auto; right; discriminate).
    destruct Hdec as [->|Hne].
    2:{ assert (H : In (c, m) l <-> fs_listed past req c m) by (rewrite (Hl c m Hc), listed_as_spec by congruence; reflexivity). tauto. }
    split.
    + intros [-> H]. cbn [pinned_as] in H. pose proof (proj1 (proj2 (proj2 (proj2 Hr))) c) as Hx. rewrite Hx in H by congruence. discriminate.
    + intros Hi. destruct exact.
      * left. apply listed_as_spec. apply Hl; auto. intros _ _. apply Hu; [reflexivity|exact Hc|congruence].
      * right. rewrite (Hd eq_refl c m Hi). repeat split. congruence.
  - intros req ids HF. pose proof (query_ok ob past f Hr req ids HF) as H.
    destruct (fs_query ob f ids req) as [ans|]; [|exact H]. destruct H as (H1 & H2 & H3).
    split; [exact H1|]. split; [exact H2|]. split; [exact H3|]. intros c Hc. apply H2 in Hc. apply in_map_iff in Hc as ([c' k] & E & Hi).
    cbn in E. subst c'. destruct (H1 c k Hi) as [Hk Hm]. exact (kind_asked past req c k Hk Hm).
Qed.

Lemma fs_history h : Forall wf_pop h ->
  let r := prun fs_pin_call [] [] h in frep (snd r) (fst r) /\ unshadowed (snd r) (fst r).
Proof.
  intros HF r. apply (prun_ind fs_pin_call (fun past f => frep past f /\ unshadowed past f) wf_pop); [|exact HF|exact frep_nil].
  intros past f o [Hr Hu] Ho. pose proof (call_rep past f o Hr Ho) as H. destruct (fs_accepts past o).
  - destruct H as (f' & -> & H1 & H2). auto.
  - rewrite H. auto.
Qed.

(** After any history of calls, [is_pinned], [list] and [query] answer the pinned set and its modes. *)
Theorem c21_filesystem_pins : forall h, Forall wf_pop h ->
  let (f, past) := prun fs_pin_call [] [] h in fs_agrees true past f.
Proof.
  intros h HF. pose proof (fs_history h HF) as [Hr Hu]. destruct (prun fs_pin_call [] [] h) as [f past].
  apply frep_agrees; auto.
Qed.
Print Assumptions c21_filesystem_pins.

(** Which calls succeed: a direct pin needs the cid not to be pinned recursively, a recursive one only
    a stream that does not fail, and unpinning needs a pin of its own. *)
Theorem c21_filesystem_calls : forall h o, Forall wf_pop (o :: h) ->
  let (f, past) := prun fs_pin_call [] [] h in
  (snd (fs_pin_call f o) = Ok tt <->
   match o with
   | PinDirect c => recursive past c = None
   | PinRec _ r => broken r = false
   | UnpinDirect c => direct past c = true
   | UnpinRec c _ => recursive past c <> None \/ direct past c = true
   end).
Proof.
  intros h o HF. inversion HF as [|? ? Ho Hh]; subst. pose proof (fs_history h Hh) as [Hr _].
  destruct (prun fs_pin_call [] [] h) as [f past]. pose proof (call_rep past f o Hr Ho) as H.
  assert (E : snd (fs_pin_call f o) = Ok tt <-> fs_accepts past o = true).
  { destruct (fs_accepts past o).
    - destruct H as (f' & -> & _). cbn. tauto.
    - rewrite H. cbn. split; discriminate. }
  rewrite E. destruct o as [c|c r|c|c r]; cbn [fs_accepts].
  - destruct (recursive past c); cbn; split; congruence.
  - apply negb_true_iff.
  - reflexivity.
  - destruct (recursive past c); cbn [is_some orb]; [split; [left; discriminate|reflexivity]|].
    split; [right; assumption|]. intros [H'|H']; [contradiction|exact H'].
Qed.
Print Assumptions c21_filesystem_calls.

Example c21_example : Forall wf_pop ex_pins /\
  let (f, past) := prun fs_pin_call [] [] ex_pins in
  length past = 4%nat /\ map (pinned past) [dir1; file_a; file_b; dir2] = [false; true; true; true] /\
  fs_pin_list (fun _ _ => None) f None = ([(dir2, Recursive); (file_a, Direct); (file_b, Indirect)], true) /\
  fs_query (fun _ _ => None) f [file_b] None = Some [(file_b, KIndirect dir2)].
Proof.
  split; [|vm_compute; repeat split; reflexivity].
  repeat (constructor; [split; [apply ex_wf|try apply links_wf; try constructor]|]); constructor.
Qed.

(** * C22: crashes *)
Inductive pevent :=
| PCall (o : pop)
| PCrash (o : pop) (n : nat).   (* the process stops after [n] filesystem calls of this call *)
Definition pevent_op (e : pevent) : pop := match e with PCall o | PCrash o _ => o end.
(** The disk after a history. *)
Definition disk (h : list pevent) : fs :=
  fold_left (fun f e => match e with PCall o => fst (fs_pin_call f o) | PCrash o n => fs_pin_crash f o n end) h [].
(** A history tells which calls took effect (latest first): a completed call if it succeeded, an
    interrupted one, either way, provided it would have succeeded. *)
Inductive effective : list pevent -> list pop -> Prop :=
| eff_nil : effective [] []
| eff_call h past o : effective h past ->
    effective (h ++ [PCall o]) (match snd (fs_pin_call (disk h) o) with Ok _ => o :: past | _ => past end)
| eff_before h past o n : effective h past -> effective (h ++ [PCrash o n]) past
| eff_after h past o n : effective h past -> snd (fs_pin_call (disk h) o) = Ok tt -> effective (h ++ [PCrash o n]) (o :: past).

Lemma disk_snoc h e : disk (h ++ [e]) = match e with PCall o => fst (fs_pin_call (disk h) o) | PCrash o n => fs_pin_crash (disk h) o n end.
Proof. unfold disk. rewrite fold_left_app. reflexivity. Qed.

Lemma crash_history h : Forall (fun e => wf_pop (pevent_op e)) h -> exists past, effective h past /\ frep past (disk h).
Proof.
  induction h as [|e h IH] using rev_ind; intros HF; [exists []; split; [constructor|apply frep_nil]|].
  apply Forall_app in HF as [HF He]. inversion He as [|? ? Ho _]; subst. destruct (IH HF) as (past & Hp & Hr).
  destruct e as [o|o n]; cbn [pevent_op] in Ho.
  - pose proof (call_rep past (disk h) o Hr Ho) as H. destruct (fs_accepts past o).
    + destruct H as (f' & E & H1 & _). exists (o :: past). split.
      * pose proof (eff_call h past o Hp) as He'. rewrite E in He'. exact He'.
      * rewrite disk_snoc, E. exact H1.
    + exists past. split.
      * pose proof (eff_call h past o Hp) as He'. rewrite H in He'. exact He'.
      * rewrite disk_snoc, H. exact Hr.
  - destruct (crash_rep past (disk h) o Hr Ho n) as [[_ H]|(Ha & H & _)].
    + exists past. split; [constructor; exact Hp|]. rewrite disk_snoc. exact H.
    + exists (o :: past). split; [|rewrite disk_snoc; exact H]. constructor; [exact Hp|].
      pose proof (call_rep past (disk h) o Hr Ho) as Hc. rewrite Ha in Hc. destruct Hc as (f' & -> & _). reflexivity.
Qed.

(** Whatever calls completed and crashed in whatever order, every interrupted call either took effect
    or did not: the answers are those of the calls which took effect.  The only trace of a crash is
    that a listing of the direct pins may show a recursive pin as well. *)
Theorem c22_crashes : forall h, Forall (fun e => wf_pop (pevent_op e)) h ->
  exists past, effective h past /\ fs_agrees false past (disk h).
Proof.
  intros h HF. destruct (crash_history h HF) as (past & Hp & Hr). exists past. split; [exact Hp|].
  apply frep_agrees; [exact Hr|discriminate].
Qed.
Print Assumptions c22_crashes.

(** An interrupted call changes nothing about other cids it does not refer to: their own pins and the
    references of other roots stay. *)
Theorem c22_other_pins_kept : forall h o n, Forall (fun e => wf_pop (pevent_op e)) (h ++ [PCrash o n]) ->
  exists past past', fs_agrees false past (disk h) /\ fs_agrees false past' (disk (h ++ [PCrash o n])) /\
    forall c, c <> op_cid o -> recursive past' c = recursive past c /\ direct past' c = direct past c.
Proof.
  intros h o n HF. apply Forall_app in HF as [HF Ho]. inversion Ho as [|? ? Ho' _]; subst. cbn [pevent_op] in Ho'.
  destruct (crash_history h HF) as (past & _ & Hr). exists past.
  assert (Hn : forall past f, frep past f -> fs_agrees false past f) by (intros; apply frep_agrees; [assumption|discriminate]).
  destruct (crash_rep past (disk h) o Hr Ho' n) as [[_ H]|(_ & H & _)].
  - exists past. split; [auto|]. split; [apply Hn; rewrite disk_snoc; exact H|auto].
  - exists (o :: past). split; [auto|]. split; [apply Hn; rewrite disk_snoc; exact H|].
    intros c Hc. destruct o as [x|x r|x|x r]; cbn [recursive direct op_cid] in *;
      destruct (cid_eqb_spec c x); try contradiction; auto.
Qed.
Print Assumptions c22_other_pins_kept.

Example c22_example :
  let h := [PCall (PinDirect dir1); PCrash (PinRec dir1 (of_dag dir1)) 7; PCrash (PinRec dir2 (of_dag dir2)) 9;
            PCrash (PinRec dir1 (of_dag dir1)) 1000; PCrash (UnpinRec dir1 (of_dag dir1)) 1; PCall (PinDirect file_a)] in
  Forall (fun e => wf_pop (pevent_op e)) h /\
  fs_is_pinned (fun _ _ => None) (disk (firstn 3 h)) file_b = Some false /\
  fs_is_pinned (fun _ _ => None) (disk (firstn 4 h)) file_b = Some true /\
  fs_pin_list (fun _ _ => None) (disk h) None = ([(dir1, Recursive); (file_a, Direct); (file_b, Indirect)], true).
Proof.
  cbn zeta. split; [|vm_compute; repeat split; reflexivity].
  repeat (constructor; [split; [apply ex_wf|try apply links_wf; try constructor]|]); constructor.
Qed.

(** The trace a crash can leave: between the rename and the removal of the direct pin file. *)
Lemma first_direct : frep [PinDirect dir1] (disk [PCall (PinDirect dir1)]) /\ snd (fs_pin_call [] (PinDirect dir1)) = Ok tt.
Proof.
  assert (Hw : wf_pop (PinDirect dir1)) by (split; [apply ex_wf|constructor]).
  destruct (call_rep [] [] (PinDirect dir1) (proj1 frep_nil) Hw) as (f' & E & Hf & _).
  change (disk [PCall (PinDirect dir1)]) with (fst (fs_pin_call [] (PinDirect dir1))). rewrite E. split; [exact Hf|reflexivity].
Qed.
Lemma crashed_listing :
  fs_get (rfile dir1) (fs_pin_crash (disk [PCall (PinDirect dir1)]) (PinRec dir1 (of_dag dir1)) 114) <> None /\
  fs_pin_list (fun _ _ => None) (fs_pin_crash (disk [PCall (PinDirect dir1)]) (PinRec dir1 (of_dag dir1)) 114) (Some Direct) = ([(dir1, Direct)], true).
Proof. split; [vm_compute; discriminate|vm_compute; reflexivity]. Qed.
Theorem c22_direct_listing_refuted : exists h past, Forall (fun e => wf_pop (pevent_op e)) h /\ effective h past /\
  fs_agrees false past (disk h) /\ direct past dir1 = false /\
  fs_pin_list (fun _ _ => None) (disk h) (Some Direct) = ([(dir1, Direct)], true).
Proof.
  set (o := PinRec dir1 (of_dag dir1)). set (h1 := [PCall (PinDirect dir1)]).
  assert (Ho : wf_pop o) by (split; [apply ex_wf|apply links_wf]).
  exists (h1 ++ [PCrash o 114]), [o; PinDirect dir1]. destruct first_direct as [Hr Hok]. fold h1 in Hr.
  assert (Hp : effective h1 [PinDirect dir1]).
  { pose proof (eff_call [] [] (PinDirect dir1) eff_nil) as H. change (disk []) with (@nil (path * bytes)) in H. rewrite Hok in H. exact H. }
  split; [repeat (constructor; [split; [apply ex_wf|try apply links_wf; try constructor]|]); constructor|].
  assert (Hc : frep [o; PinDirect dir1] (disk (h1 ++ [PCrash o 114])) /\ fs_accepts [PinDirect dir1] o = true).
  { rewrite disk_snoc. destruct (crash_rep [PinDirect dir1] _ o Hr Ho 114) as [[_ H]|(Ha & H & _)]; [|auto].
    exfalso. destruct H as (_ & H & _). specialize (H dir1 (proj1 ex_wf)). apply (proj1 crashed_listing). exact H. }
  destruct Hc as [Hc Ha]. split.
  { apply eff_after; [exact Hp|]. pose proof (call_rep _ _ o Hr Ho) as H. rewrite Ha in H. destruct H as (f' & -> & _). reflexivity. }
  split; [apply frep_agrees; [exact Hc|discriminate]|]. split; [reflexivity|].
  rewrite disk_snoc. exact (proj2 crashed_listing).
Qed.
Print Assumptions c22_direct_listing_refuted.
