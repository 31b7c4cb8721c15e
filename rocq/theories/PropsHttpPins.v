(** C66: pins over http. *)
From Verif Require Import Base Wire Cid CidProofs Text TextProofs Ipld FMap BlockSpec FsPaths FsPathsProofs FsBlocks FsBlocksProofs PinSpec FsPins FsPinsProofs FsPinsReads PinnedRepo RefsHttp RefsHttpSpec RefsHttpProofs
  HttpOptions HttpOptionsProofs NodePins NodePinsSpec NodePinsProofs HttpPins HttpPinsSpec HttpPinsProofs.
From Verif Require HttpBlock RefsSpec PropsPins PropsNodePins PropsHttpBlock PropsResolve PropsRefs.
From Coq Require Import Permutation.
Local Open Scope N_scope.
Import PropsPins (fs_agrees, fs_listed, asked_for, frep_agrees).

(** The responses. *)
Theorem c66_lines l : read_ls_body (concat (map ls_line l)) = Some l.
Proof. apply read_ls_lines_body. Qed.
Print Assumptions c66_lines.

Section Props.
  Variable duration : bytes -> bool.
  Variable ob : N -> bytes -> option bytes.
  Variable decode : cid -> bytes -> outcome ipld unit.
  Variable checks : bool.
  Variable fuel : nat.
  Variable storage_error : bytes.
  Notation arguments := (PropsHttpBlock.arguments ob).
  Notation run := (fs_node_run ob decode checks fuel ([], []) []).
  Notation look s := (f_get (fst s)).
  Notation is_pinned s c := (fs_is_pinned ob (snd s) c = Some true).
  Notation the_add := (pin_add ob decode checks fuel).
  Notation the_ls := (pin_ls duration ob storage_error).
  Notation the_rm := (pin_rm ob decode checks fuel).

  Lemma arguments_readable query cs : arguments query cs -> Forall (fun v => a_cid ob v = true) (values k_arg query).
  Proof. unfold PropsHttpBlock.arguments. induction 1 as [|a c l cs E H IH]; constructor; [unfold a_cid; rewrite E; reflexivity|exact IH]. Qed.
  Lemma flag_once d vs b : flag_or d vs b -> vs = [] \/ exists v, vs = [v] /\ a_bool v = true.
  Proof. intros [[E _]|[[E _]|[E _]]]; [left; exact E|right; exists v_true|right; exists v_false]; split; try exact E; reflexivity. Qed.

  (** ** Which requests are understood *)
  Definition add_query (query : list (bytes * bytes)) (cs : list cid) (rec progress : bool) : Prop :=
    arguments query cs /\ cs <> [] /\ flag_or false (values k_recursive query) rec /\ flag_or false (values k_progress query) progress.
  Lemma add_parsed query cs rec progress : add_query query cs rec progress ->
    exists q, read_query (add_rules ob) [] query = Ok q /\ HttpBlock.parse_cids ob (all_of k_arg q) = Some cs /\
      bool_of false (one_of k_recursive q) = rec /\ bool_of false (one_of k_progress q) = progress.
  Proof.
    intros (Ha & Hn & Hr & Hp). destruct (read_query_accepts (add_rules ob) query []) as (q & Eq).
    { intros k r. unfold add_rules. destruct (beq_spec k k_arg) as [->|_]; [intros [= <-]; cbn [readable HttpOptions.once]; split; [eapply arguments_readable; exact Ha|discriminate]|].
      destruct (beq_spec k k_recursive) as [->|_]; [intros [= <-]; apply (PropsHttpBlock.once_ok (add_rules ob)); [eapply flag_once; exact Hr|reflexivity]|].
      destruct (beq_spec k k_progress) as [->|_]; [intros [= <-]; apply (PropsHttpBlock.once_ok (add_rules ob)); [eapply flag_once; exact Hp|reflexivity]|discriminate]. }
    exists q. split; [exact Eq|]. split; [apply PropsHttpBlock.parse_cids_spec; rewrite (read_all_of _ _ _ k_arg Eq) by discriminate; exact Ha|].
    split; [exact (flag_or_fun _ _ _ _ (read_flag _ _ _ k_recursive false Eq eq_refl) Hr)|exact (flag_or_fun _ _ _ _ (read_flag _ _ _ k_progress false Eq eq_refl) Hp)].
  Qed.
  (** Any other request is refused, and changes nothing; so is one with "progress". *)
  Theorem c66_add_refused query order s :
    (exists cs rec, add_query query cs rec false) \/ (exists cs rec, add_query query cs rec true) /\ the_add query order s = (s, Unimplemented) \/ the_add query order s = (s, Refused).
  Proof.
    unfold pin_add. destruct (read_query (add_rules ob) [] query) as [q|e|] eqn:Eq; [|right; right; reflexivity|right; right; reflexivity].
    destruct (HttpBlock.parse_cids ob (all_of k_arg q)) as [[|c cs]|] eqn:Ec; [right; right; reflexivity| |right; right; reflexivity].
    apply PropsHttpBlock.parse_cids_spec in Ec. rewrite (read_all_of _ _ _ k_arg Eq) in Ec by discriminate.
    pose proof (read_flag _ _ _ k_recursive false Eq eq_refl) as Hr. pose proof (read_flag _ _ _ k_progress false Eq eq_refl) as Hp.
    destruct (bool_of false (one_of k_progress q)); [right; left; split; [|reflexivity]|left]; exists (c :: cs), (bool_of false (one_of k_recursive q)); (split; [exact Ec|]; split; [discriminate|]; auto).
  Qed.

  Variable h : list nop.
  Hypothesis Hwf : Forall nop_wf h.

  (** ** Adding *)
  (** In whichever order the pins are made: the blocks are not changed, nothing loses its pin, nothing
      is pinned beyond what was asked for; an answer names the arguments, and then all that was asked
      for is there and pinned.  And there is one when all the dags can be pinned. *)
  Definition asked_pins (rec : bool) (s : state) (c d : cid) : Prop := if rec then under (look s) decode c d else d = c.
  Definition there (rec : bool) (s : state) (c : cid) : Prop := if rec then complete (look s) decode c else look s c <> None.
  Definition can_pin (rec : bool) (s : state) (c : cid) : Prop :=
    if rec then PropsNodePins.can_walk decode fuel s c /\ complete (look s) decode c
    else look s c <> None /\ exists l, fs_pin_list ob (snd s) (Some Recursive) = (l, true) /\ ~ In (c, Recursive) l.
  Theorem c66_add query order cs rec :
    add_query query cs rec false -> Forall wf_cid cs -> Permutation order (seq 0 (length cs)) ->
    by_own_name decode (h ++ map (fun c => NPin c rec) cs) ->
    let (s, ps) := run h in
    let (s', r) := the_add query order s in
    fst s' = fst s /\
    (forall d, wf_cid d -> is_pinned s d -> is_pinned s' d) /\
    (forall d, wf_cid d -> is_pinned s' d -> is_pinned s d \/ exists c, In c cs /\ asked_pins rec s c d) /\
    (forall b, r = Body b -> read_pins b = Some (map cid_to_text cs) /\
       forall c, In c cs -> there rec s c /\ forall d, wf_cid d -> asked_pins rec s c d -> is_pinned s' d) /\
    ((forall c, In c cs -> can_pin rec s c) -> exists b, r = Body b).
  Proof.
    intros Hq Hcs Hord Hown. set (all := h ++ map (fun c => NPin c rec) cs) in *.
    pose proof (inv_all ob decode checks fuel all Hown h Hwf (incl_appl _ (incl_refl _)) _ _ (inv_begin decode all)) as Hinv.
    destruct (run h) as [s ps]. destruct (add_parsed _ _ _ _ Hq) as (q & Eq & Ec & Er & Ep). unfold pin_add. rewrite Eq, Ec, Er, Ep.
    destruct cs as [|c0 cs0]; [destruct Hq as (_ & X & _); contradiction|]. set (cs := c0 :: cs0) in *.
    pose proof (in_order_perm cs order Hord) as Hperm.
    assert (Hl : Forall wf_cid (in_order cs order)) by (eapply Permutation_Forall; [apply Permutation_sym; exact Hperm|exact Hcs]).
    assert (Hin : forall c, In c (in_order cs order) <-> In c cs) by (intros c; split; apply Permutation_in; [exact Hperm|apply Permutation_sym; exact Hperm]).
    assert (Hi : incl (map (fun c => NPin c rec) (in_order cs order)) all).
    { intros x Hx. apply in_map_iff in Hx as (c & <- & Hc). apply in_or_app. right. apply in_map_iff. exists c. split; [reflexivity|apply Hin, Hc]. }
    pose proof (pin_all_spec ob decode checks fuel all Hown rec (in_order cs order) Hl Hi s ps Hinv) as H.
    destruct (pin_all ob decode checks fuel s rec (in_order cs order)) as [s' a]. destruct H as (E & ps' & Hinv' & M1 & M2 & M3 & M4).
    assert (P : forall d, wf_cid d -> fs_is_pinned ob (snd s) d = Some (pinned ps d)) by (intros d Hd; apply is_pinned_ok; [apply Hinv|exact Hd]).
    assert (P' : forall d, wf_cid d -> fs_is_pinned ob (snd s') d = Some (pinned ps' d)) by (intros d Hd; apply is_pinned_ok; [apply Hinv'|exact Hd]).
    split; [exact E|]. split; [intros d Hd X; rewrite P in X by exact Hd; rewrite P' by exact Hd; f_equal; apply M1; congruence|].
    split; [|split].
    - intros d Hd X. rewrite P' in X by exact Hd. rewrite P by exact Hd. destruct (M2 d ltac:(congruence)) as [Y|(c & Hc & Y)]; [left; congruence|]. right. exists c. split; [apply Hin, Hc|exact Y].
    - intros b Eb. assert (a = Done) by (destruct a; [reflexivity|discriminate..]). subst a. cbn [replied] in Eb. injection Eb as <-. split; [apply read_pins_ok; discriminate|].
      intros c Hc. destruct (M3 eq_refl c ltac:(apply Hin, Hc)) as (F1 & _ & F3). split; [exact F1|]. intros d Hd Had. rewrite P' by exact Hd. f_equal. apply F3, Had.
    - intros Hall. rewrite M4; [eexists; reflexivity|]. intros c Hc. apply Hin in Hc. specialize (Hall c Hc). unfold can_pin, acceptable in *. destruct rec; [exact Hall|].
      destruct Hall as (Hg & l & El & Hn). split; [exact Hg|]. destruct Hinv as [(Hs & Hp & Hk) Hu].
      destruct (frep_agrees true ps (snd s) Hp (fun _ => Hu) ob) as (_ & HL & _). destruct (HL (Some Recursive)) as (l' & El' & _ & HIn). assert (l' = l) by congruence. subst l'.
      destruct (recursive ps c) eqn:Erc; [|reflexivity]. exfalso. apply Hn. apply HIn; [eapply Forall_forall; [exact Hcs|exact Hc]|]. split; [reflexivity|]. cbn [pinned_as]. rewrite Erc. reflexivity.
  Qed.

  (** ** Listing *)
  Definition ls_query (query : list (bytes * bytes)) (cs : list cid) (req : option mode) (quiet : option bool) : Prop :=
    arguments query cs /\ asked_type (values k_type query) req /\
    match quiet with None => values k_quiet query = [] | Some b => values k_quiet query = [if b then v_true else v_false] end /\
    (exists b, flag_or true (values k_stream query) b) /\
    (values k_timeout query = [] \/ exists t, values k_timeout query = [t] /\ duration t = true).
  Definition streamed (quiet : option bool) : bool := match quiet with Some b => b | None => true end.
  Lemma ls_parsed query cs req quiet : ls_query query cs req quiet ->
    exists q, read_query (ls_rules duration ob) [] query = Ok q /\ HttpBlock.parse_cids ob (all_of k_arg q) = Some cs /\
      match one_of k_type q with None => Some None | Some v => filter_named v end = Some req /\ bool_of true (one_of k_quiet q) = streamed quiet.
  Proof.
    intros (Ha & Hty & Hq & (b & Hs) & Ht).
    assert (Hty' : values k_type query = [] /\ req = None \/ exists v, values k_type query = [v] /\ filter_named v = Some req).
    { destruct Hty as [[[E|E] Er]|[[E Er]|[[E Er]|[E Er]]]]; [left; auto| | | |]; right; eexists; (split; [exact E|]; apply filter_named_spec; unfold asked_type; auto). }
    assert (Hq' : flag_or true (values k_quiet query) (streamed quiet)).
    { destruct quiet as [[|]|]; cbn [streamed]; [right; left|right; right|left]; auto. }
    destruct (read_query_accepts (ls_rules duration ob) query []) as (q & Eq).
    { intros k r. unfold ls_rules. destruct (beq_spec k k_arg) as [->|_]; [intros [= <-]; cbn [readable HttpOptions.once]; split; [eapply arguments_readable; exact Ha|discriminate]|].
      destruct (beq_spec k k_type) as [->|_].
      { intros [= <-]; apply (PropsHttpBlock.once_ok (ls_rules duration ob)); [|reflexivity]. destruct Hty' as [[E _]|(v & E & Ev)]; [left; exact E|right; exists v; split; [exact E|]]. cbn [readable]. rewrite Ev. reflexivity. }
      destruct (beq_spec k k_timeout) as [->|_]; [intros [= <-]; apply (PropsHttpBlock.once_ok (ls_rules duration ob)); [exact Ht|reflexivity]|].
      destruct (beq_spec k k_quiet) as [->|_]; [intros [= <-]; apply (PropsHttpBlock.once_ok (ls_rules duration ob)); [eapply flag_once; exact Hq'|reflexivity]|].
      destruct (beq_spec k k_stream) as [->|_]; [intros [= <-]; apply (PropsHttpBlock.once_ok (ls_rules duration ob)); [eapply flag_once; exact Hs|reflexivity]|discriminate]. }
    exists q. split; [exact Eq|]. split; [apply PropsHttpBlock.parse_cids_spec; rewrite (read_all_of _ _ _ k_arg Eq) by discriminate; exact Ha|].
    split; [|exact (flag_or_fun _ _ _ _ (read_flag _ _ _ k_quiet true Eq eq_refl) Hq')].
    destruct (read_once _ _ _ k_type _ Eq eq_refl eq_refl) as [[E ->]|(v & E & -> & _)].
    - destruct Hty' as [[_ ->]|(v & E' & _)]; [reflexivity|congruence].
    - destruct Hty' as [[E' _]|(v' & E' & Ev)]; [congruence|]. assert (v' = v) by congruence. subst v'. exact Ev.
  Qed.

  Hypothesis Hown : by_own_name decode h.
  Lemma run_holds : let (s, ps) := run h in inv decode h s ps.
  Proof. exact (inv_all ob decode checks fuel h Hown h Hwf (incl_refl _) _ _ (inv_begin decode h)). Qed.

  (** Without arguments there is one line for every pin of the type asked for, and no other; a cid which
      is pinned in several ways has one line. *)
  Theorem c66_ls query req quiet : ls_query query [] req quiet -> streamed quiet = true ->
    let (s, ps) := run h in
    exists body l, the_ls query s = Body body /\ read_ls_body body = Some l /\ NoDup l /\
      (forall t w, In (t, w) l <-> exists c m, wf_cid c /\ fs_listed ps req c m /\ t = cid_to_text c /\ w = mode_word m).
  Proof.
    intros Hq Hs. destruct (ls_parsed _ _ _ _ Hq) as (q & Eq & Ec & Et & Eb). pose proof run_holds as H. destruct (run h) as [s ps]. destruct H as [(Hst & Hp & Hk) Hu].
    unfold pin_ls. rewrite Eq, Ec, Et, Eb, Hs. cbn [negb].
    destruct (frep_agrees true ps (snd s) Hp (fun _ => Hu) ob) as (_ & HL & _). destruct (HL req) as (l & El & Hnd & HIn). rewrite El. rewrite app_nil_r.
    rewrite <- (map_map (fun x => (cid_to_text (fst x), mode_text (snd x))) ls_line l).
    eexists _, (map (fun x => (cid_to_text (fst x), mode_text (snd x))) l). split; [reflexivity|]. split; [apply read_ls_lines_body|].
    pose proof (fun c m => list_wf ob ps (snd s) Hp req c m l true El) as Hw. split.
    - apply (NoDup_map_inv fst). rewrite map_map. cbn [fst]. rewrite <- (map_map fst cid_to_text).
      assert (Hw' : forall c, In c (map fst l) -> wf_cid c) by (intros c Hc; apply in_map_iff in Hc as ([c' m] & <- & Hc); eapply Hw; exact Hc).
      clear - ob Hnd Hw'. induction (map fst l) as [|c r IH]; [constructor|]. inversion Hnd as [|? ? Hn Hr]; subst. cbn [map]. constructor; [|apply IH; [exact Hr|intros x Hx; apply Hw'; right; exact Hx]].
      intros X. apply in_map_iff in X as (d & Ed & Hd). apply Hn. assert (d = c); [|congruence].
      pose proof (cid_text_roundtrip ob c (Hw' c (or_introl eq_refl))) as R1. pose proof (cid_text_roundtrip ob d (Hw' d (or_intror Hd))) as R2. congruence.
    - intros t w. rewrite in_map_iff. split.
      + intros ([c m] & [= <- <-] & Hc). exists c, m. pose proof (Hw c m Hc) as Hcw. split; [exact Hcw|]. split; [|split; [reflexivity|destruct m; reflexivity]].
        destruct (HIn c m Hcw) as [_ X]. destruct (X Hc) as [Y|[[=] _]]. exact Y.
      + intros (c & m & Hcw & Hl & -> & ->). exists (c, m). split; [f_equal; destruct m; reflexivity|]. apply HIn; assumption.
  Qed.
  (** With arguments: a line for each of them, which tells how it is pinned, or an error when one of them
      is not pinned that way. *)
  Theorem c66_ls_arguments query cs req quiet : ls_query query cs req quiet -> cs <> [] -> Forall wf_cid cs -> streamed quiet = true ->
    let (s, ps) := run h in
    ((exists c, In c cs /\ asked_for ps req c = false) /\ the_ls query s = Refused) \/
    ((forall c, In c cs -> asked_for ps req c = true) /\
     exists body ans, the_ls query s = Body body /\ read_ls_body body = Some (map (fun x => (cid_to_text (fst x), kind_words (snd x))) ans) /\
       (forall c, In c cs <-> In c (map fst ans)) /\ (NoDup cs -> map fst ans = cs) /\
       forall c k, In (c, k) ans -> kind_true (fun r => r) ps c k /\ req_matches req (kind_mode k) = true).
  Proof.
    intros Hq Hn Hcs Hs. destruct (ls_parsed _ _ _ _ Hq) as (q & Eq & Ec & Et & Eb). pose proof run_holds as H. destruct (run h) as [s ps]. destruct H as [(Hst & Hp & Hk) Hu].
    unfold pin_ls. rewrite Eq, Ec, Et, Eb, Hs. cbn [negb]. destruct cs as [|c0 cs0]; [contradiction|]. set (cs := c0 :: cs0) in *.
    destruct (frep_agrees true ps (snd s) Hp (fun _ => Hu) ob) as (_ & _ & HQ). specialize (HQ req cs Hcs). destruct (fs_query ob (snd s) cs req) as [ans|]; [|left; split; [exact HQ|reflexivity]].
    right. destruct HQ as (Q1 & Q2 & Q3 & Q4). split; [exact Q4|]. rewrite <- (map_map (fun x => (cid_to_text (fst x), kind_text (snd x))) ls_line ans).
    eexists _, ans. split; [reflexivity|]. split; [|split; [exact Q2|split; [exact Q3|exact Q1]]]. rewrite read_ls_lines_body. f_equal. apply map_ext. intros [c k]. cbn [fst snd]. f_equal. destruct k; reflexivity.
  Qed.

  (** ** Removing *)
  Definition rm_query (query : list (bytes * bytes)) (c : cid) (rec : bool) : Prop :=
    arguments query [c] /\ flag_or true (values k_recursive query) rec.
  Lemma rm_parsed query c rec : rm_query query c rec ->
    exists q, read_query (rm_rules ob) [] query = Ok q /\ HttpBlock.parse_cids ob (all_of k_arg q) = Some [c] /\ bool_of true (one_of k_recursive q) = rec.
  Proof.
    intros (Ha & Hr). destruct (read_query_accepts (rm_rules ob) query []) as (q & Eq).
    { intros k r. unfold rm_rules. destruct (beq_spec k k_arg) as [->|_].
      - intros [= <-]. apply (PropsHttpBlock.once_ok (rm_rules ob)); [|reflexivity]. pose proof (arguments_readable _ _ Ha) as HF. unfold PropsHttpBlock.arguments in Ha. inversion Ha as [|a ? l ? E1 E2 E3]; subst. inversion E2; subst.
        right. exists a. split; [auto|]. rewrite <- E3 in HF. inversion HF; assumption.
      - destruct (beq_spec k k_recursive) as [->|_]; [intros [= <-]; apply (PropsHttpBlock.once_ok (rm_rules ob)); [eapply flag_once; exact Hr|reflexivity]|discriminate]. }
    exists q. split; [exact Eq|]. split; [apply PropsHttpBlock.parse_cids_spec; rewrite (read_all_of _ _ _ k_arg Eq) by discriminate; exact Ha|].
    exact (flag_or_fun _ _ _ _ (read_flag _ _ _ k_recursive true Eq eq_refl) Hr).
  Qed.
  (** Other requests are refused. *)
  Theorem c66_rm_refused query s : (exists c rec, rm_query query c rec) \/ the_rm query s = (s, Refused).
  Proof.
    unfold pin_rm. destruct (read_query (rm_rules ob) [] query) as [q|e|] eqn:Eq; [|right; reflexivity|right; reflexivity].
    destruct (HttpBlock.parse_cids ob (all_of k_arg q)) as [[|c cs]|] eqn:Ec; [right; reflexivity| |right; reflexivity]. left.
    apply PropsHttpBlock.parse_cids_spec in Ec. rewrite (read_all_of _ _ _ k_arg Eq) in Ec by discriminate. exists c, (bool_of true (one_of k_recursive q)).
    split; [|exact (read_flag _ _ _ k_recursive true Eq eq_refl)]. destruct (read_once _ _ _ k_arg _ Eq eq_refl eq_refl) as [[E _]|(v & E & _)]; rewrite E in Ec; [inversion Ec|].
    unfold PropsHttpBlock.arguments. rewrite E. inversion Ec as [|? ? ? ? X Y]; subst. inversion Y; subst. auto.
  Qed.
  (** An answered removal takes away the pin of the cid and no other: the recursive and direct one, or
      with "recursive=false" the direct one; else nothing changes. A recursive pin of a dag which can be
      walked, and with "recursive=false" a direct pin, is taken away. *)
  Theorem c66_rm query c rec : rm_query query c rec -> wf_cid c ->
    let (s, ps) := run h in
    let (s', r) := the_rm query s in
    fst s' = fst s /\
    match r with
    | Body b => read_pins b = Some [cid_to_text c] /\ exists ps', fs_agrees true ps' (snd s') /\
        (recursive ps c <> None /\ rec = true \/ direct ps c = true) /\
        forall d, recursive ps' d = (if rec && cid_eqb d c then None else recursive ps d) /\ direct ps' d = (if cid_eqb d c then false else direct ps d)
    | _ => s' = s
    end /\
    (rec = true -> recursive ps c <> None -> PropsNodePins.can_walk decode fuel s c -> exists b, r = Body b) /\
    (rec = false -> direct ps c = true -> exists b, r = Body b).
  Proof.
    intros Hq Hc. destruct (rm_parsed _ _ _ Hq) as (q & Eq & Ec & Er). pose proof run_holds as Hinv. pose proof (PropsNodePins.c64_unpin ob decode checks fuel h Hown Hwf c Hc) as Hun.
    destruct (run h) as [s ps]. unfold pin_rm. rewrite Eq, Ec, Er. pose proof (unpin_step ob decode checks fuel h Hown s ps c rec Hinv Hc) as H.
    destruct (fs_node_step ob decode checks fuel s (NUnpin c rec)) as [[s' a] acc] eqn:Est. destruct H as (E & Hinv' & Hans). split; [exact E|]. split; [|split].
    - destruct a; cbn [replied]; try exact (proj1 Hans). destruct Hans as (A1 & A2 & A3). split; [exact (read_pins_ok [c] ltac:(discriminate))|]. exists (acc ++ ps).
      split; [apply frep_agrees; [apply Hinv'|intros _; apply Hinv']|]. split; [destruct rec; [destruct (A1 eq_refl); auto|auto]|exact A3].
    - intros -> Hr Hw. specialize (Hun Hw Hr). rewrite Est in Hun. destruct Hun as (-> & _). eexists. reflexivity.
    - intros -> Hd. destruct Hinv as [(Hst & Hp & Hk) Hu]. unfold fs_node_step, node_step, remove_call in Est. cbn [negb pin_op] in Est. unfold answered in Est.
      pose proof (call_rep ps (snd s) (UnpinDirect c) Hp (conj Hc (Forall_nil _))) as Hcall. cbn [fs_accepts] in Hcall. rewrite Hd in Hcall. destruct Hcall as (f' & Ef & _). rewrite Ef in Est. cbn [fst snd] in Est.
      injection Est as <- <- <-. eexists. reflexivity.
  Qed.
End Props.
Print Assumptions c66_add_refused.
Print Assumptions c66_add.
Print Assumptions c66_ls.
Print Assumptions c66_ls_arguments.
Print Assumptions c66_rm_refused.
Print Assumptions c66_rm.

(** ** A dag A of four blocks and a loose block F, which is pinned directly. *)
Import PropsResolve PropsRefs PropsNodePins.
Definition ex_h : list nop := [put_of dA doc_A; put_of dB (IList [Link dD]); put_of dC (IList [Link dD]); put_of dD Null; put_of dF Null; NPin dF false].
Definition ex_add (query : list (bytes * bytes)) (order : list nat) (s : state) := pin_add no_base real_decode true 10 query order s.
Definition ex_ls (query : list (bytes * bytes)) (s : state) : option (list (bytes * bytes)) :=
  match pin_ls (fun _ => false) no_base [63] query s with Body b => read_ls_body b | _ => None end.
Definition arg_of (c : cid) : bytes * bytes := (k_arg, cid_to_text c).
Definition ex_query : list (bytes * bytes) := [arg_of dA; (k_recursive, v_true); arg_of dB].
Definition ex_s : state := fst (demo_run ex_h).
Definition asks : list (bytes * bytes) := [(k_type, n_recursive)].

Lemma ex_own cs rec : by_own_name real_decode (ex_h ++ map (fun c => NPin c rec) cs).
Proof.
  assert (Hno : forall r, ~ In (NRemove r) (ex_h ++ map (fun c => NPin c rec) cs)).
  { intros r Hr. apply in_app_or in Hr as [Hr|Hr].
    - unfold ex_h, put_of in Hr. cbn [In] in Hr. repeat (destruct Hr as [Hr|Hr]; [discriminate Hr|]). destruct Hr.
    - apply in_map_iff in Hr as (c & [=] & _). }
  split; [|intros c r _ Hr; destruct (Hno r Hr)].
  intros b x v name d Hin Hv Hl. split; [|intros r Hr; destruct (Hno r Hr)].
  assert (Hb : exists w, In w [doc_A; IList [Link dD]; Null] /\ b_data b = cbor_block w).
  { apply in_app_or in Hin as [Hin|Hin]; [|apply in_map_iff in Hin as (c & [=] & _)].
    unfold ex_h, put_of in Hin. cbn [In] in Hin. repeat (destruct Hin as [Hin|Hin]; [first [discriminate Hin|injection Hin as <-; eexists; split; [|cbn [b_data]; reflexivity]; cbn [In]; tauto]|]). destruct Hin. }
  destruct Hb as (w & Hw & Hb). rewrite Hb in Hv. destruct (demo_links w x v name d Hw Hv Hl) as [->|[->| ->]]; apply demo_wf; reflexivity.
Qed.
(** The hypotheses are met, the two dags are pinned, and the lists are those of the pins. *)
Example c66_example :
  add_query no_base ex_query [dA; dB] true false /\ Forall nop_wf ex_h /\
  by_own_name real_decode (ex_h ++ map (fun c => NPin c true) [dA; dB]) /\
  ls_query (fun _ => false) no_base asks [] (Some Recursive) None /\
  ls_query (fun _ => false) no_base [arg_of dD; arg_of dA] [dD; dA] None None /\
  rm_query no_base [arg_of dA] dA true /\
  match ex_add ex_query [1; 0]%nat ex_s with
  | (s, Body b) => read_pins b = Some (map cid_to_text [dA; dB]) /\ ex_ls asks s = Some [(cid_to_text dA, n_recursive); (cid_to_text dB, n_recursive)] /\
      ex_ls [arg_of dD; arg_of dA] s = Some [(cid_to_text dD, n_through ++ cid_to_text dA); (cid_to_text dA, n_recursive)] /\
      ex_ls [arg_of dF; (k_type, n_recursive)] s = None /\
      match pin_rm no_base real_decode true 10 [arg_of dA] s with
      | (s, Body _) => ex_ls [] s = Some [(cid_to_text dB, n_recursive); (cid_to_text dF, n_direct); (cid_to_text dD, n_indirect)]
      | _ => False
      end
  | _ => False
  end.
Proof.
  assert (A : forall l, Forall wf_cid l -> Forall2 (fun a c => cid_from_text no_base a = Some c) (map cid_to_text l) l).
  { induction 1; constructor; [apply cid_text_roundtrip; assumption|assumption]. }
  assert (W : wf_cid dA /\ wf_cid dB /\ wf_cid dD) by (split; [|split]; apply demo_wf; reflexivity). destruct W as (WA & WB & WD).
  split; [|split; [|split; [|split; [|split; [|split]]]]].
  - split; [exact (A [dA; dB] ltac:(auto))|]. split; [discriminate|]. split; [right; left; split; reflexivity|left; split; reflexivity].
  - repeat (constructor; [apply demo_wf; reflexivity|]). constructor.
  - apply ex_own.
  - split; [constructor|]. split; [right; right; right; split; reflexivity|]. split; [reflexivity|]. split; [exists true; left; auto|left; reflexivity].
  - split; [exact (A [dD; dA] ltac:(auto))|]. split; [left; auto|]. split; [reflexivity|]. split; [exists true; left; auto|left; reflexivity].
  - split; [exact (A [dA] ltac:(auto))|]. left. auto.
  - vm_compute. repeat split; reflexivity.
Qed.

(** "recursive" is off unless asked for: the children are not pinned. *)
Theorem c66_default_refuted : match ex_add [arg_of dA] [0]%nat ex_s with
  | (s, Body _) => fs_is_pinned no_base (snd s) dA = Some true /\ under (f_get (fst s)) real_decode dA dB /\ fs_is_pinned no_base (snd s) dB = Some false
  | _ => False
  end.
Proof.
  assert (E : match ex_add [arg_of dA] [0]%nat ex_s with
    | (s, Body _) => Some (fs_is_pinned no_base (snd s) dA, fs_is_pinned no_base (snd s) dB, f_get (fst s) dA)
    | _ => None
    end = Some (Some true, Some false, Some (cbor_block doc_A))) by (vm_compute; reflexivity).
  destruct (ex_add [arg_of dA] [0]%nat ex_s) as [s [b| | | |]]; try discriminate. injection E as E1 E2 E3. split; [exact E1|]. split; [|exact E2].
  apply under_link with (d := dA) (v := doc_A) (name := None); [apply under_root|exists (cbor_block doc_A); split; [exact E3|vm_compute; reflexivity]|].
  apply RefsSpec.link_plain; [discriminate|]. unfold doc_A. eapply RefsSpec.occ_map; [left; reflexivity|constructor].
Qed.
Print Assumptions c66_default_refuted.

(** A refused request may have pinned some of its arguments: which ones depends on the schedule. *)
Theorem c66_failure_refuted :
  let s1 := fst (ex_add [arg_of dA; (k_recursive, v_true)] [0]%nat ex_s) in
  let q := [arg_of dD; arg_of dA] in
  match ex_add q [0; 1]%nat s1, ex_add q [1; 0]%nat s1 with
  | (s2, Refused), (s3, Refused) => ex_ls [(k_type, n_direct)] s2 = Some [(cid_to_text dD, n_direct); (cid_to_text dF, n_direct)] /\ ex_ls [(k_type, n_direct)] s3 = Some [(cid_to_text dF, n_direct)]
  | _, _ => False
  end.
Proof. vm_compute. auto. Qed.
Print Assumptions c66_failure_refuted.

(** "stream" has no effect, "quiet=false" is answered as not implemented. *)
Theorem c66_stream_refuted :
  ex_ls [(k_stream, v_false)] ex_s = Some [(cid_to_text dF, n_direct)] /\
  pin_ls (fun _ => false) no_base [63] [(k_quiet, v_false); (k_stream, v_true)] ex_s = Unimplemented.
Proof. split; vm_compute; reflexivity. Qed.
Print Assumptions c66_stream_refuted.

(** A direct pin of a block that cannot be decoded is not removed without "recursive=false". *)
Definition odd_cid : cid := CidV1 120 {| mh_code := sha2_256; mh_digest := repeat 9 32 |}.
Definition odd_s : state := fst (demo_run [NPut (mk_block odd_cid [1; 2; 3]); NPin odd_cid false]).
Theorem c66_rm_direct_refuted :
  fs_is_pinned no_base (snd odd_s) odd_cid = Some true /\
  pin_rm no_base real_decode true 10 [arg_of odd_cid] odd_s = (odd_s, Refused) /\
  match pin_rm no_base real_decode true 10 [arg_of odd_cid; (k_recursive, v_false)] odd_s with (s, Body _) => fs_is_pinned no_base (snd s) odd_cid = Some false | _ => False end.
Proof. split; [|split]; vm_compute; reflexivity. Qed.
Print Assumptions c66_rm_direct_refuted.
