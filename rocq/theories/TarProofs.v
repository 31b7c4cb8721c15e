(** Lemmas: the archives written can be read. *)
From Verif Require Import Base Wire WireProofs Cid Pb FileVisit IpfsPath PathSpec IpfsPathProofs StdPath Walk WalkSpec WalkProofs Tar TarSpec TarFields TarPaths.
Local Open Scope N_scope.

(** ** Headers *)
Record lenh (h : header) : Prop := {
  l_name : length (h_name h) = 100%nat; l_mode : length (h_mode h) = 8%nat; l_uid : length (h_uid h) = 8%nat; l_gid : length (h_gid h) = 8%nat;
  l_size : length (h_size h) = 12%nat; l_mtime : length (h_mtime h) = 12%nat; l_cksum : length (h_cksum h) = 8%nat; l_link : length (h_link h) = 100%nat }.
Record wfh (h : header) : Prop := {
  w_name : length (h_name h) = 100%nat /\ wf_bytes (h_name h);
  w_mode : num_field 7 (h_mode h); w_uid : num_field 7 (h_uid h); w_gid : num_field 7 (h_gid h);
  w_size : num_field 11 (h_size h); w_mtime : num_field 11 (h_mtime h); w_cksum : num_field 7 (h_cksum h);
  w_type : is_byte (h_type h); w_link : length (h_link h) = 100%nat /\ wf_bytes (h_link h) }.
Lemma num_field_length n b : num_field n b -> length b = S n.
Proof. intros (f & -> & L & _). rewrite app_length. cbn. lia. Qed.
Lemma num_field_wf n b : num_field n b -> wf_bytes b.
Proof. intros (f & -> & _ & W). apply wf_bytes_app. split; [exact W|]. repeat constructor. Qed.
Lemma wfh_lenh h : wfh h -> lenh h.
Proof. intros []; constructor; try tauto; eapply num_field_length; eassumption. Qed.
Definition before (h : header) : bytes := h_name h ++ h_mode h ++ h_uid h ++ h_gid h ++ h_size h ++ h_mtime h.
Definition behind (h : header) : bytes := h_type h :: h_link h ++ gnu_magic ++ zeros 247.
Lemma header_parts h : header_bytes h = before h ++ h_cksum h ++ behind h.
Proof. unfold header_bytes, before, behind. rewrite <- !app_assoc. reflexivity. Qed.
Lemma before_length h : lenh h -> length (before h) = 148%nat.
Proof. intros []. unfold before. rewrite !app_length. lia. Qed.
Lemma behind_length h : lenh h -> length (behind h) = 356%nat.
Proof. intros []. unfold behind. cbn [length]. rewrite !app_length. unfold zeros. rewrite repeat_length. cbn [gnu_magic length]. lia. Qed.
Lemma header_length h : lenh h -> length (header_bytes h) = 512%nat.
Proof. intros H. rewrite header_parts, !app_length, before_length, behind_length by exact H. destruct H. lia. Qed.
Lemma field_at a b c : field (length a) (length b) (a ++ b ++ c) = b.
Proof. unfold field. rewrite skipn_app, skipn_all, Nat.sub_diag. cbn [skipn app]. rewrite firstn_app, firstn_all, Nat.sub_diag. cbn [firstn]. apply app_nil_r. Qed.
Lemma field_at' off len a b c x : x = a ++ b ++ c -> off = length a -> len = length b -> field off len x = b.
Proof. intros -> -> ->. apply field_at. Qed.
Lemma header_fields h : lenh h -> let b := header_bytes h in
  field 0 100 b = h_name h /\ field 100 8 b = h_mode h /\ field 124 12 b = h_size h /\ field 136 12 b = h_mtime h /\ field 148 8 b = h_cksum h /\
  nth_error b 156 = Some (h_type h) /\ field 157 100 b = h_link h /\ field 257 8 b = magic.
Proof.
  intros H b. destruct H. subst b. unfold header_bytes. repeat split.
  - eapply (field_at' _ _ []); [reflexivity|reflexivity|congruence].
  - eapply field_at'; [reflexivity|congruence|congruence].
  - eapply (field_at' _ _ (h_name h ++ h_mode h ++ h_uid h ++ h_gid h)); [rewrite <- !app_assoc; reflexivity|rewrite !app_length; lia|congruence].
  - eapply (field_at' _ _ (h_name h ++ h_mode h ++ h_uid h ++ h_gid h ++ h_size h)); [rewrite <- !app_assoc; reflexivity|rewrite !app_length; lia|congruence].
  - eapply (field_at' _ _ (before h)); [unfold before; rewrite <- !app_assoc; reflexivity|unfold before; rewrite !app_length; lia|congruence].
  - replace (h_name h ++ _) with ((before h ++ h_cksum h) ++ behind h) by (unfold before, behind; rewrite <- !app_assoc; reflexivity).
    assert (L : length (before h ++ h_cksum h) = 156%nat) by (unfold before; rewrite !app_length; lia).
    rewrite nth_error_app2 by lia. rewrite L. reflexivity.
  - eapply (field_at' _ _ (before h ++ h_cksum h ++ [h_type h])); [unfold before; rewrite <- !app_assoc; reflexivity|unfold before; rewrite !app_length; cbn [length]; lia|congruence].
  - eapply (field_at' _ _ (before h ++ h_cksum h ++ [h_type h] ++ h_link h)); [unfold before; rewrite <- !app_assoc; reflexivity|unfold before; rewrite !app_length; cbn [length]; lia|reflexivity].
Qed.
Lemma sum_bound b : wf_bytes b -> sum b <= 255 * blen b.
Proof. unfold blen, sum. induction 1 as [|x b Hx _ IH]; [reflexivity|]. cbn [fold_right length]. unfold is_byte in Hx. lia. Qed.
Lemma zeros_wf n : wf_bytes (zeros n).
Proof. unfold zeros. induction n; cbn; constructor; [unfold is_byte; lia|assumption]. Qed.
Lemma set_cksum_wf h : wfh h -> wfh (set_cksum h) /\ sum_ok (header_bytes (set_cksum h)) = true.
Proof.
  intros W. assert (L := wfh_lenh _ W). unfold set_cksum. set (n := total _ + _ + _).
  assert (B1 := before_length h L). assert (B2 := behind_length h L).
  rewrite (octal_into_field 7 _ n (w_cksum h W)). set (h' := mk_header _ _ _ _ _ _ _ _ _).
  assert (W' : wfh h') by (destruct W; constructor; try assumption; apply digits_field).
  split; [exact W'|]. assert (L' := wfh_lenh _ W').
  unfold sum_ok. destruct (header_fields h' L') as (_ & _ & _ & _ & -> & _). cbn [h' h_cksum].
  assert (E : n = sum (before h) + 256 + sum (behind h)).
  { subst n. unfold total. fold (sum (firstn 148 (header_bytes h))) (sum (skipn 156 (header_bytes h))). rewrite header_parts.
    replace (firstn 148 (before h ++ h_cksum h ++ behind h)) with (before h) by (rewrite <- B1, firstn_app, firstn_all, Nat.sub_diag; cbn; rewrite app_nil_r; reflexivity).
    replace (skipn 156 (before h ++ h_cksum h ++ behind h)) with (behind h); [reflexivity|].
    rewrite app_assoc. replace 156%nat with (length (before h ++ h_cksum h)) by (rewrite app_length; destruct L; lia).
    rewrite skipn_app, skipn_all, Nat.sub_diag. reflexivity. }
  assert (Bn : n < 8 ^ N.of_nat 7).
  { rewrite E. assert (S1 : sum (before h) <= 255 * blen (before h)).
    { apply sum_bound. destruct W. unfold before. repeat (apply wf_bytes_app; split); try tauto; eapply num_field_wf; eassumption. }
    assert (S2 : sum (behind h) <= 255 * blen (behind h)).
    { apply sum_bound. destruct W. unfold behind. constructor; [assumption|]. repeat (apply wf_bytes_app; split); try tauto.
      - unfold gnu_magic. repeat (constructor; [unfold is_byte; lia|]). constructor.
      - apply zeros_wf. }
    unfold blen in *. rewrite B1 in S1. rewrite B2 in S2. change (8 ^ N.of_nat 7) with 2097152. lia. }
  rewrite number_digits by (lia || exact Bn). rewrite header_parts.
  assert (B1' : length (before h') = 148%nat) by (apply before_length, L').
  replace (firstn 148 (before h' ++ h_cksum h' ++ behind h')) with (before h') by (rewrite <- B1' at 1; rewrite firstn_app, firstn_all, Nat.sub_diag; cbn [firstn]; rewrite app_nil_r; reflexivity).
  replace (skipn 156 (before h' ++ h_cksum h' ++ behind h')) with (behind h').
  2: { rewrite app_assoc. replace 156%nat with (length (before h' ++ h_cksum h')) by (rewrite app_length; destruct L'; lia).
    rewrite skipn_app, skipn_all, Nat.sub_diag. reflexivity. }
  change (before h') with (before h). change (behind h') with (behind h). lia.
Qed.

(** ** Reading one record *)
Definition rounded (size : N) : N := (size + 511) / 512 * 512.
Lemma rounded_pad size : rounded size = size + (if 512 - size mod 512 <? 512 then 512 - size mod 512 else 0).
Proof.
  unfold rounded. pose proof (N.div_mod size 512 ltac:(discriminate)). pose proof (N.mod_lt size 512 ltac:(discriminate)).
  destruct (size mod 512) eqn:E.
  - replace (size + 511) with (511 + (size / 512) * 512) by lia. rewrite N.div_add by discriminate. cbn. lia.
  - replace (size + 511) with ((N.pos p - 1) + (size / 512 + 1) * 512) by lia. rewrite N.div_add by discriminate.
    rewrite (N.div_small (N.pos p - 1)) by lia. replace (512 - N.pos p <? 512) with true by lia. lia.
Qed.
Lemma pad_bytes size : concat (pad size) = zeros (N.to_nat (rounded size - size)).
Proof.
  rewrite rounded_pad. unfold pad. destruct (_ <? 512); cbn [concat]; rewrite ?app_nil_r; [f_equal; lia|].
  replace (size + 0 - size) with 0 by lia. reflexivity.
Qed.
Lemma forallb_zeros n : forallb (N.eqb 0) (zeros n) = true.
Proof. unfold zeros. induction n; [reflexivity|exact IHn]. Qed.
Definition num (k : nat) (v : N) : bytes := digits k v ++ [0].
Lemma read_record fuel name link h mode mtime data rest :
  wfh h -> h_mode h = num 7 mode -> mode < 4096 -> h_size h = num 11 (blen data) -> fits (blen data) -> h_mtime h = num 11 mtime -> fits mtime ->
  read (S fuel) name link (header_bytes (set_cksum h) ++ data ++ concat (pad (blen data)) ++ rest) =
    if h_type h =? 76 then read fuel (Some (until_zero data)) link rest
    else if h_type h =? 75 then read fuel name (Some (until_zero data)) rest
    else
      match (if h_type h =? 48 then Some (File data) else if h_type h =? 53 then Some Directory
             else if h_type h =? 50 then Some (Symlink (match link with Some n => n | None => until_zero (h_link h) end)) else None), read fuel None None rest with
      | Some c, Some es => Some (mk_entry (match name with Some n => n | None => until_zero (h_name h) end) c mode mtime :: es)
      | _, _ => None
      end.
Proof.
  intros W Em Lm Es Ls Et Lt. destruct (set_cksum_wf h W) as [W' Ok]. set (h' := set_cksum h) in *. assert (L' := wfh_lenh _ W').
  assert (HL := header_length h' L'). rewrite pad_bytes. set (fill := zeros _). set (size := blen data) in *.
  assert (R : rounded size = size + N.of_nat (length fill)) by (subst fill; unfold zeros; rewrite repeat_length, rounded_pad; lia).
  set (body := data ++ fill ++ rest).
  cbn [read]. destruct (header_bytes h' ++ body) as [|c0 r0] eqn:E0.
  { apply (f_equal (@length N)) in E0. rewrite app_length, HL in E0. discriminate. }
  rewrite <- E0. clear E0 c0 r0.
  assert (F : firstn 512 (header_bytes h' ++ body) = header_bytes h') by (rewrite <- HL, firstn_app, firstn_all, Nat.sub_diag; cbn [firstn]; apply app_nil_r).
  assert (S : skipn 512 (header_bytes h' ++ body) = body) by (rewrite <- HL, skipn_app, skipn_all, Nat.sub_diag; reflexivity).
  rewrite F, S, HL, Ok. destruct (header_fields h' L') as (F1 & F2 & F3 & F4 & _ & F6 & F7 & F8). rewrite F2, F3, F4, F6, F8.
  change (beq magic magic) with true. change (512 =? 512)%nat with true. cbn [andb negb].
  change (h_mode h') with (h_mode h). change (h_size h') with (h_size h). change (h_mtime h') with (h_mtime h). change (h_type h') with (h_type h).
  rewrite F1, F7. change (h_name h') with (h_name h). change (h_link h') with (h_link h).
  rewrite Em, Es, Et. unfold num. unfold fits in Ls, Lt.
  rewrite !number_digits by (lia || (change (8 ^ N.of_nat 7) with 2097152; lia) || assumption).
  fold (rounded size). cbn zeta.
  assert (Ld : N.to_nat size = length data) by (subst size; unfold blen; lia).
  assert (U : firstn (N.to_nat (rounded size)) body = data ++ fill).
  { subst body. rewrite app_assoc. replace (N.to_nat (rounded size)) with (length (data ++ fill)) by (rewrite app_length; lia).
    rewrite firstn_app, firstn_all, Nat.sub_diag. cbn [firstn]. apply app_nil_r. }
  assert (V : skipn (N.to_nat (rounded size)) body = rest).
  { subst body. rewrite app_assoc. replace (N.to_nat (rounded size)) with (length (data ++ fill)) by (rewrite app_length; lia).
    rewrite skipn_app, skipn_all, Nat.sub_diag. reflexivity. }
  rewrite U, V, Ld.
  replace (firstn (length data) (data ++ fill)) with data by (rewrite firstn_app, firstn_all, Nat.sub_diag; cbn [firstn]; symmetry; apply app_nil_r).
  replace (skipn (length data) (data ++ fill)) with fill by (rewrite skipn_app, skipn_all, Nat.sub_diag; reflexivity).
  replace (blen (data ++ fill) =? rounded size) with true by (unfold blen; rewrite app_length; lia).
  subst fill. rewrite forallb_zeros. cbn [andb negb]. reflexivity.
Qed.

(** ** Writing one entry *)
Lemma set_name_wf h v : wfh h -> length v = 100%nat -> wf_bytes v -> wfh (set_name h v).
Proof. intros [] L W. constructor; try assumption. split; assumption. Qed.
Lemma set_link_wf h v : wfh h -> length v = 100%nat -> wf_bytes v -> wfh (set_link h v).
Proof. intros [] L W. constructor; try assumption. split; assumption. Qed.
Lemma mode_land m default : match m_mode m with Some mode => N.land mode 4095 | None => default end = mode_of m default.
Proof. unfold mode_of. destruct (m_mode m); [|reflexivity]. change 4095 with (N.ones 12). rewrite N.land_ones. reflexivity. Qed.
Lemma finish_ok t type size m default : wfh (t_header t) -> fits size -> is_byte type -> fits (mtime_of m) -> exists h,
  finish t type size m default = (mk_helper (set_cksum h) (t_long t), header_bytes (set_cksum h)) /\ wfh h /\
  h_mode h = num 7 (mode_of m default) /\ h_size h = num 11 size /\ h_mtime h = num 11 (mtime_of m) /\ h_type h = type /\
  h_name h = h_name (t_header t) /\ h_link h = h_link (t_header t).
Proof.
  intros W Fs Ft Fm. unfold finish. eexists. split; [reflexivity|].
  unfold set_metadata, set_mtime, set_mode, set_type, set_size. cbn [h_mode h_size h_mtime h_type h_name h_link].
  rewrite mode_land, (num_into_field _ _ (w_size _ W) Fs), (octal_into_field 7 _ _ (w_mode _ W)).
  fold (mtime_of m). rewrite (num_into_field _ _ (w_mtime _ W) Fm).
  split; [|repeat split]. destruct W. constructor; cbn [h_name h_mode h_uid h_gid h_size h_mtime h_cksum h_type h_link]; try assumption; apply digits_field.
Qed.

Record wft (t : helper) : Prop := {
  wt_header : wfh (t_header t); wt_long : wfh (t_long t);
  wt_mode : h_mode (t_long t) = num 7 420; wt_mtime : h_mtime (t_long t) = num 11 0 }.
Lemma helper_new_wf : wft helper_new.
Proof.
  constructor; [| |reflexivity|reflexivity];
  (constructor; [split; [reflexivity|]| | | | | | | |split; [reflexivity|]];
    try (match goal with |- num_field ?n ?b => exists (firstn n b); vm_compute; split; [reflexivity|split; [reflexivity|]] end);
    repeat (constructor; [vm_compute; reflexivity|]); try constructor; vm_compute; reflexivity).
Qed.

(** A long name or target: one record. *)
Lemma long_record h type data fuel name link rest :
  wfh h -> h_mode h = num 7 420 -> h_mtime h = num 11 0 -> ~ In 0 data -> fits (blen data + 1) -> type = 76 \/ type = 75 ->
  let l := set_cksum (set_type (set_size h (blen data + 1)) type) in
  read (S fuel) name link ((header_bytes l ++ data ++ [0]) ++ concat (pad (blen data + 1)) ++ rest) =
    (if type =? 76 then read fuel (Some data) link rest else read fuel name (Some data) rest) /\
  wfh l /\ h_mode l = num 7 420 /\ h_mtime l = num 11 0.
Proof.
  intros W Em Et Z F T l. set (h1 := set_type (set_size h (blen data + 1)) type) in *.
  assert (W1 : wfh h1).
  { subst h1. unfold set_type, set_size. rewrite (num_into_field _ _ (w_size _ W) F). destruct W. constructor; cbn [h_name h_mode h_uid h_gid h_size h_mtime h_cksum h_type h_link]; try assumption; [apply digits_field|unfold is_byte; lia]. }
  split; [|split; [apply (set_cksum_wf h1 W1)|split; assumption]].
  assert (B : blen (data ++ [0]) = blen data + 1) by (unfold blen; rewrite app_length; cbn; lia).
  rewrite <- !app_assoc. rewrite (app_assoc data [0]). rewrite <- B. subst l.
  rewrite (read_record fuel name link h1 420 0 (data ++ [0]) rest W1); [| |lia| |rewrite B; exact F| |].
  - assert (U : until_zero (data ++ [0]) = data) by (apply until_zero_app; [exact Z|right; eexists; reflexivity]). rewrite U.
    change (h_type h1) with type. destruct T as [->| ->]; reflexivity.
  - exact Em.
  - subst h1. unfold set_type, set_size. cbn [h_size]. rewrite B. apply (num_into_field _ _ (w_size _ W) F).
  - exact Et.
  - unfold fits. change (8 ^ 11) with 8589934592. lia.
Qed.

Lemma apply_name_ok t p : wft t -> good_path p -> exists t' l n name,
  apply_name t p = Ok (t', l) /\ wft t' /\ h_link (t_header t') = h_link (t_header t) /\
  (forall fuel link rest, read (n + fuel) None link (concat l ++ rest) = read fuel name link rest) /\ (n <= length (concat l))%nat /\
  match name with Some x => x | None => until_zero (h_name (t_header t')) end = p.
Proof.
  intros W G. destruct (good_written p G) as (A & Wr & C & P & Wp). assert (Z := good_no_zero p G). assert (Fp : fits (blen p + 1)) by apply G.
  destruct W as [Wh Wl Em Et]. destruct (w_name _ Wh) as [Ln Wn]. unfold apply_name.
  destruct (Nat.le_gt_cases (length p) 100) as [L|L].
  - destruct (copy_path_ok false (h_name (t_header t)) p Wr) as (tail & E & Lt & D); [congruence|exact P|rewrite C; lia|].
    assert (Q := copy_path_wf false (h_name (t_header t)) p Wn Wp). assert (Q2 := copy_path_length false (h_name (t_header t)) p).
    rewrite E in *. cbn [fst] in *. rewrite C in *.
    exists (mk_helper (set_name (t_header t) (p ++ tail)) (t_long t)), [], 0%nat, None. split; [reflexivity|]. split; [|split; [reflexivity|split; [reflexivity|split; [cbn; lia|]]]].
    + constructor; [|assumption|assumption|assumption]. apply set_name_wf; [exact Wh|lia|exact Q].
    + cbn. apply until_zero_app; [exact Z|exact D].
  - assert (E := copy_path_long false (h_name (t_header t)) p Wr). rewrite C in E. specialize (E ltac:(lia)).
    assert (Q := copy_path_wf false (h_name (t_header t)) p Wn Wp). assert (Q2 := copy_path_length false (h_name (t_header t)) p).
    destruct (copy_path false (h_name (t_header t)) p) as [s b] eqn:E1. cbn [fst snd] in *. subst b.
    replace (length p <? 100)%nat with false by lia.
    destruct (cut_written p G L) as (A2 & Wr2 & P2 & L2).
    destruct (copy_path_ok false s (firstn 100 p) Wr2) as (tail & E2 & Lt & D); [congruence|exact P2|lia|].
    assert (Wp2 : wf_bytes (firstn 100 p)) by (rewrite <- (firstn_skipn 100 p) in Wp; apply wf_bytes_app in Wp; apply Wp).
    assert (Q3 := copy_path_wf false s (firstn 100 p) Q Wp2). rewrite E2 in *. cbn [fst] in *.
    assert (R := fun fuel link rest => long_record (t_long t) 76 p fuel None link rest Wl Em Et Z Fp (or_introl eq_refl)).
    cbn zeta in R. set (l := set_cksum _) in *.
    exists (mk_helper (set_name (t_header t) (canon (firstn 100 p) ++ tail)) l), ((header_bytes l ++ p ++ [0]) :: pad (blen p + 1)), 1%nat, (Some p).
    split; [reflexivity|]. destruct (R 0%nat None []) as (_ & Rl & Rm & Rt). split; [|split; [reflexivity|split; [|split; [|reflexivity]]]].
    + constructor; [|assumption|assumption|assumption]. apply set_name_wf; [exact Wh|rewrite app_length; lia|exact Q3].
    + intros fuel link rest. cbn [concat]. rewrite <- app_assoc. apply R.
    + cbn [concat]. rewrite !app_length. rewrite (header_length l) by (apply wfh_lenh, Rl). lia.
Qed.

Lemma bufsize_pos : (1 <= bufsize)%nat.
Proof. unfold bufsize. lia. Qed.
Lemma pieces_concat : forall fuel b, (length b <= fuel)%nat -> concat (pieces fuel b) = b.
Proof.
  induction fuel as [|fuel IH]; intros b L; [destruct b; [reflexivity|cbn in L; lia]|].
  destruct b as [|c b]; [reflexivity|]. cbn [pieces concat]. rewrite IH; [apply firstn_skipn|]. rewrite skipn_length. pose proof bufsize_pos. lia.
Qed.
Lemma pair_eta {A B} (x : A * B) : x = (fst x, snd x).
Proof. destruct x; reflexivity. Qed.
Lemma tar_later c p m size segs : segs <> [] -> exists l1, concat l1 = concat segs ++ concat (pad size) /\
  forall t os, tar t (later_segments c p m size segs ++ os) = (l1 ++ fst (tar t os), snd (tar t os)).
Proof.
  induction segs as [|s segs IH]; [congruence|]. intros _. destruct segs as [|s2 segs].
  - exists (pieces (length s) s ++ pad size). split; [cbn [concat]; rewrite concat_app, app_nil_r, pieces_concat by lia; reflexivity|].
    intros t os. cbn [later_segments app tar put_walked]. destruct (tar t os); reflexivity.
  - destruct IH as (l1 & E1 & E2); [discriminate|]. exists (pieces (length s) s ++ l1). split.
    + rewrite concat_app, pieces_concat by lia. cbn [concat] in *. rewrite E1, !app_assoc. reflexivity.
    + intros t os. change (later_segments c p m size (s :: s2 :: segs)) with (OFile s false false c p m size :: later_segments c p m size (s2 :: segs)).
      cbn [app tar put_walked]. rewrite E2. cbn [app]. rewrite app_nil_r, app_assoc. reflexivity.
Qed.
Lemma tar_file c p m size segs : segs <> [] -> exists l1, concat l1 = concat segs ++ concat (pad size) /\
  forall t t' l0 os, apply_file t p m size = Ok (t', l0) ->
    tar t (file_report c p m size segs ++ os) = (l0 ++ l1 ++ fst (tar t' os), snd (tar t' os)).
Proof.
  intros H. destruct segs as [|s [|s2 segs]]; [congruence| |].
  - exists (pieces (length s) s ++ pad size). split; [cbn [concat]; rewrite concat_app, app_nil_r, pieces_concat by lia; reflexivity|].
    intros t t' l0 os E. cbn [file_report app tar put_walked]. rewrite E. destruct (tar t' os); cbn [fst snd]. rewrite <- !app_assoc. reflexivity.
  - destruct (tar_later c p m size (s2 :: segs)) as (l1 & E1 & E2); [discriminate|]. exists (pieces (length s) s ++ l1). split.
    + rewrite concat_app, pieces_concat by lia. cbn [concat] in *. rewrite E1, !app_assoc. reflexivity.
    + intros t t' l0 os E. change (file_report c p m size (s :: s2 :: segs)) with (OFile s true false c p m size :: later_segments c p m size (s2 :: segs)).
      cbn [app tar put_walked]. rewrite E, E2. cbn [app]. rewrite app_nil_r, <- !app_assoc. reflexivity.
Qed.

(** ** Whole archives *)
Definition read_as (b : bytes) (es : list entry) : Prop := exists n, (n <= S (length b))%nat /\ forall k, read (n + k) None None b = Some es.
Lemma read_as_unpack b es : read_as b es -> unpack b = Some es.
Proof. intros (n & L & R). unfold unpack. replace (S (length b)) with (n + (S (length b) - n))%nat by lia. apply R. Qed.

Lemma utf8_n_wf f : forall b, utf8_n f b = true -> wf_bytes b.
Proof.
  induction f as [|f IH]; intros b H; [destruct b; [constructor|discriminate]|]. cbn [utf8_n] in H.
  assert (C : forall x, cont x = true -> is_byte x) by (unfold cont, is_byte; intros; lia).
  destruct b as [|b r]; [constructor|]. destruct (b <? 128) eqn:E1; [constructor; [unfold is_byte; lia|apply IH, H]|].
  destruct (_ && _) eqn:E2.
  { destruct r as [|c1 r]; [discriminate|]. apply andb_prop in H as [H1 H2]. constructor; [unfold is_byte; lia|]. constructor; [apply C, H1|apply IH, H2]. }
  destruct ((224 <=? b) && _) eqn:E3.
  { destruct r as [|c1 [|c2 r]]; try discriminate. do 4 (apply andb_prop in H as [H ?]).
    constructor; [unfold is_byte; lia|]. repeat (constructor; [apply C; assumption|]). apply IH; assumption. }
  destruct ((240 <=? b) && _) eqn:E4; [|discriminate].
  destruct r as [|c1 [|c2 [|c3 r]]]; try discriminate. do 5 (apply andb_prop in H as [H ?]).
  constructor; [unfold is_byte; lia|]. repeat (constructor; [apply C; assumption|]). apply IH; assumption.
Qed.
Lemma mode_small m default : default < 4096 -> mode_of m default < 4096.
Proof. intros H. unfold mode_of. destruct (m_mode m); [apply N.mod_lt; discriminate|exact H]. Qed.

Lemma tar_reads os es : shows os es -> forall t, wft t ->
  exists l es', tar t os = (l, TarDone) /\ read_as (concat l) es' /\ Forall2 same_entry es es'.
Proof.
  induction 1 as [|c p os es _ IH|top c p m os es G Ft _ IH|c p m segs os es Hs G Ft Fc _ IH|x c p m os es G Ft Gx Fx _ IH]; intros t W.
  - exists [], []. split; [reflexivity|]. split; [|constructor]. exists 1%nat. split; [cbn; lia|]. reflexivity.
  - destruct (IH t W) as (l & es' & E & R). exists l, es'. split; [|exact R]. cbn [tar put_walked]. rewrite E. reflexivity.
  - destruct (apply_name_ok t p W G) as (t1 & l1 & n1 & name & E1 & W1 & _ & R1 & L1 & N1). destruct W1 as [Wh Wl Em Et].
    assert (F0 : fits 0) by (unfold fits; change (8 ^ 11) with 8589934592; lia).
    destruct (finish_ok t1 53 0 m 493 Wh F0) as (h & E2 & W2 & M2 & S2 & T2 & Y2 & Na2 & _); [unfold is_byte; lia|exact Ft|].
    set (t2 := mk_helper (set_cksum h) (t_long t1)) in *.
    assert (W2' : wft t2) by (constructor; [apply (set_cksum_wf h W2)|assumption|assumption|assumption]).
    destruct (IH t2 W2') as (l & es' & E3 & (n & Ln & R3) & F3).
    exists ((l1 ++ [header_bytes (set_cksum h)]) ++ l), (mk_entry p Directory (mode_of m 493) (mtime_of m) :: es'). split; [|split].
    + assert (Q : put_walked t (if top then ORootDirectory c p m else ODirectory c p m) = Ok (t2, l1 ++ [header_bytes (set_cksum h)])).
      { destruct top; cbn [put_walked]; unfold apply_directory; rewrite E1, E2; reflexivity. }
      cbn [tar]. rewrite Q, E3. reflexivity.
    + exists (n1 + S n)%nat. assert (HL := header_length _ (wfh_lenh _ (proj1 (set_cksum_wf h W2)))). split.
      * rewrite !concat_app. cbn [concat]. rewrite !app_length, HL. cbn [length]. lia.
      * intros k. rewrite !concat_app. cbn [concat]. rewrite app_nil_r, <- app_assoc, <- Nat.add_assoc, R1. cbn [plus].
        assert (Q := read_record (n + k) name None h (mode_of m 493) (mtime_of m) [] (concat l) W2 M2 (mode_small m 493 ltac:(lia)) S2 F0 T2 Ft).
        cbn [app pad] in Q. change (concat (pad (blen []))) with (@nil N) in Q. cbn [app] in Q. rewrite Q, Y2, R3, Na2, N1. reflexivity.
    + constructor; [|exact F3]. repeat split.
  - destruct (apply_name_ok t p W G) as (t1 & l1 & n1 & name & E1 & W1 & _ & R1 & L1 & N1). destruct W1 as [Wh Wl Em Et].
    destruct (finish_ok t1 48 (blen (concat segs)) m 420 Wh Fc) as (h & E2 & W2 & M2 & S2 & T2 & Y2 & Na2 & _); [unfold is_byte; lia|exact Ft|].
    set (t2 := mk_helper (set_cksum h) (t_long t1)) in *.
    assert (W2' : wft t2) by (constructor; [apply (set_cksum_wf h W2)|assumption|assumption|assumption]).
    destruct (IH t2 W2') as (l & es' & E3 & (n & Ln & R3) & F3).
    destruct (tar_file c p m (blen (concat segs)) segs Hs) as (lf & Ef & Tf).
    exists ((l1 ++ [header_bytes (set_cksum h)]) ++ lf ++ l), (mk_entry p (File (concat segs)) (mode_of m 420) (mtime_of m) :: es'). split; [|split].
    + rewrite (Tf t t2 (l1 ++ [header_bytes (set_cksum h)])), E3; [reflexivity|]. unfold apply_file. rewrite E1, E2. reflexivity.
    + exists (n1 + S n)%nat. assert (HL := header_length _ (wfh_lenh _ (proj1 (set_cksum_wf h W2)))). split.
      * rewrite !concat_app. cbn [concat]. rewrite !app_length, HL. cbn [length]. lia.
      * intros k. rewrite !concat_app. cbn [concat]. rewrite Ef, app_nil_r, <- !app_assoc, <- Nat.add_assoc, R1. cbn [plus].
        rewrite (read_record (n + k) name None h (mode_of m 420) (mtime_of m) (concat segs) (concat l) W2 M2 (mode_small m 420 ltac:(lia)) S2 Fc T2 Ft).
        rewrite Y2, R3, Na2, N1. reflexivity.
    + constructor; [|exact F3]. repeat split.
  - destruct (apply_name_ok t p W G) as (t1 & l1 & n1 & name & E1 & W1 & _ & R1 & L1 & N1). destruct W1 as [Wh Wl Em Et].
    assert (F0 : fits 0) by (unfold fits; change (8 ^ 11) with 8589934592; lia). destruct Gx as (Nx & Zx & Ux).
    assert (Wx := utf8_n_wf _ _ Ux). assert (Wr := target_written x Zx). destruct (w_link _ Wh) as [Ll Wlk].
    assert (Q := copy_path_wf true (h_link (t_header t1)) x Wlk Wx). assert (Q2 := copy_path_length true (h_link (t_header t1)) x).
    (* the name of the link: in the header or in a record of its own *)
    assert (K : exists t2 l2 n2 link, apply_symlink t p x m = (let (t', b) := finish t2 50 0 m 420 in Ok (t', l1 ++ l2 ++ [b])) /\ wft t2 /\
      h_name (t_header t2) = h_name (t_header t1) /\ (n2 <= length (concat l2))%nat /\
      (forall fuel nm rest, read (n2 + fuel) nm None (concat l2 ++ rest) = read fuel nm link rest) /\
      same_target x (match link with Some y => y | None => until_zero (h_link (t_header t2)) end)).
    { unfold apply_symlink. rewrite E1. destruct (Nat.le_gt_cases (length (canon x)) 100) as [L|L].
      - destruct (copy_path_ok true (h_link (t_header t1)) x Wr) as (tail & E & Lt & D); [reflexivity|exact Nx|lia|]. rewrite E in *. cbn [fst] in *.
        exists (mk_helper (set_link (t_header t1) (canon x ++ tail)) (t_long t1)), [], 0%nat, None. split; [destruct (finish _ _ _ _ _); reflexivity|].
        split; [constructor; [apply set_link_wf; [exact Wh|lia|exact Q]|assumption|assumption|assumption]|].
        split; [reflexivity|]. split; [cbn; lia|]. split; [reflexivity|]. cbn [t_header set_link h_link].
        rewrite until_zero_app; [apply canon_same, Nx| |exact D].
        (* no zero in what is written *)
        intros Z. unfold canon in Z. rewrite text_join in Z. apply in_app_or in Z as [Z|Z]; [destruct (is_absolute x); [destruct Z as [Z|[]]; discriminate|destruct Z]|].
        apply in_app_or in Z as [Z|Z]; [|destruct (ends_with_slash x); [destruct Z as [Z|[]]; discriminate|destruct Z]].
        clear - Wr Z. destruct (comps x) as [|y l]; [destruct Z|]. rewrite join_slashed in Z. inversion Wr as [|? ? [Zy _] Wl]; subst.
        apply in_app_or in Z as [Z|Z]; [exact (Zy Z)|]. clear - Wl Z. induction Wl as [|z l [Zz _] _ IH]; cbn in Z; [exact Z|].
        destruct Z as [Z|Z]; [discriminate|]. apply in_app_or in Z as [Z|Z]; [exact (Zz Z)|apply IH, Z].
      - assert (E := copy_path_long true (h_link (t_header t1)) x Wr ltac:(lia)).
        destruct (copy_path true (h_link (t_header t1)) x) as [s b] eqn:E4. cbn [fst snd] in *. subst b.
        assert (Lx := canon_length x). replace (length x <? 100)%nat with false by lia.
        assert (R := fun fuel nm rest => long_record (t_long t1) 75 x fuel nm None rest Wl Em Et Zx Fx (or_intror eq_refl)).
        cbn zeta in R. set (lk := set_cksum _) in *. destruct (R 0%nat None []) as (_ & Rl & Rm & Rt).
        exists (mk_helper (set_link (t_header t1) s) lk), ((header_bytes lk ++ x ++ [0]) :: pad (blen x + 1)), 1%nat, (Some x).
        split; [destruct (finish _ _ _ _ _); rewrite <- app_comm_cons; reflexivity|].
        split; [constructor; [apply set_link_wf; [exact Wh|lia|exact Q]|assumption|assumption|assumption]|].
        split; [reflexivity|]. split; [cbn [concat]; rewrite !app_length, (header_length lk) by (apply wfh_lenh, Rl); lia|].
        split; [|split; [reflexivity|split; [reflexivity|reflexivity]]].
        intros fuel nm rest. cbn [concat]. rewrite <- app_assoc. apply R. }
    destruct K as (t2 & l2 & n2 & link & K1 & K2 & K3 & K4 & K5 & K6). destruct K2 as [Kh Kl Km Kt].
    destruct (finish_ok t2 50 0 m 420 Kh F0) as (h & E2 & W2 & M2 & S2 & T2 & Y2 & Na2 & Li2); [unfold is_byte; lia|exact Ft|].
    rewrite E2 in K1. set (t3 := mk_helper (set_cksum h) (t_long t2)) in *.
    assert (W3 : wft t3) by (constructor; [apply (set_cksum_wf h W2)|assumption|assumption|assumption]).
    destruct (IH t3 W3) as (l & es' & E3 & (n & Ln & R3) & F3).
    exists ((l1 ++ l2 ++ [header_bytes (set_cksum h)]) ++ l),
      (mk_entry p (Symlink (match link with Some y => y | None => until_zero (h_link (t_header t2)) end)) (mode_of m 420) (mtime_of m) :: es'). split; [|split].
    + cbn [tar put_walked]. rewrite Ux, K1. cbn beta iota. fold t3. rewrite E3. reflexivity.
    + exists (n1 + (n2 + S n))%nat. assert (HL := header_length _ (wfh_lenh _ (proj1 (set_cksum_wf h W2)))). split.
      * rewrite !concat_app. cbn [concat]. rewrite !app_length, HL. cbn [length]. lia.
      * intros k. rewrite !concat_app. cbn [concat]. rewrite app_nil_r, <- !app_assoc, <- !Nat.add_assoc, R1, K5. cbn [plus].
        assert (QQ := read_record (n + k) name link h (mode_of m 420) (mtime_of m) [] (concat l) W2 M2 (mode_small m 420 ltac:(lia)) S2 F0 T2 Ft).
        cbn [app] in QQ. change (concat (pad (blen []))) with (@nil N) in QQ. cbn [app] in QQ. rewrite QQ, Y2, R3, Na2, K3, N1, Li2. reflexivity.
    + constructor; [|exact F3]. split; [reflexivity|split; [reflexivity|split; [reflexivity|exact K6]]].
Qed.
