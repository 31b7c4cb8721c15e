(** Reading back what [Cbor] writes. *)
From Coq Require Import Permutation.
From Verif Require Import Base Wire WireProofs Cid CidProofs BTree Ipld Cbor CborSpec CborProofs.
Local Open Scope N_scope.

Lemma allP_Forall {A} (P : A -> Prop) l : allP P l <-> Forall P l.
Proof.
  induction l as [|x l IH]; cbn; [split; auto|]. rewrite IH.
  split; [intros []; constructor; auto|intros H; inversion H; auto].
Qed.

(** * Key sorting *)
Section KS.
Context {V : Type}.
Lemma ksort_insert_perm (kv : bytes * V) l : Permutation (ksort_insert kv l) (kv :: l).
Proof.
  induction l as [|x l IH]; cbn; [reflexivity|]. destruct (kcmp (fst kv) (fst x)); try reflexivity.
  rewrite IH. apply perm_swap.
Qed.
Lemma ksort_perm (l : list (bytes * V)) : Permutation (ksort l) l.
Proof.
  induction l as [|x l IH]; [reflexivity|]. change (ksort (x :: l)) with (ksort_insert x (ksort l)).
  rewrite ksort_insert_perm. constructor. exact IH.
Qed.
Lemma ksort_length (l : list (bytes * V)) : length (ksort l) = length l.
Proof. apply Permutation_length. apply ksort_perm. Qed.
End KS.

Lemma ksort_insert_map {V W} (f : V -> W) (kv : bytes * V) l :
  ksort_insert (fst kv, f (snd kv)) (map (fun kv => (fst kv, f (snd kv))) l)
  = map (fun kv => (fst kv, f (snd kv))) (ksort_insert kv l).
Proof.
  induction l as [|x l IH]; cbn [map ksort_insert fst]; [reflexivity|].
  destruct (kcmp (fst kv) (fst x)); cbn [map]; rewrite ?IH; reflexivity.
Qed.
Lemma ksort_map {V W} (f : V -> W) l :
  ksort (map (fun kv => (fst kv, f (snd kv))) l) = map (fun kv => (fst kv, f (snd kv))) (ksort l).
Proof.
  induction l as [|x l IH]; [reflexivity|]. cbn [map].
  change (ksort (?a :: ?b)) with (ksort_insert a (ksort b)). rewrite IH. apply ksort_insert_map.
Qed.

(** * Writing *)
Definition write_entry (kv : bytes * ipld) : cres bytes :=
  prepend (write_str (fst kv)) (write_ipld (snd kv)).

Lemma write_map m :
  write_ipld (IMap m) = prepend (write_u64 5 (blen m)) (write_all (map write_entry (ksort m))).
Proof.
  cbn [write_ipld]. do 2 f_equal. rewrite (ksort_map write_ipld m), map_map. reflexivity.
Qed.

Lemma write_all_inv {A} (f : A -> cres bytes) l b :
  write_all (map f l) = Ok b ->
  exists bs, Forall2 (fun x y => f x = Ok y) l bs /\ b = concat bs.
Proof.
  revert b. induction l as [|x l IH]; cbn [map write_all]; intros b H.
  - inversion H. exists []. split; [constructor|reflexivity].
  - destruct (f x) as [y|e|] eqn:E; try discriminate.
    destruct (write_all (map f l)) as [c|e|]; try discriminate.
    destruct (IH c eq_refl) as (bs & HF & Hc). inversion H. exists (y :: bs). split; [constructor; auto|].
    cbn. congruence.
Qed.

Lemma write_all_total {A} (f : A -> cres bytes) l :
  Forall (fun x => exists b, f x = Ok b) l -> exists b, write_all (map f l) = Ok b.
Proof.
  induction l as [|x l IH]; intros HF; cbn [map write_all]; [eauto|].
  inversion HF; subst. destruct H1 as [b ->]. destruct (IH H2) as [c ->]. eauto.
Qed.

Lemma prepend_inv h o b : prepend h o = Ok b -> exists c, o = Ok c /\ b = h ++ c.
Proof. destruct o; cbn; intros H; inversion H; eauto. Qed.

Lemma write_int_ok i : (- 2 ^ 64 <= i < 2 ^ 64)%Z ->
  write_int i = Ok (if (i <? 0)%Z then write_u64 1 (Z.to_N (- (i + 1))) else write_u64 0 (Z.to_N i)).
Proof.
  intros H. change (2 ^ 64)%Z with 18446744073709551616%Z in H. unfold write_int.
  destruct (Z.ltb_spec i 0).
  - destruct (Z.ltb_spec 18446744073709551615 (- (i + 1))); [lia|reflexivity].
  - destruct (Z.ltb_spec 18446744073709551615 i); [lia|reflexivity].
Qed.

Lemma write_int_inv i b : write_int i = Ok b -> (- 2 ^ 64 <= i < 2 ^ 64)%Z.
Proof.
  change (2 ^ 64)%Z with 18446744073709551616%Z. unfold write_int.
  destruct (Z.ltb_spec i 0).
  - destruct (Z.ltb_spec 18446744073709551615 (- (i + 1))); [discriminate|lia].
  - destruct (Z.ltb_spec 18446744073709551615 i); [discriminate|lia].
Qed.

(** Encoding succeeds exactly on the encodable values. *)
Lemma write_ok v : encodable v -> exists b, write_ipld v = Ok b.
Proof.
  induction v as [|bb|i|f|s|bb|l IH|m IH|lc] using ipld_ind'; intros He; try (cbn; eauto; fail).
  - cbn [write_ipld encodable] in *. rewrite write_int_ok by exact He. eauto.
  - cbn [write_ipld encodable] in *. rewrite allP_Forall in He.
    destruct (write_all_total write_ipld l) as [b ->]; [|cbn; eauto].
    rewrite Forall_forall in *. intros x Hx. apply IH; auto.
  - rewrite write_map. cbn [encodable] in He. rewrite allP_Forall in He.
    destruct (write_all_total write_entry (ksort m)) as [b ->]; [|cbn; eauto].
    rewrite Forall_forall in *. intros x Hx. apply (Permutation_in x (ksort_perm m)) in Hx.
    unfold write_entry. destruct (IH x Hx (He x Hx)) as [b ->]. cbn. eauto.
Qed.

Lemma Forall2_in_l {A B} (R : A -> B -> Prop) l l' x :
  Forall2 R l l' -> In x l -> exists y, In y l' /\ R x y.
Proof.
  induction 1; cbn; [contradiction|]. intros [->|Hin]; [eauto|]. destruct (IHForall2 Hin) as (z & ? & ?); eauto.
Qed.

Lemma write_encodable v b : write_ipld v = Ok b -> encodable v.
Proof.
  revert b. induction v as [|bb|i|f|s|bb|l IH|m IH|lc] using ipld_ind'; intros b Hw; try (cbn; exact I).
  - cbn [write_ipld encodable] in *. eapply write_int_inv; eauto.
  - cbn [write_ipld] in Hw. apply prepend_inv in Hw as (c & Hw & _).
    apply write_all_inv in Hw as (bs & HF & _). cbn [encodable]. rewrite allP_Forall.
    rewrite Forall_forall in *. intros x Hx.
    destruct (Forall2_in_l _ _ _ x HF Hx) as (y & _ & E). eapply IH; eauto.
  - rewrite write_map in Hw. apply prepend_inv in Hw as (c & Hw & _).
    apply write_all_inv in Hw as (bs & HF & _). cbn [encodable]. rewrite allP_Forall.
    rewrite Forall_forall in *. intros x Hx.
    destruct (Forall2_in_l _ _ _ x HF) as (y & _ & E).
    { apply (Permutation_in x (Permutation_sym (ksort_perm m))). exact Hx. }
    apply prepend_inv in E as (c' & E & _). eapply IH; eauto.
Qed.

Lemma write_never_panics v : write_ipld v <> Panic.
Proof.
  induction v as [|bb|i|f|s|bb|l IH|m IH|lc] using ipld_ind'; try (cbn; discriminate).
  - cbn [write_ipld]. unfold write_int. destruct (i <? 0)%Z; destruct (_ <? _)%Z; discriminate.
  - cbn [write_ipld]. assert (Hn : write_all (map write_ipld l) <> Panic).
    { induction IH as [|x l Hx Hl IHl]; cbn; [discriminate|]. destruct (write_ipld x); try congruence.
      destruct (write_all (map write_ipld l)); congruence. }
    destruct (write_all _); cbn; congruence.
  - rewrite write_map.
    assert (IH' : Forall (fun kv => write_ipld (snd kv) <> Panic) (ksort m)).
    { rewrite Forall_forall in *. intros x Hx. apply IH.
      apply (Permutation_in x (ksort_perm m)). exact Hx. }
    assert (Hn : write_all (map write_entry (ksort m)) <> Panic).
    { clear IH. induction IH' as [|x l Hx Hl IHl]; cbn; [discriminate|].
      unfold write_entry at 1. destruct (write_ipld (snd x)); cbn; try congruence.
      destruct (write_all (map write_entry l)); congruence. }
    destruct (write_all _); cbn; congruence.
Qed.

Lemma write_nonempty v b : write_ipld v = Ok b -> b <> [].
Proof.
  assert (Hh : forall major n c, write_u64 major n ++ c <> []).
  { intros major n c. unfold write_u64, write_u32, write_u16, write_u8.
    destruct (n <=? 4294967295); [destruct (n <=? 65535); [destruct (n <=? 255); [destruct (n <=? 23)|]|]|]; discriminate. }
  assert (Hh' : forall major n, write_u64 major n <> []).
  { intros major n E. apply (Hh major n []). rewrite E. reflexivity. }
  intros Hw. destruct v; cbn [write_ipld] in Hw.
  - inversion Hw. discriminate.
  - inversion Hw. discriminate.
  - unfold write_int in Hw. destruct (i <? 0)%Z; destruct (_ <? _)%Z; inversion Hw; auto.
  - inversion Hw. unfold write_f64.
    destruct (f64_finite bits); [destruct (narrow bits)|destruct (f64_man bits =? 0); [destruct (f64_sign bits =? 0)|]]; discriminate.
  - inversion Hw. apply Hh.
  - inversion Hw. apply Hh.
  - apply prepend_inv in Hw as (c & _ & ->). apply Hh.
  - apply prepend_inv in Hw as (c & _ & ->). apply Hh.
  - inversion Hw. apply Hh.
Qed.

(** * Reading items back *)
Lemma read_items_spec {A} (rd : bytes -> cres (A * bytes)) (ok : A -> bool) (l : list A) bs rest fuel :
  Forall2 (fun a b => forall r, if ok a then rd (b ++ r) = Ok (a, r)
                                else exists e, rd (b ++ r) = Err e) l bs ->
  (length l <= fuel)%nat ->
  if forallb ok l then read_items rd fuel (blen l) (concat bs ++ rest) = Ok (l, rest)
  else exists e, read_items rd fuel (blen l) (concat bs ++ rest) = Err e.
Proof.
  intros HF. revert fuel. induction HF as [|a b l bs Hab HF IH]; intros fuel Hfuel.
  - destruct fuel; reflexivity.
  - cbn [length] in Hfuel. destruct fuel as [|fuel]; [lia|].
    specialize (IH fuel ltac:(lia)). cbn [forallb concat]. rewrite <- app_assoc.
    specialize (Hab (concat bs ++ rest)).
    rewrite blen_cons. cbn [read_items].
    destruct (N.eqb_spec (1 + blen l) 0); [lia|].
    replace (1 + blen l - 1) with (blen l) by lia.
    destruct (ok a); cbn [andb].
    + rewrite Hab. cbn [obind]. destruct (forallb ok l).
      * rewrite IH. reflexivity.
      * destruct IH as [e ->]. cbn [obind]. eauto.
    + destruct Hab as [e ->]. cbn [obind]. eauto.
Qed.

Lemma concat_length_ge {A} (R : A -> bytes -> Prop) l bs :
  Forall2 R l bs -> (forall a b, R a b -> b <> []) -> (length l <= length (concat bs))%nat.
Proof.
  intros HF Hne. induction HF as [|a b l bs Hab HF IH]; cbn; [lia|].
  rewrite app_length. specialize (Hne _ _ Hab). destruct b; [congruence|cbn; lia].
Qed.

Lemma cread_bytes_app b r :
  if blen b <=? 65536 then cread_bytes (blen b) (b ++ r) = Ok (b, r)
  else exists e, cread_bytes (blen b) (b ++ r) = Err e.
Proof.
  unfold cread_bytes. destruct (N.leb_spec (blen b) 65536).
  - destruct (N.ltb_spec 65536 (blen b)); [lia|]. apply read_exact_app. unfold blen. lia.
  - destruct (N.ltb_spec 65536 (blen b)); [eauto|lia].
Qed.

Lemma cread_str_app b r :
  utf8 b = true ->
  if blen b <=? 65536 then cread_str (blen b) (b ++ r) = Ok (b, r)
  else exists e, cread_str (blen b) (b ++ r) = Err e.
Proof.
  intros Hu. unfold cread_str. pose proof (cread_bytes_app b r) as H.
  destruct (blen b <=? 65536).
  - rewrite H. cbn [obind]. rewrite Hu. reflexivity.
  - destruct H as [e ->]. cbn [obind]. eauto.
Qed.

Lemma read_string_item_app b r :
  utf8 b = true -> blen b < u64_max1 ->
  if blen b <=? 65536 then read_string_item (write_str b ++ r) = Ok (b, r)
  else exists e, read_string_item (write_str b ++ r) = Err e.
Proof.
  intros Hu Hb. destruct (head_spec 3 (blen b) Hb) as (b0 & tl & Hh & Hd & _ & Ha & _).
  pose proof (cread_str_app b r Hu) as Hs.
  unfold read_string_item, write_str. rewrite Hh. rewrite <- app_assoc. cbn [app].
  rewrite read_be_1. cbn [obind]. rewrite Hd. change (3 =? 3) with true. cbn iota.
  rewrite Ha. cbn [obind]. exact Hs.
Qed.

Lemma forallb_perm {A} (f : A -> bool) l l' : Permutation l l' -> forallb f l = forallb f l'.
Proof.
  induction 1; cbn; try congruence; auto. destruct (f x), (f y); reflexivity.
Qed.

Section Size.
Variable ipld_size : N.

(** The head of an item, read by [read_ipld]. *)
Lemma read_head major v r :
  v < u64_max1 ->
  exists b0 tl, write_u64 major v = b0 :: tl /\ b0 / 32 = major /\
    read_be 1 (write_u64 major v ++ r) = Ok (b0, tl ++ r) /\
    read_arg (b0 mod 32) (tl ++ r) = Ok (Some v, r).
Proof.
  intros Hv. destruct (head_spec major v Hv) as (b0 & tl & Hh & Hd & _ & Ha & _).
  exists b0, tl. rewrite Hh. cbn [app]. rewrite read_be_1. auto.
Qed.

Lemma read_link_app c r :
  wf_cid c -> blen (cid_to_bytes c) + 1 < u64_max1 ->
  if (23 <=? blen (cid_to_bytes c)) && (blen (cid_to_bytes c) <=? 254)
  then read_link (skipn 1 (write_link c) ++ r) = Ok (c, r)
  else exists e, read_link (skipn 1 (write_link c) ++ r) = Err e.
Proof.
  intros Hc Hlen. unfold write_link. change (write_u64 6 42) with [216; 42].
  cbn [app skipn]. set (n := blen (cid_to_bytes c)) in *.
  destruct (head_spec 2 (n + 1) Hlen) as (b0 & tl & Hh & Hd & Hb & _ & H24 & H24').
  rewrite Hh. cbn [app]. unfold read_link. rewrite read_be_1. cbn [obind].
  change (negb (42 =? 42)) with false. cbn iota. rewrite read_be_1. cbn [obind].
  assert (Hb0 : b0 = 64 + b0 mod 32).
  { pose proof (N.div_mod b0 32 ltac:(lia)) as Hdm. rewrite Hd in Hdm. lia. }
  destruct (N.eqb_spec b0 88) as [E|E]; cbn [negb].
  - assert (Hm : b0 mod 32 = 24) by lia. specialize (H24 Hm).
    destruct (H24' H24) as [_ ->]. cbn [app]. rewrite read_be_1. cbn [obind].
    destruct (N.eqb_spec (n + 1) 0); [lia|].
    destruct (N.leb_spec 23 n); [|lia]. destruct (N.leb_spec n 254); [|lia]. cbn [andb].
    pose proof (cread_bytes_app (0 :: cid_to_bytes c) r) as Hr.
    rewrite blen_cons in Hr. fold n in Hr. replace (1 + n) with (n + 1) in Hr by lia.
    destruct (N.leb_spec (n + 1) 65536); [|lia]. cbn [app] in Hr. rewrite Hr. cbn [obind].
    change (negb (0 =? 0)) with false. cbn iota. rewrite cid_roundtrip by exact Hc. reflexivity.
  - destruct (N.leb_spec 23 n); cbn [andb]; [|eauto].
    destruct (N.leb_spec n 254); cbn [andb]; [|eauto].
    exfalso. apply E. destruct H24'; lia.
Qed.

Definition reads_back (v : ipld) : Prop :=
  forall d b rest, wf_ipld v -> (height v <= d)%nat -> write_ipld v = Ok b ->
    if within_limits ipld_size v then read_ipld ipld_size d (b ++ rest) = Ok (v, rest)
    else exists e, read_ipld ipld_size d (b ++ rest) = Err e.

Lemma list_max_in x l : In x l -> (x <= list_max l)%nat.
Proof.
  intros H. pose proof (proj1 (list_max_le l (list_max l)) (le_n _)) as Hf.
  rewrite Forall_forall in Hf. auto.
Qed.

Ltac head maj n :=
  let H := fresh "Hhead" in
  match goal with
  | |- context [write_u64 maj n ++ ?r] =>
      destruct (read_head maj n r) as (b0 & tl & Hw0 & Hd0 & Hr0 & Ha0);
      [|cbn [read_ipld]; rewrite Hr0; cbn [obind]; rewrite Hd0; cbn [obind];
        rewrite Ha0; cbn [obind]]
  end.

Lemma read_back v : reads_back v.
Proof.
  induction v as [|b|i|f|s|bs|l IH|m IH|c] using ipld_ind'; intros d out rest Hwf Hd Hw;
    (destruct d as [|d]; [cbn in Hd; lia|]).
  - cbn in Hw. inversion Hw. cbn [within_limits app]. cbn [read_ipld]. rewrite read_be_1. reflexivity.
  - cbn in Hw. inversion Hw. cbn [within_limits app]. cbn [read_ipld]. rewrite read_be_1.
    destruct b; reflexivity.
  - cbn [write_ipld] in Hw. pose proof (write_int_inv _ _ Hw) as Hi.
    rewrite write_int_ok in Hw by exact Hi. inversion Hw; subst out. clear Hw.
    change (2 ^ 64)%Z with 18446744073709551616%Z in Hi. cbn [within_limits].
    destruct (Z.ltb_spec i 0).
    + head 1 (Z.to_N (- (i + 1))); [unfold u64_max1; lia|].
      do 3 f_equal. lia.
    + head 0 (Z.to_N i); [unfold u64_max1; lia|]. do 3 f_equal. lia.
  - cbn [write_ipld] in Hw. inversion Hw; subst out. cbn [within_limits].
    unfold write_f64. change (is_finite f) with (f64_finite f). cbn [wf_ipld] in Hwf.
    destruct (f64_finite f) eqn:Ef.
    + destruct (narrow f) as [y|] eqn:En.
      * pose proof (narrow_small _ _ Hwf En) as Hy. apply narrow_some in En. subst f.
        cbn [app read_ipld]. rewrite read_be_1. cbn [obind].
        change (250 / 32) with 7. change (250 mod 32) with 26. cbn [N.eqb Pos.eqb orb].
        rewrite read_be_app by exact Hy. reflexivity.
      * cbn [app read_ipld]. rewrite read_be_1. cbn [obind].
        change (251 / 32) with 7. change (251 mod 32) with 27. cbn [N.eqb Pos.eqb orb].
        rewrite read_be_app by exact Hwf. reflexivity.
    + exists UnexpectedCode. destruct (f64_man f =? 0); [destruct (f64_sign f =? 0)|];
        cbn [app read_ipld]; rewrite read_be_1; reflexivity.
  - cbn [write_ipld] in Hw. inversion Hw; subst out. cbn [within_limits wf_ipld] in *.
    destruct Hwf as (Hb & Hu & Hl). unfold write_str. rewrite <- app_assoc.
    head 3 (blen s); [exact Hl|].
    pose proof (cread_str_app s rest Hu) as Hs. destruct (blen s <=? 65536).
    + rewrite Hs. reflexivity.
    + destruct Hs as [e ->]. cbn [obind]. eauto.
  - cbn [write_ipld] in Hw. inversion Hw; subst out. cbn [within_limits wf_ipld] in *.
    destruct Hwf as (Hb & Hl). unfold write_bytes. rewrite <- app_assoc.
    head 2 (blen bs); [exact Hl|].
    pose proof (cread_bytes_app bs rest) as Hs. destruct (blen bs <=? 65536).
    + rewrite Hs. reflexivity.
    + destruct Hs as [e ->]. cbn [obind]. eauto.
  - cbn [write_ipld] in Hw. apply prepend_inv in Hw as (c & Hw & ->).
    apply write_all_inv in Hw as (bs & HF & ->). cbn [wf_ipld] in Hwf.
    destruct Hwf as (Hlen & Hwf). rewrite allP_Forall in Hwf. cbn [height] in Hd.
    rewrite <- app_assoc. head 4 (blen l); [exact Hlen|].
    assert (Hit := read_items_spec (read_ipld ipld_size d) (within_limits ipld_size) l bs rest
                     (S (length (concat bs ++ rest)))).
    cbn [within_limits].
    destruct (N.leb_spec (blen l * ipld_size) 65536) as [Hs|Hs]; cbn [andb];
      (destruct (N.ltb_spec 65536 (blen l * ipld_size)); [|]); try lia; [|eauto].
    assert (HG : if forallb (within_limits ipld_size) l
                then read_items (read_ipld ipld_size d) (S (length (concat bs ++ rest))) (blen l) (concat bs ++ rest) = Ok (l, rest)
                else exists e, read_items (read_ipld ipld_size d) (S (length (concat bs ++ rest))) (blen l) (concat bs ++ rest) = Err e).
    { apply Hit.
      - clear - IH HF Hwf Hd. assert (Hd' : forall x, In x l -> (height x <= d)%nat).
        { intros x Hx. assert (height x <= list_max (map height l))%nat by (apply list_max_in, in_map; exact Hx). lia. }
        clear Hd. induction HF as [|x y l bs Hxy HF IHF]; constructor.
        + intros r. inversion IH; subst. inversion Hwf; subst. apply H1; auto. apply Hd'. left; reflexivity.
        + inversion IH; subst. inversion Hwf; subst. apply IHF; auto. intros z Hz. apply Hd'. right; exact Hz.
      - rewrite app_length. pose proof (concat_length_ge _ _ _ HF write_nonempty). lia. }
    destruct (forallb (within_limits ipld_size) l).
    + rewrite HG. reflexivity.
    + destruct HG as [e ->]. cbn [obind]. eauto.
  - rewrite write_map in Hw. apply prepend_inv in Hw as (c & Hw & ->).
    apply write_all_inv in Hw as (bs & HF & ->). cbn [wf_ipld] in Hwf.
    destruct Hwf as (Hlen & Hsort & Hk & Hwf). rewrite allP_Forall in Hk, Hwf. cbn [height] in Hd.
    rewrite <- app_assoc. head 5 (blen m); [exact Hlen|].
    set (rd := fun r => _).
    assert (Hit := read_items_spec rd
       (fun kv => (blen (fst kv) <=? 65536) && within_limits ipld_size (snd kv)) (ksort m) bs rest
                     (S (length (concat bs ++ rest)))).
    cbn [within_limits].
    rewrite <- (forallb_perm _ _ _ (ksort_perm m)).
    assert (Hbl : blen (ksort m) = blen m) by (unfold blen; rewrite ksort_length; reflexivity).
    rewrite Hbl in Hit.
    match type of Hit with _ -> _ -> ?G => assert (HG : G) end.
    { apply Hit.
      - assert (IH' : Forall (fun kv => reads_back (snd kv) /\ (height (snd kv) <= d)%nat /\
            (wf_bytes (fst kv) /\ utf8 (fst kv) = true /\ blen (fst kv) < u64_max1) /\
            wf_ipld (snd kv)) (ksort m)).
        { rewrite Forall_forall in *. intros x Hx. apply (Permutation_in x (ksort_perm m)) in Hx.
          repeat split; try apply Hk; auto.
          assert (height (snd x) <= list_max (map (fun kv => height (snd kv)) m))%nat; [|lia].
          apply list_max_in. apply (in_map (fun kv => height (snd kv))). exact Hx. }
        clear - IH' HF rd.
        induction HF as [|x y l bs Hxy HF IHF]; constructor.
        + intros r. inversion IH'; subst. destruct H1 as (Hrb & Hh & (Hb & Hu & Hl) & Hwf).
          unfold write_entry in Hxy. apply prepend_inv in Hxy as (c & Hxy & ->).
          rewrite <- app_assoc. subst rd. cbv beta.
          pose proof (read_string_item_app (fst x) (c ++ r) Hu Hl) as Hks.
          specialize (Hrb d c r Hwf Hh Hxy).
          destruct (blen (fst x) <=? 65536); cbn [andb].
          * rewrite Hks. cbn [obind]. destruct (within_limits ipld_size (snd x)).
            -- rewrite Hrb. cbn [obind]. destruct x; reflexivity.
            -- destruct Hrb as [e ->]. cbn [obind]. eauto.
          * destruct Hks as [e ->]. cbn [obind]. eauto.
        + inversion IH'; subst. apply IHF. assumption.
      - rewrite app_length.
        assert (length (ksort m) <= length (concat bs))%nat; [|lia].
        apply (concat_length_ge _ _ _ HF). intros a b Hab.
        unfold write_entry in Hab. apply prepend_inv in Hab as (c & Hab & ->).
        intros E. apply app_eq_nil in E as [_ E]. revert E. eapply write_nonempty; eauto. }
    destruct (forallb _ (ksort m)).
    + rewrite HG. cbn [obind]. do 3 f_equal. apply bt_of_perm; [exact Hsort| |].
      * assert (Hp : Permutation (map fst (ksort m)) (map fst m)) by (apply Permutation_map, ksort_perm).
        apply (Permutation_NoDup (Permutation_sym Hp)). apply bt_sorted_nodup. exact Hsort.
      * intros kv. split; apply Permutation_in; [apply ksort_perm|symmetry; apply ksort_perm].
    + destruct HG as [e ->]. cbn [obind]. eauto.
  - cbn [write_ipld] in Hw. inversion Hw; subst out. cbn [within_limits wf_ipld] in *.
    destruct Hwf as [Hc Hl]. pose proof (read_link_app c rest Hc Hl) as H.
    assert (Hhd : write_link c = 216 :: skipn 1 (write_link c)) by reflexivity.
    rewrite Hhd. cbn [app read_ipld]. rewrite read_be_1. cbn [obind].
    change (216 / 32) with 6. change (216 mod 32 =? 24) with true. cbn iota.
    destruct (_ && _).
    + rewrite H. reflexivity.
    + destruct H as [e ->]. cbn [obind]. eauto.
Qed.
End Size.
