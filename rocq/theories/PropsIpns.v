(** C51 and C52: names. *)
From Verif Require Import Base Wire WireProofs Cid CidProofs Text TextProofs FMap IpfsPath PathSpec IpfsPathProofs PropsPath Ipns IpnsSpec IpnsProofs.
Local Open Scope N_scope.

(** * C51 *)

(** One resolution: a path to content is itself; a domain name resolves to the path of its record, the
    first "dnslink=" text at the name or else at "_dnslink." and the name; anything else is an error. *)
Theorem c51_once ob txt p q : resolve_ipns ob 0 (fun _ => txt) p false = Some (Some q) <->
  (is_ipld p /\ q = p) \/ leads ob txt p q.
Proof. unfold resolve_ipns. rewrite <- resolve_spec. split; [intros [= H]; exact H|intros ->; reflexivity]. Qed.
Print Assumptions c51_once.

(** Recursive resolution ends, even if the records change while it runs, when all of them lead to
    finitely many paths: after at most one more resolution than there are paths. *)
Theorem c51_ends ob (P : list ipfs_path) txt p : (forall n d q, links ob (txt n) d q -> In q P) ->
  resolve_ipns ob (S (length P)) txt p true <> None.
Proof.
  intros H. unfold resolve_ipns. apply (follow_ends ob _ (p :: P)).
  - intros n x q Hx Hq. apply resolve_spec in Hq as [[_ ->]|(d & _ & Hd)]; [exact Hx|right; eapply H; exact Hd].
  - constructor.
  - intros x [].
  - intros q Hq. apply resolve_spec in Hq as [[_ ->]|(d & _ & Hd)]; [left; reflexivity|right; eapply H; exact Hd].
  - cbn [length]. lia.
Qed.
Print Assumptions c51_ends.

(** So for every finite set of records. *)
Theorem c51_ends_records ob (zone : list (bytes * list (list bytes))) p :
  resolve_ipns ob (S (length zone)) (fun _ name => mget beq name zone) p true <> None.
Proof.
  set (P := flat_map (fun e => match first_link ob (concat (snd e)) with Some (Some q) => [q] | _ => [] end) zone).
  assert (L : (length P <= length zone)%nat).
  { unfold P. clear. induction zone as [|e z IH]; cbn [flat_map length]; [lia|]. rewrite app_length. destruct (first_link ob (concat (snd e))) as [[q|]|]; cbn [length]; lia. }
  assert (HP : forall n q, says ob (fun name => mget beq name zone) n q -> In q P).
  { intros n q Hs. apply says_spec in Hs as (res & Hm & Hf). apply (mget_in _ beq_spec) in Hm. unfold P. apply in_flat_map. exists (n, res). split; [exact Hm|].
    cbn [snd]. rewrite Hf. left. reflexivity. }
  unfold resolve_ipns. apply (follow_ends ob _ (p :: P)).
  - intros n x q Hx Hq. apply resolve_spec in Hq as [[_ ->]|(d & _ & [Hd|(_ & _ & Hd)])]; [exact Hx|right; eapply HP; exact Hd|right; eapply HP; exact Hd].
  - constructor.
  - intros x [].
  - intros q Hq. apply resolve_spec in Hq as [[_ ->]|(d & _ & [Hd|(_ & _ & Hd)])]; [left; reflexivity|right; eapply HP; exact Hd|right; eapply HP; exact Hd].
  - cbn [length]. lia.
Qed.
Print Assumptions c51_ends_records.

Lemma it_first ob txt p k : it (resolve ob txt) k (resolve ob txt p) = it (resolve ob txt) (S k) (Some p).
Proof. replace (S k) with (k + 1)%nat by lia. rewrite it_add. reflexivity. Qed.
Lemma result_it ob txt fuel p r : resolve_ipns ob fuel (fun _ => txt) p true = Some r ->
  exists m, (0 < m)%nat /\ r = it (resolve ob txt) m (Some p) /\ (r = None \/ exists i, (0 < i < m)%nat /\ it (resolve ob txt) i (Some p) = r).
Proof.
  unfold resolve_ipns. intros H. destruct (follow_constant ob txt fuel 1 [] (resolve ob txt p) 0 r) as (m & Hm & Hr & Hor); [|exact H|].
  - intros y. split; [intros []|]. intros (i & Hi & _). lia.
  - exists (S m). split; [lia|]. split; [rewrite <- it_first; exact Hr|]. destruct Hor as [->|(i & Hi & Ei)]; [left; reflexivity|].
    right. exists (S i). split; [lia|]. rewrite <- it_first. exact Ei.
Qed.

(** With the records as they are, the result is the content path at the end of the chain of names
    exactly when the chain has one, … *)
Theorem c51_end ob txt fuel p r q : resolve_ipns ob fuel (fun _ => txt) p true = Some r -> is_ipld q ->
  (r = Some q <-> chain ob txt p q).
Proof.
  intros H Hq. destruct (result_it _ _ _ _ _ H) as (m & Hm & Hr & Hor). split.
  - intros ->. apply (it_chain ob txt m). congruence.
  - intros C. apply chain_it in C as (n & Hn). assert (F : resolve ob txt q = Some q) by (apply resolve_spec; left; auto).
    assert (A : forall k, (n <= k)%nat -> it (resolve ob txt) k (Some p) = Some q).
    { intros k Hk. replace k with ((k - n) + n)%nat by lia. rewrite it_add, Hn. apply it_fix. exact F. }
    destruct Hor as [E|(i & Hi & Ei)].
    + exfalso. assert (X : it (resolve ob txt) (n + m) (Some p) = None) by (rewrite it_add, <- Hr, E; apply it_none). rewrite A in X by lia. discriminate.
    + rewrite <- Ei. rewrite <- (it_period (resolve ob txt) (Some p) i (m - i) n); [apply A; nia|]. replace (i + (m - i))%nat with m by lia. congruence.
Qed.
Print Assumptions c51_end.

(** … an error exactly when the chain stops at a name without usable record, or at a peer id, … *)
Theorem c51_error ob txt fuel p r : resolve_ipns ob fuel (fun _ => txt) p true = Some r ->
  (r = None <-> exists x, chain ob txt p x /\ dead_end ob txt x).
Proof.
  intros H. destruct (result_it _ _ _ _ _ H) as (m & Hm & Hr & Hor). split.
  - intros ->. clear Hor H. revert Hr. induction m as [|m IH]; [discriminate|]. cbn [it]. destruct (it (resolve ob txt) m (Some p)) as [y|] eqn:E.
    + intros Hr. exists y. split; [apply (it_chain ob txt m); exact E|]. split.
      * intros Hi. assert (X : resolve ob txt y = Some y) by (apply resolve_spec; auto). congruence.
      * intros q Hq. assert (X : resolve ob txt y = Some q) by (apply resolve_spec; auto). congruence.
    + intros _. destruct m as [|m]; [discriminate E|]. apply IH; [lia|reflexivity].
  - intros (x & C & D1 & D2). apply chain_it in C as (n & Hn).
    assert (F : resolve ob txt x = None). { destruct (resolve ob txt x) as [q|] eqn:E; [|reflexivity]. apply resolve_spec in E as [[E _]|E]; [contradiction|]. exfalso. eapply D2; exact E. }
    assert (A : forall k, (n < k)%nat -> it (resolve ob txt) k (Some p) = None).
    { intros k Hk. replace k with ((k - n - 1) + (1 + n))%nat by lia. rewrite it_add, (it_add _ 1 n), Hn. cbn [it]. rewrite F. apply it_none. }
    destruct Hor as [E|(i & Hi & Ei)]; [exact E|]. rewrite <- Ei. rewrite <- (it_period (resolve ob txt) (Some p) i (m - i) (S n)); [apply A; nia|].
    replace (i + (m - i))%nat with m by lia. congruence.
Qed.
Print Assumptions c51_error.

(** … and otherwise, when the chain runs into a circle, a name on the circle. *)
Theorem c51_circle ob txt fuel p r : resolve_ipns ob fuel (fun _ => txt) p true = Some r ->
  ((exists q, r = Some q /\ ~ is_ipld q) <-> exists x, chain ob txt p x /\ circular ob txt x) /\
  (forall q, r = Some q -> ~ is_ipld q -> chain ob txt p q /\ circular ob txt q).
Proof.
  intros H.
  assert (G : forall q, r = Some q -> ~ is_ipld q -> chain ob txt p q /\ circular ob txt q).
  { intros q -> Hq. destruct (result_it _ _ _ _ _ H) as (m & Hm & Hr & [E|(i & Hi & Ei)]); [discriminate|].
    split; [apply (it_chain ob txt m); congruence|]. assert (X : it (resolve ob txt) (m - i) (Some q) = Some q).
    { rewrite <- Ei, <- it_add. replace (m - i + i)%nat with m by lia. congruence. }
    replace (m - i)%nat with ((m - i - 1) + 1)%nat in X by lia. rewrite it_add in X. cbn [it] in X.
    destruct (resolve ob txt q) as [y|] eqn:E; [|rewrite it_none in X; discriminate]. exists y. split; [|eapply it_chain; exact X].
    apply resolve_spec in E as [[E _]|E]; [contradiction|exact E]. }
  split; [|exact G]. split.
  - intros (q & E & Hq). exists q. apply G; assumption.
  - intros (x & C & (y & L & C')). destruct r as [q|].
    + exists q. split; [reflexivity|]. intros Hq. assert (Cq : chain ob txt p q) by (apply (c51_end _ _ _ _ _ _ H Hq); reflexivity).
      (* a chain which enters a circle never reaches content *)
      apply chain_it in Cq as (n & Hn). assert (Cx : exists d, (0 < d)%nat /\ it (resolve ob txt) d (Some x) = Some x).
      { apply chain_it in C' as (d & Hd). exists (d + 1)%nat. split; [lia|]. rewrite it_add. cbn [it]. assert (E : resolve ob txt x = Some y) by (apply resolve_spec; auto).
        rewrite E. exact Hd. }
      destruct Cx as (d & Hd & Ed). apply chain_it in C as (j & Hj).
      assert (X : it (resolve ob txt) (j + n * d) (Some p) = Some x).
      { rewrite it_period, Hj; [reflexivity|]. rewrite Nat.add_comm, it_add, Hj. symmetry. exact Ed. }
      assert (F : resolve ob txt q = Some q) by (apply resolve_spec; left; auto).
      replace (j + n * d)%nat with ((j + n * d - n) + n)%nat in X by nia. rewrite it_add, Hn, (it_fix _ _ _ F) in X. injection X as ->.
      destruct L as (dn & Ex & _). destruct Hq as (c & Ec). congruence.
    + exfalso. destruct (proj1 (c51_error _ _ _ _ _ H) eq_refl) as (z & Cz & D1 & D2).
      apply chain_it in Cz as (n & Hn). assert (Cx : exists d, (0 < d)%nat /\ it (resolve ob txt) d (Some x) = Some x).
      { apply chain_it in C' as (d & Hd). exists (d + 1)%nat. split; [lia|]. rewrite it_add. cbn [it]. assert (E : resolve ob txt x = Some y) by (apply resolve_spec; auto).
        rewrite E. exact Hd. }
      destruct Cx as (d & Hd & Ed). apply chain_it in C as (j & Hj).
      assert (X : it (resolve ob txt) (j + S n * d) (Some p) = Some x).
      { rewrite it_period, Hj; [reflexivity|]. rewrite Nat.add_comm, it_add, Hj. symmetry. exact Ed. }
      assert (F : resolve ob txt z = None). { destruct (resolve ob txt z) as [q|] eqn:E; [|reflexivity]. apply resolve_spec in E as [[E _]|E]; [contradiction|]. exfalso. eapply D2; exact E. }
      replace (j + S n * d)%nat with ((j + S n * d - n - 1) + (1 + n))%nat in X by nia. rewrite it_add, (it_add _ 1 n), Hn in X. cbn [it] in X.
      rewrite F, it_none in X. discriminate.
Qed.
Print Assumptions c51_circle.

(** A peer id cannot be resolved, whatever the records say. *)
Theorem c51_peer_ids ob fuel txt k segs recursive : resolve_ipns ob fuel txt (mk_path (Ipns k) segs) recursive = Some None.
Proof. unfold resolve_ipns, resolve. cbn [p_root]. destruct recursive; [destruct fuel|]; reflexivity. Qed.
Print Assumptions c51_peer_ids.

(** What the argument of /dns means, and that both endpoints answer the text of the result. *)
Theorem c51_http ob fuel txt arg recursive :
  (forall p, dns_arg ob arg = Some p <-> spells ob arg p \/
     ((forall q, ~ spells ob arg q) /\ (forall rest, arg <> 47 :: rest) /\ spells ob (at_ipns ++ arg) p)) /\
  (forall p, dns_arg ob arg = Some p -> http_dns ob fuel txt arg recursive = option_map (option_map path_to_str)
     (resolve_ipns ob fuel txt p (match recursive with Some true => true | _ => false end))) /\
  (dns_arg ob arg = None -> http_dns ob fuel txt arg recursive = Some None) /\
  (forall p, spells ob arg p -> http_resolve ob txt arg = option_map (option_map path_to_str) (resolve_ipns ob 0 txt p false)).
Proof.
  split; [|split; [|split]].
  - intros p. unfold dns_arg. rewrite <- !parse_spec.
    assert (N : (forall q, ~ spells ob arg q) <-> path_from_str ob arg = None).
    { split.
      - intros H. destruct (path_from_str ob arg) as [q|] eqn:E; [|reflexivity]. exfalso. apply (H q). apply parse_spec. exact E.
      - intros H q Hq. apply parse_spec in Hq. congruence. }
    rewrite N. change (47 :: s_ipns ++ [47]) with at_ipns.
    assert (D : (exists rest, arg = 47 :: rest) \/ forall rest, arg <> 47 :: rest).
    { destruct arg as [|c rest]; [right; discriminate|]. destruct (N.eq_dec c 47) as [->|]; [left; eauto|right; congruence]. }
    destruct D as [(rest & ->)|D].
    + split; [auto|]. intros [H|(_ & H & _)]; [exact H|]. exfalso. eapply H; reflexivity.
    + replace (match arg with 47 :: _ => path_from_str ob arg | _ => match path_from_str ob arg with Some p0 => Some p0 | None => path_from_str ob (at_ipns ++ arg) end end)
        with (match path_from_str ob arg with Some p0 => Some p0 | None => path_from_str ob (at_ipns ++ arg) end).
      * destruct (path_from_str ob arg) as [q|]; split; auto; [intros [H|(H & _)]; [exact H|discriminate]|intros [H|(_ & _ & H)]; [discriminate|exact H]].
      * clear N. destruct arg as [|c rest]; [reflexivity|]. destruct (N.eq_dec c 47) as [->|Nc]; [exfalso; eapply D; reflexivity|].
        destruct c as [|c]; [reflexivity|]. do 6 (try (destruct c as [c|c|]; try reflexivity)). exfalso. apply Nc. reflexivity.
  - intros p H. unfold http_dns. rewrite H. destruct recursive as [[|]|]; reflexivity.
  - intros H. unfold http_dns. rewrite H. reflexivity.
  - intros p H. apply parse_spec in H. unfold http_resolve. rewrite H. reflexivity.
Qed.
Print Assumptions c51_http.

(** Records for the examples: a leads to /ipns/b, b through _dnslink.b to content; c and d to each
    other. *)
Definition cid_text : bytes := [81;109;97;67;112;68;77;71;118;86;50;66;71;72;101;89;69;82;85;69;110;82;81;65;119;101;51;78;56;83;122;98;85;116;102;115;109;118;115;113;81;76;117;118;117;74].
Definition content (segs : list bytes) : ipfs_path := mk_path (Ipld (CidV0
  [176; 74; 87; 212; 14; 202; 19; 136; 9; 241; 57; 167; 107; 18; 4; 67; 51; 195; 116; 3; 145; 201; 191; 28; 233; 216; 226; 26; 121; 33; 11; 253])) segs.
Definition name (n : N) (segs : list bytes) : ipfs_path := mk_path (Dns [n]) segs.
Definition zone : list (bytes * list (list bytes)) :=
  [([97], [[[120]]; [s_dnslink_eq ++ at_ipns ++ [98]]]);
   (s_dnslink_dot ++ [98], [[s_dnslink_eq ++ at_ipfs ++ cid_text ++ [47; 122]]]);
   ([99], [[s_dnslink_eq ++ at_ipns ++ [100]]]);
   ([100], [[s_dnslink_eq ++ at_ipns ++ [99]]]);
   ([101], [[s_dnslink_eq ++ [47]; s_dnslink_eq ++ at_ipns ++ [97]]])].
Definition lookup (n : bytes) : option (list (list bytes)) := mget beq n zone.
Example ex_resolve :
  resolve_ipns no_base 6 (fun _ => lookup) (name 97 []) true = Some (Some (content [[122]])) /\
  resolve_ipns no_base 6 (fun _ => lookup) (name 97 []) false = Some (Some (name 98 [])) /\
  resolve_ipns no_base 6 (fun _ => lookup) (name 102 []) true = Some None /\
  resolve_ipns no_base 6 (fun _ => lookup) (content [[120]]) true = Some (Some (content [[120]])) /\
  http_dns no_base 6 (fun _ => lookup) [97] (Some true) = Some (Some (at_ipfs ++ cid_text ++ [47; 122])).
Proof. repeat split; vm_compute; reflexivity. Qed.
Example ex_chain : chain no_base lookup (name 97 []) (content [[122]]) /\ dead_end no_base lookup (name 102 []) /\ circular no_base lookup (name 99 []) /\
  is_ipld (content [[122]]).
Proof.
  assert (H : forall p q, resolve no_base lookup p = Some q -> ~ is_ipld p -> leads no_base lookup p q).
  { intros p q H N. apply resolve_spec in H as [[H _]|H]; [contradiction|exact H]. }
  assert (N : forall n segs, ~ is_ipld (name n segs)) by (intros n segs (c & E); discriminate).
  split; [|split; [|split]].
  - apply chain_next with (q := name 98 []); [apply H; [vm_compute; reflexivity|apply N]|]. apply chain_next with (q := content [[122]]); [apply H; [vm_compute; reflexivity|apply N]|]. constructor.
  - split; [apply N|]. intros q L. assert (E : resolve no_base lookup (name 102 []) = Some q) by (apply resolve_spec; right; exact L). vm_compute in E. discriminate.
  - exists (name 100 []). split; [apply H; [vm_compute; reflexivity|apply N]|]. apply chain_next with (q := name 99 []); [apply H; [vm_compute; reflexivity|apply N]|]. constructor.
  - eexists. reflexivity.
Qed.

(** False: the sub path of a name is dropped.  In general it has no effect at all. *)
Theorem c51_sub_path_refuted : exists p q r, sub_path p [120] = Some q /\
  resolve_ipns no_base 6 (fun _ => lookup) p true = Some (Some r) /\ resolve_ipns no_base 6 (fun _ => lookup) q true = Some (Some r) /\
  sub_path r [120] <> Some r.
Proof.
  exists (name 97 []), (name 97 [[120]]), (content [[122]]). split; [reflexivity|]. split; [vm_compute; reflexivity|]. split; [vm_compute; reflexivity|discriminate].
Qed.
Print Assumptions c51_sub_path_refuted.
Theorem c51_sub_path_ignored ob fuel txt d segs recursive :
  resolve_ipns ob fuel txt (mk_path (Dns d) segs) recursive = resolve_ipns ob fuel txt (mk_path (Dns d) []) recursive.
Proof. reflexivity. Qed.
Print Assumptions c51_sub_path_ignored.

(** False: with circular records the result is a name and not an error, though nothing is at the end. *)
Theorem c51_circle_refuted : exists p q, resolve_ipns no_base 6 (fun _ => lookup) p true = Some (Some q) /\ ~ is_ipld q /\
  forall r, is_ipld r -> ~ chain no_base lookup p r.
Proof.
  exists (name 99 []), (name 100 []). assert (H : resolve_ipns no_base 6 (fun _ => lookup) (name 99 []) true = Some (Some (name 100 []))) by (vm_compute; reflexivity).
  split; [exact H|]. split; [intros (c & E); discriminate|]. intros r Hr C. apply (c51_end _ _ _ _ _ _ H Hr) in C. injection C as <-. destruct Hr as (c & E). discriminate.
Qed.
Print Assumptions c51_circle_refuted.

(** False: a usable record after one that is not a path is not found. *)
Theorem c51_second_record_refuted : exists d res p, lookup d = Some res /\ In (s_dnslink_eq ++ path_to_str p) (concat res) /\
  path_from_str no_base (path_to_str p) = Some p /\ resolve_ipns no_base 6 (fun _ => lookup) (mk_path (Dns d) []) true = Some None.
Proof.
  exists [101]. eexists. exists (name 97 []). split; [vm_compute; reflexivity|]. split; [right; left; reflexivity|]. split; vm_compute; reflexivity.
Qed.
Print Assumptions c51_second_record_refuted.

(** * C52 *)
Lemma key_inj a b : wf_peer a -> wf_peer b -> mh_to_bytes a = mh_to_bytes b -> a = b.
Proof.
  intros Ha Hb E. pose proof (peer_text_roundtrip _ Ha) as H1. pose proof (peer_text_roundtrip _ Hb) as H2. unfold peer_to_text in *. rewrite E in H1. congruence.
Qed.
Lemma run_record ob l k : Forall good_op l -> wf_peer k -> exists m, run ob (SMem []) l = SMem m /\
  forall r, record_is k (rev l) r <-> match r with
    | Some p => mget beq (mh_to_bytes k) m = Some (path_to_str p) /\ record_is k (rev l) r
    | None => mget beq (mh_to_bytes k) m = None end.
Proof.
  intros Hl Hk. induction l as [|o l IH] using rev_ind.
  - exists []. split; [reflexivity|]. intros [p|]; cbn; [split; [discriminate|intros [H _]; discriminate]|split; reflexivity].
  - apply Forall_app in Hl as [Hl Ho]. apply Forall_inv in Ho. destruct (IH Hl) as (m & Hm & Hr). clear IH.
    unfold run in *. rewrite fold_left_app. cbn [fold_left]. rewrite Hm. rewrite rev_unit.
    destruct o as [k' p'|k'|k'|]; cbn [good_op] in Ho; cbn [step fst record_is].
    + exists (mset beq (mh_to_bytes k') (path_to_str p') m). split; [reflexivity|]. intros r. rewrite (mget_mset _ beq_spec).
      destruct (beq_spec (mh_to_bytes k) (mh_to_bytes k')) as [E|E].
      * apply (key_inj _ _ Hk Ho) in E. split.
        -- intros [[_ ->]|[N _]]; [|contradiction]. split; [reflexivity|]. left. auto.
        -- destruct r as [p|]; [intros [_ H]; exact H|discriminate].
      * assert (N : k <> k') by congruence. split.
        -- intros [[C _]|[_ H]]; [contradiction|]. pose proof (proj1 (Hr r) H) as H'. destruct r as [p|]; [split; [tauto|right; auto]|exact H'].
        -- destruct r as [p|]; [intros [_ H]; exact H|]. intros H. right. split; [exact N|]. apply Hr. exact H.
    + exists m. split; [reflexivity|]. intros r. apply Hr.
    + exists (mdel beq (mh_to_bytes k') m). split; [reflexivity|]. intros r. rewrite (mget_mdel _ beq_spec).
      destruct (beq_spec (mh_to_bytes k) (mh_to_bytes k')) as [E|E].
      * apply (key_inj _ _ Hk Ho) in E. split.
        -- intros [[_ ->]|[N _]]; [reflexivity|contradiction].
        -- destruct r as [p|]; [intros [_ H]; exact H|]. intros _. left. auto.
      * assert (N : k <> k') by congruence. split.
        -- intros [[C _]|[_ H]]; [contradiction|]. pose proof (proj1 (Hr r) H) as H'. destruct r as [p|]; [split; [tauto|right; auto]|exact H'].
        -- destruct r as [p|]; [intros [_ H]; exact H|]. intros H. right. split; [exact N|]. apply Hr. exact H.
    + exists []. split; [reflexivity|]. intros [p|]; cbn [mget]; [split; [discriminate|intros [H _]; discriminate]|split; reflexivity].
Qed.

(** In memory, after any history of calls, a name has the record put last and not removed since: it is
    read back when its text is that of a path again, which C12 says is the case for every path made by
    the api except those with an unusual dns root. *)
Theorem c52_memory ob l k r : Forall good_op l -> wf_peer k -> record_is k (rev l) r ->
  snd (step ob (run ob (SMem []) l) (Get k)) =
    match r with
    | None => Found None
    | Some p => match path_from_str ob (path_to_str p) with Some q => Found (Some q) | None => Failed end
    end.
Proof.
  intros Hl Hk H. destruct (run_record ob l k Hl Hk) as (m & -> & Hr). cbn [step snd]. pose proof (proj1 (Hr r) H) as H'.
  destruct r as [p|]; [destruct H' as [-> _]; reflexivity|rewrite H'; reflexivity].
Qed.
Print Assumptions c52_memory.
Theorem c52_read_back_partial ob l k p : Forall good_op l -> wf_peer k -> record_is k (rev l) (Some p) -> built ob p ->
  match p_root p with
  | Ipld c => wf_cid c
  | Ipns q => wf_peer q
  | Dns n => plain n /\ peer_from_text n = None
  end ->
  snd (step ob (run ob (SMem []) l) (Get k)) = Found (Some p).
Proof. intros Hl Hk H B R. rewrite (c52_memory ob l k _ Hl Hk H), (c12_print_parse_partial ob p B R). reflexivity. Qed.
Print Assumptions c52_read_back_partial.
(** There is always exactly one such record or none, and putting and removing never fail. *)
Theorem c52_record k past : (exists r, record_is k past r) /\ forall r r', record_is k past r -> record_is k past r' -> r = r'.
Proof.
  induction past as [|o past [(r0 & H0) IH]]; cbn [record_is]; [split; [eauto|congruence]|].
  destruct o as [k' p'|k'|k'|]; [| |destruct (mh_eqb_spec k k') as [E|E]|]; [destruct (mh_eqb_spec k k') as [E|E]| | | |].
  - split; [eauto|]. intros r r' [[_ ->]|[N _]] [[_ ->]|[N' _]]; congruence.
  - split; [eauto|]. intros r r' [[C _]|[_ H]] [[C' _]|[_ H']]; try contradiction. auto.
  - eauto.
  - split; [eauto|]. intros r r' [[_ ->]|[N _]] [[_ ->]|[N' _]]; congruence.
  - split; [eauto|]. intros r r' [[C _]|[_ H]] [[C' _]|[_ H']]; try contradiction. auto.
  - split; [eauto|congruence].
Qed.
Print Assumptions c52_record.
Theorem c52_calls ob l k p : exists m, run ob (SMem []) l = SMem m /\
  snd (step ob (SMem m) (Put k p)) = Done /\ snd (step ob (SMem m) (Remove k)) = Done /\ snd (step ob (SMem m) Wipe) = Done.
Proof.
  assert (H : exists m, run ob (SMem []) l = SMem m); [|destruct H as (m & H); exists m; repeat split; exact H].
  induction l as [|o l (m & IH)] using rev_ind; [exists []; reflexivity|]. unfold run in *. rewrite fold_left_app. cbn [fold_left]. rewrite IH. destruct o; cbn [step fst]; eauto.
Qed.
Print Assumptions c52_calls.

Definition peer_1 : peer_id := Build_multihash 18 (repeat 7 32).
Definition peer_2 : peer_id := Build_multihash 18 (repeat 8 32).
Lemma wf_peers : wf_peer peer_1 /\ wf_peer peer_2.
Proof.
  split; (split; [vm_compute; reflexivity|]); (split; [apply Forall_forall; intros x H; apply repeat_spec in H; subst; vm_compute; reflexivity|]); (split; vm_compute; reflexivity).
Qed.
Definition ex_ops : list op := [Put peer_1 (content []); Put peer_2 (name 97 []); Put peer_1 (content [[120]]); Remove peer_2; Get peer_1].
Example ex_records : Forall good_op ex_ops /\ record_is peer_1 (rev ex_ops) (Some (content [[120]])) /\ record_is peer_2 (rev ex_ops) None /\
  snd (step no_base (run no_base (SMem []) ex_ops) (Get peer_1)) = Found (Some (content [[120]])) /\
  snd (step no_base (run no_base (SMem []) ex_ops) (Get peer_2)) = Found None.
Proof.
  destruct wf_peers. split; [repeat constructor; auto|]. assert (N : peer_1 <> peer_2) by discriminate. split; [cbn [ex_ops rev app record_is]; right; split; [exact N|left; auto]|].
  split; [cbn [ex_ops rev app record_is]; left; auto|].
  split; vm_compute; reflexivity.
Qed.

(** False: the persistent stores keep no records at all, and wiping them panics. *)
Theorem c52_disk_refuted ob l k p :
  run ob SDisk l = SDisk /\ snd (step ob SDisk (Put k p)) = Failed /\ snd (step ob SDisk (Get k)) = Failed /\ snd (step ob SDisk (Remove k)) = Failed /\
  snd (step ob SDisk Wipe) = Panicked.
Proof. split; [|repeat split]. induction l as [|o l IH] using rev_ind; [reflexivity|]. unfold run in *. rewrite fold_left_app. cbn [fold_left]. rewrite IH. destruct o; reflexivity. Qed.
Print Assumptions c52_disk_refuted.
(** False: a record whose dns root has a '/' comes back as another path, or not at all. *)
Theorem c52_dns_refuted : exists p q p', built no_base p /\ built no_base p' /\ q <> p /\
  snd (step no_base (run no_base (SMem []) [Put peer_1 p]) (Get peer_1)) = Found (Some q) /\
  snd (step no_base (run no_base (SMem []) [Put peer_1 p']) (Get peer_1)) = Failed.
Proof.
  exists (mk_path (Dns [97; 47; 98]) []), (mk_path (Dns [97]) [[98]]), (mk_path (Dns [97; 47; 47; 98]) []).
  split; [constructor|]. split; [constructor|]. split; [discriminate|]. split; vm_compute; reflexivity.
Qed.
Print Assumptions c52_dns_refuted.
