(** C81, continued: what a client of /add learns from a whole body. *)
From Coq Require Import Ascii String.
From Verif Require Import Base Wire Cid Text TextProofs FsPathsProofs RefsHttp RefsHttpSpec RefsHttpProofs Json JsonSpec JsonProofs Endpoints EndpointsSpec EndpointsProofs HttpAdd HttpAddSpec
  Bodies BodiesSpec BodiesProofs AddBody PropsBodies PropsHttpAdd Str.
From Verif Require Routes RoutesSpec RoutesProofs.
Local Open Scope N_scope.

(** A line of JSON is read as [t]. *)
Definition line_is (l : bytes) (t : jt) : Prop := exists j, document l = Some j /\ reads_as j t.
(** What the API says about the messages: the names and the values. *)
Definition named (m : response) (name : bytes) : Prop := match m with Progress n _ | AddedMsg n _ _ => n = name end.
Definition meant (m : response) (t : jt) : Prop :=
  match m with
  | Progress name n => t = TMap [(text "name", TText name); (text "bytes", TNum n)]
  | AddedMsg name c size => exists s, decimal s size /\ t = TMap [(text "Hash", TText (cid_to_text c)); (text "Name", TText name); (text "Size", TText s)]
  end.
Definition failure (msg : bytes) : jt := TMap [(text "Message", TText msg); (text "Code", TNum 0); (text "Type", TText (text "error"))].

Lemma utf8_dec n : utf8 (dec n) = true.
Proof. apply utf8_ascii. exact (decimal_ascii _ _ (dec_decimal n)). Qed.
Lemma said_meant m : meant m (said m).
Proof. destruct m as [name n|name c size]; [reflexivity|]. exists (dec size). split; [apply dec_decimal|reflexivity]. Qed.
Lemma said_good m name : named m name -> utf8 name = true -> good (said m).
Proof.
  destruct m as [name' n|name' c size]; cbn [named]; intros <- U; apply good_map; repeat constructor; cbn [fst snd good]; try assumption; try exact Logic.I; try reflexivity;
    [apply cid_utf8|apply utf8_dec].
Qed.
Lemma write_line t : good t -> line_is (write t ++ [13]) t.
Proof.
  intros G. exists (jval t). split; [|apply jval_reads]. apply document_iff. exists (write t), [13]. split; [apply write_text, G|]. split; [|reflexivity].
  constructor; [cbn; tauto|constructor].
Qed.
Lemma decimal_no_newline s n : decimal s n -> ~ In 10 s.
Proof.
  assert (Z : forall d v, RefsHttpSpec.digit d v -> d <> 10) by (unfold RefsHttpSpec.digit; intros; lia).
  induction 1 as [c v D|s n c v H IH D]; [|rewrite in_app_iff; intros [?|X]; [auto|revert X]]; intros [X|[]]; exact (Z _ _ D X).
Qed.
Ltac no_newline := repeat match goal with
  | H : In 10 (_ ++ _) |- _ => apply in_app_or in H as [H|H]
  | H : In 10 (_ :: _) |- _ => destruct H as [H|H]
  | H : In 10 [] |- _ => destruct H
  | H : In 10 (json_string _) |- _ => exact (json_no_newline _ H)
  | H : In 10 (dec _) |- _ => exact (decimal_no_newline _ _ (dec_decimal _) H)
  | H : _ = 10 |- _ => discriminate H
  end.
Lemma said_no_newline m : ~ In 10 (write (said m)).
Proof. destruct m as [name n|name c size]; cbn [said write]; intros H; no_newline. Qed.
Lemma failure_no_newline msg : ~ In 10 (Routes.message_body msg).
Proof. unfold Routes.message_body. intros H; no_newline. Qed.
Lemma crlf_lines ls : Forall (fun l => ~ In 10 l) ls -> lines (concat (map (fun l => l ++ crlf) ls)) = Some (map (fun l => l ++ [13]) ls).
Proof.
  induction 1 as [|l ls H _ IH]; [reflexivity|]. cbn [map concat]. unfold crlf at 1. replace ((l ++ [13; 10]) ++ concat (map (fun l0 => l0 ++ crlf) ls)) with ((l ++ [13]) ++ 10 :: concat (map (fun l0 => l0 ++ crlf) ls)) by (rewrite <- !app_assoc; reflexivity).
  rewrite lines_line, IH; [reflexivity|]. rewrite in_app_iff. intros [X|[X|[]]]; [auto|discriminate].
Qed.
Lemma failure_line msg : utf8 msg = true -> line_is (Routes.message_body msg ++ [13]) (failure msg).
Proof.
  intros U. replace (Routes.message_body msg) with (write (failure msg)); [|unfold Routes.message_body, failure; cbn [write]; change (dec 0) with [48]; repeat (rewrite <- app_assoc; cbn [app]); reflexivity].
  apply write_line, good_map. repeat constructor; cbn [fst snd good]; try assumption; try exact Logic.I; reflexivity.
Qed.

(** If the body of /add is whole, the request was dealt with to its end: each line is one message, in order;
    and if it failed the last line, and no other, says so. *)
Theorem c81_add sha chunk bf put_ok progress wrap cid_text error_text fuel parts t e w b fs :
  add_stream sha chunk bf put_ok progress wrap cid_text fuel parts = (t, e) ->
  Forall (fun m => forall name, named m name -> utf8 name = true) (messages t) -> (forall x, utf8 (error_text x) = true) ->
  arrives w (on_wire (add_items error_text t e) (add_left e)) -> chunked w b fs ->
  exists ls last, lines b = Some (ls ++ last) /\ Forall2 (fun l m => exists v, meant m v /\ line_is l v) ls (messages t) /\
    (e = Done /\ last = [] \/ exists x l, e = Early (Broken x) /\ last = [l] /\ line_is l (failure (error_text x))).
Proof.
  intros _ U UE A C. destruct (c81_only _ _ _ _ _ A C) as (He & _ & _ & -> & _).
  set (raw := map (fun m => write (said m)) (messages t)).
  set (tail := match e with Early (Broken x) => [Routes.message_body (error_text x)] | _ => [] end).
  assert (B : flat_map (fun i => match i with Bytes b => b | Error => [] end) (add_items error_text t e) = concat (map (fun l => l ++ crlf) (raw ++ tail))).
  { unfold add_items. rewrite flat_map_app, map_app, concat_app. f_equal.
    - unfold raw. clear. induction t as [|[c d|l] t IH]; [reflexivity|exact IH|]. unfold messages in *. cbn [flat_map app]. rewrite !map_app, concat_app, <- IH. f_equal.
      rewrite !map_map. reflexivity.
    - unfold tail. destruct e as [|[x| |]]; try reflexivity. }
  rewrite B, crlf_lines; [|apply Forall_app; split; [unfold raw; apply Forall_forall; intros l H; apply in_map_iff in H as (m & <- & _); apply said_no_newline|
    unfold tail; destruct e as [|[x| |]]; repeat constructor; apply failure_no_newline]].
  rewrite map_app. eexists _, _. split; [reflexivity|]. split.
  - unfold raw. rewrite map_map. clear - U. induction U as [|m l H _ IH]; constructor; [|exact IH]. exists (said m). split; [apply said_meant|]. apply write_line.
    destruct m as [name n|name c size]; (eapply said_good; [reflexivity|apply H; reflexivity]).
  - unfold tail. destruct e as [|[x| |]]; try discriminate He; [left; auto|]. right. exists x, (Routes.message_body (error_text x) ++ [13]). split; [reflexivity|]. split; [reflexivity|]. apply failure_line, UE.
Qed.
Print Assumptions c81_add.

(** No line is both a message and the failure, so the client can tell. *)
Theorem c81_add_tells l m v msg : meant m v -> line_is l v -> ~ line_is l (failure msg).
Proof.
  intros M (j & D & R) (j' & D' & R'). assert (j' = j) by congruence. subst j'. pose proof (reads_one _ _ _ R' R) as E. subst v.
  destruct m; cbn [meant] in M; [discriminate M|]. destruct M as (s & _ & M). discriminate M.
Qed.
Print Assumptions c81_add_tells.

(** Cases: a request which succeeds and one which fails after a file was added; their names are texts, and
    the bodies are whole. *)
Definition name_of (m : response) : bytes := match m with Progress n _ | AddedMsg n _ _ => n end.
Definition names_ok (l : list response) : bool := forallb (fun m => utf8 (name_of m)) l.
Lemma names_ok_all l : names_ok l = true -> Forall (fun m => forall name, named m name -> utf8 name = true) l.
Proof.
  unfold names_ok. rewrite forallb_forall. intros H. apply Forall_forall. intros m Hm name N. specialize (H m Hm). destruct m; cbn in *; subst; exact H.
Qed.
Lemma add_whole error_text t e : add_left e = AtEnd -> exists b, chunked (on_wire (add_items error_text t e) (add_left e)) b [].
Proof.
  intros ->. eexists. apply c81_whole. intros i H. unfold add_items in H. apply in_app_or in H as [H|H].
  - apply in_flat_map in H as ([c d|l] & _ & H); [destruct H|]. destruct H as [<-|[]]. discriminate.
  - destruct e as [|[x| |]]; try destruct H. subst i. discriminate. destruct H.
Qed.
Definition ex_add (parts : list (option part)) (fails : bool) : Prop := exists t e, ex_run true true parts = (t, e) /\
  Forall (fun m => forall name, named m name -> utf8 name = true) (messages t) /\ (length (messages t) >= 2)%nat /\
  (if fails then exists x, e = Early (Broken x) else e = Done) /\
  exists b, chunked (on_wire (add_items (fun _ => text "failed") t e) (add_left e)) b [].
Example c81_case_add : ex_add ex_parts false /\ ex_add [a_part s_file [97] s_octets [[1]]; a_part s_file [97] s_octets [[2]]] true.
Proof.
  split; unfold ex_add.
  - destruct (ex_run true true ex_parts) as [t e] eqn:E. exists t, e. split; [reflexivity|].
    assert (X : names_ok (messages (fst (ex_run true true ex_parts))) = true /\ (length (messages (fst (ex_run true true ex_parts))) >= 2)%nat /\ snd (ex_run true true ex_parts) = Done) by (vm_compute; repeat split; repeat constructor).
    rewrite E in X. cbn [fst snd] in X. destruct X as (X1 & X2 & ->). split; [apply names_ok_all, X1|]. split; [exact X2|]. split; [reflexivity|]. apply add_whole. reflexivity.
  - set (ps := [a_part s_file [97] s_octets [[1]]; a_part s_file [97] s_octets [[2]]]). destruct (ex_run true true ps) as [t e] eqn:E. exists t, e. split; [reflexivity|].
    assert (X : names_ok (messages (fst (ex_run true true ps))) = true /\ (length (messages (fst (ex_run true true ps))) >= 2)%nat /\ match snd (ex_run true true ps) with Early (Broken _) => True | _ => False end) by (vm_compute; repeat split; repeat constructor).
    rewrite E in X. cbn [fst snd] in X. destruct X as (X1 & X2 & X3). split; [apply names_ok_all, X1|]. split; [exact X2|].
    destruct e as [|[x| |]]; try destruct X3. split; [eauto|]. apply add_whole. reflexivity.
Qed.
