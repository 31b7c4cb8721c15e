(** C81, continued: what a client of /pin/ls learns from a body, whole or cut. *)
From Verif Require Import Base Wire Cid Text PinSpec FsPins RefsHttp RefsHttpSpec HttpOptions NodePins NodePinsSpec HttpPins HttpPinsSpec
  Bodies BodiesSpec RmBody LsBody PropsHttpPins PropsBodies PropsRmBody.
From Verif Require HttpBlock PropsPins.
Local Open Scope N_scope.

Lemma ls_stream_body duration ob se query s body : pin_ls duration ob se query s = Body body ->
  exists l, ls_stream duration ob se query s = Some (map Bytes l) /\ concat l = body.
Proof.
  unfold pin_ls, ls_stream. destruct (read_query (ls_rules duration ob) [] query) as [q|e|]; try discriminate.
  destruct (HttpBlock.parse_cids ob (all_of k_arg q)) as [cs|]; [|discriminate]. destruct (match one_of k_type q with None => _ | Some v => _ end) as [req|]; [|discriminate].
  cbv zeta. destruct cs as [|c cs].
  - destruct (bool_of true (one_of k_quiet q)); [|discriminate]. cbn [negb]. destruct (fs_pin_list ob (snd s) req) as [l ok]. intros [= <-].
    exists (map (fun x => ls_line (cid_to_text (fst x), mode_text (snd x))) l ++ if ok then [] else [err_line se]).
    split; [rewrite map_app, map_map; destruct ok; reflexivity|]. rewrite concat_app. destruct ok; [reflexivity|]. cbn [concat]. rewrite app_nil_r. reflexivity.
  - destruct (fs_query ob (snd s) (c :: cs) req) as [l|]; [|discriminate]. destruct (bool_of true (one_of k_quiet q)); [|discriminate]. cbn [negb]. intros [= <-].
    eexists. split; [rewrite <- (map_map _ Bytes); reflexivity|reflexivity].
Qed.

(** Whatever /pin/ls answers (C66 says what) is a whole body when all of it arrives; a whole body is all of
    it, and of a cut one the client takes only first bytes. *)
Theorem c81_ls_body duration ob storage_error query s body : pin_ls duration ob storage_error query s = Body body ->
  exists items, ls_stream duration ob storage_error query s = Some items /\ chunked (on_wire items AtEnd) body [] /\
    forall w b, arrives w (on_wire items AtEnd) ->
      (forall fs, chunked w b fs -> b = body) /\ (so_far w b -> exists rest, body = b ++ rest).
Proof.
  intros E. destruct (ls_stream_body _ _ _ _ _ _ E) as (l & El & Eb). exists (map Bytes l). split; [exact El|]. rewrite <- Eb. split; [rewrite <- flat_bytes; apply c81_whole, bytes_only|].
  intros w b A. split.
  - intros fs C. destruct (c81_only _ _ _ _ _ A C) as (_ & _ & _ & -> & _). apply flat_bytes.
  - intros C. destruct (c81_first_bytes _ _ _ _ A C) as (before & after & rest & X & Y). exists (rest ++ flat_map (fun i => match i with Bytes b => b | Error => [] end) after).
    rewrite <- flat_bytes, X, flat_map_app, flat_bytes, Y, <- app_assoc. reflexivity.
Qed.
Print Assumptions c81_ls_body.

(** So after any calls of a node, a whole body of /pin/ls without arguments has one line for every pin of
    the type asked for, and no other. *)
Theorem c81_ls duration ob decode checks fuel storage_error h query req quiet : Forall nop_wf h -> by_own_name decode h ->
  ls_query duration ob query [] req quiet -> streamed quiet = true ->
  let (s, ps) := fs_node_run ob decode checks fuel ([], []) [] h in
  exists items, ls_stream duration ob storage_error query s = Some items /\ (exists b, chunked (on_wire items AtEnd) b []) /\
    forall w b fs, arrives w (on_wire items AtEnd) -> chunked w b fs ->
    exists l, read_ls_body b = Some l /\ NoDup l /\
      forall t m, In (t, m) l <-> exists c md, wf_cid c /\ PropsPins.fs_listed ps req c md /\ t = cid_to_text c /\ m = mode_word md.
Proof.
  intros Hw Ho Hq Hs. pose proof (c66_ls duration ob decode checks fuel storage_error h Hw Ho query req quiet Hq Hs) as H.
  destruct (fs_node_run ob decode checks fuel ([], []) [] h) as [s ps]. destruct H as (body & l & E & H). destruct (c81_ls_body _ _ _ _ _ _ E) as (items & E1 & E2 & E3).
  exists items. split; [exact E1|]. split; [eauto|]. intros w b fs A C. exists l. rewrite (proj1 (E3 w b A) fs C). exact H.
Qed.
Print Assumptions c81_ls.

(** A case: a node with pins of each kind (C66), asked for recursive ones. *)
Example c81_case_ls : ls_query (fun _ => false) (fun _ _ => None) asks [] (Some Recursive) None /\ Forall nop_wf ex_h /\
  match ls_stream (fun _ => false) (fun _ _ => None) [63] asks (fst (ex_add ex_query [1; 0]%nat ex_s)) with
  | Some items => (length items =? 2)%nat
  | None => false
  end = true.
Proof. pose proof c66_example as (_ & H1 & _ & H2 & _). split; [exact H2|]. split; [exact H1|]. vm_compute. reflexivity. Qed.
