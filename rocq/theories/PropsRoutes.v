(** C72: which endpoint answers a request over HTTP, that there is only one, and what is said when it
    refuses. *)
From Coq Require Import Ascii String.
From Verif Require Import Base Wire Str Json JsonSpec JsonProofs Routes RoutesSpec RoutesProofs.
Local Open Scope N_scope.

(** A POST request for the path of an endpoint reaches the handler of this endpoint and no other one,
    whatever the handlers do (refuse, too).  Its answer is what the client gets; for the endpoints which are known to be
    missing this is 501 with nothing in it. *)
Theorem c72_reaches : forall handle path e, asks path e ->
  serve handle (text "POST") path =
    ([e], if missing e then mk_response 501 false []
          else match handle e with Reply r => r | Reject l => recover (Other l) end).
Proof. intros handle path e A. rewrite (serve_asked handle path e A). unfold answer. destruct e; reflexivity. Qed.
Print Assumptions c72_reaches.

(** No path asks for two endpoints. *)
Theorem c72_one_endpoint : forall path e1 e2, asks path e1 -> asks path e2 -> e1 = e2.
Proof. exact asks_one. Qed.
Print Assumptions c72_one_endpoint.

(** Any other path, and any other method, reaches no handler: the answer is 404, in plain text. *)
Theorem c72_not_found : forall handle method p,
  method <> text "POST" \/ (forall e, ~ asks (47 :: p) e) ->
  serve handle method (47 :: p) = ([], mk_response 404 false (text "404 page not found")).
Proof.
  intros handle method p H. destruct (beq_spec method (text "POST")) as [->|N].
  - destruct H as [H|H]; [contradiction H; reflexivity|]. apply serve_unasked, H.
  - unfold serve. destruct (beq_spec method (text "POST")); [contradiction|]. reflexivity.
Qed.
Print Assumptions c72_not_found.

(** So every request is answered by at most one handler, and one which is not POST by none. *)
Theorem c72_at_most_one : forall handle method p e,
  In e (fst (serve handle method (47 :: p))) ->
  fst (serve handle method (47 :: p)) = [e] /\ method = text "POST" /\ asks (47 :: p) e.
Proof.
  intros handle method p e I. destruct (beq_spec method (text "POST")) as [->|N]; [|rewrite (c72_not_found handle method p (or_introl N)) in I; destruct I].
  assert (D : (exists e', asks (47 :: p) e') \/ forall e', ~ asks (47 :: p) e').
  { destruct (enter [text "api"; text "v0"] p) as [q|] eqn:E.
    - apply enter_iff in E; [|discriminate|repeat constructor; apply plainb_spec; reflexivity]. destruct E as [[-> ->]|E].
      + right. intros e' A. destruct (asks_base _ _ A) as (q & Q). discriminate.
      + replace (47 :: p) with (base ++ q) by (rewrite E; reflexivity). destruct (existsb (fun x => matches x q) (leaves api)) eqn:X.
        * left. apply existsb_exists in X as (x & Ix & M). exists (snd x). apply matches_asks; assumption.
        * right. intros e' A. destruct (all_there e') as (l1 & x & l2 & L & <-). assert (Ix : In x (leaves api)) by (rewrite L; apply in_or_app; right; left; reflexivity).
          apply (matches_asks x q Ix) in A. assert (Y : existsb (fun x => matches x q) (leaves api) = true) by (apply existsb_exists; exists x; split; assumption). congruence.
    - right. intros e' A. destruct (asks_base _ _ A) as (q & Q). pose proof (start_base q) as Z. rewrite <- Q in Z. change (start (47 :: p)) with p in Z. congruence. }
  destruct D as [(e' & A)|D]; [|rewrite (c72_not_found handle _ p (or_intror D)) in I; destruct I].
  rewrite (c72_reaches handle _ e' A) in I |- *. cbn in I |- *. destruct I as [<-|[]]. repeat split. exact A.
Qed.
Print Assumptions c72_at_most_one.

(** When several handlers refuse, none of their reasons is lost and none is made up. *)
Theorem c72_combined : forall a b r,
  let held x := exists l, x = Other l /\ holds l r in
  held (combine_rejections a b) <-> held a \/ held b.
Proof.
  intros a b r held. unfold held. destruct a as [|a], b as [|b]; cbn; split.
  - intros (l & E & _). discriminate E.
  - intros [(l & E & _)|(l & E & _)]; discriminate E.
  - intros H. right. exact H.
  - intros [(l & E & _)|H]; [discriminate E|exact H].
  - intros H. left. exact H.
  - intros [H|(l & E & _)]; [exact H|discriminate E].
  - intros (l & E & H). injection E as <-. destruct H as [H|H]; [left|right]; eexists; (split; [reflexivity|exact H]).
  - intros [(l & E & H)|(l & E & H)]; injection E as <-; eexists; (split; [reflexivity|]); [left|right]; exact H.
Qed.
Print Assumptions c72_combined.

(** Clients find one of the reasons in what they are told, with its status; [Unknown] reasons only when
    there is no other one. *)
Theorem c72_refusal : forall l, (forall r, holds l r -> utf8 (snd (said r)) = true) ->
  exists r, holds l r /\
    (forall n, r = Unknown n -> forall r', holds l r' -> exists m, r' = Unknown m) /\
    r_status (recover (Other l)) = fst (said r) /\
    (if r_json (recover (Other l)) then tells (r_body (recover (Other l))) (snd (said r))
     else r = MethodNotAllowed /\ r_body (recover (Other l)) = text "404 page not found").
Proof.
  intros l U. unfold recover, find, is_not_found. cbn [orb].
  assert (T : forall r, holds l r -> forall s, tells (r_body (message s (snd (said r)))) (snd (said r))) by (intros r R s; apply message_tells, U, R).
  destruct (find_in is_not_implemented l) as [x|] eqn:E1.
  { destruct (find_in_some _ _ _ E1) as (r & R & F). exists r. destruct r; try discriminate F. split; [exact R|]. split; [discriminate|]. split; [reflexivity|]. exact (T _ R 501). }
  destruct (find_in is_argument_missing l) as [x|] eqn:E2.
  { destruct (find_in_some _ _ _ E2) as (r & R & F). exists r. destruct r; try discriminate F. injection F as ->. split; [exact R|]. split; [discriminate|]. split; [reflexivity|]. exact (T _ R 400). }
  destruct (find_in is_non_utf8_topic l) as [x|] eqn:E3.
  { destruct (find_in_some _ _ _ E3) as (r & R & F). exists r. destruct r; try discriminate F. split; [exact R|]. split; [discriminate|]. split; [reflexivity|]. exact (T _ R 400). }
  destruct (find_in is_invalid_query l) as [x|] eqn:E4.
  { destruct (find_in_some _ _ _ E4) as (r & R & F). exists r. destruct r; try discriminate F. split; [exact R|]. split; [discriminate|]. split; [reflexivity|]. exact (T _ R 400). }
  destruct (find_in is_string_error l) as [x|] eqn:E5.
  { destruct (find_in_some _ _ _ E5) as (r & R & F). exists r. destruct r; try discriminate F. injection F as ->. split; [exact R|]. split; [discriminate|]. split; [reflexivity|]. exact (T _ R 500). }
  destruct (find_in is_invalid_peer_id l) as [x|] eqn:E6.
  { destruct (find_in_some _ _ _ E6) as (r & R & F). exists r. destruct r; try discriminate F. split; [exact R|]. split; [discriminate|]. split; [reflexivity|]. exact (T _ R 400). }
  destruct (find_in is_method_not_allowed l) as [x|] eqn:E7.
  { destruct (find_in_some _ _ _ E7) as (r & R & F). exists r. destruct r; try discriminate F. split; [exact R|]. split; [discriminate|]. split; [reflexivity|]. split; reflexivity. }
  destruct (find_in is_length_required l) as [x|] eqn:E8.
  { destruct (find_in_some _ _ _ E8) as (r & R & F). exists r. destruct r; try discriminate F. split; [exact R|]. split; [discriminate|]. split; [reflexivity|]. exact (T _ R 400). }
  assert (K : forall r, holds l r -> exists n, r = Unknown n).
  { intros r R. pose proof (find_in_none _ _ E1 r R) as X1. pose proof (find_in_none _ _ E2 r R) as X2. pose proof (find_in_none _ _ E3 r R) as X3. pose proof (find_in_none _ _ E4 r R) as X4.
    pose proof (find_in_none _ _ E5 r R) as X5. pose proof (find_in_none _ _ E6 r R) as X6. pose proof (find_in_none _ _ E7 r R) as X7. pose proof (find_in_none _ _ E8 r R) as X8.
    destruct r; try discriminate. eexists. reflexivity. }
  assert (X : exists r, holds l r) by (clear; induction l as [r|a (r & R) b _]; [exists r; reflexivity|exists r; left; exact R]).
  destruct X as (r & R). destruct (K r R) as (n & ->). exists (Unknown n). split; [exact R|]. split; [intros _ _; exact K|]. split; [reflexivity|]. exact (T _ R 500).
Qed.
Print Assumptions c72_refusal.

(** A refusal with one reason, as all but the ones of [Filter::or] are: its text and its status. *)
Theorem c72_refused_for : forall handle path e r,
  asks path e -> missing e = false -> handle e = Reject (One r) -> r <> MethodNotAllowed -> utf8 (snd (said r)) = true ->
  exists body, serve handle (text "POST") path = ([e], mk_response (fst (said r)) true body) /\ tells body (snd (said r)).
Proof.
  intros handle path e r A M H D U. rewrite (c72_reaches handle path e A), M, H. exists (message_body (snd (said r))).
  split; [destruct r; try contradiction; reflexivity|]. exact (message_tells 0 _ U).
Qed.
Print Assumptions c72_refused_for.

(** "A request which is refused for what is in it is told so with a status of the four hundreds" is
    false: a form without a content type (block.rs l.93, root_files.rs l.39, dag.rs l.41) and a path or
    cid which cannot be read ([StringError]) are answered with 500, the first without a word about
    what is missing. *)
Theorem c72_client_errors_refuted : exists handle path,
  handle BlockPut = Reject (One (Unknown 0)) /\
  exists body, serve handle (text "POST") path = ([BlockPut], mk_response 500 true body) /\ tells body (text "UNHANDLED REJECTION").
Proof.
  exists (fun _ => Reject (One (Unknown 0))), (text "/api/v0/block/put"). split; [reflexivity|].
  apply (c72_refused_for _ _ BlockPut (Unknown 0)); [left|..]; try reflexivity; discriminate.
Qed.
Print Assumptions c72_client_errors_refuted.

(** "Paths which are equivalent as URIs reach the same endpoint" is false: percent signs are not read
    (RFC 3986 6.2.2.2: %69 is the letter i). *)
Theorem c72_percent_refuted : forall handle,
  fst (serve handle (text "POST") (text "/api/v0/id")) = [Id] /\
  fst (serve handle (text "POST") (text "/api/v0/%69d")) = [].
Proof.
  intros handle. split; [rewrite (c72_reaches handle _ Id); [reflexivity|left; reflexivity]|].
  vm_compute. reflexivity.
Qed.
Print Assumptions c72_percent_refuted.

(** * The hypotheses are met *)
Example c72_ex_slash : asks (text "/api/v0/bootstrap/add/default/") BootstrapAddDefault.
Proof. right. left. reflexivity. Qed.
Example c72_ex_below : asks (text "/api/v0/key/gen/x") Key.
Proof. right. right. split; [reflexivity|]. exists (text "gen/x"). reflexivity. Qed.
Example c72_ex_not : forall e, ~ asks (text "/api/v0/id//") e.
Proof.
  intros e A. pose proof (c72_reaches (fun _ => Reply not_found) _ e A) as X. apply (f_equal fst) in X. vm_compute in X. discriminate.
Qed.
Example c72_ex_body : message_body (text "invalid peer id") = text "{""Message"":""invalid peer id"",""Code"":0,""Type"":""error""}".
Proof. reflexivity. Qed.
Example c72_ex_combined :
  let l := Combined (One (Unknown 3)) (Combined (One InvalidQuery) (One (StringError (text "no")))) in
  (forall r, holds l r -> utf8 (snd (said r)) = true) /\ recover (Other l) = message 400 (text "Invalid query string").
Proof. split; [|reflexivity]. intros r [->|[->| ->]]; reflexivity. Qed.
