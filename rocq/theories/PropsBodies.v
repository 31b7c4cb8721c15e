(** C81: a client of HTTP/1.1 takes a streamed body for whole only if it is; what a client of HTTP/1.0
    cannot tell; and what the headers say. *)
From Coq Require Import Ascii String.
From Verif Require Import Base Wire Cid Pb FMap Text FileAdder IpfsPath PathSpec FileVisit Resolve Cat Walk WalkSpec WalkBackSpec WalkTree WalkBack Tar TarSpec TarWalk
  RefsHttp RefsHttpSpec Bodies BodiesSpec BodiesProofs PropsFile PropsCat PropsWalk PropsTar PropsTarBack Str.
From Verif Require JsonSpec Refs PropsRefsHttp.
Local Open Scope N_scope.

(** Whatever the stream yields: if it ends without an error, all of its bytes make a whole body, and
    nothing else is carried by it. *)
Theorem c81_whole items : (forall b, In b items -> b <> Error) ->
  chunked (on_wire items AtEnd) (flat_map (fun i => match i with Bytes b => b | Error => [] end) items) [].
Proof.
  intros H. unfold on_wire. assert (P : parts items AtEnd = (map (fun i => match i with Bytes b => b | Error => [] end) items, true)).
  { induction items as [|[b|] items IH]; [reflexivity| |destruct (H Error (or_introl eq_refl) eq_refl)]. cbn [parts]. rewrite IH; [reflexivity|]. intros x Hx. apply H. right. exact Hx. }
  rewrite P. rewrite flat_map_concat_map. apply chunks_chunked.
Qed.
Print Assumptions c81_whole.

(** And only then: wherever the connection is cut and whatever ends the stream, what arrives is a whole
    body for a client only if the stream ended without an error, and everything it yielded has arrived. *)
Theorem c81_only items e w b fs : arrives w (on_wire items e) -> chunked w b fs ->
  e = AtEnd /\ (forall i, In i items -> i <> Error) /\ w = on_wire items e /\
  b = flat_map (fun i => match i with Bytes b => b | Error => [] end) items /\ fs = [].
Proof.
  intros [lost E] H. unfold on_wire in *.
  assert (P : snd (parts items e) = true -> e = AtEnd /\ (forall i, In i items -> i <> Error) /\ concat (fst (parts items e)) = flat_map (fun i => match i with Bytes b => b | Error => [] end) items).
  { clear. induction items as [|[x|] items IH]; cbn [parts]; [destruct e; try discriminate; intros _; split; [reflexivity|]; split; [intros i []|reflexivity]| |discriminate].
    destruct (parts items e) as [l o]. cbn [fst snd] in *. intros Ho. destruct (IH Ho) as (H1 & H2 & H3). split; [exact H1|]. split; [intros i [<-|Hi]; [discriminate|auto]|].
    cbn [concat flat_map]. rewrite H3. reflexivity. }
  destruct (parts items e) as [l o]. cbn [fst snd] in P. destruct (chunks_only l _ w b fs lost H E) as (w' & b' & H' & E' & ->). destruct o.
  - destruct (P eq_refl) as (P1 & P2 & P3). destruct (end_only _ _ _ H' lost E') as (-> & -> & ->). rewrite app_nil_r in *. split; [exact P1|]. split; [exact P2|]. split; [symmetry; exact E|]. auto.
  - exfalso. symmetry in E'. apply app_eq_nil in E' as [-> _]. inversion H' as [s fs' Hs _ X|s d w2 b2 fs' Hs _ _ X]; apply app_eq_nil in X as [_ X]; discriminate.
Qed.
Print Assumptions c81_only.

(** And whatever arrives, the client takes nothing from it but the first bytes which were yielded, before
    any error. *)
Theorem c81_first_bytes items e w b : arrives w (on_wire items e) -> so_far w b ->
  exists before after rest, items = map Bytes before ++ after /\ concat before = b ++ rest.
Proof.
  intros [lost E] H. unfold on_wire in E. assert (P : exists after, items = map Bytes (fst (parts items e)) ++ after).
  { clear. induction items as [|[x|] items (after & IH)]; cbn [parts]; [exists []; reflexivity| |eexists; reflexivity]. destruct (parts items e) as [l o]. cbn [fst] in *. exists after. cbn. rewrite <- IH. reflexivity. }
  destruct P as (after & P). destruct (parts items e) as [l o]. cbn [fst] in P.
  assert (T : (if o then [48] ++ crlf ++ crlf else []) = [] \/ (if o then [48] ++ crlf ++ crlf else []) = end_mark) by (destruct o; [right|left]; reflexivity).
  destruct (chunks_so_far l _ T w b lost H E) as (rest & R). exists l, after, rest. auto.
Qed.
Print Assumptions c81_first_bytes.

(** So a whole body of /cat is the file, or the part of it which was asked for, to its last block ... *)
Theorem c81_cat get decode other_base fuel hfuel arg offset len items e w b fs :
  http_cat get decode other_base fuel hfuel arg offset len = Some (Ok (items, e)) ->
  arrives w (on_wire (cat_items items) (cat_left e)) -> chunked w b fs ->
  exists root segs range c data k first size md more,
    path_from_str other_base arg = Some (mk_path (IpfsPath.Ipld root) segs) /\ range_of offset len = Ok range /\
    dag_resolve get decode fuel hfuel root segs true = Some (Ok (NBlock c data, k)) /\ cid_codec c = codec_dagpb /\
    visit_start range data = Ok (first, size, md, more) /\
    match more with None => b = first | Some v => exists bs, reads get v bs /\ b = first ++ bs end.
Proof.
  intros H A C. destruct (c81_only _ _ _ _ _ A C) as (He & Hi & _ & -> & _).
  destruct (c63_whole _ _ _ _ _ _ _ _ _ _ H) as (root & segs & range & c & data & k & first & size & md & more & H1 & H2 & H3 & H4 & H5 & H6).
  exists root, segs, range, c, data, k, first, size, md, more. split; [exact H1|]. split; [exact H2|]. split; [exact H3|]. split; [exact H4|]. split; [exact H5|].
  assert (D : flat_map (fun i => match i with Bytes b => b | Error => [] end) (cat_items items) = delivered items).
  { unfold cat_items, delivered. rewrite flat_map_concat_map, map_map. f_equal. apply map_ext. intros [x|x]; reflexivity. }
  rewrite D. apply H6; [destruct e as [[]|]; [reflexivity|discriminate|discriminate]|].
  clear - Hi. unfold troubles. induction items as [|[x|x] items IH]; [reflexivity| |destruct (Hi Error (or_introl eq_refl) eq_refl)]. apply IH. intros i X. apply Hi. right. exact X.
Qed.
Print Assumptions c81_cat.
(** ... and one of /get is the archive of a whole tree. *)
Theorem c81_get dbg k get c name l e w b fs : no_dot_names get -> step_name name -> get_stream dbg k get c name = (l, e) ->
  arrives w (on_wire (get_items l e) (get_left e)) -> chunked w b fs ->
  exists os, entry_at get true (root_path name) c os /\ snd (walk_report os) = false /\
    (honest get -> Forall good_walked os ->
     exists es es', shows os es /\ unpack b = Some es' /\ Forall2 same_entry es es').
Proof.
  intros HN Hn H A C. destruct (c81_only _ _ _ _ _ A C) as (He & Hi & _ & -> & _).
  assert (E : e = Walked Done).
  { assert (X : forall y, (exists z, y = z ++ [Error]) -> y = get_items l e -> False).
    { intros y (z & ->) Y. apply (Hi Error); [|reflexivity]. rewrite <- Y. apply in_or_app. right. left. reflexivity. }
    destruct e as [[]|[]]; cbn in He; try discriminate He; try reflexivity; exfalso; refine (X _ _ eq_refl); eexists; reflexivity. }
  subst e. destruct (c53_whole dbg k get c name l HN Hn H) as (os & H1 & H2 & H3). exists os. split; [exact H1|]. split; [exact H2|].
  intros Hh Hg. destruct (H3 Hh Hg) as (es & es' & S & U & F). exists es, es'. split; [exact S|]. split; [|exact F]. rewrite <- U. f_equal. unfold get_items. rewrite app_nil_r.
  clear. induction l as [|x l IH]; [reflexivity|]. cbn. rewrite IH. reflexivity.
Qed.
Print Assumptions c81_get.

(** A whole body of /refs has all the lines, also those with the errors, and the walk did end. *)
Theorem c81_refs duration other_base resolve checks fetch decode error_text fuel query lines e w b fs :
  refs_lines duration other_base resolve checks fetch decode error_text fuel query = Ok (lines, e) ->
  arrives w (on_wire (refs_items lines) (refs_left e)) -> chunked w b fs -> e = Some Refs.Closed /\ read_body b = Some lines.
Proof.
  intros _ A C. destruct (c81_only _ _ _ _ _ A C) as (He & _ & _ & -> & _). split; [destruct e as [[]|]; try discriminate He; reflexivity|].
  rewrite <- (PropsRefsHttp.c61_lines lines). f_equal. unfold refs_items, body. rewrite flat_map_concat_map, map_map. reflexivity.
Qed.
Print Assumptions c81_refs.

(** A file of two bytes. *)
Definition ex_short := PropsFile.added (add_file toy_sha 2 2 [[1; 2]]).
Lemma c63_short : exists get' arg', http_cat get' (fun _ _ => Err tt) (fun _ _ => None) 10 0 arg' None None = Some (Ok ([Piece [1; 2]], Some Ended)).
Proof. exists (assoc ex_short), (cid_to_text (fst (last ex_short (CidV0 [], [])))). vm_compute. reflexivity. Qed.
(** Finding: a client of HTTP/1.0 sees the bytes and the end of the connection.  It cannot tell a file
    whose blocks could not all be had from a shorter file. *)
Theorem c81_old_client_refuted : exists get get' arg arg' items items',
  http_cat get (fun _ _ => Err tt) (fun _ _ => None) 10 0 arg None None = Some (Ok (items, Some Ended)) /\ troubles items <> [] /\
  http_cat get' (fun _ _ => Err tt) (fun _ _ => None) 10 0 arg' None None = Some (Ok (items', Some Ended)) /\ troubles items' = [] /\
  on_wire10 (cat_items items) (cat_left (Some Ended)) = on_wire10 (cat_items items') (cat_left (Some Ended)) /\
  on_wire10 (cat_items items) (cat_left (Some Ended)) <> [].
Proof.
  destruct c63_case as (_ & c & H). destruct c63_short as (get' & arg' & H').
  eexists _, get', _, arg', _, _. split; [exact H|]. split; [discriminate|]. split; [exact H'|]. split; [reflexivity|]. split; [reflexivity|discriminate].
Qed.
Print Assumptions c81_old_client_refuted.

(** Finding: each response announces a trailer field with the error of the stream; none is ever sent. *)
Theorem c81_trailer_refuted : In (text "trailer", text "X-Stream-Error") headers /\
  forall items e w b fs, arrives w (on_wire items e) -> chunked w b fs -> fs = [].
Proof. split; [left; reflexivity|]. intros items e w b fs A C. apply (c81_only _ _ _ _ _ A C). Qed.
Print Assumptions c81_trailer_refuted.
(** Finding: files are announced as JSON, whatever is in them: here is one which is no JSON text. *)
Theorem c81_type_refuted : In (text "content-type", text "application/json") headers /\
  exists get arg items, http_cat get (fun _ _ => Err tt) (fun _ _ => None) 10 0 arg None None = Some (Ok (items, Some Ended)) /\
    exists b, chunked (on_wire (cat_items items) (cat_left (Some Ended))) b [] /\ forall v, ~ JsonSpec.document_text v b.
Proof.
  split; [right; left; reflexivity|]. destruct c63_short as (get & arg & H). exists get, arg, [Piece [1; 2]]. split; [exact H|].
  exists [1; 2]. split; [apply (c81_whole [Bytes [1; 2]]); intros b [<-|[]]; discriminate|].
  intros v (p & w & X & _ & E). destruct X as [c v s Hc _| | | |s Hs|l s _|w' _|l s _|w' _|l s _]; try discriminate E.
  - injection E as <- _. cbn in Hc. repeat destruct Hc as [Hc|Hc]; try discriminate Hc. exact Hc.
  - destruct Hs as [(i & f & e & Hi & _ & _ & ->)|(t & _ & ->)]; [|discriminate E]. destruct Hi as [|c s' Hc _]; [discriminate E|].
    cbn in E. injection E as <- _. destruct Hc as [Hc _]. apply Hc. reflexivity.
Qed.
Print Assumptions c81_type_refuted.

(** A case of a body cut within a chunk: half of it can be taken, and no more. *)
Example c81_case_cut : exists w, arrives w (on_wire [Bytes [1; 2; 3]; Error] AtEnd) /\ so_far w [1; 2] /\ forall b fs, ~ chunked w b fs.
Proof.
  exists (text "3" ++ crlf ++ [1; 2]). assert (A : arrives (text "3" ++ crlf ++ [1; 2]) (on_wire [Bytes [1; 2; 3]; Error] AtEnd)) by (exists ([3] ++ crlf); vm_compute; reflexivity).
  split; [exact A|]. split; [apply (so_far_part [51] 3 [1; 2]); [constructor; left; split; [split; discriminate|reflexivity]|discriminate]|].
  intros b fs C. destruct (c81_only _ _ _ _ _ A C) as (_ & H & _). exact (H Error (or_intror (or_introl eq_refl)) eq_refl).
Qed.
(** Cases: a body of two parts, an empty one among them, and one of three hundred bytes, as they are
    sent; and one with an error. *)
Example c81_case : on_wire [Bytes [104; 105]; Bytes []; Bytes [33]] AtEnd = text "2" ++ crlf ++ [104; 105] ++ crlf ++ text "1" ++ crlf ++ [33] ++ crlf ++ text "0" ++ crlf ++ crlf /\
  on_wire [Bytes (repeat 7 300)] AtEnd = text "12C" ++ crlf ++ repeat 7 300 ++ crlf ++ text "0" ++ crlf ++ crlf /\
  on_wire [Bytes [1]; Error; Bytes [2]] AtEnd = text "1" ++ crlf ++ [1] ++ crlf.
Proof. repeat split; vm_compute; reflexivity. Qed.
Example c81_case_get : exists l, get_stream true 20 ex_tree (cid_of 1) [114] = (l, Walked Done) /\
  chunked (on_wire (get_items l (Walked Done)) AtEnd) (concat l) [].
Proof.
  destruct (get_stream true 20 ex_tree (cid_of 1) [114]) as [l e] eqn:E. exists l. pose proof (proj1 (proj2 (proj2 ex_gap_get))) as X. rewrite E in X. cbn [snd] in X. subst e.
  split; [reflexivity|]. unfold get_items. rewrite app_nil_r.
  assert (D : concat l = flat_map (fun i => match i with Bytes b => b | Error => [] end) (map Bytes l)) by (clear; induction l as [|x l IH]; [reflexivity|]; cbn; rewrite IH; reflexivity).
  rewrite D. apply c81_whole. intros b Hb. apply in_map_iff in Hb as (x & <- & _). discriminate.
Qed.
