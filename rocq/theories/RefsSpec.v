(** What listing links should give: specification for [Refs]. *)
From Verif Require Import Base Wire Cid BTree Ipld Codecs FMap Refs.
Local Open Scope N_scope.

(** The link [d] occurs somewhere in the value. *)
Inductive occurs (d : cid) : ipld -> Prop :=
| occ_here : occurs d (Link d)
| occ_list l v : In v l -> occurs d v -> occurs d (IList l)
| occ_map m k v : In (k, v) m -> occurs d v -> occurs d (IMap m).

(** The document [v] with cid [c] has a link to [d] with this name: in dag-pb an entry of "Links", in
    other formats any link, without a name. *)
Inductive has_link (c : cid) : ipld -> option bytes -> cid -> Prop :=
| link_plain v d : cid_codec c <> codec_dagpb -> occurs d v -> has_link c v None d
| link_pb m l x name d :
    cid_codec c = codec_dagpb -> bt_get kLinks m = Some (IList l) -> In (IMap x) l ->
    bt_get kHash x = Some (Link d) -> bt_get kName x = Some (Str name) -> has_link c (IMap m) (Some name) d.

Section Graph.
  Variable fetch : cid -> fetched.
  Variable decode : cid -> bytes -> outcome ipld unit.

  (** The block of [c] is there and holds the document [v]. *)
  Definition document (c : cid) (v : ipld) : Prop := exists b, fetch c = Data b /\ decode c b = Ok v.

  (** There is a link from [s] to [d] with this name, [n] links away from the roots. *)
  Inductive link_at (roots : list (cid * ipld)) : nat -> cid -> option bytes -> cid -> Prop :=
  | at_root c v name d : In (c, v) roots -> has_link c v name d -> link_at roots 0 c name d
  | at_next n s nm c v name d :
      link_at roots n s nm c -> document c v -> has_link c v name d -> link_at roots (S n) c name d.

  (** The links in the documents, level by level: the order of a breadth first listing. *)
  Definition pointer : Type := cid * option bytes * cid.
  Definition out_links (c : cid) (v : ipld) : list pointer :=
    match ipld_links c v with Ok ls => map (fun x => (c, fst x, snd x)) ls | _ => [] end.
  Definition below (p : pointer) : list pointer :=
    let '(_, _, c) := p in
    match fetch c with
    | Data b => match decode c b with Ok v => out_links c v | _ => [] end
    | _ => []
    end.
  Fixpoint level (roots : list (cid * ipld)) (n : nat) : list pointer :=
    match n with
    | O => flat_map (fun r => out_links (fst r) (snd r)) roots
    | S n => flat_map below (level roots n)
    end.
  Definition levels (roots : list (cid * ipld)) (n : nat) : list pointer := flat_map (level roots) (seq 0 n).

  (** What is reported for one link: an edge, an error, or nothing when its block cannot be had; and
      whether the listing ends there. *)
  Definition answer (dl : bool) (p : pointer) : list event * option ending :=
    let '(s, name, c) := p in
    match fetch c with
    | Absent => if dl then ([], Some (Waiting c)) else ([BlockNotFound c], Some Closed)
    | Broken => if dl then ([], None) else ([LoadError c], Some Closed)
    | Data b =>
        match decode c b with
        | Ok v => match ipld_links c v with Ok _ => ([Edge s c name], None) | _ => ([], Some Panicked) end
        | Err _ => ([ParseError c], None)
        | Panic => ([], Some Panicked)
        end
    end.
  (** The reports for a list of links, up to the first which ends the listing. *)
  Fixpoint report (dl : bool) (l : list pointer) : list event * option ending :=
    match l with
    | [] => ([], None)
    | p :: r =>
        match answer dl p with
        | (es, Some e) => (es, Some e)
        | (es, None) => let (es', e) := report dl r in (es ++ es', e)
        end
    end.
  Definition closed (x : list event * option ending) : list event * option ending :=
    match x with (es, None) => (es, Some Closed) | _ => x end.
End Graph.

(** The destination an item of the stream is about. *)
Definition about (e : event) : cid :=
  match e with Edge _ d _ => d | ParseError d => d | LoadError d => d | BlockNotFound d => d end.
(** Within the depth. *)
Definition within (md : option N) (n : nat) : Prop := match md with Some d => N.of_nat n < d | None => True end.
(** Not the largest 64 bit number. *)
Definition fair_depth (md : option N) : Prop := match md with Some d => d + 1 < u64_max1 | None => True end.
