(** What the names in a store must be for a walk to be faithful (independent of the walker). *)
From Verif Require Import Base Wire Cid Pb FileVisit DirLookup Walk.
Local Open Scope N_scope.

(** The names that the walker takes without a panic although they break it: no link of a directory is
    named ".", no name in a shard is two letters and ".", and what a link of just two letters leads
    to is a shard. *)
Definition dotless_shard (get : cid -> option bytes) (l : pblink) : Prop :=
  (forall x y, link_name l <> [x; y; 46]) /\
  (forall x y c b f, link_name l = [x; y] -> link_cid l = Some c -> get c = Some b -> flat_parse b = inl f ->
    u_type (f_data f) = THAMTShard).
Definition no_dot_names (get : cid -> option bytes) : Prop :=
  (forall c b f, get c = Some b -> flat_parse b = inl f -> u_type (f_data f) = TDirectory ->
    Forall (fun l => link_name l <> [46]) (f_links f)) /\
  (forall c b f, get c = Some b -> flat_parse b = inl f -> u_type (f_data f) = THAMTShard ->
    Forall (dotless_shard get) (f_links f)).
