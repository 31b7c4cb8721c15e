(** What should be built from a history of accepted calls: the directories with their entries,
    stated without the tree or the iterator. *)
From Verif Require Import Base Wire Cid Pb FileVisit BTree IpfsPath TreeBuilder TreeSpec TreeIter TreeIterSpec.
Local Open Scope N_scope.

(** The directories: everything below which something was put or on which metadata was set, and the
    root when wrapping was asked for. *)
Definition is_dir (wrap : bool) (h : list call) (q : list bytes) : Prop :=
  match q with [] => wrap = true | _ => dir_at h q = true end.

Section Spec.
  Variable sha : bytes -> bytes.

  (** The node given out for a directory and its entries. *)
  Definition node_of (d : list bytes * list (bytes * (cid * N))) : out :=
    Node (join (fst d)) (dir_cid sha (snd d)) (dir_total (snd d)) (dir_block (snd d)).

  (** [dirs] are the directories, each with its entries, in the order they are given out. *)
  Definition built (wrap : bool) (h : list call) (dirs : list (list bytes * list (bytes * (cid * N)))) : Prop :=
    (* every directory, once *)
    (forall q, In q (map fst dirs) <-> is_dir wrap h q) /\
    NoDup (map fst dirs) /\
    (* the entries of each: sorted by name; the links put there with their cids and sizes; the sub
       directories with the cids and sizes given out for them *)
    (forall q es, In (q, es) dirs ->
       bt_sorted es /\
       forall n c s, In (n, (c, s)) es <->
         link_at h (q ++ [n]) = Some (c, s) \/
         exists sub, In (q ++ [n], sub) dirs /\ c = dir_cid sha sub /\ s = dir_total sub) /\
    (* sub directories first *)
    (forall i j q r es es', nth_error dirs i = Some (q, es) -> nth_error dirs j = Some (q ++ r, es') -> r <> [] -> (j < i)%nat) /\
    (* the top is last *)
    (dirs <> [] -> exists l es, if wrap then dirs = l ++ [([], es)] else exists x, dirs = l ++ [([x], es)]).
End Spec.

(** The sizes of everything at and below [q]: the blocks of the directories and the linked things. *)
Definition blocks_below (q : list bytes) (dirs : list (list bytes * list (bytes * (cid * N)))) : N :=
  sumN (map (fun d => blen (dir_block (snd d))) (filter (fun d => seg_prefix q (fst d)) dirs)).
Definition links_below (q : list bytes) (h : list call) : N :=
  sumN (map (fun c => match c with PutLink p _ s => if seg_prefix q (split_slash p) then s else 0 | _ => 0 end) h).

(** Calls whose cids are well formed. *)
Definition call_wf (c : call) : Prop := match c with PutLink _ c _ => wf_cid c | _ => True end.
