(** What the background task of a node is expected to do with what is sent to it. *)
From Verif Require Import Base EventLoop.

Section Spec.
  Context {node sev req ans rev : Type}.
  Variable next : node -> option (sev * node).
  Variable on_swarm : node -> sev -> node.
  Variable on_request : node -> req -> node * ans.
  Variable on_repo : node -> rev -> node.
  Notation op := (op node req rev).
  Notation task := (task node req ans rev).

  (** The calls of a history: none is made once the last [Ipfs] is dropped. *)
  Fixpoint calls (h : list op) : list req :=
    match h with
    | [] | DropAll :: _ => []
    | Call q :: h => q :: calls h
    | _ :: h => calls h
    end.
  (** ... and those made before anybody asked the node to exit. *)
  Fixpoint in_time (h : list op) : list req :=
    match h with
    | [] | DropAll :: _ | ExitDaemon :: _ => []
    | Call q :: h => q :: in_time h
    | _ :: h => in_time h
    end.
  (** What the repo has posted. *)
  Definition posts (h : list op) : list rev := flat_map (fun o => match o with Post e => [e] | _ => [] end) h.
  (** Somebody asked the node to exit, or the last [Ipfs] is dropped. *)
  Definition told_to_end (h : list op) : Prop := In ExitDaemon h \/ In DropAll h.

  (** The runtime has nothing to do with the task until something comes in. *)
  Definition idle (t : task) : Prop := (at_ t = Asleep /\ woken t = false) \/ at_ t = Over.
  (** Nothing but the runtime goes on. *)
  Definition quiet (h : list op) : Prop := Forall (fun o => o = Poll \/ o = Step) h.

  (** A node to which things happen one at a time. *)
  Inductive act :=
  | Took (e : sev)                            (* the swarm reported an event *)
  | Served (i : nat) (q : req) (a : ans)      (* call [i] was answered *)
  | Did (e : rev)                             (* an event of the repo was handled *)
  | Felt (f : node -> node).                  (* something happened to the swarm *)
  Inductive follows : node -> list act -> node -> Prop :=
  | follows_nil n : follows n [] n
  | follows_took n l n1 e n2 : follows n l n1 -> next n1 = Some (e, n2) -> follows n (l ++ [Took e]) (on_swarm n2 e)
  | follows_served n l n1 i q : follows n l n1 -> follows n (l ++ [Served i q (snd (on_request n1 q))]) (fst (on_request n1 q))
  | follows_did n l n1 e : follows n l n1 -> follows n (l ++ [Did e]) (on_repo n1 e)
  | follows_felt n l n1 f : follows n l n1 -> follows n (l ++ [Felt f]) (f n1).
  Definition answered (l : list act) : list (nat * req * ans) := flat_map (fun x => match x with Served i q a => [(i, q, a)] | _ => [] end) l.
  Definition done (l : list act) : list rev := flat_map (fun x => match x with Did e => [e] | _ => [] end) l.
  Definition felt (l : list act) : list (node -> node) := flat_map (fun x => match x with Felt f => [f] | _ => [] end) l.
  (** The answers given so far, as the callers have them. *)
  Definition told (t : task) : list (nat * ans) := flat_map (fun x => match snd x with Told a => [(fst x, a)] | Gone => [] end) (outcomes t).
  (** What happened to the swarm from outside. *)
  Definition nets (h : list op) : list (node -> node) := flat_map (fun o => match o with Net f => [f] | _ => [] end) h.

  (** Left alone, the swarm has only so many events to report. *)
  Definition swarm_settles : Prop := exists w : node -> nat, forall n e n', next n = Some (e, n') -> w (on_swarm n' e) < w n.
End Spec.
