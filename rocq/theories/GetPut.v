(** [Repo::get_block] and [Repo::put_block] (src/repo/mod.rs l.427-478) as steps of any number of
    concurrent calls, over the in-memory block store and the subscription registry.  A step is a
    call of the block store (one critical section) or a step of the registry; the want and new block
    events sent in between are not modelled, they change neither.  Definitions only. *)
From Verif Require Import Base Wire Cid FMap BlockSpec MemBlocks SubsSpec Subs.

Inductive gact :=
| Look (c : cid)            (* a get_block call starts: [get_block_now], l.462 *)
| SubBegin (g : nat)        (* get_block [g]: create_subscription, first half, l.465-467 *)
| SubInsert (g : nat)       (* ... second half *)
| PollG (g w : nat)         (* ... polled at the subscription, l.475 *)
| DropG (g : nat)           (* the future of get_block [g] is dropped *)
| NotifyG (g : nat)
| StorePut (b : block)      (* a put_block call starts: the store's put, l.429 *)
| FinishPut (t : nat)       (* put_block [t]: finish_subscription if the block was new, l.434-436 *)
| RemoveB (c : cid)         (* the store's remove *)
| ShutF | ShutT.            (* Repo::shutdown, l.391-393 *)

Inductive getst :=
| Missing (c : cid) | Starting (c : cid) (i : nat) | Subscribed (c : cid) (i : nat)
| Answered (r : outcome block unit) | Gone (i : nat).
Inductive putst := Stored (b : block) (new : bool) | PutDone.

Record gp := mk_gp {
  store : mem_store;
  past : list (act cid block);    (* the registry's history, latest first *)
  gets : list getst;              (* in the order of [Look] *)
  puts : list putst               (* in the order of [StorePut] *)
}.
Definition gp_init : gp := mk_gp mem_new [] [] [].

Inductive gout := GNone | GPending | GAnswer (r : outcome block unit) | GPut (new : bool) | GPanic.

Fixpoint set_nth {A} (n : nat) (a : A) (l : list A) : list A :=
  match l, n with
  | [], _ => []
  | _ :: r, O => a :: r
  | x :: r, S n => x :: set_nth n a r
  end.

Section Model.
  Variable debug : bool.
  Notation eff := (effect_of cid_eqb debug).

  Definition gstep (s : gp) (a : gact) : gp * gout :=
    let reg l := l :: past s in
    match a with
    | Look c =>
        match mem_get c (store s) with
        | RGet (Some b) => (mk_gp (store s) (past s) (gets s ++ [Answered (Ok b)]) (puts s), GAnswer (Ok b))
        | _ => (mk_gp (store s) (past s) (gets s ++ [Missing c]) (puts s), GPending)
        end
    | SubBegin g =>
        match nth_error (gets s) g with
        | Some (Missing c) =>
            match ans (eff (past s) (Begin c true)) with
            | OId i => (mk_gp (store s) (reg (Begin c true)) (set_nth g (Starting c i) (gets s)) (puts s), GNone)
            | _ => (s, GNone)
            end
        | _ => (s, GNone)
        end
    | SubInsert g =>
        match nth_error (gets s) g with
        | Some (Starting c i) => (mk_gp (store s) (reg (Insert i)) (set_nth g (Subscribed c i) (gets s)) (puts s), GNone)
        | _ => (s, GNone)
        end
    | PollG g w =>
        match nth_error (gets s) g with
        | Some (Subscribed c i) =>
            let s' r := mk_gp (store s) (reg (Poll i w)) r (puts s) in
            match ans (eff (past s) (Poll i w)) with
            | OReady (AVal b) => (s' (set_nth g (Answered (Ok b)) (gets s)), GAnswer (Ok b))
            | OReady ACancelled => (s' (set_nth g (Answered (Err tt)) (gets s)), GAnswer (Err tt))
            | _ => (s' (gets s), GPending)
            end
        | _ => (s, GNone)
        end
    | DropG g =>
        match nth_error (gets s) g with
        | Some (Subscribed c i) => (mk_gp (store s) (reg (DropFut i)) (set_nth g (Gone i) (gets s)) (puts s), GNone)
        | _ => (s, GNone)
        end
    | NotifyG g =>
        match nth_error (gets s) g with
        | Some (Gone i) => (mk_gp (store s) (reg (DropNotify i)) (gets s) (puts s), GNone)
        | _ => (s, GNone)
        end
    | StorePut b =>
        match mem_put b (store s) with
        | (m, RPut _ new) => (mk_gp m (past s) (gets s) (puts s ++ [Stored b new]), GPut new)
        | (m, _) => (s, GNone)
        end
    | FinishPut t =>
        match nth_error (puts s) t with
        | Some (Stored b true) =>
            (mk_gp (store s) (reg (Finish (b_cid b) b)) (gets s) (set_nth t PutDone (puts s)),
             match ans (eff (past s) (Finish (b_cid b) b)) with OPanic => GPanic | _ => GNone end)
        | Some (Stored b false) => (mk_gp (store s) (past s) (gets s) (set_nth t PutDone (puts s)), GNone)
        | _ => (s, GNone)
        end
    | RemoveB c => (mk_gp (fst (mem_remove c (store s))) (past s) (gets s) (puts s), GNone)
    | ShutF => (mk_gp (store s) (reg ShutFlag) (gets s) (puts s), GNone)
    | ShutT => (mk_gp (store s) (reg ShutTake) (gets s) (puts s), GNone)
    end.

  (** Oldest first. *)
  Definition grun (h : list gact) : gp := fold_left (fun s a => fst (gstep s a)) h gp_init.
  Definition gout_of (h : list gact) (a : gact) : gout := snd (gstep (grun h) a).
End Model.
