(** The subscription registry (src/subscription.rs).  One step is one critical section or atomic
    access; a step whose future does not exist (any more) is disabled.  Numbers are not wrapped at
    2^64.  Sending the cancel notification is modelled as always succeeding while the receiver lives
    ([Sender::try_send] on a sender cloned for this subscription has a slot of its own); the
    conversion of the request kind into an event (l.326) succeeds for the only kind created with a
    notifier.  Definitions only. *)
From Verif Require Import Base Wire Cid FMap BlockSpec SubsSpec.

Section Model.
  Context {K V : Type}.
  Variable keqb : K -> K -> bool.
  (** [cfg(debug_assertions)], l.145. *)
  Variable debug : bool.

  (** [Subscription], l.236-248; [true] for a cancel notifier. *)
  Inductive sub := Ready (v : V) | Pending (w : option nat) (n : bool) | Cancelled.
  (** [Subscriptions], l.75. *)
  Definition table := list (K * list (nat * sub)).
  Record state := mk_state {
    tab : table;                                (* l.79 *)
    flag : bool;                                (* [shutting_down], l.80 *)
    next : nat;                                 (* [GLOBAL_REQ_COUNT], l.26 *)
    took : bool;                                (* the thread which set the flag has taken the table *)
    creating : list (nat * (K * bool * bool));  (* threads inside [create_subscription]: is it cancelled *)
    futs : list (nat * (K * bool));             (* [SubscriptionFuture]s, l.333-343: kind and [cleanup_complete] *)
    dropping : list (nat * (K * bool * option nat * bool))  (* threads inside [drop]: the pending subscription, is it the last *)
  }.
  Definition init : state := mk_state [] false 0 false [] [] [].

  (** What a step answers, the wakers it wakes and the kinds it sends cancel notifications for. *)
  Record effect := mk_effect { ans : out V; woken : list nat; unwants : list K }.
  Definition quiet (o : out V) : effect := mk_effect o [] [].

  (** [Subscription::cancel], l.306-331: wakers woken and notifications sent. *)
  Definition cancel (k : K) (s : sub) (is_last : bool) : list nat * list K :=
    match s with
    | Pending w n => (match w with Some w => [w] | None => [] end, if is_last && n then [k] else [])
    | _ => ([], [])
    end.
  (** [Subscription::wake], l.296-304, on the pending ones of [finish_subscription], l.137-143. *)
  Definition wake_all (v : V) (m : list (nat * sub)) : list (nat * sub) :=
    map (fun x => match snd x with Pending _ _ => (fst x, Ready v) | _ => x end) m.
  Definition wakers (m : list (nat * sub)) : list nat :=
    flat_map (fun x => match snd x with Pending (Some w) _ => [w] | _ => [] end) m.
  Definition pending (m : list (nat * sub)) : bool :=
    existsb (fun x => match snd x with Pending _ _ => true | _ => false end) m.

  Definition ieqb := Nat.eqb.

  Definition step (s : state) (a : act K V) : state * effect :=
    match a with
    | Begin k n =>   (* l.101-108 *)
        let i := next s in
        let e := if flag s then cancel k (Pending None n) true else ([], []) in
        (mk_state (tab s) (flag s) (S i) (took s) ((i, (k, n, flag s)) :: creating s) (futs s) (dropping s),
         mk_effect (OId i) (fst e) (snd e))
    | Insert i =>    (* l.110-122 *)
        match mget ieqb i (creating s) with
        | Some (k, n, late) =>
            let m := match mget keqb k (tab s) with Some m => m | None => [] end in
            (mk_state (mset keqb k (mset ieqb i (if late then Cancelled else Pending None n) m) (tab s))
               (flag s) (next s) (took s) (mdel ieqb i (creating s)) (mset ieqb i (k, false) (futs s)) (dropping s),
             quiet ODone)
        | None => (s, quiet ODisabled)
        end
    | Poll i w =>    (* l.348-392 *)
        match mget ieqb i (futs s) with
        | None => (s, quiet ODisabled)
        | Some (k, _) =>
            match mget keqb k (tab s) with
            | None => (s, quiet (OReady ACancelled))
            | Some m =>
                match mget ieqb i m with
                | None => (s, quiet (OReady ACancelled))
                | Some (Pending _ n) =>
                    (mk_state (mset keqb k (mset ieqb i (Pending (Some w) n) m) (tab s)) (flag s) (next s) (took s)
                       (creating s) (futs s) (dropping s), quiet OPending)
                | Some other =>
                    let m' := mdel ieqb i m in
                    let empty := match m' with [] => true | _ => false end in
                    (mk_state (if empty then mdel keqb k (tab s) else mset keqb k m' (tab s)) (flag s) (next s) (took s)
                       (creating s) (mset ieqb i (k, empty) (futs s)) (dropping s),
                     quiet (OReady (match other with Ready v => AVal v | _ => ACancelled end)))
                end
            end
        end
    | Finish k v =>  (* l.127-164 *)
        match mget keqb k (tab s) with
        | None => (s, quiet ODone)
        | Some m =>
            (mk_state (mset keqb k (wake_all v m) (tab s)) (flag s) (next s) (took s) (creating s) (futs s) (dropping s),
             mk_effect (if debug && negb (pending m) then OPanic else ODone) (wakers m) [])
        end
    | DropFut i =>   (* l.396-421 *)
        match mget ieqb i (futs s) with
        | None => (s, quiet ODisabled)
        | Some (k, cleaned) =>
            let futs' := mdel ieqb i (futs s) in
            let gone t d := mk_state t (flag s) (next s) (took s) (creating s) futs' d in
            if cleaned then (gone (tab s) (dropping s), quiet ODone)
            else
              match mget keqb k (tab s) with
              | None => (gone (tab s) (dropping s), quiet ODone)
              | Some m =>
                  let m' := mdel ieqb i m in
                  let is_last := match m' with [] => true | _ => false end in
                  (gone (if is_last then mdel keqb k (tab s) else mset keqb k m' (tab s))
                     (match mget ieqb i m with
                      | Some (Pending w n) => (i, (k, n, w, is_last)) :: dropping s
                      | _ => dropping s
                      end), quiet ODone)
              end
        end
    | DropNotify i =>   (* l.423-425 *)
        match mget ieqb i (dropping s) with
        | None => (s, quiet ODisabled)
        | Some (k, n, w, is_last) =>
            let e := cancel k (Pending w n) is_last in
            (mk_state (tab s) (flag s) (next s) (took s) (creating s) (futs s) (mdel ieqb i (dropping s)),
             mk_effect ODone (fst e) (snd e))
        end
    | ShutFlag =>       (* l.168-170: whoever finds it set returns *)
        (mk_state (tab s) true (next s) (took s) (creating s) (futs s) (dropping s), quiet ODone)
    | ShutTake =>       (* l.172-188 *)
        if flag s && negb (took s) then
          let es := flat_map (fun km => map (fun x => cancel (fst km) (snd x) true) (snd km)) (tab s) in
          (mk_state [] (flag s) (next s) true (creating s) (futs s) (dropping s),
           mk_effect ODone (flat_map fst es) (flat_map snd es))
        else (s, quiet ODisabled)
    end.

  (** The state after the actions [past], latest first. *)
  Fixpoint run (past : list (act K V)) : state :=
    match past with [] => init | a :: p => fst (step (run p) a) end.
  Definition effect_of (past : list (act K V)) (a : act K V) : effect := snd (step (run past) a).
End Model.
