(** The statistics of the exchange of blocks: bitswap/src/behaviour.rs l.37-84 and l.140-147,
    src/p2p/behaviour.rs l.327-349 and src/lib.rs l.1466-1471, l.1606-1650.  Definitions only.

    The background task owns the bitswap behaviour ([Bitswap]).  For every received block it spawns a
    task which stores the block and then changes two counters, each by an atomic addition.  A report
    loads the counters one after the other on the background task, which does nothing else
    meanwhile, but the spawned tasks go on.  The block store is the in-memory one; that putting a
    block fails, as with a store on disk, is an argument. *)
From Verif Require Import Base Wire Cid FMap BlockSpec MemBlocks BitswapMsg Bitswap Exchange.
Local Open Scope N_scope.

(** l.38-46 [Stats]. *)
Inductive field := SentBlocks | SentData | GotBlocks | GotData | DupBlocks | DupData.
Definition field_eqb (a b : field) : bool :=
  match a, b with
  | SentBlocks, SentBlocks | SentData, SentData | GotBlocks, GotBlocks | GotData, GotData
  | DupBlocks, DupBlocks | DupData, DupData => true
  | _, _ => false
  end.
(** The counters of a peer apart from [sent_blocks], which is in [Bitswap.b_stats]. *)
Record counts := mk_counts { k_sent_data : N; k_got : N; k_got_data : N; k_dup : N; k_dup_data : N }.
Definition counts0 : counts := mk_counts 0 0 0 0 0.
(** [fetch_add] on an [AtomicU64] wraps around. *)
Definition fetch_add (v n : N) : N := (v + n) mod u64_max1.
(** l.52-60 [update_incoming_unique] and [update_incoming_duplicate], the first and the second line. *)
Definition add_block (is_new : bool) (k : counts) : counts :=
  if is_new then mk_counts (k_sent_data k) (fetch_add (k_got k) 1) (k_got_data k) (k_dup k) (k_dup_data k)
  else mk_counts (k_sent_data k) (k_got k) (k_got_data k) (fetch_add (k_dup k) 1) (k_dup_data k).
Definition add_data (is_new : bool) (n : N) (k : counts) : counts :=
  if is_new then mk_counts (k_sent_data k) (k_got k) (fetch_add (k_got_data k) n) (k_dup k) (k_dup_data k)
  else mk_counts (k_sent_data k) (k_got k) (k_got_data k) (k_dup k) (fetch_add (k_dup_data k) n).

(** src/p2p/behaviour.rs l.330-349: what a spawned task does next; the length of the block is taken
    before it is stored (l.331). *)
Inductive stage := Storing (b : block) | CountBlock (is_new : bool) (n : N) | CountData (is_new : bool) (n : N).

(** src/lib.rs l.1606-1625 [BitswapStats]. *)
Record report := mk_report {
  blocks_sent : N; data_sent : N; blocks_received : N; data_received : N;
  dup_blks_received : N; dup_data_received : N; r_peers : list peer; r_wantlist : list (cid * Z) }.

(** A report under way: the loads still to do and the sums. *)
Record reading := mk_reading { todo : list (peer * field); sums : field -> N }.

Record node := mk_node {
  n_bs : bitswap; n_store : mem_store;
  n_counts : list (peer * counts);   (* [stats], an entry for the same peers as in [b_stats] *)
  n_jobs : list (peer * stage); n_read : option reading }.
Definition node0 : node := mk_node bitswap0 mem_new [] [] None.
Definition with_bs b s := mk_node b (n_store s) (n_counts s) (n_jobs s) (n_read s).
Definition with_store m s := mk_node (n_bs s) m (n_counts s) (n_jobs s) (n_read s).
Definition with_counts k s := mk_node (n_bs s) (n_store s) k (n_jobs s) (n_read s).
Definition with_jobs j s := mk_node (n_bs s) (n_store s) (n_counts s) j (n_read s).
Definition with_read r s := mk_node (n_bs s) (n_store s) (n_counts s) (n_jobs s) r.

Inductive op :=
| Swarm (o : Bitswap.op)              (* anything the background task does with bitswap *)
| Job (i : nat) (fault : bool)        (* a step of a spawned task; whether storing fails *)
| PutBlock (b : BlockSpec.block)      (* put_block and remove_block by anybody else *)
| RemoveBlock (c : cid)
| Begin (order : list peer)           (* bitswap_stats is called; the order of the hash map *)
| Load.                               (* the next load of the report, or its end *)
Inductive out :=
| Quiet
| Acted (a : action)                                        (* of bitswap *)
| Kept (p : peer) (b : block) (is_new : option bool)        (* put_block of a received block *)
| CountedBlock (p : peer) (is_new : bool)
| CountedData (p : peer) (is_new : bool) (n : N)            (* the spawned task ends *)
| Started
| Reported (r : report).

Definition replace {A} (i : nat) (x : list A) (l : list A) : list A := firstn i l ++ x ++ skipn (S i) l.

(** The entry is never replaced, so that the [Arc] taken at l.329 is the one in the map. *)
Definition at_counts (p : peer) (f : counts -> counts) (l : list (peer * counts)) : list (peer * counts) :=
  map (fun pk => if p =? fst pk then (fst pk, f (snd pk)) else pk) l.

(** bitswap/src/behaviour.rs l.62-84: one load of [add_assign]. *)
Definition load (s : node) (p : peer) (f : field) : N :=
  match f with
  | SentBlocks => match mget N.eqb p (b_stats (n_bs s)) with Some v => v | None => 0 end
  | _ =>
      match mget N.eqb p (n_counts s) with
      | Some k => match f with
                  | SentData => k_sent_data k | GotBlocks => k_got k | GotData => k_got_data k
                  | DupBlocks => k_dup k | _ => k_dup_data k
                  end
      | None => 0
      end
  end.
(** The loads of [stats] (l.140-147), for the peers in the order given. *)
Definition plan (order : list peer) : list (peer * field) :=
  flat_map (fun p => map (pair p) [SentBlocks; SentData; GotBlocks; GotData; DupBlocks; DupData]) order.
(** Whether the order lists the keys of the map. *)
Definition is_order (order keys : list peer) : bool :=
  (Nat.eqb (length order) (length keys) && forallb (fun p => existsb (N.eqb p) order) keys)%bool.

(** [None] is a panic. *)
Definition step (s : node) (o : op) : option (node * out) :=
  match o with
  | Swarm o =>
      match n_read s with
      | Some _ => Some (s, Quiet)
      | None =>
          match Bitswap.step (n_bs s) o with
          | None => None
          | Some (b, a) =>
              let s := with_bs b s in
              (* bitswap/src/behaviour.rs l.243 *)
              let s := match o with
                       | OEstablished p _ => match mget N.eqb p (n_counts s) with
                                             | Some _ => s
                                             | None => with_counts (mset N.eqb p counts0 (n_counts s)) s
                                             end
                       | _ => s
                       end in
              match a with
              | None => Some (s, Quiet)
              | Some (Report e) =>
                  match node_event b e with
                  | None => None
                  | Some _ =>
                      Some (match e with
                            | ReceivedBlock p k => with_jobs (n_jobs s ++ [(p, Storing k)]) s
                            | _ => s
                            end, Acted (Report e))
                  end
              | Some a => Some (s, Acted a)
              end
          end
      end
  | Job i fault =>
      match nth_error (n_jobs s) i with
      | None => Some (s, Quiet)
      | Some (p, Storing b) =>
          if fault then Some (with_jobs (replace i [] (n_jobs s)) s, Kept p b None)
          else
            let '(m, r) := mem_put (to_repo b) (n_store s) in
            let is_new := match r with RPut _ x => x | _ => false end in
            Some (with_jobs (replace i [(p, CountBlock is_new (blen (b_data b)))] (n_jobs s)) (with_store m s),
                  Kept p b (Some is_new))
      | Some (p, CountBlock is_new n) =>
          Some (with_jobs (replace i [(p, CountData is_new n)] (n_jobs s)) (with_counts (at_counts p (add_block is_new) (n_counts s)) s),
                CountedBlock p is_new)
      | Some (p, CountData is_new n) =>
          Some (with_jobs (replace i [] (n_jobs s)) (with_counts (at_counts p (add_data is_new n) (n_counts s)) s),
                CountedData p is_new n)
      end
  | PutBlock b => Some (with_store (fst (mem_put b (n_store s))) s, Quiet)
  | RemoveBlock c => Some (with_store (fst (mem_remove c (n_store s))) s, Quiet)
  | Begin order =>
      match n_read s with
      | Some _ => Some (s, Quiet)
      | None => if is_order order (map fst (b_stats (n_bs s)))
                then Some (with_read (Some (mk_reading (plan order) (fun _ => 0))) s, Started)
                else Some (s, Quiet)
      end
  | Load =>
      match n_read s with
      | None => Some (s, Quiet)
      | Some (mk_reading ((p, f) :: l) t) =>
          Some (with_read (Some (mk_reading l (fun g => if field_eqb f g then fetch_add (t g) (load s p f) else t g))) s, Quiet)
      | Some (mk_reading [] t) =>
          (* src/lib.rs l.1467-1470, l.1639-1648; bitswap/src/behaviour.rs l.149-151 *)
          Some (with_read None s,
                Reported (mk_report (t SentBlocks) (t SentData) (t GotBlocks) (t GotData) (t DupBlocks) (t DupData)
                            (map fst (b_peers (n_bs s))) (local_wantlist (n_bs s))))
      end
  end.

(** What is observed: the steps with what came of each, oldest first. *)
Fixpoint run (s : node) (h : list op) : option (node * list (op * out)) :=
  match h with
  | [] => Some (s, [])
  | o :: h =>
      match step s o with
      | None => None
      | Some (s, a) => option_map (fun r => (fst r, (o, a) :: snd r)) (run s h)
      end
  end.
