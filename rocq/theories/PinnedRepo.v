(** Removing blocks from a repo (src/repo/mod.rs l.489-515): the pin store is asked first, then the
    block store.  The two stores are independent, so the repo is a pair of states.  Sending the
    [RemovedBlock] event and storage errors are not modelled.  Definitions only. *)
From Verif Require Import Base Wire Cid BlockSpec MemBlocks FsPaths FsBlocks PinSpec MemPins FsPins.

(** What the repo is asked: [put_block] (l.426-451, without waking readers), [remove_block], and the
    four changes of pins, which go straight to the pin store (l.554-573). *)
Inductive rop := RepoPut (b : block) | RepoRemove (c : cid) | RepoPin (o : pop).

Section Repo.
  Context {B P E : Type}.
  Variable is_pinned : P -> cid -> option bool.               (* [None]: an error *)
  Variable put : B -> block -> B * outcome unit unit.
  Variable remove : B -> cid -> B * outcome bool unit.        (* [Ok false]: not found *)
  Variable pin_call : P -> pop -> P * outcome unit E.

  (** l.490-515. *)
  Definition remove_block (s : B * P) (c : cid) : (B * P) * outcome cid unit :=
    match is_pinned (snd s) c with
    | None | Some true => (s, Err tt)
    | Some false =>
        match remove (fst s) c with
        | (b, Ok true) => ((b, snd s), Ok c)
        | (b, Ok false) | (b, Err _) => ((b, snd s), Err tt)
        | (b, Panic) => ((b, snd s), Panic)
        end
    end.
  (** The same call, when pin calls of other tasks run between the question and the removal (the
      two are separate awaits without a common lock). *)
  Definition remove_block_during (s : B * P) (c : cid) (others : list pop) : (B * P) * outcome cid unit :=
    match is_pinned (snd s) c with
    | None | Some true => (s, Err tt)
    | Some false =>
        let p := fold_left (fun p o => fst (pin_call p o)) others (snd s) in
        match remove (fst s) c with
        | (b, Ok true) => ((b, p), Ok c)
        | (b, Ok false) | (b, Err _) => ((b, p), Err tt)
        | (b, Panic) => ((b, p), Panic)
        end
    end.
  (** The state, the block calls and the pin calls which succeeded (latest first), after a history. *)
  Fixpoint repo_run (s : B * P) (bs : list bop) (ps : list pop) (h : list rop) : (B * P) * list bop * list pop :=
    match h with
    | [] => (s, bs, ps)
    | RepoPut b :: h' =>
        let (b', r) := put (fst s) b in
        repo_run (b', snd s) (match r with Ok _ => Put b :: bs | _ => bs end) ps h'
    | RepoRemove c :: h' =>
        let (s', r) := remove_block s c in
        repo_run s' (match r with Ok _ => Remove c :: bs | _ => bs end) ps h'
    | RepoPin o :: h' =>
        let (p', r) := pin_call (snd s) o in
        repo_run (fst s, p') bs (match r with Ok _ => o :: ps | _ => ps end) h'
    end.
End Repo.

(** In memory. *)
Definition m_put (m : mem_store) (b : block) : mem_store * outcome unit unit := (fst (mem_put b m), Ok tt).
Definition m_remove (m : mem_store) (c : cid) : mem_store * outcome bool unit :=
  match mem_remove c m with
  | (m', RRemove _ found) => (m', Ok found)
  | (m', _) => (m', Panic)
  end.
Definition mem_remove_block := remove_block (fun g c => Some (mem_is_pinned g c)) m_remove.
Definition mem_remove_during := remove_block_during (fun g c => Some (mem_is_pinned g c)) m_remove mem_pin_call.
Definition mem_repo_run := repo_run (fun g c => Some (mem_is_pinned g c)) m_put m_remove mem_pin_call.

(** On disk: blocks and pins live in two directories (src/repo/mod.rs l.363-395). *)
Definition f_put (f : fs) (b : block) : fs * outcome unit unit :=
  match fs_put b [b_data b] f with
  | (f', Answer _) => (f', Ok tt)
  | (f', APanic) => (f', Panic)
  | (f', _) => (f', Err tt)
  end.
Definition f_remove (f : fs) (c : cid) : fs * outcome bool unit :=
  match fs_remove c f with
  | (f', Answer (RRemove _ found)) => (f', Ok found)
  | (f', AError) => (f', Err tt)
  | (f', _) => (f', Panic)
  end.
Section Disk.
  Variable other_base : N -> bytes -> option bytes.
  Definition fs_remove_block := remove_block (fs_is_pinned other_base) f_remove.
  Definition fs_remove_during := remove_block_during (fs_is_pinned other_base) f_remove fs_pin_call.
  Definition fs_repo_run := repo_run (fs_is_pinned other_base) f_put f_remove fs_pin_call.
End Disk.
