(** The [Ipld] data model (src/ipld/mod.rs).  Definitions only. *)
From Verif Require Import Base Wire Cid BTree.
Local Open Scope N_scope.

(** [enum Ipld], src/ipld/mod.rs l.24-43.  [Integer] holds an i128, [Float] the 64 bits of the f64,
    [Str] the UTF-8 bytes of the String, [IMap] the entries of the BTreeMap in key order. *)
Inductive ipld :=
| Null
| IBool (b : bool)
| Integer (i : Z)
| Float (bits : N)
| Str (s : bytes)
| IBytes (b : bytes)
| IList (l : list ipld)
| IMap (m : list (bytes * ipld))
| Link (c : cid).

(** Induction principle that goes through the list and map constructors. *)
Section Ind.
  Variable P : ipld -> Prop.
  Hypothesis Hnull : P Null.
  Hypothesis Hbool : forall b, P (IBool b).
  Hypothesis Hint : forall i, P (Integer i).
  Hypothesis Hfloat : forall f, P (Float f).
  Hypothesis Hstr : forall s, P (Str s).
  Hypothesis Hbytes : forall b, P (IBytes b).
  Hypothesis Hlist : forall l, Forall P l -> P (IList l).
  Hypothesis Hmap : forall m, Forall (fun kv => P (snd kv)) m -> P (IMap m).
  Hypothesis Hlink : forall c, P (Link c).
  Fixpoint ipld_ind' (v : ipld) : P v :=
    match v with
    | Null => Hnull
    | IBool b => Hbool b
    | Integer i => Hint i
    | Float f => Hfloat f
    | Str s => Hstr s
    | IBytes b => Hbytes b
    | IList l =>
        Hlist l ((fix go l : Forall P l :=
                    match l with [] => Forall_nil _ | x :: r => Forall_cons x (ipld_ind' x) (go r) end) l)
    | IMap m =>
        Hmap m ((fix go m : Forall (fun kv => P (snd kv)) m :=
                   match m with
                   | [] => Forall_nil _
                   | kv :: r => Forall_cons kv (ipld_ind' (snd kv)) (go r)
                   end) m)
    | Link c => Hlink c
    end.
End Ind.

Section AllP.
  Context {A : Type} (P : A -> Prop).
  Fixpoint allP (l : list A) : Prop := match l with [] => True | x :: r => P x /\ allP r end.
End AllP.

(** What every Rust value of the type satisfies: i128 range, 64 float bits, UTF-8 strings, lengths
    that fit usize, map keys strictly increasing. *)
Fixpoint wf_ipld (v : ipld) : Prop :=
  match v with
  | Null | IBool _ => True
  | Integer i => (- 2 ^ 127 <= i < 2 ^ 127)%Z
  | Float f => f < u64_max1
  | Str s => wf_bytes s /\ utf8 s = true /\ blen s < u64_max1
  | IBytes b => wf_bytes b /\ blen b < u64_max1
  | IList l => blen l < u64_max1 /\ allP wf_ipld l
  | IMap m =>
      blen m < u64_max1 /\ bt_sorted m /\
      allP (fun kv => wf_bytes (fst kv) /\ utf8 (fst kv) = true /\ blen (fst kv) < u64_max1) m /\
      allP (fun kv => wf_ipld (snd kv)) m
  | Link c => wf_cid c /\ blen (cid_to_bytes c) + 1 < u64_max1
  end.

(** Nesting depth of a value. *)
Fixpoint height (v : ipld) : nat :=
  match v with
  | IList l => S (list_max (map height l))
  | IMap m => S (list_max (map (fun kv => height (snd kv)) m))
  | _ => 1%nat
  end.

(** [Ipld::get] with a string index, src/ipld/mod.rs l.116-131. *)
Definition ipld_get (k : bytes) (v : ipld) : option ipld :=
  match v with IMap m => bt_get k m | _ => None end.

(** [IpldIter] (src/ipld/mod.rs l.141-171): all nodes, parents before children, in order.  The Rust
    iterator keeps an explicit stack of iterators; the stack is the recursion here. *)
Fixpoint ipld_iter (v : ipld) : list ipld :=
  v :: match v with
       | IList l => flat_map ipld_iter l
       | IMap m => flat_map (fun kv => ipld_iter (snd kv)) m
       | _ => []
       end.
