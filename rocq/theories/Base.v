(** Shared vocabulary of the development: bytes, byte strings, result values.

    Nothing in this file models a particular function of /repo; it is the common notation used by
    the model files. *)
From Coq Require Export List NArith ZArith Lia Bool Arith.
From Coq Require Export ZifyBool ZifyNat ZifyN.
Export ListNotations.

(** A byte is an [N] below 256; a byte string is a list of them.  Rust [&[u8]], [Vec<u8>] and the
    UTF-8 bytes of [&str] are all [bytes]. *)
Definition byte := N.
Definition bytes := list N.

Definition is_byte (b : N) : Prop := (b < 256)%N.
Definition wf_bytes (bs : bytes) : Prop := Forall is_byte bs.

(** Length of a byte string as the 64-bit quantity the code computes with ([.len() as u64]). *)
Definition blen {A} (l : list A) : N := N.of_nat (length l).

Definition u32_max1 : N := 4294967296.             (* 2^32 *)
Definition u64_max1 : N := 18446744073709551616.   (* 2^64 *)

(** Boolean equality of byte strings (Rust [==] on slices and strings). *)
Fixpoint beq (a b : bytes) : bool :=
  match a, b with
  | [], [] => true
  | x :: a', y :: b' => N.eqb x y && beq a' b'
  | _, _ => false
  end.

Lemma beq_spec (a b : bytes) : reflect (a = b) (beq a b).
Proof.
  revert b. induction a as [|x a IH]; intros [|y b]; cbn; try (constructor; congruence).
  destruct (N.eqb_spec x y) as [->|Hne]; cbn; [|constructor; congruence].
  destruct (IH b) as [->|Hne]; constructor; congruence.
Qed.

Lemma beq_refl a : beq a a = true.
Proof. destruct (beq_spec a a); congruence. Qed.

Lemma beq_eq a b : beq a b = true <-> a = b.
Proof. destruct (beq_spec a b); split; congruence. Qed.

Lemma beq_sym a b : beq a b = beq b a.
Proof. destruct (beq_spec a b), (beq_spec b a); congruence. Qed.

(** Outcome of code that can succeed, return an error value or panic. *)
Inductive outcome (A E : Type) : Type :=
| Ok (a : A)
| Err (e : E)
| Panic.
Arguments Ok {A E} a.
Arguments Err {A E} e.
Arguments Panic {A E}.

Lemma wf_bytes_app a b : wf_bytes (a ++ b) <-> wf_bytes a /\ wf_bytes b.
Proof. unfold wf_bytes. apply Forall_app. Qed.

Lemma wf_bytes_nil : wf_bytes [].
Proof. constructor. Qed.

Lemma wf_bytes_cons b l : wf_bytes (b :: l) <-> is_byte b /\ wf_bytes l.
Proof. unfold wf_bytes. split; [intros H; inversion H; auto | intros []; constructor; auto]. Qed.

Lemma blen_app {A} (a b : list A) : blen (a ++ b) = (blen a + blen b)%N.
Proof. unfold blen. rewrite app_length. lia. Qed.

Lemma blen_nil {A} : @blen A [] = 0%N.
Proof. reflexivity. Qed.

Lemma blen_cons {A} (x : A) l : blen (x :: l) = (1 + blen l)%N.
Proof. unfold blen. cbn [length]. lia. Qed.

Fixpoint sumN (l : list N) : N := match l with [] => 0%N | x :: r => (x + sumN r)%N end.

Lemma sumN_app a b : sumN (a ++ b) = (sumN a + sumN b)%N.
Proof. induction a as [|x a IH]; cbn; [reflexivity|]. rewrite IH. lia. Qed.

Lemma skipn_skipn {A} x y (l : list A) : skipn x (skipn y l) = skipn (x + y) l.
Proof.
  revert l. induction y as [|y IH]; intros l.
  - rewrite Nat.add_0_r. reflexivity.
  - rewrite Nat.add_succ_r. destruct l as [|a l]; [rewrite !skipn_nil; reflexivity|]. apply IH.
Qed.
