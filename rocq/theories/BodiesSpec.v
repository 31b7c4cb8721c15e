(** What a client makes of the bytes of a response: RFC 7230.  No definition of the model is used. *)
From Verif Require Import Base.
Local Open Scope N_scope.

(** [c] is the hexadecimal digit of the value [v], in either case; a text of them is a number. *)
Definition digit (c v : N) : Prop :=
  48 <= c <= 57 /\ v = c - 48 \/ 65 <= c <= 70 /\ v = c - 55 \/ 97 <= c <= 102 /\ v = c - 87.
Inductive number : list N -> N -> Prop :=
| number_one c v : digit c v -> number [c] v
| number_more s n c v : number s n -> digit c v -> number (s ++ [c]) (16 * n + v).

(** 4.1: [w] is a whole body in chunks which carries the content [b] and has the trailer fields [fs]
    (chunk extensions, which are optional and not used here, are left out). *)
Definition field (f : list N) : Prop := f <> [] /\ ~ In 13 f /\ ~ In 10 f.
Inductive chunked : list N -> list N -> list (list N) -> Prop :=
| chunked_last s fs : number s 0 -> Forall field fs ->
    chunked (s ++ [13; 10] ++ concat (map (fun f => f ++ [13; 10]) fs) ++ [13; 10]) [] fs
| chunked_more s d w b fs : number s (N.of_nat (length d)) -> d <> [] -> chunked w b fs ->
    chunked (s ++ [13; 10] ++ d ++ [13; 10] ++ w) (d ++ b) fs.

(** [w] is what has arrived of [all] when no more is to come. *)
Definition arrives (w all : list N) : Prop := exists lost, all = w ++ lost.

(** The content [b] which a client can have taken from [w], whole or not. *)
Inductive so_far : list N -> list N -> Prop :=
| so_far_none w : so_far w []
| so_far_part s n d : number s n -> N.of_nat (length d) <= n -> so_far (s ++ [13; 10] ++ d) d
| so_far_more s d w b : number s (N.of_nat (length d)) -> d <> [] -> so_far w b ->
    so_far (s ++ [13; 10] ++ d ++ [13; 10] ++ w) (d ++ b).
