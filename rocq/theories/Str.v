(** Bytes written as text. *)
From Coq Require Import Ascii String.
From Verif Require Import Base.

Definition text (s : string) : bytes := map N_of_ascii (list_ascii_of_string s).
