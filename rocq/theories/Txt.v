(* Text literals in examples. *)
From Coq Require Import Ascii String.
From Verif Require Import Prelude.

Definition txt (s : string) : bytes := map N_of_ascii (list_ascii_of_string s).
Definition untxt (b : bytes) : string := string_of_list_ascii (map ascii_of_N b).
