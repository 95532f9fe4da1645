(** What the theorems about the arithmetic operators are stated with. *)
From Coq Require Import ZArith QArith Ascii String List.
From Verif Require Import Num NumSpec.
Import ListNotations.
Definition exact_ops : list (list ascii * (Q -> Q -> Q)) :=
  [(list_ascii_of_string "+", Qplus); (list_ascii_of_string "-", Qminus); (list_ascii_of_string "*", Qmult); (list_ascii_of_string "/", Qdiv)].
Definition comparisons : list (list ascii * (Q -> Q -> Prop)) :=
  [(list_ascii_of_string "<", Qlt); (list_ascii_of_string ">", fun a b => Qlt b a); (list_ascii_of_string "<=", Qle);
   (list_ascii_of_string ">=", fun a b => Qle b a); (list_ascii_of_string "==", Qeq); (list_ascii_of_string "!=", fun a b => ~ Qeq a b)].
