(** What the theorems about the statistical functions are stated with. *)
From Coq Require Import ZArith QArith List Bool.
From Verif Require Import Base Num NumSpec Syntax Call Std StdSpec RangeSpec.
Import ListNotations.
Open Scope nat_scope.
(** The elements are numbers [xs] over the denominator [d] *)
Definition all_over (L : lib) (d : Z) (xs : list Z) (l : list result) : Prop :=
  Forall2 (fun x r => exists n, number_at L r n /\ over d x n) xs l.
Definition zsum (l : list Z) : Z := fold_right Z.add 0%Z l.
Definition qsum (l : list Q) : Q := fold_right Qplus 0%Q l.
(** How often a decimal occurs *)
Definition how_many (q : Q) (l : list Q) : nat := length (filter (Qeq_bool q) l).
(** A decimal whose denominator is no more than the precision allows *)
Definition narrow (p : Z) (q : Q) : Prop := (Zpos (Qden (Qred q)) <= 10 ^ p)%Z.
