(** Arrays with an element that goes wrong. *)
From Coq Require Import ZArith QArith Ascii String List Bool.
From Verif Require Import Base ArithTextSpec ArithRunSpec ArrayTextSpec ArrayRunSpec ArithErrSpec.
Import ListNotations.
Open Scope nat_scope.

(** Arithmetic that goes wrong, after what is worth something; a range goes wrong in the first of its parts that does *)
Definition part_wrong (vars : str -> option Q) (p k : Z) (e : aexp) : Prop := sized vars p k e /\ judge vars e = Wrong.
Definition element_wrong (vars : str -> option Q) (p k : Z) (e : aelem) : Prop :=
  match e with
  | One a => part_wrong vars p k a
  | Range a b => numerals_fit p b /\ part_wrong vars p k a \/ valued vars p k a /\ part_wrong vars p k b
  | Stepped a b c => (numerals_fit p b /\ numerals_fit p c) /\ part_wrong vars p k a \/ numerals_fit p c /\ valued vars p k a /\ part_wrong vars p k b \/
      valued vars p k a /\ valued vars p k b /\ part_wrong vars p k c
  end.
(** An element of which only the numerals matter *)
Definition element_numerals (p : Z) (e : aelem) : Prop :=
  match e with
  | One a => numerals_fit p a
  | Range a b => numerals_fit p a /\ numerals_fit p b
  | Stepped a b c => numerals_fit p a /\ numerals_fit p b /\ numerals_fit p c
  end.
