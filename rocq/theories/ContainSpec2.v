(** Further conditions for the theorem that failures are contained. *)
From Coq Require Import ZArith QArith Ascii String List Bool.
From Verif Require Import Base Dec Num Bases Units UnitReg Syntax Call Loop Parse Exec UnitCalc.
Import ListNotations.
Open Scope nat_scope.

(** The names of units and systems are not empty and do not begin with [.] or [step], which have a meaning in arrays *)
Definition no_array_word (k : str) : bool := negb (prefixb ($"step") k) && negb (prefixb ($".") k) && negb (is_nil k).
Definition names_apart (N : normaliser) : bool :=
  forallb (fun e => no_array_word (fst e)) (rnames (n_reg N)) && forallb (fun e => no_array_word (fst e)) (rsyms (n_reg N)) &&
  forallb no_array_word (n_systems N).
