(** What the theorems about running arithmetic say of the calculator's state and answers. *)
From Coq Require Import ZArith QArith Ascii String List Bool.
From Verif Require Import Base Dec Num NumSpec Bases Formats Units Syntax Call Exec Std VarNameSpec.
Import ListNotations.

(** The symbol for exponents of ten, E by default, begins with a letter. *)
Definition exp_letter (L : lib) : Prop := exists c r, f_sym (l_fmt L) = c :: r /\ letter c.
(** The variables hold numbers, without units and not shown as percentages, of the values [vars] says; there may be others. *)
Definition vars_hold (vars : str -> option Q) (s : st) : Prop :=
  forall n q, vars n = Some q -> exists x, assoc n (s_vars s) = Some (VNum x, None) /\ good x /\ lowest x /\ (val x == q)%Q /\ ncast x <> Some CPct.
(** No variable holds an error or a bare unit. *)
Definition ordinary (v : value) : Prop := match v with VExc _ | VUnit _ => False | _ => True end.
Definition all_ordinary (s : st) : Prop := forall n v u, assoc n (s_vars s) = Some (v, u) -> ordinary v.
(** A result of one line: nothing, or a number without unit of the value, in lowest terms *)
Definition answers_with (q : option Q) (r : cresult) : Prop :=
  match q, cr_answer r with None, None => True | Some q, Some (VNum x, None) => good x /\ lowest x /\ (val x == q)%Q | _, _ => False end.
(** The formats of the variables, and of the number a line answers *)
Definition shown_as (s : st) (n : str) : option cast := match assoc n (s_vars s) with Some (VNum x, _) => ncast x | _ => None end.
Definition answers_as (c : option cast) (r : cresult) : Prop := match cr_answer r with Some (VNum x, _) => ncast x = c | _ => True end.
