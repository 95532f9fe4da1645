(** What the functions computed in floating point are given and what comes back, from the specification's side. *)
From Coq Require Import ZArith QArith Ascii String List Bool.
From Verif Require Import Base Dec Num NumSpec Lex Bases Syntax Call Std StdSpec Floats.
Import ListNotations.
Open Scope Z_scope.

(** The decimal closest to a number at the precision in use *)
Definition closest (p : Z) (a : number) : Q := rnd p (val a).
(** The format of the first argument that has one *)
Definition first_format (l : list number) : option cast := fold_left (fun c a => match c with Some _ => c | None => ncast a end) l None.
(** A float that [Number] holds exactly: its denominator is a power of two with at most as many digits as the precision *)
Definition holds (p : Z) (q : Q) : Prop := Zpos (Qden (Qred q)) <= 10 ^ p.
(** A natural logarithm: that of one is zero, and only positive numbers have one *)
Definition ln_like (X : mathlib) : Prop :=
  ((forall q r, q == r -> x_ln X q = x_ln X r) /\ (exists z, x_ln X 1 = Some z /\ z == 0) /\ (forall q, q <= 0 -> x_ln X q = None))%Q.
(** The names of the special functions *)
Definition special_names : list str :=
  flat_map (fun r : string * nat * list string * bool => let '(f, _, outs, _) := r in
    match outs with [] => [special_name f None] | _ => map (fun o => special_name f (Some o)) outs end) special_table.
(** A special function under its name in the calculator: the function of the library, how many arguments it has, which of its
    results is meant if it has several, and whether the code makes the arguments integers *)
Definition special (name : str) (f : string) (k : nat) (o : option nat) (ints : bool) : Prop :=
  exists outs, In (f, k, outs, ints) special_table /\
    ((outs = [] /\ o = None /\ name = special_name f None) \/ exists i x, nth_error outs i = Some x /\ o = Some i /\ name = special_name f (Some x)).
(** An argument without the part after the point *)
Definition cut (a : number) : Z := Z.quot (nnum a) (nden a).
