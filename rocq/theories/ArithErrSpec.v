(** What becomes of arithmetic that goes wrong. *)
From Coq Require Import ZArith QArith Ascii String List Bool.
From Verif Require Import Base Num NumSpec Lex Bases Formats Units Syntax Call Exec Std LexSpec ArithTextSpec ArithRunSpec.
Import ListNotations.

(** An expression has a value; or is a variable that has none; or goes wrong, because somewhere in it something is divided
    by zero, a function is given a number it is not defined for, or a variable without value is computed with; or nothing is
    said (the powers that [apply_op] leaves out). *)
Inductive verdict := Worth (q : Q) | Unset | Wrong | Open.
Definition decide (o : aop) (a b : verdict) : verdict :=
  match a, b with
  | Open, _ | _, Open => Open
  | Worth x, Worth y => if match o with Over => Qeq_bool y 0 | _ => false end then Wrong
                        else match apply_op o x y with Some q => Worth q | None => Open end
  | _, _ => Wrong
  end.
Definition decide_fun (f : afun) (a : verdict) : verdict :=
  match a with Open => Open | Worth x => match apply_fun f x with Some q => Worth q | None => Wrong end | _ => Wrong end.
Definition decide_fun2 (f : afun2) (a b : verdict) : verdict :=
  match a, b with
  | Open, _ | _, Open => Open
  | Worth x, Worth y => match apply_fun2 f x y with Some q => Worth q | None => Wrong end
  | _, _ => Wrong
  end.
Fixpoint judge (vars : str -> option Q) (e : aexp) : verdict :=
  match e with
  | ANum l => Worth (spec_val l)
  | AVar n => match vars n with Some q => Worth q | None => Unset end
  | ABin o a b => decide o (judge vars a) (judge vars b)
  | ACall f a => decide_fun f (judge vars a)
  | ACall2 f a b => decide_fun2 f (judge vars a) (judge vars b)
  end.
(** The values there are on the way have at most [k] digits above and below the line, and there is [room] to round. *)
Fixpoint sized (vars : str -> option Q) (p k : Z) (e : aexp) : Prop :=
  match judge vars e with Worth q => digits_le k q | _ => True end /\
  match e with
  | ANum l => match l_frac l with Some f => (Z.of_nat (length f) <= p)%Z | None => True end
  | AVar _ => True
  | ABin _ a b | ACall2 _ a b => sized vars p k a /\ sized vars p k b
  | ACall f a => room p k f /\ sized vars p k a
  end.
(** The numerals have at most [p] digits after the point. *)
Fixpoint numerals_fit (p : Z) (e : aexp) : Prop :=
  match e with
  | ANum l => match l_frac l with Some f => (Z.of_nat (length f) <= p)%Z | None => True end
  | AVar _ => True
  | ABin _ a b | ACall2 _ a b => numerals_fit p a /\ numerals_fit p b
  | ACall _ a => numerals_fit p a
  end.
(** The variables are exactly those of [vars], and hold plain decimal numbers. *)
Definition vars_exactly (vars : str -> option Q) (s : st) : Prop :=
  vars_hold vars s /\ forall n, match assoc n (s_vars s) with
                                | Some (VNum x, _) => vars n <> None /\ ncast x = None
                                | Some _ => False
                                | None => vars n = None
                                end.
(** A line that goes wrong, and one of which only the numerals matter *)
Definition line_wrong (vars : str -> option Q) (p k : Z) (l : aline) : Prop :=
  match l with LBlank => False | LExp e | LSet _ e => judge vars e = Wrong /\ sized vars p k e end.
Definition line_numerals (p : Z) (l : aline) : Prop := match l with LBlank => True | LExp e | LSet _ e => numerals_fit p e end.
