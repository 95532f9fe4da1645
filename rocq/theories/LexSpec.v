(** What a decimal literal denotes, digit by digit, independent of the code that reads or prints it. *)
From Coq Require Import ZArith QArith Ascii String List Bool.
From Verif Require Import Base Lex.
Import ListNotations.
Open Scope Z_scope.

(** Value of the digits after the point, and of the digits before it (accumulated from the left). *)
Fixpoint frac_val (s : str) : Q :=
  match s with
  | [] => 0%Q
  | c :: s' => ((inject_Z (code c - 48) + frac_val s') / 10)%Q
  end.
Fixpoint int_val (s : str) (acc : Q) : Q :=
  match s with
  | [] => acc
  | c :: s' => int_val s' (acc * 10 + inject_Z (code c - 48))%Q
  end.
Definition spec_val (l : declit) : Q :=
  let a := (int_val (l_int l) 0 + frac_val (match l_frac l with Some f => f | None => [] end))%Q in
  if l_neg l then (- a)%Q else a.

(** A well-formed literal: at least one digit before the point and, if there is a point, one after it. *)
Definition lit_ok (l : declit) : Prop :=
  l_int l <> [] /\ forallb is_digit (l_int l) = true /\
  match l_frac l with Some f => f <> [] /\ forallb is_digit f = true | None => True end.

(** [r] may follow the literal without continuing it. *)
Definition stops_digits (l : declit) (r : str) : Prop :=
  match r with
  | [] => True
  | c :: r' => is_digit c = false /\
    (l_frac l = None -> c = "."%char -> match r' with [] => True | d :: _ => is_digit d = false end)
  end.

