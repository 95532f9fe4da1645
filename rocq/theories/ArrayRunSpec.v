(** What the theorems about the answers to arrays of arithmetic say of the elements. *)
From Coq Require Import ZArith QArith Ascii String List Bool.
From Verif Require Import Base Dec Num NumSpec Bases Formats Units Syntax Call Exec Std ArithTextSpec ArrayTextSpec ArithRunSpec.
Import ListNotations.

(** The elements of a range: numbers without unit, in lowest terms, [a], [a + c], [a + 2 c] and so on, as far as [b] *)
Definition ranges (a b c : Q) (rs : list result) : Prop :=
  (forall i r, nth_error rs i = Some r -> exists x, rval r = VNum x /\ runit r = None /\ good x /\ lowest x /\ (val x == a + inject_Z (Z.of_nat i) * c)%Q) /\
  (forall i, (i < length rs)%nat <-> (0 <= (b - (a + inject_Z (Z.of_nat i) * c)) * c)%Q).
(** What an element gives: arithmetic, one number without unit, in lowest terms, of its value, in the format of its first formatted
    operand; a range, its elements, upwards or downwards by one if no step is given *)
Definition element_of (vars : str -> option Q) (fmts : str -> option cast) (e : aelem) (rs : list result) : Prop :=
  match e with
  | One a => exists q r x, avalue vars a = Some q /\ rs = [r] /\ rval r = VNum x /\ runit r = None /\ good x /\ lowest x /\ (val x == q)%Q /\ ncast x = aformat fmts a
  | Range a b => exists qa qb, avalue vars a = Some qa /\ avalue vars b = Some qb /\ ranges qa qb (if Qle_bool qa qb then 1 else -1) rs
  | Stepped a b c => exists qa qb qc, avalue vars a = Some qa /\ avalue vars b = Some qb /\ avalue vars c = Some qc /\ ranges qa qb qc rs
  end.
(** Everything computed on the way has a value and few digits; the steps of a range lead to its end. *)
Definition valued (vars : str -> option Q) (p k : Z) (e : aexp) : Prop := stays vars p k e /\ avalue vars e <> None.
Definition element_stays (vars : str -> option Q) (p k : Z) (e : aelem) : Prop :=
  match e with
  | One a => valued vars p k a
  | Range a b => valued vars p k a /\ valued vars p k b
  | Stepped a b c => valued vars p k a /\ valued vars p k b /\ valued vars p k c /\
      match avalue vars a, avalue vars b, avalue vars c with Some qa, Some qb, Some qc => ~ (qc == 0)%Q /\ (0 <= (qb - qa) * qc)%Q | _, _, _ => False end
  end.
