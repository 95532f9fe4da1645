(** Model of the part of python's [decimal] module that [objects/number.py] relies on.

    A finite [Decimal] is modelled by the rational number it denotes ([Q]).  Simplifications:
    - exponent limits (Emax/Emin, about 10^999999) are not modelled;
    - infinities, NaN and the sign of zero are not modelled;
    - the rounding mode is ROUND_HALF_UP, the one [numericalengine.py:16] installs. *)
From Coq Require Import ZArith QArith Qabs Qround Lia.
Open Scope Z_scope.

(** Number of decimal digits of a positive integer, by repeated division
    (fuel: a number has at most as many decimal as binary digits). *)
Fixpoint ndig_fuel (f : nat) (z : Z) : Z :=
  match f with
  | O => 1
  | S f' => if z <? 10 then 1 else 1 + ndig_fuel f' (z / 10)
  end.
Definition ndig (z : Z) : Z := ndig_fuel (Z.to_nat (Z.log2 z)) z.

(** [a/d >= 10^k], for positive [a], [d] and any integer [k]. *)
Definition ge10 (k a d : Z) : bool :=
  if 0 <=? k then 10 ^ k * d <=? a else d <=? a * 10 ^ (- k).

(** Exponent of the most significant digit of [a/d]: the [k] with [10^k <= a/d < 10^(k+1)]
    ("adjusted exponent" of the decimal specification). *)
Definition ilog10 (a d : Z) : Z :=
  let k := ndig a - ndig d in
  if ge10 k a d then k else k - 1.

(** Nearest integer to [a/b] for non-negative [a] and positive [b]; ties go up. *)
Definition half_up (a b : Z) : Z := (2 * a + b) / (2 * b).

(** The rounding every decimal operation applies to its exact result: keep [p] significant digits,
    ties away from zero (python [getcontext().prec], [getcontext().rounding]; number.py:203-208,
    numericalengine.py:14-17). The result is in lowest terms. *)
Definition rnd (p : Z) (x : Q) : Q :=
  let n := Qnum x in
  let d := Zpos (Qden x) in
  if n =? 0 then 0%Q
  else
    let a := Z.abs n in
    let e := ilog10 a d - p + 1 in
    if 0 <=? e
    then inject_Z (Z.sgn n * (half_up a (d * 10 ^ e) * 10 ^ e))
    else Qred (Qmake (Z.sgn n * half_up (a * 10 ^ (- e)) d) (Z.to_pos (10 ^ (- e)))).

(** [Decimal] operators: exact result, then rounding. *)
Definition dadd (p : Z) (x y : Q) : Q := rnd p (x + y).
Definition dsub (p : Z) (x y : Q) : Q := rnd p (x - y).
Definition dmul (p : Z) (x y : Q) : Q := rnd p (x * y).
Definition ddiv (p : Z) (x y : Q) : Q := rnd p (x / y).
Definition dneg (p : Z) (x : Q) : Q := rnd p (- x).

(** Truncation towards zero of a rational; [int(Decimal)], [math.trunc]. *)
Definition qtrunc (x : Q) : Z := Z.quot (Qnum x) (Zpos (Qden x)).

(** [Decimal.__mod__]: remainder of the truncated integer quotient, sign of the dividend, then rounded.
    (libmpdec raises when the integer quotient has more than [prec] digits: [None] here, as for a zero
    divisor.) *)
Definition dmod (p : Z) (x y : Q) : option Q :=
  if Qeq_bool y 0 then None
  else
    let q := qtrunc (x / y) in
    if Z.abs q <? 10 ^ p then Some (rnd p (x - inject_Z q * y)) else None.

(** Round half up (away from zero) to an integer: the rounding of [Decimal.quantize] after scaling. *)
Definition qround_half_up (x : Q) : Z :=
  Z.sgn (Qnum x) * half_up (Z.abs (Qnum x)) (Zpos (Qden x)).
