(** What writing a number with a fixed number of digits means, independent of the code that does it. *)
From Coq Require Import ZArith QArith Qabs Ascii String List Bool.
From Verif Require Import Base Num.
Import ListNotations.
Open Scope Z_scope.

(** [q] is [d], which is not zero, rounded to [k] significant digits: [e] is the place of the first digit of [d], [q] is
    a multiple of one unit of the last place kept and at most half a unit away; of two such multiples it is the one
    further from zero. *)
Definition significant (k : Z) (d q : Q) : Prop :=
  exists e m : Z, (Qpower 10 e <= Qabs d /\ Qabs d < Qpower 10 (e + 1))%Q /\
    (let u := Qpower 10 (e - (k - 1)) in
     q == inject_Z m * u /\ Qabs (q - d) <= (1 # 2) * u /\ (Qabs (q - d) == (1 # 2) * u -> Qabs d <= Qabs q))%Q.
(** A symbol for the exponent that cannot be taken for a part of the number before it *)
Definition symbol_ok (sym : str) : Prop :=
  match sym with c :: _ => is_digit c = false /\ c <> "."%char | [] => False end.
(** The symbol of the exponent is not a letter that marks a base, nor the percent sign. *)
Definition symbol_apart (sym : str) : Prop :=
  match sym with c :: _ => ~ In (lower_c c) ["b"%char; "o"%char; "x"%char; "z"%char] /\ c <> "%"%char | [] => False end.
(** The functions that change the format of a number, and the names the operator "as" knows *)
Definition conversions : list (str * option cast) := [($"dec", None); ($"bin", Some CBin); ($"oct", Some COct); ($"hex", Some CHex)].
Definition formats : list (str * option cast) :=
  [($"decimal", None); ($"binary", Some CBin); ($"octal", Some COct); ($"hexadecimal", Some CHex); ($"scientific", Some CExp); ($"percentage", Some CPct)].
(** The base of a format in digits of another base than ten *)
Definition base_of (c : cast) : option Z :=
  match c with CBin => Some 2 | COct => Some 8 | CHex => Some 16 | CArb b => if (2 <=? b) && (b <=? 35) && negb (b =? 10) then Some b else None | _ => None end.
(** [q] has at most [k] significant digits. *)
Definition digits_at_most (k : Z) (q : Q) : Prop := exists m e : Z, Z.abs m < 10 ^ k /\ (q == inject_Z m * Qpower 10 e)%Q.
