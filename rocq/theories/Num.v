(** Model of [objects/number.py]. *)
From Coq Require Import ZArith QArith Qabs Qround Ascii String List Bool Lia.
From Verif Require Import Base Dec.
Import ListNotations.
Open Scope Z_scope.

(** The number format a Number prints in, [number_cast] (number.py:16; the dictionaries built in
    features/numerical/decimalnumbers.py:64, binarynumbers.py:95, octalnumbers.py:90, hexadecimalnumbers.py:90,
    expnumbers.py:148, percentagenumbers.py:83, arbitrarybasenumbers.py:81). *)
Inductive cast :=
| CDec | CBin | COct | CHex | CExp | CPct | CArb (base : Z).

(** [Number]: [num] and [den] are Decimals holding integers (number.py:54-55), modelled as [Z].
    [nwidth] is the optional attribute [binary_number_width] (binarynumbers.py:80). *)
Record number := mkNum { nnum : Z; nden : Z; ncast : option cast; nwidth : option Z }.

Definition with_cast (n : number) (c : option cast) : number := mkNum (nnum n) (nden n) c (nwidth n).

(** [Number.is_integer(n)], second definition (number.py:214-215). *)
Definition q_is_int (x : Q) : bool := Qeq_bool (inject_Z (Qfloor x)) x.

(** [Decimal.as_integer_ratio]: lowest terms. *)
Definition ratio (x : Q) : Z * Z := (Qnum (Qred x), Zpos (Qden (Qred x))).

(** Tail of the constructor once numerator and denominator are integers: positive denominator, then
    division by the gcd, each decimal operation rounding (number.py:44-55).  The two arguments are integers,
    so [to_integral_exact] is the identity. *)
Definition num_reduce (p : Z) (c : option cast) (num den : Z) : number :=
  let '(num, den) :=
    if den <? 0 then (Qfloor (dneg p (inject_Z num)), Qfloor (dneg p (inject_Z den))) else (num, den) in
  let g := Z.gcd num den in
  if 1 <? g
  then mkNum (Qfloor (ddiv p (inject_Z num) (inject_Z g))) (Qfloor (ddiv p (inject_Z den) (inject_Z g))) c None
  else mkNum num den c None.

(** [Number.__init__] without [skip_checks], on decimals [num] and [den] (number.py:21-55).
    [None] is the python exception for a zero denominator. *)
Definition num_make (p : Z) (c : option cast) (num den : Q) : option number :=
  if Qeq_bool den 0 then None
  else
    let '(num, den) :=
      if q_is_int num then (num, den)
      else let '(a, b) := ratio num in (inject_Z a, dmul p den (inject_Z b)) in
    let '(num, den) :=
      if q_is_int den then (num, den)
      else let '(a, b) := ratio den in (dmul p num (inject_Z b), inject_Z a) in
    Some (num_reduce p c (Qfloor num) (Qfloor den)).

(** [Number(z)] for a python int (number.py:15-55). *)
Definition num_of_Z (p : Z) (z : Z) : number := num_reduce p None z 1.

(** [normalise] (number.py:210-212): the common denominator and the two scaled numerators. *)
Definition num_normalise (p : Z) (a b : number) : Z * Q * Q :=
  let l := Z.lcm (nden a) (nden b) in
  (l, ddiv p (dmul p (inject_Z (nnum a)) (inject_Z l)) (inject_Z (nden a)),
      ddiv p (dmul p (inject_Z (nnum b)) (inject_Z l)) (inject_Z (nden b))).

(** [__add__] (number.py:99-101) *)
Definition num_add (p : Z) (a b : number) : option number :=
  let '(l, x, y) := num_normalise p a b in num_make p (ncast a) (dadd p x y) (inject_Z l).
(** [__sub__] (number.py:103-105) *)
Definition num_sub (p : Z) (a b : number) : option number :=
  let '(l, x, y) := num_normalise p a b in num_make p (ncast a) (dsub p x y) (inject_Z l).
(** [__mul__] (number.py:107-108) *)
Definition num_mul (p : Z) (a b : number) : option number :=
  num_make p (ncast a) (dmul p (inject_Z (nnum a)) (inject_Z (nnum b)))
                       (dmul p (inject_Z (nden a)) (inject_Z (nden b))).
(** [__truediv__] (number.py:110-111) *)
Definition num_div (p : Z) (a b : number) : option number :=
  num_make p (ncast a) (dmul p (inject_Z (nnum a)) (inject_Z (nden b)))
                       (dmul p (inject_Z (nden a)) (inject_Z (nnum b))).

(** [to_decimal] (number.py:154-155) *)
Definition to_decimal (p : Z) (a : number) : Q := ddiv p (inject_Z (nnum a)) (inject_Z (nden a)).

(** [__neg__] (number.py:136-137): unary minus rounds; checks are skipped. *)
Definition num_neg (p : Z) (a : number) : number :=
  mkNum (Qfloor (dneg p (inject_Z (nnum a)))) (nden a) (ncast a) None.
(** [__abs__] (number.py:142-143): [abs] of a Decimal rounds too. *)
Definition num_abs (p : Z) (a : number) : number :=
  mkNum (Qfloor (rnd p (inject_Z (Z.abs (nnum a))))) (nden a) (ncast a) None.

(** [__int__] (number.py:160-161) *)
Definition num_int (p : Z) (a : number) : Z := qtrunc (to_decimal p a).
(** [__trunc__], [__floor__], [__ceil__] (number.py:170-177) *)
Definition num_trunc (p : Z) (a : number) : number := mkNum (qtrunc (to_decimal p a)) 1 (ncast a) None.
Definition num_floor (p : Z) (a : number) : number := mkNum (Qfloor (to_decimal p a)) 1 (ncast a) None.
Definition num_ceil (p : Z) (a : number) : number := mkNum (Qceiling (to_decimal p a)) 1 (ncast a) None.

(** [__floordiv__] (number.py:113-115) *)
Definition num_floordiv (p : Z) (a b : number) : option number := option_map (num_floor p) (num_div p a b).
(** [__mod__] (number.py:117-119); [None] also for the decimal exceptions. *)
Definition num_mod (p : Z) (a b : number) : option number :=
  let '(l, x, y) := num_normalise p a b in
  match dmod p x y with
  | Some r => num_make p (ncast a) r (inject_Z l)
  | None => None
  end.

(** [__pow__] without modulus (number.py:126-133).  [dpow] stands for [Decimal.__pow__] at precision [p]
    ([None]: it raises); it is a parameter because libmpdec computes inexact powers only to within one unit
    of the last place. *)
Definition num_pow (p : Z) (dpow : Q -> Q -> option Q) (a b : number) : option number :=
  let e := to_decimal p b in
  if negb (Qle_bool 0 e)
  then match dpow (inject_Z (nden a)) (dneg p e), dpow (inject_Z (nnum a)) (dneg p e) with
       | Some x, Some y => num_make p (ncast a) x y
       | _, _ => None
       end
  else match dpow (inject_Z (nnum a)) e, dpow (inject_Z (nden a)) e with
       | Some x, Some y => num_make p (ncast a) x y
       | _, _ => None
       end.

(** Comparisons (number.py:180-196) *)
Definition num_eqb (p : Z) (a b : number) : bool := Qeq_bool (to_decimal p a) (to_decimal p b).
Definition num_leb (p : Z) (a b : number) : bool := Qle_bool (to_decimal p a) (to_decimal p b).
Definition num_ltb (p : Z) (a b : number) : bool := negb (Qle_bool (to_decimal p b) (to_decimal p a)).
(** [__hash__] (number.py:199-200): python hashes the pair; the model's hash is the pair itself. *)
Definition num_hash (a : number) : Z * Z := (nnum a, nden a).

(** [as_fraction] (number.py:88-90): Decimal divmod truncates. *)
Definition as_fraction (a : number) : Z * Z * Z := (Z.quot (nnum a) (nden a), Z.rem (nnum a) (nden a), nden a).

(** [Decimal.quantize(1E-places)] as used by [round(dec, places)]: coefficient of the result, or [None]
    (InvalidOperation) when it has more than [p] digits. *)
Definition quantize (p places : Z) (x : Q) : option Z :=
  let m := qround_half_up (x * inject_Z (10 ^ places)) in
  if Z.abs m <? 10 ^ p then Some m else None.

(** ["{:f}".format] of a decimal with coefficient [m], [places] fractional digits and sign [neg]. *)
Definition format_f (neg : bool) (m places : Z) : str :=
  let ip := m / 10 ^ places in
  let fp := m mod 10 ^ places in
  (if neg then ["-"%char] else []) ++ dec_str ip ++
  (if places <=? 0 then [] else "."%char :: zfill (Z.to_nat places) (dec_str fp)).

(** The clean up of trailing zeros (number.py:74-77). *)
Definition strip_zeros (s : str) : str :=
  if existsb (ceq "."%char) s
  then match rev (rstrip "0"%char s) with
       | c :: r => if ceq c "."%char then rev r else rstrip "0"%char s
       | [] => []
       end
  else s.

(** [to_string] of a Number without a number format (number.py:69-78). [None]: InvalidOperation. *)
Definition to_string_plain (p places : Z) (a : number) : option str :=
  let d := to_decimal p a in
  if Qeq_bool d 0 then Some (strip_zeros (format_f false 0 6))
  else match quantize p places d with
       | Some m => Some (strip_zeros (format_f (Qnum d <? 0) (Z.abs m) places))
       | None => None
       end.
