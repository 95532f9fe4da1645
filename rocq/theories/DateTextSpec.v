(** How dates are written, independent of the way they are read *)
From Coq Require Import ZArith Ascii String List.
From Verif Require Import Base Dates DateSpec.
Import ListNotations.
Open Scope Z_scope.

(** The character [c] is the decimal digit of [n]. *)
Definition digit_for (c : ascii) (n : Z) : Prop := 0 <= n <= 9 /\ Z.of_nat (nat_of_ascii c) = 48 + n.
(** The text in decimal digits of a number; it may start with zeros. *)
Inductive numeral : str -> Z -> Prop :=
  | NumNone : numeral [] 0
  | NumMore s n c d : numeral s n -> digit_for c d -> numeral (s ++ [c]) (10 * n + d).
Definition digits_from (lo hi : nat) (s : str) (n : Z) : Prop := numeral s n /\ (lo <= length s <= hi)%nat.
(** Year, month and day; the day may have a blank for its first digit. *)
Definition day_written (x : day) (s : str) : Prop :=
  let '(y, m, d) := x in exists a b c, s = a ++ "-"%char :: b ++ "-"%char :: c /\ digits_from 4 4 a y /\ digits_from 1 2 b m /\
    (digits_from 1 2 c d \/ exists c', c = " "%char :: c' /\ digits_from 1 1 c' d).
(** Hours, minutes and seconds of a time of day *)
Definition clock_written (h m x : Z) (s : str) : Prop :=
  h < 24 /\ m < 60 /\ x < 60 /\ exists t a b c, In t ["T"; "t"]%char /\ s = t :: a ++ ":"%char :: b ++ ":"%char :: c /\
    digits_from 1 2 a h /\ digits_from 1 2 b m /\ digits_from 1 2 c x.
(** A part of a second in microseconds: up to six places after the point *)
Definition part_written (u : Z) (s : str) : Prop :=
  exists a n, s = "."%char :: a /\ digits_from 1 6 a n /\ u = n * 10 ^ (6 - Z.of_nat (length a)).
(** The offset: hours, minutes, and perhaps seconds and parts of them, with colons between all of them or none *)
Definition colon_if (b : bool) : str := if b then [":"%char] else [].
Definition offset_written (o : Z) (s : str) : Prop :=
  (s = $"Z" /\ o = 0) \/
  exists sg a cl b rest h m us, s = fst sg :: a ++ colon_if cl ++ b ++ rest /\ In sg [("+"%char, 1); ("-"%char, -1)] /\
    digits_from 2 2 a h /\ digits_from 2 2 b m /\ m < 60 /\ o = snd sg * ((h * 60 + m) * 60 * 1000000 + us) /\
    ((rest = [] /\ us = 0) \/
     exists c x p u, rest = colon_if cl ++ c ++ p /\ digits_from 2 2 c x /\ x < 60 /\ ((p = [] /\ u = 0) \/ part_written u p) /\ us = x * 1000000 + u).
(** The text of a date: the day, perhaps a time of day, perhaps an offset *)
Definition date_written (d : date) (s : str) : Prop :=
  exists x t z, s = x ++ t ++ z /\ day_written (day_of d) x /\
    ((t = [] /\ dmicro d = 0) \/
     exists c p h m sec u, t = c ++ p /\ clock_written h m sec c /\ ((p = [] /\ u = 0) \/ part_written u p) /\
       dmicro d = ((h * 60 + m) * 60 + sec) * 1000000 + u) /\
    match doffset d with Some o => offset_written o z | None => z = [] end.
