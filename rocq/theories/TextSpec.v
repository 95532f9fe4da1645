(** What the theorems about texts are stated with. *)
From Coq Require Import ZArith QArith Ascii List Bool.
From Verif Require Import Base Num Bases Formats Syntax Call Std StdSpec.
Import ListNotations.
Open Scope nat_scope.
(** The operand, whatever its type except array and error, is the text [t] *)
Definition shown_as (L : lib) (r : result) (t : str) : Prop :=
  is_list (rval r) = false /\ is_exc (rval r) = false /\ string_of L (rval r) = Ok t.
(** An operand that counts as a number equal to the integer [i], of no more digits than the precision *)
Definition integer_at (L : lib) (r : result) (i : Z) : Prop :=
  is_list (rval r) = false /\ exists n, number_at L r n /\ nnum n = i /\ nden n = 1%Z /\ (Z.abs i < 10 ^ l_prec L)%Z.
(** [a] is before [b]: after a common beginning it ends, or has a smaller character *)
Definition before (a b : str) : Prop :=
  exists p x y, a = p ++ x /\ b = p ++ y /\ match x, y with [], _ :: _ => True | c :: _, d :: _ => (code c < code d)%Z | _, _ => False end.
(** The same text but for the case of letters *)
Definition letter_pair (c d : ascii) : Prop := exists k, (97 <= k <= 122)%Z /\ ((code c = k /\ code d = k - 32) \/ (code d = k /\ code c = k - 32))%Z.
Definition caseless (a b : str) : Prop := Forall2 (fun c d => c = d \/ letter_pair c d) a b.
(** The answer of a comparison *)
Definition yes_no (r : result) (P : Prop) : Prop := (r = mkRes (VBool true) None None /\ P) \/ (r = mkRes (VBool false) None None /\ ~ P).
(** The place a position stands for: negative ones count from the end *)
Definition place (len : nat) (i : Z) : Z := if (i <? 0)%Z then (Z.of_nat len + i)%Z else i.
(** [a] is [t] with small letters only *)
Definition in_small (t a : str) : Prop := caseless a t /\ Forall (fun c => ~ (65 <= code c <= 90)%Z) a.
