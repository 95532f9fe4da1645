(** Specification vocabulary for Numbers, independent of how the code computes. *)
From Coq Require Import ZArith QArith List.
From Verif Require Import Num.
Open Scope Z_scope.

(** The rational a Number denotes. *)
Definition val (n : number) : Q := (inject_Z (nnum n) / inject_Z (nden n))%Q.
(** Positive denominator. *)
Definition good (n : number) : Prop := 0 < nden n.
(** Numerator and denominator share no factor. *)
Definition lowest (n : number) : Prop :=
  forall d, (d | nnum n) -> (d | nden n) -> d = 1 \/ d = -1.
(** An integer with at most [p] decimal digits. *)
Definition small (p z : Z) : Prop := Z.abs z < 10 ^ p.
(** Both components of a Number have at most [k] digits. *)
Definition size_le (k : Z) (n : number) : Prop := Z.abs (nnum n) < 10 ^ k /\ nden n < 10 ^ k.
