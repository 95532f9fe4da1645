(** Positional notation in any base, independent of the code. *)
From Coq Require Import ZArith QArith Ascii String List Bool.
From Verif Require Import Base.
Import ListNotations.
Open Scope Z_scope.

(** Value of a list of digits before the point, and after it. *)
Fixpoint ival (b : Z) (ds : list Z) : Z :=
  match ds with
  | [] => 0
  | d :: r => d * b ^ Z.of_nat (length r) + ival b r
  end.
Fixpoint fval (b : Z) (ds : list Z) : Q :=
  match ds with
  | [] => 0%Q
  | d :: r => ((inject_Z d + fval b r) / inject_Z b)%Q
  end.
Definition bvalue (b : Z) (neg : bool) (ip fp : list Z) : Q :=
  ((if neg then -1 else 1) * (inject_Z (ival b ip) + fval b fp))%Q.

(** The digit a character stands for: 0-9, then letters of either case. *)
Definition char_digit (c : ascii) : option Z :=
  let z := code c in
  if (48 <=? z) && (z <=? 57) then Some (z - 48)
  else if (65 <=? z) && (z <=? 90) then Some (z - 55)
  else if (97 <=? z) && (z <=? 122) then Some (z - 87)
  else None.

(** [s] spells the digits [ds] in base [b]. *)
Definition spells (b : Z) (s : str) (ds : list Z) : Prop :=
  Forall2 (fun c d => char_digit c = Some d /\ 0 <= d < b) s ds.

(** Text of a number in positional notation. *)
Definition btext (neg : bool) (ip fp : str) : str :=
  (if neg then ["-"%char] else []) ++ ip ++ match fp with [] => [] | _ => "."%char :: fp end.

Definition no_leading_zero (ds : list Z) : Prop := ds = [0] \/ exists d r, ds = d :: r /\ d <> 0.
Definition no_trailing_zero (ds : list Z) : Prop := ds = [] \/ exists r d, ds = r ++ [d] /\ d <> 0.

(** What follows a literal does not continue it. *)
Definition ends_number (cls : ascii -> bool) (fp rest : str) : Prop :=
  match rest with
  | [] => True
  | c :: r => cls c = false /\ (fp = [] -> c = "."%char -> match r with [] => True | d :: _ => cls d = false end)
  end.

(** Text of a literal with a base prefix. *)
Definition ptext (neg : bool) (pre ip fp : str) : str := (if neg then ["-"%char] else []) ++ pre ++ btext false ip fp.

(** Text after a literal that cannot be read as part of it. *)
Definition rest_ok (cls : ascii -> bool) (rest : str) : Prop :=
  match rest with [] => True | c :: _ => cls c = false /\ c <> "."%char end.
