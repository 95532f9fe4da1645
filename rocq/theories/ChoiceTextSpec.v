(** Choices between arithmetic: their texts and which branch is taken.  What the theorems about the answers to such texts are
    stated with; nothing here is defined with the calculator. *)
From Coq Require Import ZArith QArith Ascii String List Bool.
From Verif Require Import Base LexSpec ArithTextSpec ArithErrSpec CondTextSpec.
Import ListNotations.
Open Scope nat_scope.

Inductive cexp := CNum (e : aexp) | CIf (c : bexp) (x y : cexp).

(** * Texts *)
(** The branches are arithmetic, or choices in brackets. *)
Inductive chooses : nat -> str -> cexp -> Prop :=
| chooses_num t e : reads 4 t e -> chooses 0 t (CNum e)
| chooses_paren b1 t b2 e : blank_text b1 -> blank_text b2 -> chooses 1 t e -> chooses 0 ($"(" ++ b1 ++ t ++ b2 ++ $")") e
| chooses_any t e : chooses 0 t e -> chooses 1 t e
| chooses_if t1 b1 b2 t2 b3 b4 t3 c x y : blank_text b1 -> blank_text b2 -> blank_text b3 -> blank_text b4 -> b1 <> [] -> b2 <> [] -> b3 <> [] -> b4 <> [] ->
    decides 2 t1 c -> chooses 0 t2 x -> chooses 0 t3 y ->
    chooses 1 (t1 ++ b1 ++ $"then" ++ b2 ++ t2 ++ b3 ++ $"else" ++ b4 ++ t3) (CIf c x y).
Definition choice_text (text : str) (e : cexp) : Prop :=
  exists b1 t b2, text = b1 ++ t ++ b2 /\ blank_text b1 /\ blank_text b2 /\ chooses 1 t e.

(** * What becomes of them *)
(** The arithmetic that is chosen *)
Fixpoint chosen (vars : str -> option Q) (e : cexp) : option aexp :=
  match e with
  | CNum a => Some a
  | CIf c x y => match bvalue vars c with Some b => if b then chosen vars x else chosen vars y | None => None end
  end.
(** Conditions have a value.  Branches may have none, chosen or not; the numbers there are on the way are small. *)
Fixpoint csized (vars : str -> option Q) (p k : Z) (e : cexp) : Prop :=
  match e with
  | CNum a => sized vars p k a /\ judge vars a <> Open
  | CIf c x y => bstays vars p k c /\ csized vars p k x /\ csized vars p k y
  end.
