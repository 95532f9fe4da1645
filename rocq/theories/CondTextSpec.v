(** Conditions on arithmetic: their texts and what they decide.  What the theorems about the answers to such texts are stated
    with; nothing here is defined with the calculator. *)
From Coq Require Import ZArith QArith Ascii String List Bool.
From Verif Require Import Base LexSpec ArithTextSpec.
Import ListNotations.
Open Scope nat_scope.

Inductive cmp := Less | More | AtMost | AtLeast | Equal | Unequal.
Inductive joining := And | Or | Xor.
Inductive bexp := BTruth (b : bool) | BCmp (c : cmp) (a b : aexp) | BJoin (j : joining) (a b : bexp) | BNot (a : bexp).

(** * Texts *)
Definition csym (c : cmp) : str := match c with Less => $"<" | More => $">" | AtMost => $"<=" | AtLeast => $">=" | Equal => $"==" | Unequal => $"!=" end.
Definition jsym (j : joining) : str := match j with And => $"and" | Or => $"or" | Xor => $"xor" end.
(** [true] and [false] may be written with capital letters.  Comparisons bind tighter than [and], [or] and [xor], which are on
    one level and group to the left.  [not] binds tighter than all of these, and negates a truth value or
    something in brackets. *)
Inductive decides : nat -> str -> bexp -> Prop :=
| decides_truth t b : map lower_c t = (if b : bool then $"true" else $"false") -> decides 0 t (BTruth b)
| decides_paren b1 t b2 e : blank_text b1 -> blank_text b2 -> decides 2 t e -> decides 0 ($"(" ++ b1 ++ t ++ b2 ++ $")") e
| decides_cmp c t1 b1 b2 t2 a b : blank_text b1 -> blank_text b2 -> reads 4 t1 a -> reads 4 t2 b ->
    decides 1 (t1 ++ b1 ++ csym c ++ b2 ++ t2) (BCmp c a b)
| decides_looser k t e : decides k t e -> decides (S k) t e
| decides_join j t1 b1 b2 t2 a b : blank_text b1 -> blank_text b2 -> b1 <> [] -> b2 <> [] -> decides 2 t1 a -> decides 1 t2 b ->
    decides 2 (t1 ++ b1 ++ jsym j ++ b2 ++ t2) (BJoin j a b)
| decides_not b t e : blank_text b -> b <> [] -> decides 0 t e -> decides 1 ($"not" ++ b ++ t) (BNot e).
Definition condition_text (text : str) (e : bexp) : Prop :=
  exists b1 t b2, text = b1 ++ t ++ b2 /\ blank_text b1 /\ blank_text b2 /\ decides 2 t e.

(** * What they decide *)
Definition compared (c : cmp) (x y : Q) : bool :=
  match c with
  | Less => negb (Qle_bool y x)
  | More => negb (Qle_bool x y)
  | AtMost => Qle_bool x y
  | AtLeast => Qle_bool y x
  | Equal => Qeq_bool x y
  | Unequal => negb (Qeq_bool x y)
  end.
Definition joined (j : joining) (a b : bool) : bool := match j with And => a && b | Or => a || b | Xor => xorb a b end.
Fixpoint bvalue (vars : str -> option Q) (e : bexp) : option bool :=
  match e with
  | BTruth b => Some b
  | BCmp c a b => match avalue vars a, avalue vars b with Some x, Some y => Some (compared c x y) | _, _ => None end
  | BJoin j a b => match bvalue vars a, bvalue vars b with Some x, Some y => Some (joined j x y) | _, _ => None end
  | BNot a => option_map negb (bvalue vars a)
  end.
(** All numbers on the way are small *)
Fixpoint bstays (vars : str -> option Q) (p k : Z) (e : bexp) : Prop :=
  match e with
  | BTruth _ => True
  | BCmp _ a b => stays vars p k a /\ stays vars p k b
  | BJoin _ a b => bstays vars p k a /\ bstays vars p k b
  | BNot a => bstays vars p k a
  end.
