(** What the theorems about rounding are stated with. *)
From Coq Require Import ZArith QArith Ascii String List.
Import ListNotations.
From Verif Require Import Num NumSpec.
Open Scope Q_scope.
(** [z] is the integer [q] is rounded to: down, up, to the nearest (away from zero from the middle) *)
Definition floor_of (q : Q) (z : Z) : Prop := inject_Z z <= q < inject_Z z + 1.
Definition ceil_of (q : Q) (z : Z) : Prop := inject_Z z - 1 < q <= inject_Z z.
Definition nearest_of (q : Q) (z : Z) : Prop :=
  (0 <= q -> inject_Z z - (1#2) <= q < inject_Z z + (1#2)) /\ (q <= 0 -> inject_Z z - (1#2) < q <= inject_Z z + (1#2)).
(** The base of the digits a number is shown in, and how many more digits than are shown it has: percentages have two *)
Definition shown_base (c : option cast) : Z :=
  match c with Some CBin => 2 | Some COct => 8 | Some CHex => 16 | Some (CArb b) => b | _ => 10 end.
Definition hidden_digits (c : option cast) : Z := match c with Some CPct => 2 | _ => 0 end.
(** [n] is [a] rounded to [k] of the digits after the point it is shown with *)
Definition rounded (kind : Q -> Z -> Prop) (a : number) (k : Z) (n : number) : Prop :=
  exists z, let m := inject_Z (shown_base (ncast a) ^ (k + hidden_digits (ncast a))) in
    kind (val a * m)%Q z /\ (val n == inject_Z z / m)%Q /\ good n /\ lowest n.
(** The functions and the way they round *)
Definition rounds_with : list (list Ascii.ascii * (Q -> Z -> Prop)) :=
  [(String.list_ascii_of_string "floor", floor_of); (String.list_ascii_of_string "ceil", ceil_of); (String.list_ascii_of_string "round", nearest_of)].
