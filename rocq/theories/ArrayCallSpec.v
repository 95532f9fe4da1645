(** Texts of functions of an array. *)
From Coq Require Import ZArith QArith Ascii String List Bool.
From Verif Require Import Base Num NumSpec Syntax Formats Std StdSpec ArithTextSpec ArrayTextSpec.
Import ListNotations.
Open Scope nat_scope.

(** [w([...])], with blanks around it and inside the parentheses *)
Definition array_call_text (w text : str) (es : list aelem) : Prop :=
  exists b1 a b2, text = b1 ++ w ++ $"(" ++ a ++ $")" ++ b2 /\ blank_text b1 /\ blank_text b2 /\ array_text a es.
(** The functions of one array that are dealt with *)
Definition array_functions : list str := [$"count"; $"min"; $"max"; $"sum"; $"mean"; $"median"; $"mode"; $"sort"].
(** [element([...], e)] *)
Definition array_element_text (text : str) (es : list aelem) (e : aexp) : Prop :=
  exists b1 a t b2, text = b1 ++ $"element" ++ $"(" ++ a ++ $"," ++ t ++ $")" ++ b2 /\ blank_text b1 /\ blank_text b2 /\ array_text a es /\ arithmetic_text t e.
(** [v] is the value of [r], the first of those that no element goes below (above).
    Elements are compared by the decimal of the calculator's precision nearest to them. *)
Definition first_least (L : lib) (l : list result) (v : value) : Prop :=
  exists a r b, l = a ++ r :: b /\ same_value (rval r) v /\ (forall y, In y l -> (key L r <= key L y)%Q) /\ (forall y, In y a -> (key L r < key L y)%Q).
Definition first_greatest (L : lib) (l : list result) (v : value) : Prop :=
  exists a r b, l = a ++ r :: b /\ same_value (rval r) v /\ (forall y, In y l -> (key L y <= key L r)%Q) /\ (forall y, In y a -> (key L y < key L r)%Q).
(** The elements are numbers worth [xs] over the common denominator [d] *)
Definition worth_over (d : Z) (xs : list Z) (l : list result) : Prop :=
  Forall2 (fun x r => exists n, rval r = VNum n /\ (val n == inject_Z x / inject_Z d)%Q) xs l.
