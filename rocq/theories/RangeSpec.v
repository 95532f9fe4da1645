(** Specification vocabulary for ranges. *)
From Coq Require Import ZArith QArith List.
From Verif Require Import Num NumSpec Units Syntax Call Parse Exec.
Open Scope Z_scope.
(** A Number as the program keeps them (in lowest terms) with the value [x] over the denominator [d] *)
Definition over (d x : Z) (n : number) : Prop := good n /\ lowest n /\ (val n == inject_Z x / inject_Z d)%Q.
(** A part of a range gives a plain number, without a unit *)
Definition part_gives (G : ecfg) (rec : exec) (stl : bool) (items : list item) (s : st) (n : number) (s' : st) : Prop :=
  exists r, eval_part G rec stl true items s = (OOk r, s') /\ rval r = VNum n /\ runit r = None.
(** The numbers of [l] are in lowest terms, and [a], [a + c], [a + 2 c] and so on, as far as [b] *)
Definition steps_from (a b c : number) (l : list number) : Prop :=
  (forall i r, nth_error l i = Some r -> good r /\ lowest r /\ (val r == val a + inject_Z (Z.of_nat i) * val c)%Q) /\
  (forall i, (i < length l)%nat <-> (0 <= (val b - (val a + inject_Z (Z.of_nat i) * val c)) * val c)%Q).
(** Numbers without unit, as a list of results *)
Definition plain (l : list number) : list result := map (fun n => mkRes (VNum n) None None) l.
