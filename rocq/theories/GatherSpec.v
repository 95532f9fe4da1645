(** What the theorems about the statistical functions and [sort] on numbers with units are stated with. *)
From Coq Require Import ZArith QArith Ascii String List.
From Verif Require Import Base Dec Num NumSpec Bases Formats Units UnitsSpec Syntax Call Std StdSpec UnitCalc UnitCalcSpec.
Import ListNotations.
Open Scope Z_scope.

(** What an element measures, in base units *)
Definition measure (L : lib) (r : result) : Q :=
  match any_number (l_fmt L) (rval r) with Ok n => val n * size_of (runit r) | _ => 0 end.
(** A number with a unit, made of the units [us], of the same dimensions as [u] *)
Definition comparable (U : ucfg) (us : list unit) (u : eunit) (r : result) : Prop :=
  exists n v, number_at (u_lib U) r n /\ good n /\ lowest n /\ runit r = Some v /\ made_of us v /\
    same_dims (u_rels U) (Some v) (Some u) /\ steady (u_rels U) v.
(** As it is, and in the unit [u], the number has at most [k] digits over and under the line. *)
Definition fits (L : lib) (k : Z) (u : eunit) (r : result) : Prop :=
  exists n, number_at L r n /\ size_le k n /\ has_digits k (measure L r / size_of (Some u)).
(** What an element measures in the unit [u], as the decimal of the calculator's precision *)
Definition shown_in (L : lib) (u : eunit) (r : result) : Q := rnd (l_prec L) (measure L r / size_of (Some u)).
(** An element that cannot be set beside one in the unit [u]: it has no unit, or one of other dimensions *)
Definition other (U : ucfg) (us : list unit) (u : eunit) (r : result) : Prop :=
  exists n, number_at (u_lib U) r n /\
    (runit r = None \/ exists v d, runit r = Some v /\ made_of us v /\ steady (u_rels U) v /\ dims_of (u_rels U) (Some v) d <> dims_of (u_rels U) (Some u) d).
(** Temperatures: how warm an element is, in kelvins; and a temperature that has at most [k] digits over and under the
    line, as it is and on the scale [t] *)
Definition warmth (L : lib) (r : result) : Q :=
  match any_number (l_fmt L) (rval r), runit r with
  | Ok n, Some u => match eu_list u with (t, _) :: _ => to_kelvin (ukind_of t) (val n) | [] => 0%Q end
  | _, _ => 0%Q
  end.
Definition degrees (L : lib) (k : Z) (t : unit) (r : result) : Prop :=
  exists n w, number_at L r n /\ good n /\ size_le k n /\ runit r = Some (mkEU [(w, 1)] false) /\ temperature w /\ udim w = udim t /\
    named [w; t] /\ has_digits k (from_kelvin (ukind_of t) (to_kelvin (ukind_of w) (val n))).
(** The functions meant here *)
Definition gathering : list str := [$"sum"; $"min"; $"max"; $"mean"; $"median"; $"mode"; $"sort"].
