(** What the theorems about simplifying the units of an answer are stated with. *)
From Coq Require Import ZArith QArith Qpower Ascii String List.
From Verif Require Import Base Num NumSpec Units UnitsSpec UnitReg Syntax UnitCalcSpec.
Import ListNotations.
Open Scope Z_scope.

(** The dimension is listed by its base dimensions, each once, with powers other than 0. *)
Definition proper_dim (rel : rels) (dim : str) : Prop :=
  let ds := norm_dim rel dim in once seq_eqb ds /\ nonzero ds /\ ds <> [].
(** All that is registered under [dim] is made of the units [us] and has this dimension. *)
Definition covered (N : normaliser) (us : list unit) (dim : str) : Prop :=
  (forall cs c, In (dim, cs) (n_units N) -> In c cs -> In (c_unit c) us /\ udim (c_unit c) = dim) /\
  (forall ms m, In (dim, ms) (n_multis N) -> In m ms ->
     over us m /\ forall d, dim_total (n_rels N) m d = psum seq_eqb d (norm_dim (n_rels N) dim)).
(** No unit of [us] has anything to do with [dim]. *)
Definition foreign (N : normaliser) (us : list unit) (dim : str) : Prop :=
  exists d, psum seq_eqb d (norm_dim (n_rels N) dim) <> 0 /\ Forall (fun u => psum seq_eqb d (norm_dim (n_rels N) (udim u)) = 0) us.
(** The units [us] go with the registry: every dimension is covered by them or foreign to them. *)
Definition goes_with (N : normaliser) (us : list unit) : Prop :=
  forall dim cs, In (dim, cs) (n_units N) -> proper_dim (n_rels N) dim /\ (covered N us dim \/ foreign N us dim).

(** All units of an answer are made of [us]. *)
Inductive units_from (us : list unit) : result -> Prop :=
| FromList l u f o : Forall (units_from us) l -> units_from us (Res (VList l) u f o)
| FromOne v u f o : (forall l, v <> VList l) -> (forall x, u = Some x -> over us (eu_list x)) -> units_from us (Res v u f o).
(** The same answer, with every quantity as it was: value times size, with the number format. *)
Inductive same_answer : result -> result -> Prop :=
| SameRes r : same_answer r r
| SameNum n u n' u' f o : (val n' * size_of u' == val n * size_of u)%Q -> ncast n' = ncast n ->
    same_answer (Res (VNum n) u f o) (Res (VNum n') u' f o)
| SameList l l' u f o : Forall2 same_answer l l' -> same_answer (Res (VList l) u f o) (Res (VList l') u f o).
(** The sum of the powers, signs aside. *)
Definition total_power (l : upl) : Z := fold_right (fun e a => Z.abs (snd e) + a) 0 l.
(** [a] is no further from 1 than [b] is, in ratio *)
Definition within (b a : Q) : Prop := (b <= a /\ a <= / b)%Q \/ (/ b <= a /\ a <= b)%Q.
(** "Is closer" compares by some order: of two at most one is closer than the other, and what is not closer than a second
    which is not closer than a third is not closer than the third *)
Definition orders (closer : Q -> Q -> bool) : Prop :=
  (forall a b, closer a b = true -> closer b a = false) /\ forall a b c, closer a b = false -> closer b c = false -> closer a c = false.
(** [x] in the units [t] to the power [p] is as much as [v] in the units [f], both [m] times *)
Definition as_much (f t : upl) (m p : Z) (v x : Q) : Prop := (x * Qpower (factor t) (p * m) == v * Qpower (factor f) m)%Q.
