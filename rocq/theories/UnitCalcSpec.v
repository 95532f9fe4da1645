(** What the theorems about calculating with units are stated with. *)
From Coq Require Import ZArith QArith Qpower Ascii String List.
From Verif Require Import Base Num NumSpec Units UnitsSpec Syntax.
Import ListNotations.
Open Scope Z_scope.

(** Size in base units, and exponent of a base dimension; a plain number has size 1 and no dimension. *)
Definition size_of (u : option eunit) : Q := match u with Some x => factor (eu_list x) | None => 1%Q end.
Definition dims_of (rel : rels) (u : option eunit) (d : str) : Z := match u with Some x => dim_total rel (eu_list x) d | None => 0 end.
Definition same_dims (rel : rels) (a b : option eunit) : Prop := forall d, dims_of rel a d = dims_of rel b d.

(** Units to work with: known by identity and by name, positive multiples of the base, with proper dimensions. *)
Definition world (rel : rels) (us : list unit) : Prop :=
  units_ok us /\ named us /\ Forall (dim_ok rel) us /\ Forall (fun u => 0 < uscale u)%Q us.
(** A unit made of these, each listed once *)
Definition made_of (us : list unit) (u : eunit) : Prop := over us (eu_list u) /\ once ueqb (eu_list u) /\ eu_list u <> [].
(** Adding up the exponents of a dimension does not reach zero before the end (see C13). *)
Definition steady (rel : rels) (u : eunit) : Prop := no_vanishing seq_eqb (expand_dims rel (eu_list u)).
(** In lowest terms both parts have at most [k] digits. *)
Definition has_digits (k : Z) (q : Q) : Prop := Z.abs (Qnum (Qred q)) < 10 ^ k /\ Z.pos (Qden (Qred q)) < 10 ^ k.
Definition sums : list (str * (Q -> Q -> Q)) := [($"+", Qplus); ($"-", Qminus)].
