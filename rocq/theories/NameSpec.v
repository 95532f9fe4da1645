(** What the theorems about unit names are stated with. *)
From Coq Require Import ZArith QArith Ascii String List Bool.
From Verif Require Import Base Bases Units UnitReg UnitCalc.
Import ListNotations.
Open Scope nat_scope.

(** A name, in any case, or a symbol, as it is, of a unit *)
Definition has_name (name : str) (u : unit) : Prop := In (lower name) (map lower (unames u)).
Definition has_symbol (name : str) (u : unit) : Prop := In name (usyms u).
(** The last of the units with a property *)
Definition last_with (P : unit -> Prop) (us : list unit) (u : unit) : Prop :=
  exists a b, us = a ++ u :: b /\ P u /\ Forall (fun v => ~ P v) b.
(** The first [n] characters are a unit: a name in any case, or a symbol if those are on, and no letter or underscore
    follows *)
Definition unit_here (N : normaliser) (syms : bool) (s : str) (n : nat) : Prop :=
  0 < n /\ n <= length s /\ (forall c, nth_error s n = Some c -> unit_char c = false) /\
  ((exists d, In (lower (firstn n s), d) (rnames (n_reg N))) \/ (syms = true /\ n <= n_maxlen N /\ exists d, In (firstn n s, d) (rsyms (n_reg N)))).
