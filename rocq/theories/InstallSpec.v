(** Specification vocabulary for installation. *)
From Coq Require Import ZArith Ascii String List Bool.
From Verif Require Import Base Bases Units Install.
Import ListNotations.

(** The operator given last for a symbol. *)
Fixpoint last_op {A} (s : str) (l : list (str * A)) : option A :=
  match l with
  | [] => None
  | (s', o) :: r => match last_op s r with Some x => Some x | None => if seq_eqb s' s then Some o else None end
  end.
(** Levels are pairwise disjoint. *)
Fixpoint disjoint_levels (m : list (list str)) : Prop :=
  match m with
  | [] => True
  | l :: r => (forall s, In s l -> ~ In s (concat r)) /\ disjoint_levels r
  end.
(** Some operator of the level was added. *)
Definition used {A} (added : list (str * A)) (level : list str) : bool := existsb (fun so => mem_str (fst so) level) added.
(** A level of the table holds exactly the operators added for it, each the last one added for its symbol. *)
Definition holds {A} (added : list (str * A)) (level : list str) (t : list (str * A)) : Prop :=
  forall s, assoc s t = if mem_str s level then last_op s added else None.
(** The table has one level for each level of the layout that is used, in the order of the layout. *)
Definition table_ok {A} (added : list (str * A)) (m : list (list str)) (ops : list (list (str * A))) : Prop :=
  Forall2 (fun level t => t <> [] /\ holds added level t) (filter (used added) m) ops.
(** Operators of one level agree on their direction. *)
Definition rtl_ok {A} (rtl : A -> bool) (m : list (list str)) (added : list (str * A)) : Prop :=
  forall level s1 o1 s2 o2, In level m -> In s1 level -> In s2 level -> In (s1, o1) added -> In (s2, o2) added -> rtl o1 = rtl o2.

(** What a feature needs, directly, and transitively from a set of names. *)
Definition needs (fl : list feat) (x y : str) : Prop :=
  exists ft, find_feat fl x = Some ft /\ (In y (fdeps ft) \/ exists l, fsubs ft = Some l /\ In y l).
Inductive reach (fl : list feat) (s : list str) : str -> Prop :=
| reach_in x : In x s -> reach fl s x
| reach_step x y : reach fl s x -> needs fl x y -> reach fl s y.

(** In [tr ++ new], whenever a feature of [new] is installed, everything it needs was installed before, and so was
    everything of [wanted] that it must come after. *)
Definition well_ordered (fl : list feat) (wanted tr new : list str) : Prop :=
  forall p x s, new = p ++ x :: s -> exists ft, find_feat fl x = Some ft /\
    (forall y, needs fl x y -> In y (tr ++ p)) /\ (forall a, In a (fafter ft) -> In a wanted -> In a (tr ++ p)).

(** The graph has no cycle: needs and order constraints go down in [rank]; and every name needed exists. *)
Definition acyclic (fl : list feat) (rank : str -> nat) : Prop :=
  forall x ft, find_feat fl x = Some ft ->
    (forall y, needs fl x y -> find_feat fl y <> None /\ (rank y < rank x)%nat) /\
    (forall a, In a (fafter ft) -> (rank a < rank x)%nat).

(** Every parser of the layout that was added, in the order of the layout, the last one added under each name. *)
Definition in_map_order {A} (m : list str) (added : list (str * A)) : list (str * A) :=
  flat_map (fun n => match last_op n added with Some r => [(n, r)] | None => [] end) m.

(** Everything marked for installation exists. *)
Definition known fl (st : ist) : Prop := forall x, In x (to_install st) -> find_feat fl x <> None.

(** Position of a name in a list. *)
Fixpoint index_of (x : str) (l : list str) : nat := match l with [] => O | y :: r => if seq_eqb y x then O else S (index_of x r) end.

(** The features of the repository, each after everything it needs or must come after. *)
Definition feature_order : list str :=
  [$"arrays.arrays"; $"structure.functions"; $"arrays.arrayfunctions"; $"boolean.booleans"; $"strings.strings";
   $"dates.dates"; $"dates.datefunctions"; $"structure.operators"; $"dates.dateoperators"; $"nonfunctional.comments";
   $"nonfunctional.space"; $"numerical.advancedarithmetic"; $"numerical.bases"; $"numerical.arbitrarybasenumbers";
   $"numerical.basicarithmetic"; $"numerical.numericalrepresentation"; $"numerical.binarynumbers";
   $"numerical.bitwiseoperators"; $"numerical.decimalnumbers"; $"numerical.decimalfunction"; $"numerical.expnumbers";
   $"numerical.hexadecimalnumbers"; $"state.constants"; $"numerical.numericalconstants";
   $"numerical.numericalfunctions"; $"numerical.octalnumbers"; $"numerical.percentagenumbers";
   $"numerical.specialfunctions"; $"numerical.statisticalfunctions"; $"numerical.trigonometryfunctions";
   $"state.assignment"; $"state.assignmentfunctions"; $"state.assignmentoperators"; $"strings.regex";
   $"strings.stringarrayfunctions"; $"strings.stringcomparison"; $"strings.stringfunctions";
   $"structure.functionpointers"; $"structure.terminator"; $"structure.externalfunctions";
   $"structure.inlinefunctions"; $"structure.innerexpressions"; $"units.units"; $"units.systems";
   $"units.basicunitprefixes"; $"units.advancedunitprefixes"; $"unitdefinitions.distance"; $"unitdefinitions.time";
   $"unitdefinitions.absorbeddose"; $"unitdefinitions.acceleration"; $"unitdefinitions.angle";
   $"unitdefinitions.area"; $"unitdefinitions.electriccurrent"; $"unitdefinitions.mass";
   $"unitdefinitions.capacitance"; $"unitdefinitions.substance"; $"unitdefinitions.catalyticactivity";
   $"unitdefinitions.data"; $"unitdefinitions.electricalconductance"; $"unitdefinitions.electricalpotential";
   $"unitdefinitions.electriccharge"; $"unitdefinitions.energy"; $"unitdefinitions.equivalentdose";
   $"unitdefinitions.force"; $"unitdefinitions.frequency"; $"unitdefinitions.luminousintensity";
   $"unitdefinitions.solidangle"; $"unitdefinitions.illuminance"; $"unitdefinitions.inductance";
   $"unitdefinitions.luminousflux"; $"unitdefinitions.magneticflux"; $"unitdefinitions.magneticfluxdensity";
   $"unitdefinitions.power"; $"unitdefinitions.pressure"; $"unitdefinitions.radioactivity";
   $"unitdefinitions.resistance"; $"unitdefinitions.temperature"; $"unitdefinitions.velocity";
   $"unitdefinitions.volume"; $"unitdefinitions.allunitdefinitions"; $"units.unitconstants"; $"units.unitfunctions";
   $"units.unitsymbols"].
