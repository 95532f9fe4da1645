(** Model of feature installation: [modularcalculator.py] (lines 77-171), [features/feature.py], the maps of
    [features/layout.py] and the presets of [features/presets.py]. *)
From Coq Require Import ZArith Ascii String List Bool Lia.
From Verif Require Import Base Bases Units.
Import ListNotations.
Open Scope Z_scope.

(** ** The operator table: [add_op] (139-168) *)

(** The loop over [op_map] (151-157): the level containing the symbol and the symbols of all later levels. *)
Fixpoint scan_map (sym : str) (found : bool) (target : option (list str)) (after : list str) (m : list (list str))
  : option (list str) * list str :=
  match m with
  | [] => (target, after)
  | prec :: r =>
    if mem_str sym prec then scan_map sym true (Some prec) after r
    else if found then scan_map sym found target (after ++ prec) r
    else scan_map sym found target after r
  end.

(** What the inner loop (159-167) decides for one level of the table.  The operator [op] is abstract, of type [A];
    [rtl] reads its direction. *)
Inductive decision := NextPrec | Here | Mismatch | Before | TypeErr.
Fixpoint scan_prec {A} (rtl : A -> bool) (op : A) (target : option (list str)) (after : list str) (items : list (str * A)) : decision :=
  match items with
  | [] => NextPrec
  | (s, info) :: r =>
    match target with
    | None => TypeErr
    | Some t =>
      if mem_str s t then (if Bool.eqb (rtl op) (rtl info) then Here else Mismatch)
      else if mem_str s after then Before
      else scan_prec rtl op target after r
    end
  end.

Fixpoint add_op_loop {A} (rtl : A -> bool) (sym : str) (op : A) (target : option (list str)) (after : list str) (ops : list (list (str * A)))
  : out (list (list (str * A))) :=
  match ops with
  | [] => Ok [[(sym, op)]]
  | prec :: r =>
    match scan_prec rtl op target after prec with
    | Here => Ok (dset sym op prec :: r)
    | Before => Ok ([(sym, op)] :: prec :: r)
    | Mismatch => Calc
    | TypeErr => Py
    | NextPrec => do r' <- add_op_loop rtl sym op target after r; Ok (prec :: r')
    end
  end.
(** [extra] (setting attributes of the operator) is not modelled. *)
Definition add_op {A} (rtl : A -> bool) (op_map : list (list str)) (ops : list (list (str * A))) (so : str * A) : out (list (list (str * A))) :=
  let '(target, after) := scan_map (fst so) false None [] op_map in add_op_loop rtl (fst so) (snd so) target after ops.
Fixpoint add_ops {A} (rtl : A -> bool) (op_map : list (list str)) (ops : list (list (str * A))) (l : list (str * A)) : out (list (list (str * A))) :=
  match l with
  | [] => Ok ops
  | so :: r => do ops' <- add_op rtl op_map ops so; add_ops rtl op_map ops' r
  end.

(** ** The parser list: [add_parser] (132-137) *)

(** [dict([(p['name'], p) ...])] *)
Definition to_dict {A} (l : list (str * A)) : list (str * A) := fold_left (fun d e => dset (fst e) (snd e) d) l [].
Definition add_parser {A} (parser_map : list str) (parsers : list (str * A)) (p : str * A) : list (str * A) :=
  let d := to_dict (parsers ++ [p]) in
  flat_map (fun n => match assoc n d with Some r => [(n, r)] | None => [] end) parser_map.

(** ** Features: [install_features], [add_feature_to_be_installed] (77-130) *)

(** [fsubs] is [Some] for a [MetaFeature] (feature.py:78-87). *)
Record feat := mkFeat { fid : str; fdeps : list str; fafter : list str; fsubs : option (list str) }.

(** [IKey]: KeyError (120-130 look the name up before [install_features] can report it); [INotFound]: the
    CalculatorException of line 98; [IFuel]: recursion too deep (RecursionError). *)
Inductive ires (A : Type) := IOk (a : A) | IKey | INotFound | IFuel.
Arguments IOk {A} a. Arguments IKey {A}. Arguments INotFound {A}. Arguments IFuel {A}.
Definition ibind {A B} (x : ires A) (f : A -> ires B) : ires B :=
  match x with IOk a => f a | IKey => IKey | INotFound => INotFound | IFuel => IFuel end.

Fixpoint find_feat (fl : list feat) (n : str) : option feat :=
  match fl with
  | [] => None
  | f :: r => if seq_eqb (fid f) n then Some f else find_feat r n
  end.

Fixpoint each {S} (step : str -> S -> ires S) (l : list str) (st : S) : ires S :=
  match l with
  | [] => IOk st
  | x :: r => ibind (step x st) (each step r)
  end.

(** [add_feature_to_be_installed] (120-130).  [isinstance(feature, MetaFeature)] is never true, as [feature] is a
    class and not an instance, so sub-features are not marked. *)
Fixpoint mark (fuel : nat) (fl : list feat) (name : str) (ti : list str) : ires (list str) :=
  match fuel with
  | O => IFuel
  | S f =>
    if mem_str name ti then IOk ti
    else match find_feat fl name with
         | None => IKey
         | Some ft => each (mark f fl) (fdeps ft) (ti ++ [name])
         end
  end.

(** [features_to_install], and the features installed, in the order in which their [install] was called. *)
Record ist := mkIst { to_install : list str; trace : list str }.

(** [install_features] (77-118) without the debug output and with [skipMissing] false; [self.setup()] has no effect
    on this state.  A [MetaFeature]'s [install] installs its sub-features (feature.py:82-84). *)
Fixpoint install (fuel : nat) (fl : list feat) (names : list str) (st : ist) : ires ist :=
  match fuel with
  | O => IFuel
  | S f =>
    ibind (each (mark fuel fl) names (to_install st)) (fun ti =>
    each (fun name st =>
      if mem_str name (trace st) then IOk st
      else match find_feat fl name with
           | None => INotFound
           | Some ft =>
             ibind (each (fun a st => if negb (mem_str a (trace st)) && mem_str a (to_install st) then install f fl [a] st else IOk st) (fafter ft) st) (fun st =>
             ibind (each (fun d st => if negb (mem_str d (trace st)) then install f fl [d] st else IOk st) (fdeps ft) st) (fun st =>
             ibind (match fsubs ft with None => IOk st | Some l => install f fl l st end) (fun st =>
             IOk (mkIst (to_install st) (trace st ++ [name])))))
           end) names (mkIst ti (trace st)))
  end.

(** [parser_map] (layout.py:4-36) *)
Definition parser_map : list str := map (fun s => $s)
  ["terminator"; "space"; "comment"; "boolean"; "number_bin"; "number_oct"; "number_hex"; "number_arbbase"; "numberexp";
   "percentagenumber"; "number"; "operator"; "string"; "function_pointer"; "function"; "function_param"; "function_end";
   "inner_expr"; "inner_expr_end"; "inline_function"; "inline_function_end"; "constant"; "units"; "unitsystems";
   "numericalrepresentation"; "array"; "array_range"; "array_step"; "array_param"; "array_end"; "var"]%string.

(** [op_map] (layout.py:38-56); each level is a set, listed in the order of the source. *)
Definition op_map : list (list str) := map (map (fun s => $s))
  [["^"]; ["not"; "~"]; ["=~"; "!~"]; ["UNIT_MULTIPLY"; "UNIT_DIVIDE"]; ["UNIT_ASSIGNMENT"]; ["IMPLICIT_MULTIPLY"];
   ["*"; "/"; "%"; "*$"; "\"]; ["+"; "-"; "+$"; "+%"; "-%"]; ["<<"; ">>"];
   ["<"; ">"; "<="; ">="; "<$"; ">$"; "<=$"; ">=$"; "<~"; ">~"; "<=~"; ">=~"];
   ["=="; "!="; "==$"; "!=$"; "==~"; "!=~"]; ["&"]; ["|"; "^^"]; ["and"; "or"; "xor"]; ["then"]; ["to"; "as"];
   ["="; "++"; "--"; "+="; "-="; "*="; "/="; "^="; "%="; "\="; "||="]]%string.

(** The presets (presets.py:6-64). *)
Definition preset_basic : list str := map (fun s => $s)
  ["numerical.basicarithmetic"; "numerical.decimalnumbers"; "structure.operators"]%string.
Definition preset_advanced : list str := preset_basic ++ map (fun s => $s)
  ["nonfunctional.space"; "numerical.advancedarithmetic"; "state.assignment"; "state.assignmentoperators";
   "structure.innerexpressions"; "structure.terminator"]%string.
Definition preset_scientific : list str := preset_advanced ++ map (fun s => $s)
  ["arrays.arrays"; "arrays.arrayfunctions"; "numerical.decimalfunction"; "numerical.numericalrepresentation";
   "numerical.expnumbers"; "numerical.percentagenumbers"; "numerical.numericalconstants"; "numerical.numericalfunctions";
   "numerical.specialfunctions"; "numerical.statisticalfunctions"; "numerical.trigonometryfunctions";
   "state.assignmentfunctions"; "state.constants"; "structure.functions"; "unitdefinitions.allunitdefinitions";
   "units.advancedunitprefixes"; "units.basicunitprefixes"; "units.systems"; "units.unitconstants";
   "units.unitfunctions"; "units.units"; "units.unitsymbols"]%string.
Definition preset_computing : list str := preset_scientific ++ map (fun s => $s)
  ["boolean.booleans"; "numerical.bitwiseoperators"; "dates.datefunctions"; "dates.dateoperators"; "dates.dates";
   "nonfunctional.comments"; "numerical.arbitrarybasenumbers"; "numerical.bases"; "numerical.binarynumbers";
   "numerical.hexadecimalnumbers"; "numerical.octalnumbers"; "strings.regex"; "strings.stringarrayfunctions";
   "strings.stringcomparison"; "strings.stringfunctions"; "strings.strings"; "structure.externalfunctions";
   "structure.inlinefunctions"]%string.

(** Every feature of the repository, with what its [dependencies()], [after()] and [subfeatures()] return. *)
Definition features : list feat := [
   mkFeat ($"arrays.arrayfunctions") [$"arrays.arrays"; $"structure.functions"] [] None;
   mkFeat ($"arrays.arrays") [] [] None;
   mkFeat ($"boolean.booleans") [] [] None;
   mkFeat ($"dates.datefunctions") [$"dates.dates"; $"structure.functions"] [] None;
   mkFeat ($"dates.dateoperators") [$"dates.dates"; $"structure.operators"] [] None;
   mkFeat ($"dates.dates") [$"strings.strings"] [] None;
   mkFeat ($"nonfunctional.comments") [] [] None;
   mkFeat ($"nonfunctional.space") [] [] None;
   mkFeat ($"numerical.advancedarithmetic") [$"structure.operators"] [] None;
   mkFeat ($"numerical.arbitrarybasenumbers") [$"numerical.bases"] [] None;
   mkFeat ($"numerical.bases") [$"structure.functions"] [] None;
   mkFeat ($"numerical.basicarithmetic") [$"structure.operators"] [] None;
   mkFeat ($"numerical.binarynumbers") [$"numerical.bases"] [$"numerical.numericalrepresentation"] None;
   mkFeat ($"numerical.bitwiseoperators") [$"structure.operators"] [] None;
   mkFeat ($"numerical.decimalfunction") [$"numerical.decimalnumbers"; $"structure.functions"] [] None;
   mkFeat ($"numerical.decimalnumbers") [] [$"numerical.numericalrepresentation"] None;
   mkFeat ($"numerical.expnumbers") [$"numerical.decimalnumbers"; $"structure.functions"] [$"numerical.numericalrepresentation"] None;
   mkFeat ($"numerical.hexadecimalnumbers") [$"numerical.bases"] [$"numerical.numericalrepresentation"] None;
   mkFeat ($"numerical.numericalconstants") [$"state.constants"] [] None;
   mkFeat ($"numerical.numericalfunctions") [$"structure.functions"] [] None;
   mkFeat ($"numerical.numericalrepresentation") [] [] None;
   mkFeat ($"numerical.octalnumbers") [$"numerical.bases"] [$"numerical.numericalrepresentation"] None;
   mkFeat ($"numerical.percentagenumbers") [$"numerical.decimalnumbers"] [$"numerical.numericalrepresentation"] None;
   mkFeat ($"numerical.specialfunctions") [$"structure.functions"] [] None;
   mkFeat ($"numerical.statisticalfunctions") [$"structure.functions"; $"arrays.arrays"] [] None;
   mkFeat ($"numerical.trigonometryfunctions") [$"structure.functions"] [] None;
   mkFeat ($"state.assignment") [$"structure.operators"] [] None;
   mkFeat ($"state.assignmentfunctions") [$"state.assignment"; $"structure.functions"] [] None;
   mkFeat ($"state.assignmentoperators") [$"state.assignment"; $"structure.operators"] [] None;
   mkFeat ($"state.constants") [] [] None;
   mkFeat ($"strings.regex") [$"strings.strings"; $"structure.functions"; $"arrays.arrays"] [] None;
   mkFeat ($"strings.stringarrayfunctions") [$"strings.strings"; $"structure.functions"; $"arrays.arrays"] [] None;
   mkFeat ($"strings.stringcomparison") [$"strings.strings"; $"boolean.booleans"] [] None;
   mkFeat ($"strings.stringfunctions") [$"strings.strings"; $"structure.functions"] [] None;
   mkFeat ($"strings.strings") [] [] None;
   mkFeat ($"structure.externalfunctions") [$"structure.functionpointers"; $"strings.strings"; $"structure.terminator"] [] None;
   mkFeat ($"structure.functionpointers") [$"state.assignment"; $"structure.functions"] [] None;
   mkFeat ($"structure.functions") [] [] None;
   mkFeat ($"structure.inlinefunctions") [$"structure.functionpointers"; $"structure.terminator"] [] None;
   mkFeat ($"structure.innerexpressions") [] [] None;
   mkFeat ($"structure.operators") [] [] None;
   mkFeat ($"structure.terminator") [] [] None;
   mkFeat ($"unitdefinitions.absorbeddose") [$"units.units"; $"units.systems"; $"unitdefinitions.distance"; $"unitdefinitions.time"] [$"units.basicunitprefixes"; $"units.advancedunitprefixes"] None;
   mkFeat ($"unitdefinitions.acceleration") [$"units.units"; $"units.systems"; $"unitdefinitions.distance"; $"unitdefinitions.time"] [$"units.basicunitprefixes"; $"units.advancedunitprefixes"] None;
   mkFeat ($"unitdefinitions.allunitdefinitions") [] [] (Some [$"unitdefinitions.absorbeddose"; $"unitdefinitions.acceleration"; $"unitdefinitions.angle"; $"unitdefinitions.area"; $"unitdefinitions.capacitance"; $"unitdefinitions.catalyticactivity"; $"unitdefinitions.data"; $"unitdefinitions.distance"; $"unitdefinitions.electricalconductance"; $"unitdefinitions.electricalpotential"; $"unitdefinitions.electriccharge"; $"unitdefinitions.electriccurrent"; $"unitdefinitions.energy"; $"unitdefinitions.equivalentdose"; $"unitdefinitions.force"; $"unitdefinitions.frequency"; $"unitdefinitions.illuminance"; $"unitdefinitions.inductance"; $"unitdefinitions.luminousflux"; $"unitdefinitions.luminousintensity"; $"unitdefinitions.magneticflux"; $"unitdefinitions.magneticfluxdensity"; $"unitdefinitions.mass"; $"unitdefinitions.power"; $"unitdefinitions.pressure"; $"unitdefinitions.radioactivity"; $"unitdefinitions.resistance"; $"unitdefinitions.solidangle"; $"unitdefinitions.substance"; $"unitdefinitions.temperature"; $"unitdefinitions.time"; $"unitdefinitions.velocity"; $"unitdefinitions.volume"]);
   mkFeat ($"unitdefinitions.angle") [$"units.units"; $"units.systems"] [$"units.basicunitprefixes"; $"units.advancedunitprefixes"] None;
   mkFeat ($"unitdefinitions.area") [$"units.units"; $"units.systems"; $"unitdefinitions.distance"] [$"units.basicunitprefixes"; $"units.advancedunitprefixes"] None;
   mkFeat ($"unitdefinitions.capacitance") [$"units.units"; $"units.systems"; $"unitdefinitions.electriccurrent"; $"unitdefinitions.distance"; $"unitdefinitions.time"; $"unitdefinitions.mass"] [$"units.basicunitprefixes"; $"units.advancedunitprefixes"] None;
   mkFeat ($"unitdefinitions.catalyticactivity") [$"units.units"; $"units.systems"; $"unitdefinitions.substance"; $"unitdefinitions.time"] [$"units.basicunitprefixes"; $"units.advancedunitprefixes"] None;
   mkFeat ($"unitdefinitions.data") [$"units.units"; $"units.systems"] [$"units.basicunitprefixes"; $"units.advancedunitprefixes"] None;
   mkFeat ($"unitdefinitions.distance") [$"units.units"; $"units.systems"] [$"units.basicunitprefixes"; $"units.advancedunitprefixes"] None;
   mkFeat ($"unitdefinitions.electricalconductance") [$"units.units"; $"units.systems"; $"unitdefinitions.electriccurrent"; $"unitdefinitions.distance"; $"unitdefinitions.time"; $"unitdefinitions.mass"] [$"units.basicunitprefixes"; $"units.advancedunitprefixes"] None;
   mkFeat ($"unitdefinitions.electricalpotential") [$"units.units"; $"units.systems"; $"unitdefinitions.electriccurrent"; $"unitdefinitions.distance"; $"unitdefinitions.time"; $"unitdefinitions.mass"] [$"units.basicunitprefixes"; $"units.advancedunitprefixes"] None;
   mkFeat ($"unitdefinitions.electriccharge") [$"units.units"; $"units.systems"; $"unitdefinitions.electriccurrent"; $"unitdefinitions.time"] [$"units.basicunitprefixes"; $"units.advancedunitprefixes"] None;
   mkFeat ($"unitdefinitions.electriccurrent") [$"units.units"; $"units.systems"] [$"units.basicunitprefixes"; $"units.advancedunitprefixes"] None;
   mkFeat ($"unitdefinitions.energy") [$"units.units"; $"units.systems"; $"unitdefinitions.distance"; $"unitdefinitions.time"; $"unitdefinitions.mass"] [$"units.basicunitprefixes"; $"units.advancedunitprefixes"] None;
   mkFeat ($"unitdefinitions.equivalentdose") [$"units.units"; $"units.systems"; $"unitdefinitions.distance"; $"unitdefinitions.time"] [$"units.basicunitprefixes"; $"units.advancedunitprefixes"] None;
   mkFeat ($"unitdefinitions.force") [$"units.units"; $"units.systems"; $"unitdefinitions.distance"; $"unitdefinitions.time"; $"unitdefinitions.mass"] [$"units.basicunitprefixes"; $"units.advancedunitprefixes"] None;
   mkFeat ($"unitdefinitions.frequency") [$"units.units"; $"units.systems"; $"unitdefinitions.time"] [$"units.basicunitprefixes"; $"units.advancedunitprefixes"] None;
   mkFeat ($"unitdefinitions.illuminance") [$"units.units"; $"units.systems"; $"unitdefinitions.luminousintensity"; $"unitdefinitions.solidangle"; $"unitdefinitions.distance"] [$"units.basicunitprefixes"; $"units.advancedunitprefixes"] None;
   mkFeat ($"unitdefinitions.inductance") [$"units.units"; $"units.systems"; $"unitdefinitions.electriccurrent"; $"unitdefinitions.distance"; $"unitdefinitions.time"; $"unitdefinitions.mass"] [$"units.basicunitprefixes"; $"units.advancedunitprefixes"] None;
   mkFeat ($"unitdefinitions.luminousflux") [$"units.units"; $"units.systems"; $"unitdefinitions.luminousintensity"; $"unitdefinitions.solidangle"] [$"units.basicunitprefixes"; $"units.advancedunitprefixes"] None;
   mkFeat ($"unitdefinitions.luminousintensity") [$"units.units"; $"units.systems"] [$"units.basicunitprefixes"; $"units.advancedunitprefixes"] None;
   mkFeat ($"unitdefinitions.magneticflux") [$"units.units"; $"units.systems"; $"unitdefinitions.electriccurrent"; $"unitdefinitions.distance"; $"unitdefinitions.time"; $"unitdefinitions.mass"] [$"units.basicunitprefixes"; $"units.advancedunitprefixes"] None;
   mkFeat ($"unitdefinitions.magneticfluxdensity") [$"units.units"; $"units.systems"; $"unitdefinitions.electriccurrent"; $"unitdefinitions.time"; $"unitdefinitions.mass"] [$"units.basicunitprefixes"; $"units.advancedunitprefixes"] None;
   mkFeat ($"unitdefinitions.mass") [$"units.units"; $"units.systems"] [$"units.basicunitprefixes"; $"units.advancedunitprefixes"] None;
   mkFeat ($"unitdefinitions.power") [$"units.units"; $"units.systems"; $"unitdefinitions.distance"; $"unitdefinitions.time"; $"unitdefinitions.mass"] [$"units.basicunitprefixes"; $"units.advancedunitprefixes"] None;
   mkFeat ($"unitdefinitions.pressure") [$"units.units"; $"units.systems"; $"unitdefinitions.distance"; $"unitdefinitions.time"; $"unitdefinitions.mass"] [$"units.basicunitprefixes"; $"units.advancedunitprefixes"] None;
   mkFeat ($"unitdefinitions.radioactivity") [$"units.units"; $"units.systems"; $"unitdefinitions.time"] [$"units.basicunitprefixes"; $"units.advancedunitprefixes"] None;
   mkFeat ($"unitdefinitions.resistance") [$"units.units"; $"units.systems"; $"unitdefinitions.electriccurrent"; $"unitdefinitions.distance"; $"unitdefinitions.time"; $"unitdefinitions.mass"] [$"units.basicunitprefixes"; $"units.advancedunitprefixes"] None;
   mkFeat ($"unitdefinitions.solidangle") [$"units.units"; $"units.systems"] [$"units.basicunitprefixes"; $"units.advancedunitprefixes"] None;
   mkFeat ($"unitdefinitions.substance") [$"units.units"; $"units.systems"] [$"units.basicunitprefixes"; $"units.advancedunitprefixes"] None;
   mkFeat ($"unitdefinitions.temperature") [$"units.units"; $"units.systems"] [$"units.basicunitprefixes"; $"units.advancedunitprefixes"] None;
   mkFeat ($"unitdefinitions.time") [$"units.units"; $"units.systems"] [$"units.basicunitprefixes"; $"units.advancedunitprefixes"] None;
   mkFeat ($"unitdefinitions.velocity") [$"units.units"; $"units.systems"; $"unitdefinitions.distance"; $"unitdefinitions.time"] [$"units.basicunitprefixes"; $"units.advancedunitprefixes"] None;
   mkFeat ($"unitdefinitions.volume") [$"units.units"; $"units.systems"; $"unitdefinitions.distance"] [$"units.basicunitprefixes"; $"units.advancedunitprefixes"] None;
   mkFeat ($"units.advancedunitprefixes") [$"units.units"; $"units.basicunitprefixes"] [] None;
   mkFeat ($"units.basicunitprefixes") [$"units.units"] [] None;
   mkFeat ($"units.systems") [$"units.units"] [] None;
   mkFeat ($"units.unitconstants") [$"units.units"; $"numerical.numericalconstants"; $"units.basicunitprefixes"; $"unitdefinitions.distance"; $"unitdefinitions.mass"; $"unitdefinitions.time"; $"unitdefinitions.energy"] [] None;
   mkFeat ($"units.unitfunctions") [$"units.units"; $"units.systems"; $"structure.functions"] [] None;
   mkFeat ($"units.units") [] [] None;
   mkFeat ($"units.unitsymbols") [$"units.units"] [] None
].
