(** What the [install] methods of the features do to the calculator: the parsers, operators and table entries they add and the
    attributes they need (features/*/*.py).  The tables are transcribed from the source; the units are those of UnitData.v. *)
From Coq Require Import ZArith QArith Ascii String List Bool.
From Verif Require Import Base Bases Units Install UnitReg UnitData.
Import ListNotations.
Open Scope nat_scope.

(** One statement of an [install] method.
    [EParser n]: [calculator.add_parser(n, ...)];
    [EOp sym rtl words]: [calculator.add_op] of an operator with that direction, and the words that separate its operands
    (only [then] has one, [else]);
    [ENew a]: [calculator.a = ...]; [EPut a k]: [calculator.a[k] = ...], [calculator.a.append(k)], or [add_number_type];
    [EGet a k]: an attribute of [calculator.a[k]] is set or one of its methods called;
    [EUnits]: [calculator.enable_units()] (engine.py:38-39); [EUnit s]: a call on [calculator.unit_normaliser];
    [EMulti l]: [calculator.unit_normaliser.make_multiunit(l)] for the unit of a constant. *)
Inductive effect :=
| EParser (n : str) | EOp (sym : str) (rtl : bool) (words : list str)
| ENew (a : str) | EPut (a k : str) | EGet (a k : str)
| EUnits | EUnit (s : ustep) | EMulti (l : list (str * Z)).

(** The calculator as far as it is built by installing: [parsers] with the feature that added each, [ops] (of each operator
    its direction and words), the tables that are attributes, with their keys in order, and the unit normaliser. *)
Record calc := mkCalc { k_parsers : list (str * str); k_ops : list (list (str * (bool * list str)));
                        k_dicts : list (str * list str); k_norm : option normaliser }.
(** [Engine.__init__] (engine.py:14-30), [NumericalEngine.__init__] (numericalengine.py:11-20), [ModularCalculator.__init__]
    (modularcalculator.py:17-32) *)
Definition new_calc : calc :=
  mkCalc [] [] [($"validators", [$"exception"; $"number"]); ($"number_types", []); ($"feature_options", [])] None.

Definition put (k : str) (l : list str) : list str := if mem_str k l then l else l ++ [k].
(** [Py]: AttributeError, KeyError, or another exception of Python; [Calc]: the exception of [add_op] *)
Definition run_effect (f : str) (K : calc) (e : effect) : out calc :=
  match e with
  | EParser n => Ok (mkCalc (add_parser parser_map (k_parsers K) (n, f)) (k_ops K) (k_dicts K) (k_norm K))
  | EOp sym rtl words => do ops <- add_op fst op_map (k_ops K) (sym, (rtl, words)); Ok (mkCalc (k_parsers K) ops (k_dicts K) (k_norm K))
  | ENew a => Ok (mkCalc (k_parsers K) (k_ops K) (dset a [] (k_dicts K)) (k_norm K))
  | EPut a k => match assoc a (k_dicts K) with
                | Some l => Ok (mkCalc (k_parsers K) (k_ops K) (dset a (put k l) (k_dicts K)) (k_norm K))
                | None => Py
                end
  | EGet a k => match assoc a (k_dicts K) with Some l => if mem_str k l then Ok K else Py | None => Py end
  | EUnits => Ok (mkCalc (k_parsers K) (k_ops K) (k_dicts K) (Some norm_init))
  | EUnit s => match k_norm K with
               | Some N => do N' <- reg_step N s; Ok (mkCalc (k_parsers K) (k_ops K) (k_dicts K) (Some N'))
               | None => Py
               end
  | EMulti l => match k_norm K with Some N => do m <- make_multiunit N l; Ok K | None => Py end
  end.
Fixpoint run_effects (f : str) (l : list effect) (K : calc) : out calc :=
  match l with [] => Ok K | e :: r => do K' <- run_effect f K e; run_effects f r K' end.

(** * The features *)
(** arrayfunctions.py:28-89 *)
Definition in_arrayfunctions : list effect :=
  [EPut ($"funcs") ($"concat"); EPut ($"funcs") ($"element"); EGet ($"funcs") ($"element"); EGet ($"funcs") ($"element"); 
   EPut ($"funcs") ($"filter"); EGet ($"funcs") ($"filter"); EGet ($"funcs") ($"filter"); EPut ($"funcs") ($"count"); 
   EPut ($"funcs") ($"sort"); EPut ($"funcs") ($"reverse")].
(** arrays.py:36-45 *)
Definition in_arrays : list effect :=
  [EPut ($"feature_options") ($"arrays.arrays"); EParser ($"array"); EParser ($"array_range"); EParser ($"array_step"); 
   EParser ($"array_param"); EParser ($"array_end"); EPut ($"validators") ($"array")].
(** booleans.py:30-139 *)
Definition in_booleans : list effect :=
  [EParser ($"boolean"); EOp ($"not") true []; EOp ($"<") false []; EOp ($">") false []; EOp ($"<=") false []; 
   EOp ($">=") false []; EOp ($"==") false []; EOp ($"!=") false []; EOp ($"and") false []; EOp ($"or") false []; 
   EOp ($"xor") false []; EOp ($"then") false [$"else"]; EPut ($"number_types") ($"boolean"); 
   EPut ($"validators") ($"boolean")].
(** datefunctions.py:62-120 *)
Definition in_datefunctions : list effect :=
  [EPut ($"funcs") ($"dateformat"); EGet ($"funcs") ($"dateformat"); EPut ($"funcs") ($"dateadd"); 
   EGet ($"funcs") ($"dateadd"); EGet ($"funcs") ($"dateadd"); EGet ($"funcs") ($"dateadd"); 
   EGet ($"funcs") ($"dateadd"); EPut ($"funcs") ($"datesubtract"); EGet ($"funcs") ($"datesubtract"); 
   EGet ($"funcs") ($"datesubtract"); EGet ($"funcs") ($"datesubtract"); EGet ($"funcs") ($"datesubtract"); 
   EPut ($"funcs") ($"datedifference"); EGet ($"funcs") ($"datedifference"); EGet ($"funcs") ($"datedifference"); 
   EPut ($"funcs") ($"now"); EPut ($"feature_options") ($"dates.datefunctions")].
(** dateoperators.py:26-47 *)
Definition in_dateoperators : list effect :=
  [EOp ($"+%") false []; EOp ($"-%") false []].
(** dates.py:58-61 *)
Definition in_dates : list effect :=
  [EPut ($"validators") ($"date"); EPut ($"feature_options") ($"dates.dates")].
(** comments.py:30-33 *)
Definition in_comments : list effect :=
  [EParser ($"comment"); EPut ($"feature_options") ($"nonfunctional.comments")].
(** space.py:27-28 *)
Definition in_space : list effect :=
  [EParser ($"space")].
(** advancedarithmetic.py:30-46 *)
Definition in_advancedarithmetic : list effect :=
  [EOp ($"%") false []; EOp ($"\") false []].
(** arbitrarybasenumbers.py:29-41 *)
Definition in_arbitrarybasenumbers : list effect :=
  [EParser ($"number_arbbase"); EPut ($"funcs") ($"base"); EGet ($"funcs") ($"base"); 
   EPut ($"number_types") ($"arbitrarybase")].
(** bases.py:27-28 *)
Definition in_bases : list effect :=
  [].
(** basicarithmetic.py:27-90 *)
Definition in_basicarithmetic : list effect :=
  [EOp ($"^") false []; EOp ($"*") false []; EOp ($"/") false []; EOp ($"+") false []; EOp ($"-") false []; 
   EOp ($"IMPLICIT_MULTIPLY") false []; ENew ($"implicit_multiply_op"); ENew ($"multiply_op"); ENew ($"divide_op")].
(** binarynumbers.py:32-44 *)
Definition in_binarynumbers : list effect :=
  [EParser ($"number_bin"); EPut ($"funcs") ($"bin"); EGet ($"funcs") ($"bin"); EPut ($"number_types") ($"binary")].
(** bitwiseoperators.py:31-86 *)
Definition in_bitwiseoperators : list effect :=
  [EOp ($"&") false []; EOp ($"|") false []; EOp ($"^^") false []; EOp ($"~") true []; EOp ($"<<") false []; 
   EOp ($">>") false []].
(** decimalfunction.py:27-37 *)
Definition in_decimalfunction : list effect :=
  [EPut ($"funcs") ($"dec"); EGet ($"funcs") ($"dec")].
(** decimalnumbers.py:31-33 *)
Definition in_decimalnumbers : list effect :=
  [EParser ($"number"); EPut ($"number_types") ($"decimal")].
(** expnumbers.py:38-55 *)
Definition in_expnumbers : list effect :=
  [EParser ($"numberexp"); EPut ($"funcs") ($"scientific"); EGet ($"funcs") ($"scientific"); 
   EGet ($"funcs") ($"scientific"); EPut ($"number_types") ($"scientific"); 
   EPut ($"feature_options") ($"numerical.expnumbers")].
(** hexadecimalnumbers.py:32-44 *)
Definition in_hexadecimalnumbers : list effect :=
  [EParser ($"number_hex"); EPut ($"funcs") ($"hex"); EGet ($"funcs") ($"hex"); EPut ($"number_types") ($"hexadecimal")].
(** numericalconstants.py:29-32 *)
Definition in_numericalconstants : list effect :=
  [EPut ($"constants") ($"e"); EPut ($"constants") ($"pi"); EPut ($"constants") ($"tau")].
(** numericalfunctions.py:32-124 *)
Definition in_numericalfunctions : list effect :=
  [EPut ($"funcs") ($"abs"); EPut ($"funcs") ($"floor"); EGet ($"funcs") ($"floor"); EPut ($"funcs") ($"ceil"); 
   EGet ($"funcs") ($"ceil"); EPut ($"funcs") ($"round"); EGet ($"funcs") ($"round"); EPut ($"funcs") ($"fact"); 
   EPut ($"funcs") ($"exp"); EPut ($"funcs") ($"log"); EPut ($"funcs") ($"lcm"); EPut ($"funcs") ($"gcd")].
(** numericalrepresentation.py:25-38 *)
Definition in_numericalrepresentation : list effect :=
  [EParser ($"numericalrepresentation"); EPut ($"validators") ($"numericalrepresentation"); EOp ($"as") false []].
(** octalnumbers.py:32-44 *)
Definition in_octalnumbers : list effect :=
  [EParser ($"number_oct"); EPut ($"funcs") ($"oct"); EGet ($"funcs") ($"oct"); EPut ($"number_types") ($"octal")].
(** percentagenumbers.py:33-35 *)
Definition in_percentagenumbers : list effect :=
  [EParser ($"percentagenumber"); EPut ($"number_types") ($"percentage")].
(** specialfunctions.py:33-223 *)
Definition in_specialfunctions : list effect :=
  map (fun n => EPut ($"funcs") ($n))
  ["sp_airy_ai"; "sp_airy_aip"; "sp_airy_bi"; "sp_airy_bip"; "sp_airye_eai"; 
   "sp_airye_eaip"; "sp_airye_ebi"; "sp_airye_ebip"; "sp_itairy_apt"; "sp_itairy_bpt"; "sp_itairy_ant"; 
   "sp_itairy_bnt"; "sp_ellipj_sn"; "sp_ellipj_cn"; "sp_ellipj_dn"; "sp_ellipj_ph"; "sp_ellipk"; "sp_ellipkm1"; 
   "sp_ellipkinc"; "sp_ellipe"; "sp_ellipeinc"; "sp_elliprc"; "sp_elliprd"; "sp_elliprf"; "sp_elliprg"; "sp_elliprj"; 
   "sp_jv"; "sp_jve"; "sp_yn"; "sp_yv"; "sp_yve"; "sp_kn"; "sp_kv"; "sp_kve"; "sp_iv"; "sp_ive"; "sp_hankel1"; 
   "sp_hankel1e"; "sp_hankel2"; "sp_hankel2e"; "sp_wright_bessel"; "sp_itj0y0_ij0"; "sp_itj0y0_iy0"; "sp_it2j0y0_ij0"; 
   "sp_it2j0y0_iy0"; "sp_iti0k0_ii0"; "sp_iti0k0_ik0"; "sp_it2i0k0_ii0"; "sp_it2i0k0_ik0"; "sp_besselpoly"; "sp_jvp"; 
   "sp_yvp"; "sp_ivp"; "sp_h1vp"; "sp_h2vp"; "sp_bdtrc"; "sp_bdtri"; "sp_bdtrik"; "sp_bdtrin"; "sp_btdtria"; 
   "sp_btdtrib"; "sp_fdtr"; "sp_fdtrc"; "sp_fdtri"; "sp_fdtridfd"; "sp_gdtr"; "sp_gdtrc"; "sp_gdtria"; "sp_gdtrib"; 
   "sp_gdtrix"; "sp_nbdtr"; "sp_nbdtrc"; "sp_nbdtri"; "sp_nbdtrik"; "sp_nbdtrin"; "sp_ncfdtr"; "sp_ncfdtridfd"; 
   "sp_ncfdtridfn"; "sp_ncfdtri"; "sp_ncfdtrinc"; "sp_nctdtr"; "sp_nctdtridf"; "sp_nctdtrit"; "sp_nctdtrinc"; 
   "sp_nrdtrimn"; "sp_nrdtrisd"; "sp_ndtr"; "sp_log_ndtr"; "sp_ndtri"; "sp_ndtri_exp"; "sp_pdtr"; "sp_pdtrc"; 
   "sp_pdtri"; "sp_pdtrik"; "sp_stdtr"; "sp_stdtridf"; "sp_stdtrit"; "sp_chdtr"; "sp_chdtrc"; "sp_chdtri"; 
   "sp_chdtriv"; "sp_chndtr"; "sp_chndtridf"; "sp_chndtrinc"; "sp_chndtrix"; "sp_smirnov"; "sp_smirnovi"; 
   "sp_kolmogorov"; "sp_kolmogi"; "sp_boxcox"; "sp_boxcox1p"; "sp_inv_boxcox"; "sp_inv_boxcox1p"; "sp_logit"; 
   "sp_expit"; "sp_log_expit"; "sp_tklmbda"; "sp_owens_t"; "sp_entr"; "sp_rel_entr"; "sp_kl_div"; "sp_huber"; 
   "sp_pseudo_huber"; "sp_gamma"; "sp_gammaln"; "sp_loggamma"; "sp_gammasgn"; "sp_gammainc"; "sp_gammaincinv"; 
   "sp_gammaincc"; "sp_gammainccinv"; "sp_beta"; "sp_betaln"; "sp_betainc"; "sp_betaincc"; "sp_betaincinv"; 
   "sp_betainccinv"; "sp_psi"; "sp_rgamma"; "sp_polygamma"; "sp_digamma"; "sp_poch"; "sp_lpmv"; "sp_sph_harm"; 
   "sp_hyp2f1"; "sp_hyp1f1"; "sp_hyperu"; "sp_hyp0f1"; "sp_pbdv_d"; "sp_pbdv_dp"; "sp_pbvv_v"; "sp_pbvv_vp"; 
   "sp_pbwa_w"; "sp_pbwa_wp"; "sp_mathieu_a"; "sp_mathieu_b"; "sp_kelvin_be"; "sp_kelvin_ke"; "sp_kelvin_bep"; 
   "sp_kelvin_kep"; "sp_ber"; "sp_bei"; "sp_berp"; "sp_beip"; "sp_ker"; "sp_kei"; "sp_kerp"; "sp_keip"; "sp_lambertw"; 
   "sp_wrightomega"; "sp_agm"; "sp_expn"; "sp_exp1"; "sp_expi"; "sp_shichi_si"; "sp_shichi_ci"; "sp_sici_si"; 
   "sp_sici_ci"; "sp_zeta"; "sp_zetac"]%string.
(** statisticalfunctions.py:30-99 *)
Definition in_statisticalfunctions : list effect :=
  [EPut ($"funcs") ($"sum"); EPut ($"funcs") ($"min"); EPut ($"funcs") ($"max"); EPut ($"funcs") ($"mean"); 
   EPut ($"funcs") ($"median"); EPut ($"funcs") ($"mode"); EPut ($"funcs") ($"stdev")].
(** trigonometryfunctions.py:30-138 *)
Definition in_trigonometryfunctions : list effect :=
  [EPut ($"funcs") ($"sin"); EPut ($"funcs") ($"cos"); EPut ($"funcs") ($"tan"); EPut ($"funcs") ($"asin"); 
   EPut ($"funcs") ($"acos"); EPut ($"funcs") ($"atan"); EPut ($"funcs") ($"sinh"); EPut ($"funcs") ($"cosh"); 
   EPut ($"funcs") ($"tanh"); EPut ($"funcs") ($"asinh"); EPut ($"funcs") ($"acosh"); EPut ($"funcs") ($"atanh")].
(** assignment.py:29-53 *)
Definition in_assignment : list effect :=
  [EParser ($"var"); EOp ($"=") false []; EOp ($"||=") false []; ENew ($"vars"); EPut ($"validators") ($"variable")].
(** assignmentfunctions.py:29-45 *)
Definition in_assignmentfunctions : list effect :=
  [EPut ($"funcs") ($"reset"); EPut ($"funcs") ($"delete")].
(** assignmentoperators.py:29-108 *)
Definition in_assignmentoperators : list effect :=
  [EOp ($"++") false []; EOp ($"--") false []; EOp ($"+=") false []; EOp ($"-=") false []; EOp ($"*=") false []; 
   EOp ($"/=") false []; EOp ($"^=") false []; EOp ($"%=") false []; EOp ($"\=") false []].
(** constants.py:28-31 *)
Definition in_constants : list effect :=
  [EParser ($"constant"); ENew ($"constants")].
(** regex.py:32-91 *)
Definition in_regex : list effect :=
  [EOp ($"=~") false []; EOp ($"!~") false []; EPut ($"funcs") ($"regexget"); EGet ($"funcs") ($"regexget"); 
   EGet ($"funcs") ($"regexget"); EPut ($"funcs") ($"regexsplit"); EPut ($"funcs") ($"regexsub"); 
   EGet ($"funcs") ($"regexsub"); EGet ($"funcs") ($"regexsub"); EPut ($"funcs") ($"regexcount"); 
   EGet ($"funcs") ($"regexcount")].
(** stringarrayfunctions.py:29-49 *)
Definition in_stringarrayfunctions : list effect :=
  [EPut ($"funcs") ($"split"); EPut ($"funcs") ($"join"); EGet ($"funcs") ($"join"); EGet ($"funcs") ($"join")].
(** stringcomparison.py:26-123 *)
Definition in_stringcomparison : list effect :=
  [EOp ($"<$") false []; EOp ($">$") false []; EOp ($"<=$") false []; EOp ($">=$") false []; EOp ($"==$") false []; 
   EOp ($"!=$") false []; EOp ($"<~") false []; EOp ($">~") false []; EOp ($"<=~") false []; EOp ($">=~") false []; 
   EOp ($"==~") false []; EOp ($"!=~") false []].
(** stringfunctions.py:29-119 *)
Definition in_stringfunctions : list effect :=
  [EPut ($"funcs") ($"length"); EPut ($"funcs") ($"lower"); EPut ($"funcs") ($"upper"); EPut ($"funcs") ($"lstrip"); 
   EPut ($"funcs") ($"rstrip"); EPut ($"funcs") ($"strip"); EPut ($"funcs") ($"find"); EPut ($"funcs") ($"replace"); 
   EPut ($"funcs") ($"substr"); EGet ($"funcs") ($"substr"); EGet ($"funcs") ($"substr")].
(** strings.py:34-57 *)
Definition in_strings : list effect :=
  [EParser ($"string"); EOp ($"+$") false []; EOp ($"*$") false []; EPut ($"validators") ($"string"); 
   EPut ($"feature_options") ($"strings.strings")].
(** externalfunctions.py:33-34 *)
Definition in_externalfunctions : list effect :=
  [EPut ($"function_pointer_handlers") ($"ExternalFunctionsPointerHandler")].
(** functionpointers.py:37-41 *)
Definition in_functionpointers : list effect :=
  [EParser ($"function_pointer"); ENew ($"function_pointer_handlers"); 
   EPut ($"feature_options") ($"structure.functionpointers")].
(** functions.py:29-34 *)
Definition in_functions : list effect :=
  [EParser ($"function"); EParser ($"function_param"); EParser ($"function_end"); ENew ($"funcs")].
(** inlinefunctions.py:30-33 *)
Definition in_inlinefunctions : list effect :=
  [EParser ($"inline_function"); EParser ($"inline_function_end"); 
   EPut ($"function_pointer_handlers") ($"InlineFunctionsPointerHandler")].
(** innerexpressions.py:26-28 *)
Definition in_innerexpressions : list effect :=
  [EParser ($"inner_expr"); EParser ($"inner_expr_end")].
(** operators.py:27-28 *)
Definition in_operators : list effect :=
  [EParser ($"operator")].
(** terminator.py:31-36 *)
Definition in_terminator : list effect :=
  [EParser ($"terminator"); EPut ($"feature_options") ($"structure.terminator"); ENew ($"last_failed_terminator")].
(** advancedunitprefixes.py:25-35 *)
Definition in_advancedunitprefixes : list effect :=
  [].
(** basicunitprefixes.py:25-31 *)
Definition in_basicunitprefixes : list effect :=
  [].
(** systems.py:25-38 *)
Definition in_systems : list effect :=
  [EParser ($"unitsystems"); EPut ($"validators") ($"unitsystem")].
(** unitconstants.py:25-41 *)
Definition in_unitconstants : list effect :=
  [EMulti [($"meter", (3)%Z); ($"kilogram", (-1)%Z); ($"second", (-2)%Z)]; EPut ($"constants") ($"G"); 
   EMulti [($"meter", (1)%Z); ($"second", (-2)%Z)]; EPut ($"constants") ($"earthgravity"); EMulti [($"meter", (1)%Z); 
   ($"second", (-1)%Z)]; EPut ($"constants") ($"speedoflight"); EMulti [($"joule", (1)%Z); ($"second", (1)%Z)]; 
   EPut ($"constants") ($"Planck")].
(** unitfunctions.py:29-50 *)
Definition in_unitfunctions : list effect :=
  [EPut ($"funcs") ($"format"); EGet ($"funcs") ($"format"); EGet ($"funcs") ($"format"); EGet ($"funcs") ($"format"); 
   EPut ($"funcs") ($"compact"); EGet ($"funcs") ($"compact")].
(** units.py:29-84 *)
Definition in_units : list effect :=
  [EUnits; ENew ($"unit_simplification"); ENew ($"unit_symbols_enabled"); EParser ($"units"); 
   ENew ($"unit_assignment_op"); ENew ($"unit_multiply_op"); ENew ($"unit_divide_op"); EOp ($"to") false []; 
   EOp ($"UNIT_ASSIGNMENT") false []; EOp ($"UNIT_MULTIPLY") false []; EOp ($"UNIT_DIVIDE") false []; 
   EPut ($"validators") ($"unit"); EPut ($"validators") ($"number with unit")].
(** unitsymbols.py:24-25 *)
Definition in_unitsymbols : list effect :=
  [ENew ($"unit_symbols_enabled")].
Definition feature_effects : list (str * list effect) :=
  [($"arrays.arrayfunctions", in_arrayfunctions);
   ($"arrays.arrays", in_arrays);
   ($"boolean.booleans", in_booleans);
   ($"dates.datefunctions", in_datefunctions);
   ($"dates.dateoperators", in_dateoperators);
   ($"dates.dates", in_dates);
   ($"nonfunctional.comments", in_comments);
   ($"nonfunctional.space", in_space);
   ($"numerical.advancedarithmetic", in_advancedarithmetic);
   ($"numerical.arbitrarybasenumbers", in_arbitrarybasenumbers);
   ($"numerical.bases", in_bases);
   ($"numerical.basicarithmetic", in_basicarithmetic);
   ($"numerical.binarynumbers", in_binarynumbers);
   ($"numerical.bitwiseoperators", in_bitwiseoperators);
   ($"numerical.decimalfunction", in_decimalfunction);
   ($"numerical.decimalnumbers", in_decimalnumbers);
   ($"numerical.expnumbers", in_expnumbers);
   ($"numerical.hexadecimalnumbers", in_hexadecimalnumbers);
   ($"numerical.numericalconstants", in_numericalconstants);
   ($"numerical.numericalfunctions", in_numericalfunctions);
   ($"numerical.numericalrepresentation", in_numericalrepresentation);
   ($"numerical.octalnumbers", in_octalnumbers);
   ($"numerical.percentagenumbers", in_percentagenumbers);
   ($"numerical.specialfunctions", in_specialfunctions);
   ($"numerical.statisticalfunctions", in_statisticalfunctions);
   ($"numerical.trigonometryfunctions", in_trigonometryfunctions);
   ($"state.assignment", in_assignment);
   ($"state.assignmentfunctions", in_assignmentfunctions);
   ($"state.assignmentoperators", in_assignmentoperators);
   ($"state.constants", in_constants);
   ($"strings.regex", in_regex);
   ($"strings.stringarrayfunctions", in_stringarrayfunctions);
   ($"strings.stringcomparison", in_stringcomparison);
   ($"strings.stringfunctions", in_stringfunctions);
   ($"strings.strings", in_strings);
   ($"structure.externalfunctions", in_externalfunctions);
   ($"structure.functionpointers", in_functionpointers);
   ($"structure.functions", in_functions);
   ($"structure.inlinefunctions", in_inlinefunctions);
   ($"structure.innerexpressions", in_innerexpressions);
   ($"structure.operators", in_operators);
   ($"structure.terminator", in_terminator);
   ($"units.advancedunitprefixes", in_advancedunitprefixes);
   ($"units.basicunitprefixes", in_basicunitprefixes);
   ($"units.systems", in_systems);
   ($"units.unitconstants", in_unitconstants);
   ($"units.unitfunctions", in_unitfunctions);
   ($"units.units", in_units);
   ($"units.unitsymbols", in_unitsymbols)].
(** The units of a feature are added after the rest; only for [units.units] and [units.systems] is there a rest, which
    the units do not depend on. *)
Definition effects_of (f : str) : list effect := match assoc f feature_effects with Some l => l | None => [] end ++ map EUnit (steps_of f).
(** The [install] methods of features, in order (modularcalculator.py:117) *)
Fixpoint run_features (l : list str) (K : calc) : out calc :=
  match l with [] => Ok K | f :: r => do K' <- run_effects f (effects_of f) K; run_features r K' end.
(** [install_features] on a new calculator, and again on one that has some features *)
Definition install_calc (names : list str) (st : ist) (K : calc) : out (ist * calc) :=
  match install 100 features names st with
  | IOk st' => do K' <- run_features (skipn (length (trace st)) (trace st')) K; Ok (st', K')
  | INotFound => Calc
  | _ => Py
  end.
