(** How the calculators of the model are compared with what installing features gives. *)
From Coq Require Import ZArith Ascii String List Bool.
From Verif Require Import Base Dec Num Lex Bases Formats Units UnitReg Syntax Pos Call Loop Parse Exec Std UnitCalc Dates Regex Floats Install InstallRun InstallRunSpec.
Import ListNotations.
Open Scope nat_scope.

(** The features whose names do not begin with one of the given texts *)
Definition all_but (ps : list str) : list str :=
  filter (fun f => negb (existsb (fun p => seq_eqb p (firstn (List.length p) f)) ps)) (map fid features).
Definition std_features : list str :=
  all_but [$"dates."; $"units."; $"unitdefinitions."; $"strings.regex"; $"numerical.special"; $"numerical.trig"; $"structure.external"].
Definition regex_features : list str :=
  all_but [$"dates."; $"units."; $"unitdefinitions."; $"numerical.special"; $"numerical.trig"; $"structure.external"].
Definition unit_features : list str :=
  all_but [$"dates."; $"strings.regex"; $"numerical.special"; $"numerical.trig"; $"structure.external"].
Definition date_features : list str :=
  all_but [$"strings.regex"; $"numerical.special"; $"numerical.trig"; $"structure.external"].
Definition float_features : list str :=
  all_but [$"dates."; $"strings.regex"; $"structure.external"].

(** Which parser is meant by a name of the layout (the functions that the features give to [add_parser]) *)
Definition parser_for (F : fmt) (funcs : list str) (consts : list (str * (Syntax.lit * option eunit))) (U : option ucfg) (n : str) : option parser :=
  assoc n
    ([($"terminator", PTerm [newline]); ($"space", PSpace); ($"comment", PComment ($"#")); ($"boolean", PLit false lex_bool);
      ($"number_bin", PLit true (fun s => lex_with s (match_bin s) (parse_bin (f_prec F) (f_pow F))));
      ($"number_oct", PLit true (fun s => lex_with s (match_oct s) (parse_oct (f_prec F) (f_pow F))));
      ($"number_hex", PLit true (fun s => lex_with s (match_hex s) (parse_hex (f_prec F) (f_pow F))));
      ($"number_arbbase", PLit true (lex_arb F)); ($"numberexp", PLit true (lex_exp F)); ($"percentagenumber", PLit true (lex_pct F));
      ($"number", PLit true (lex_dec F)); ($"operator", POp); ($"string", PString "'"%char "\"%char); ($"function_pointer", PPtr ($"@"));
      ($"function", PFunc funcs); ($"function_param", PFuncParam); ($"function_end", PFuncEnd);
      ($"inner_expr", PInner); ($"inner_expr_end", PInnerEnd); ($"inline_function", PInline); ($"inline_function_end", PInlineEnd);
      ($"constant", PConst consts); ($"numericalrepresentation", PWord false number_types);
      ($"array", PArr); ($"array_range", PArrRange); ($"array_step", PArrStep); ($"array_param", PArrParam); ($"array_end", PArrEnd); ($"var", PVar)]
     ++ match U with Some U => [($"units", PUnit (parse_units U)); ($"unitsystems", PWord true (n_systems (u_norm U)))] | None => [] end).
(** The direction of an operator and the words between its operands *)
Definition op_shape (o : str * operator) : str * (bool * list str) :=
  (fst o, (op_rtl (snd o), flat_map (fun w => match w with Some t => [t] | None => [] end) (op_r (snd o)))).
Definition table_is (K : calc) (a : str) (ks : list str) : Prop :=
  exists l, assoc a (k_dicts K) = Some l /\ forall k, In k l <-> In k ks.
(** Installing [fs] gives the parsers, the operators, the functions (and [more] that are not modelled), the constants, the
    number types, the validators and the handlers of function pointers of the calculator [G], in the same order where the order counts. *)
Definition built_by (fs : list str) (G : ecfg) (more cs : list str) (named : str -> option parser) : Prop :=
  exists st K, install_calls [fs] (mkIst [] []) new_calc = Ok (st, K) /\
    map (fun x => named (fst x)) (k_parsers K) = map Some (pc_parsers (g_parse G)) /\
    Forall2 (fun l m => forall o, In o l <-> In o (map op_shape m)) (k_ops K) (t_levels (g_ops G)) /\
    table_is K ($"funcs") (map fst (g_funcs G) ++ more) /\ table_is K ($"constants") cs /\ table_is K ($"number_types") number_types /\
    (exists l, assoc ($"validators") (k_dicts K) = Some l /\ forall t, In t l <-> e_valid (g_env G) t <> None) /\
    table_is K ($"function_pointer_handlers")
      ((if g_inline G then [$"InlineFunctionsPointerHandler"] else []) ++ if g_external G then [$"ExternalFunctionsPointerHandler"] else []).
