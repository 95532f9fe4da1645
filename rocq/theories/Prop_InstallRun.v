(** C75: any choice of features gives a working calculator with exactly their parts.
    features/*/*.py ([install]), modularcalculator.py:92-140, engine.py:14-60, layout.py. *)
From Coq Require Import ZArith QArith Ascii String List Bool Lia.
From Verif Require Import Base BaseProofs Bases Formats Units Install InstallSpec InstallProofs InstallProofs2 UnitReg UnitData Parse Exec Std UnitCalc Dates Regex Floats
  InstallRun InstallRunSpec InstallRunProofs InstallRunProofs2 InstallRunProofs3 InstallRunProofs4 InstallBuiltSpec InstallBuilt UnitRun.
Import ListNotations.
Open Scope nat_scope.

(** Installing any features in one call, and then any others in later calls, is without errors, and gives exactly the parts of
    the features that are reached from those asked for.  Only the unit constants must be asked for in the first call, see
    below. *)
Theorem c75_installs : forall r rs, (forall n, In n (concat (r :: rs)) -> find_feat features n <> None) -> ~ In ($"units.unitconstants") (concat rs) ->
  exists st K, install_calls (r :: rs) (mkIst [] []) new_calc = Ok (st, K) /\ NoDup (trace st) /\
    (forall x, In x (trace st) <-> reach features (concat (r :: rs)) x) /\ made_of (trace st) K /\ units_of (trace st) K.
Proof.
  intros r rs H N. destruct (all_calls r rs H N) as (st & K & E & O & R & T). exists st, K.
  destruct (good_installs _ O) as (K' & R' & M & U & _). rewrite R in R'. assert (K' = K) by congruence. subst K'.
  split; [exact E|]. split; [exact (proj1 O)|]. auto.
Qed.
Print Assumptions c75_installs.
(** The calculator does not depend on how and in which order its features are asked for. *)
Theorem c75_same : forall r rs r' rs' st K st' K', (forall n, In n (concat (r :: rs) ++ concat (r' :: rs')) -> find_feat features n <> None) ->
  ~ In ($"units.unitconstants") (concat rs ++ concat rs') ->
  (forall x, reach features (concat (r :: rs)) x <-> reach features (concat (r' :: rs')) x) ->
  install_calls (r :: rs) (mkIst [] []) new_calc = Ok (st, K) -> install_calls (r' :: rs') (mkIst [] []) new_calc = Ok (st', K') -> same_parts K K'.
Proof.
  intros r rs r' rs' st K st' K' H N S E E'.
  destruct (all_calls r rs) as (s1 & K1 & E1 & O1 & R1 & T1); [intros n I; apply H, in_or_app; auto|intros I; apply N, in_or_app; auto|].
  destruct (all_calls r' rs') as (s2 & K2 & E2 & O2 & R2 & T2); [intros n I; apply H, in_or_app; auto|intros I; apply N, in_or_app; auto|].
  rewrite E in E1. rewrite E' in E2. assert (K1 = K) by congruence. assert (K2 = K') by congruence. subst K1 K2.
  destruct (good_installs _ O1) as (A & RA & MA & _). rewrite R1 in RA. assert (A = K) by congruence. subst A.
  destruct (good_installs _ O2) as (B & RB & MB & _). rewrite R2 in RB. assert (B = K') by congruence. subst B.
  apply (same_features (trace s1) (trace s2)); auto. intros x. rewrite T1, T2. apply S.
Qed.
Print Assumptions c75_same.
(** All units of the features can be used: each of their names is found. *)
Theorem c75_units : forall r rs st K N f n, (forall m, In m (concat (r :: rs)) -> find_feat features m <> None) -> ~ In ($"units.unitconstants") (concat rs) ->
  install_calls (r :: rs) (mkIst [] []) new_calc = Ok (st, K) -> k_norm K = Some N ->
  reach features (concat (r :: rs)) f -> unit_of_feature f n -> get_unit (n_prefs N) (n_reg N) n <> Ok None.
Proof.
  intros r rs st K N f n H C E HN F (s & Is & Hs). destruct (all_calls r rs H C) as (s1 & K1 & E1 & O & R & T).
  rewrite E in E1. assert (K1 = K) by congruence. subst K1.
  destruct (good_installs _ O) as (A & RA & _ & _ & G). rewrite R in RA. assert (A = K) by congruence. subst A.
  assert (A : assoc (lower n) (rnames (n_reg N)) <> None).
  { apply (G N n HN). apply (unit_named (trace s1) f s n O); [apply T; exact F|exact Is|exact Hs]. }
  unfold get_unit. destruct (find_ambig n (ambigs (n_reg N))); [destruct (preferred_unit (n_prefs N) _); cbn [obind]; discriminate|].
  destruct (assoc (lower n) (rnames (n_reg N))); [discriminate|contradiction].
Qed.
Print Assumptions c75_units.
(** The calculators of the model are what installing gives, for all settings: their parsers, operators, functions, constants,
    number types, validators and handlers are those of the features.  Not modelled are [now] and, but for the last one, [exp], [log] and [stdev].
    *)
Theorem c75_calculators : forall L R U D X,
  built_by std_features (std L) [$"exp"; $"log"; $"stdev"] std_const_names (parser_for (l_fmt L) (map fst (std_funcs L)) (std_consts L) None) /\
  built_by regex_features (with_regex L R) [$"exp"; $"log"; $"stdev"] std_const_names (parser_for (l_fmt L) (map fst (regex_funcs L R)) (std_consts L) None) /\
  built_by unit_features (with_units U) [$"exp"; $"log"; $"stdev"] unit_const_names (parser_for (l_fmt (u_lib U)) (map fst (unit_funcs U)) (unit_consts U) (Some U)) /\
  built_by date_features (with_dates D) [$"exp"; $"log"; $"stdev"; $"now"] unit_const_names
    (parser_for (l_fmt (u_lib (dl_units D))) (map fst (date_funcs D)) (unit_consts (dl_units D)) (Some (dl_units D))) /\
  built_by float_features (with_floats U X) [] unit_const_names (parser_for (l_fmt (u_lib U)) (map fst (float_funcs U X)) (unit_consts U) (Some U)).
Proof.
  intros L R U D X. split; [apply std_built|]. split; [apply regex_built|]. split; [apply unit_built|]. split; [apply date_built|apply float_built].
Qed.
Print Assumptions c75_calculators.
(** The units with which the model's answers are computed are those of the largest preset *)
Lemma preset_known : forallb (fun f => match find_feat features f with Some _ => true | None => false end) preset_computing = true.
Proof. vm_compute. reflexivity. Qed.
Definition same_trace (x y : ires ist) : bool :=
  match x, y with
  | IOk a, IOk b => if list_eq_dec (list_eq_dec Ascii.ascii_dec) (trace a) (trace b) then mem_str ($"units.units") (trace b) else false
  | _, _ => false
  end.
Lemma same_trace_ok x y b : y = IOk b -> same_trace x y = true -> exists a, x = IOk a /\ trace a = trace b /\ In ($"units.units") (trace b).
Proof.
  intros -> H. destruct x as [a| | |]; try discriminate. unfold same_trace in H. destruct (list_eq_dec (list_eq_dec Ascii.ascii_dec) (trace a) (trace b)) as [E|]; [|discriminate].
  exists a. split; [reflexivity|]. split; [exact E|]. apply UnitsProofs5.mem_str_iff, H.
Qed.
Lemma preset_trace : same_trace (install 20 features preset_computing (mkIst [] [])) (install 100 features preset_computing (mkIst [] [])) = true.
Proof. vm_compute. reflexivity. Qed.
Lemma units_of_trace names a : install 20 features names (mkIst [] []) = IOk a -> preset_units names = reg_steps (flat_map steps_of (trace a)) norm_init.
Proof. unfold preset_units, preset_steps. intros ->. reflexivity. Qed.
Theorem c75_preset : exists st K N, install_calls [preset_computing] (mkIst [] []) new_calc = Ok (st, K) /\ k_norm K = Some N /\ preset_units preset_computing = Ok N.
Proof.
  destruct (c75_installs preset_computing [] (known_features _ preset_known)) as (st & K & E & _ & _ & _ & U); [intros []|].
  destruct (same_trace_ok _ _ _ (call_trace _ _ _ _ _ (one_call _ _ _ _ _ E)) preset_trace) as (a & T & Et & I).
  unfold units_of in U. destruct (k_norm K) as [N|] eqn:Q; [|contradiction].
  exists st, K, N. split; [exact E|]. split; [exact Q|]. rewrite (units_of_trace _ _ T), Et. exact (proj2 U).
Qed.
Print Assumptions c75_preset.

(** * What does not hold *)
(** A second call can fail that would not have as part of the first: the unit constants after the units of mass (the kilogram
    takes its prefix when the units of mass are installed, and they ask for no prefixes) *)
Theorem c75_two_calls_refuted : 
  install_calls [[$"unitdefinitions.mass"]; [$"units.unitconstants"]] (mkIst [] []) new_calc = Py /\
  exists x, install_calls [[$"unitdefinitions.mass"; $"units.unitconstants"]] (mkIst [] []) new_calc = Ok x.
Proof.
  split.
  - assert (H : match install_calls [[$"unitdefinitions.mass"]; [$"units.unitconstants"]] (mkIst [] []) new_calc with Py => true | _ => false end = true) by (vm_compute; reflexivity).
    destruct (install_calls [[$"unitdefinitions.mass"]; [$"units.unitconstants"]] (mkIst [] []) new_calc); [discriminate|discriminate|reflexivity].
  - destruct (c75_installs [$"unitdefinitions.mass"; $"units.unitconstants"] []) as (st & K & E & _); [|intros []|exists (st, K); exact E].
    apply known_features. vm_compute. reflexivity.
Qed.
Print Assumptions c75_two_calls_refuted.
(** The features that give operators do not all ask for the feature that reads them: with the booleans alone there are eleven
    operators and only the words [true] and [false] can be read *)
Theorem c75_operators_refuted : exists st K, install_calls [[$"boolean.booleans"]] (mkIst [] []) new_calc = Ok (st, K) /\
  k_parsers K = [($"boolean", $"boolean.booleans")] /\ List.length (concat (k_ops K)) = 11%nat.
Proof.
  assert (H : match install_calls [[$"boolean.booleans"]] (mkIst [] []) new_calc with
              | Ok (_, K) => match k_parsers K with [(n, f)] => seq_eqb n ($"boolean") && seq_eqb f ($"boolean.booleans") && Nat.eqb (List.length (concat (k_ops K))) 11 | _ => false end
              | _ => false end = true) by (vm_compute; reflexivity).
  destruct (install_calls [[$"boolean.booleans"]] (mkIst [] []) new_calc) as [[st K]| |]; [|discriminate|discriminate].
  exists st, K. split; [reflexivity|]. destruct (k_parsers K) as [|[n f] [|]]; try discriminate H.
  apply andb_true_iff in H as [H H3]. apply andb_true_iff in H as [H1 H2]. apply seq_eqb_iff in H1, H2. apply Nat.eqb_eq in H3. subst. auto.
Qed.
Print Assumptions c75_operators_refuted.
Definition other_types (x y : out (ist * calc)) : bool :=
  match x, y with
  | Ok (_, K), Ok (_, K') =>
    match assoc ($"number_types") (k_dicts K), assoc ($"number_types") (k_dicts K') with
    | Some l, Some m => if list_eq_dec (list_eq_dec Ascii.ascii_dec) l m then false else true
    | _, _ => false
    end
  | _, _ => false
  end.
Lemma other_types_ok x y st K st' K' : x = Ok (st, K) -> y = Ok (st', K') -> other_types x y = true ->
  assoc ($"number_types") (k_dicts K) <> assoc ($"number_types") (k_dicts K').
Proof.
  intros -> ->. unfold other_types. destruct (assoc ($"number_types") (k_dicts K)) as [l|], (assoc ($"number_types") (k_dicts K')) as [m|]; try discriminate.
  destruct (list_eq_dec (list_eq_dec Ascii.ascii_dec) l m) as [|Q]; [discriminate|]. intros _ X. apply Q. congruence.
Qed.
(** The order in which the number types are tried is the order of the request *)
Theorem c75_order_refuted : exists st K st' K',
  install_calls [[$"numerical.octalnumbers"; $"numerical.expnumbers"]] (mkIst [] []) new_calc = Ok (st, K) /\
  install_calls [[$"numerical.expnumbers"; $"numerical.octalnumbers"]] (mkIst [] []) new_calc = Ok (st', K') /\ same_parts K K' /\
  assoc ($"number_types") (k_dicts K) <> assoc ($"number_types") (k_dicts K').
Proof.
  destruct (c75_installs [$"numerical.octalnumbers"; $"numerical.expnumbers"] []) as (st & K & E & _); [apply known_features; vm_compute; reflexivity|intros []|].
  destruct (c75_installs [$"numerical.expnumbers"; $"numerical.octalnumbers"] []) as (st' & K' & E' & _); [apply known_features; vm_compute; reflexivity|intros []|].
  exists st, K, st', K'. split; [exact E|]. split; [exact E'|]. split.
  - apply (c75_same _ _ _ _ _ _ _ _) with (4 := E) (5 := E'); [|intros []|].
    + intros n I. apply known_features with (fs := [$"numerical.octalnumbers"; $"numerical.expnumbers"]); [vm_compute; reflexivity|]. cbn [concat app In] in I |- *. tauto.
    + intros x. split; apply reach_mono; intros y I; cbn [concat app In] in I |- *; tauto.
  - apply (other_types_ok _ _ _ _ _ _ E E'). vm_compute. reflexivity.
Qed.
Print Assumptions c75_order_refuted.

(** * Cases *)
Example c75_ex : match install_calls [[$"units.unitfunctions"; $"unitdefinitions.time"]; [$"dates.datefunctions"; $"numerical.decimalnumbers"]] (mkIst [] []) new_calc with
  | Ok (st, K) =>
      (map (fun x => string_of_list_ascii (fst x)) (k_parsers K), map (map (fun x => string_of_list_ascii (fst x))) (k_ops K),
       match assoc ($"funcs") (k_dicts K) with Some l => map string_of_list_ascii l | None => [] end)
  | _ => ([], [], [])
  end = (["number"; "string"; "function"; "function_param"; "function_end"; "units"; "unitsystems"]%string,
         [["UNIT_MULTIPLY"; "UNIT_DIVIDE"]; ["UNIT_ASSIGNMENT"]; ["*$"]; ["+$"]; ["to"]]%string,
         ["format"; "compact"; "dateformat"; "dateadd"; "datesubtract"; "datedifference"; "now"]%string).
Proof. vm_compute. reflexivity. Qed.
Example c75_units_ex : unit_of_feature ($"unitdefinitions.time") ($"hours").
Proof. unfold unit_of_feature. eexists. split; [vm_compute; do 3 right; left; reflexivity|]. vm_compute. tauto. Qed.
