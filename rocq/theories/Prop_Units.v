(** Units: C11-C16, C44, C51. *)
From Coq Require Import ZArith QArith Qpower Ascii String List Bool Lia Permutation.
From Verif Require Import Base Bases Units UnitsSpec BaseProofs UnitsProofs UnitsProofs2 UnitsProofs3 UnitsProofs4 UnitsProofs5.
Import ListNotations.
Open Scope Z_scope.

(** Units for the examples. *)
Definition xu (id : Z) (name dim : string) (s : Q) (k : ukind) : unit := mkUnit id [$name] [] ($dim) s k [$"metric"].
Definition metre := xu 1 "metres" "length" 1 UScale.
Definition foot := xu 2 "feet" "length" (3048 # 10000) UScale.
Definition inch := xu 3 "inches" "length" (254 # 10000) UScale.
Definition second := xu 4 "seconds" "time" 1 UScale.
Definition hour := xu 5 "hours" "time" 3600 UScale.
Definition kilo := xu 6 "kilometres" "length" 1000 UScale.
Definition joule := xu 7 "joules" "energy" 1 UScale.
Definition kelvin := xu 8 "kelvin" "temp" 1 UScale.
Definition celsius := xu 9 "celsius" "temp" 1 UCelsius.
Definition fahrenheit := xu 10 "fahrenheit" "temp" 1 UFahrenheit.
Definition litre := xu 11 "litres" "volume" (1 # 1000) UScale.
Definition rel0 : rels := [($"volume", [($"length", 3)])].

(** ** C11 *)

(** Whatever sequence of additions, removals, powers and merges built it, a compound unit lists each key once,
    with a non-zero power that is the sum of the powers given for it. *)
Theorem c11_power_list : forall K (eqb : K -> K -> bool) ops, equiv eqb -> Forall plop_ok ops ->
  once eqb (fold_left (plop_run eqb) ops []) /\ nonzero (fold_left (plop_run eqb) ops []) /\
  forall k, psum eqb k (fold_left (plop_run eqb) ops []) = fold_left (plop_spec eqb k) ops 0.
Proof. exact @plops_invariant. Qed.
(** The same for unit and dimension keys, whose comparisons are equivalences. *)
Theorem c11_keys : equiv ueqb /\ equiv seq_eqb.
Proof. exact (conj equiv_unit equiv_seq). Qed.
(** Merging duplicates of a list does the same as long as no running total reaches zero early. *)
Theorem c11_deduplicate_partial : forall K (eqb : K -> K -> bool) l, equiv eqb -> no_vanishing eqb l ->
  once eqb (pl_dedup eqb l) /\ nonzero (pl_dedup eqb l) /\ forall k, psum eqb k (pl_dedup eqb l) = psum eqb k l.
Proof. intros K eqb l E N. exact (pl_dedup_spec eqb E l N). Qed.
(** The proviso is needed: [a, a^-1, a^5, a^3] becomes a^5. *)
Theorem c11_deduplicate_refuted : exists l : dlist, psum seq_eqb ($"a") (pl_dedup seq_eqb l) <> psum seq_eqb ($"a") l.
Proof. exists [($"a", 1); ($"a", -1); ($"a", 5); ($"a", 3)]. vm_compute. discriminate. Qed.
(** Duplicates can stay. *)
Theorem c11_deduplicate_twice_refuted : exists l : dlist, ~ once seq_eqb (pl_dedup seq_eqb l).
Proof.
  exists [($"a", 1); ($"b", 1); ($"a", -1); ($"b", 1); ($"a", 2)].
  intros H. vm_compute in H. decompose [and] H. repeat match goal with F : Forall _ _ |- _ => inversion F; clear F; subst end. discriminate.
Qed.
(** Adding a zero power of a new unit stores a zero entry. *)
Theorem c11_zero_added_refuted : exists u, ~ nonzero (pl_add ueqb u 0 []).
Proof. exists metre. intros H. inversion H. cbn in *. congruence. Qed.
Example c11_ex : Forall plop_ok [PAdd metre 2; PAdd second (-1); PRemove metre 1; PMult 2; PMerge [(second, 1); (metre, -2)]] /\
  fold_left (plop_run ueqb) [PAdd metre 2; PAdd second (-1); PRemove metre 1; PMult 2; PMerge [(second, 1); (metre, -2)]] [] = [(second, -1)].
Proof. split; [repeat constructor; discriminate|reflexivity]. Qed.
Example c11_dedup_ex : no_vanishing seq_eqb [($"a", 1); ($"b", 2); ($"a", -1)] /\ pl_dedup seq_eqb [($"a", 1); ($"b", 2); ($"a", -1)] = [($"b", 2)].
Proof.
  split; [|reflexivity]. intros k. unfold powers_of. cbn [filter fst]. destruct (seq_eqb ($"a") k); destruct (seq_eqb ($"b") k); cbn; repeat split; auto; discriminate.
Qed.

(** ** C12 *)

(** The converted value is the original times the ratio of the sizes of the units; the result carries the target
    unit (possibly with its factors in another order). *)
Theorem c12_value : forall rel n a b relative w u, all_scaled a -> all_scaled b -> named (map fst a ++ map fst b) ->
  unit_conversion rel n (Some a) (Some b) relative = Ok (w, u) -> (w == n * factor a / factor b)%Q /\ exists c, u = Some c /\ Permutation c b.
Proof. exact unit_conversion_value. Qed.
(** If a value can be converted, the result can be converted back, and gives the original value. *)
Theorem c12_round_trip : forall rel n a b relative w u, all_scaled a -> all_scaled b -> named (map fst a ++ map fst b) ->
  unit_conversion rel n (Some a) (Some b) relative = Ok (w, u) ->
  exists v c, unit_conversion rel w (Some b) (Some a) relative = Ok (v, c) /\ (v == n)%Q.
Proof. exact conversion_back. Qed.
(** Converting through a third unit gives the same value. *)
Theorem c12_transitive : forall rel n a b c relative w u v u' x u'', all_scaled a -> all_scaled b -> all_scaled c ->
  named (map fst a ++ map fst b) -> named (map fst b ++ map fst c) -> named (map fst a ++ map fst c) ->
  unit_conversion rel n (Some a) (Some b) relative = Ok (w, u) -> unit_conversion rel w (Some b) (Some c) relative = Ok (v, u') ->
  unit_conversion rel n (Some a) (Some c) relative = Ok (x, u'') -> (v == x)%Q.
Proof.
  intros rel n a b c relative w u v u' x u'' Sa Sb Sc N1 N2 N3 H1 H2 H3.
  destruct (unit_conversion_value rel n a b relative w u Sa Sb N1 H1) as [W _].
  destruct (unit_conversion_value rel w b c relative v u' Sb Sc N2 H2) as [V _].
  destruct (unit_conversion_value rel n a c relative x u'' Sa Sc N3 H3) as [X _].
  rewrite V, W, X. field. split; apply factor_nz; auto.
Qed.
Example c12_ex : exists q, unit_conversion rel0 36 (Some [(kilo, 1); (hour, -1)]) (Some [(metre, 1); (second, -1)]) false = Ok (q, Some [(metre, 1); (second, -1)]) /\ (q == 10)%Q.
Proof. eexists. split; [vm_compute; reflexivity|]. reflexivity. Qed.
Lemma named_ex : named (map fst [(kilo, 1); (hour, -1)] ++ map fst [(metre, 1); (second, -1)]).
Proof.
  split.
  - intros u I. cbn in I. decompose [or] I; subst; try contradiction; split; cbn; intros J; decompose [or] J; try discriminate; contradiction.
  - intros u v I J E. cbn in I, J. decompose [or] I; decompose [or] J; subst; try contradiction; try reflexivity; discriminate.
Qed.
Example c12_ex_hyps : all_scaled [(kilo, 1); (hour, -1)] /\ all_scaled [(metre, 1); (second, -1)].
Proof. split; repeat constructor; cbn; intros H; discriminate. Qed.

(** ** C13 *)

(** Same base dimensions: conversion succeeds.  Different: refused. *)
Theorem c13_conversion_partial : forall rel n a b relative, all_scaled a -> all_scaled b ->
  named (map fst a ++ map fst b) -> clean_dims rel a -> clean_dims rel b ->
  no_vanishing seq_eqb (expand_dims rel a) -> no_vanishing seq_eqb (expand_dims rel b) ->
  ((forall d, dim_total rel a d = dim_total rel b d) -> exists w, unit_conversion rel n (Some a) (Some b) relative = Ok w) /\
  ((exists d, dim_total rel a d <> dim_total rel b d) -> unit_conversion rel n (Some a) (Some b) relative = Calc).
Proof. exact conversion_defined. Qed.
(** The proviso on the expansion holds when no base dimension repeats in it, or when all powers are positive. *)
Theorem c13_no_repeat : forall l : dlist, once seq_eqb l -> no_vanishing seq_eqb l.
Proof. exact (no_vanishing_once seq_eqb equiv_seq). Qed.
Theorem c13_positive : forall l : dlist, Forall (fun e => 0 < snd e) l -> no_vanishing seq_eqb l.
Proof. exact (no_vanishing_positive seq_eqb). Qed.
(** A plain number and a number with units never convert. *)
Theorem c13_unitless : forall rel n a relative, unit_conversion rel n None (Some a) relative = Calc /\ unit_conversion rel n (Some a) None relative = Calc.
Proof. intros. split; reflexivity. Qed.
(** Without the proviso a conversion between different dimensions succeeds:
    metres * feet^-1 * inches^5 * kilometres^3 (length^8) converts to metres^5. *)
Theorem c13_mismatch_refuted : exists a b w, all_scaled a /\ all_scaled b /\ dim_total rel0 a ($"length") <> dim_total rel0 b ($"length") /\
  unit_conversion rel0 1 (Some a) (Some b) false = Ok w.
Proof.
  exists [(metre, 1); (foot, -1); (inch, 5); (kilo, 3)], [(metre, 5)]. eexists. split; [|split; [|split]].
  - repeat constructor; cbn; intros H; discriminate. - repeat constructor; cbn; intros H; discriminate.
  - vm_compute. discriminate. - vm_compute. reflexivity.
Qed.
(** ... and one between equal dimensions is refused. *)
Theorem c13_equal_refused_refuted : exists a b, all_scaled a /\ all_scaled b /\ (forall d, dim_total rel0 a d = dim_total rel0 b d) /\
  unit_conversion rel0 1 (Some a) (Some b) false = Calc.
Proof.
  exists [(metre, 1); (foot, -1); (inch, 5); (kilo, 3)], [(metre, 8)]. split; [|split; [|split]].
  - repeat constructor; cbn; intros H; discriminate. - repeat constructor; cbn; intros H; discriminate.
  - intros d. cbn [dim_total norm_dim rel0 metre foot inch kilo xu udim]. change (seq_eqb ($"volume") ($"length")) with false. cbn iota. cbn [psum].
    destruct (seq_eqb ($"length") d); reflexivity.
  - vm_compute. reflexivity.
Qed.
Example c13_ex : unit_conversion rel0 1 (Some [(litre, 1)]) (Some [(metre, 3)]) false <> Calc /\ unit_conversion rel0 1 (Some [(litre, 1)]) (Some [(metre, 2)]) false = Calc.
Proof. split; [vm_compute; discriminate|vm_compute; reflexivity]. Qed.

(** ** C14 *)

(** Any two of Kelvin, Celsius and Fahrenheit convert by the affine formulas; a relative conversion only scales. *)
Theorem c14_temperature : forall rel n a b relative, temperature a -> temperature b -> udim a = udim b -> named [a; b] ->
  exists w c, unit_conversion rel n (Some [(a, 1)]) (Some [(b, 1)]) relative = Ok (w, Some c) /\ Permutation c [(b, 1)] /\
  (w == if relative then n * degree (ukind_of a) / degree (ukind_of b) else from_kelvin (ukind_of b) (to_kelvin (ukind_of a) n))%Q.
Proof. exact temp_conversion. Qed.
(** The formulas are mutually inverse. *)
Theorem c14_inverse : forall k x, (from_kelvin k (to_kelvin k x) == x /\ to_kelvin k (from_kelvin k x) == x)%Q.
Proof. exact kelvin_inverse. Qed.
(** Celsius to Fahrenheit, as usually written. *)
Theorem c14_celsius_fahrenheit : forall x, (from_kelvin UFahrenheit (to_kelvin UCelsius x) == x * (9 / 5) + 32)%Q.
Proof. intros x. cbn [from_kelvin to_kelvin]. field. Qed.
(** Inside a compound unit the offset is wrongly applied: 1 J/Celsius to J/Kelvin is not 1. *)
Theorem c14_compound_refuted : exists w c, unit_conversion rel0 1 (Some [(joule, 1); (celsius, -1)]) (Some [(joule, 1); (kelvin, -1)]) false = Ok (w, c) /\ ~ (w == 1)%Q.
Proof. eexists. eexists. split; [vm_compute; reflexivity|]. intros H. vm_compute in H. discriminate. Qed.
(** A squared Celsius unit raises a plain Exception. *)
Theorem c14_square_refuted : unit_conversion rel0 1 (Some [(celsius, 2)]) (Some [(kelvin, 2)]) false = Py.
Proof. vm_compute. reflexivity. Qed.
Example c14_ex : temperature celsius /\ temperature fahrenheit /\ named [celsius; fahrenheit] /\
  exists w c, unit_conversion rel0 100 (Some [(celsius, 1)]) (Some [(fahrenheit, 1)]) false = Ok (w, c) /\ (w == 212)%Q.
Proof.
  split; [exact I|]. split; [exact I|]. split.
  - split.
    + intros u J. cbn in J. decompose [or] J; subst; try contradiction; split; cbn; intros K; decompose [or] K; try discriminate; contradiction.
    + intros u v J K E. cbn in J, K. decompose [or] J; decompose [or] K; subst; try contradiction; try reflexivity; discriminate.
  - eexists. eexists. split; [vm_compute; reflexivity|reflexivity].
Qed.

(** ** C15 *)

(** The search never fails; for each goal it returns exactly the combinations whose exponents lie between 0 and the
    unit's power and whose total dimension is the goal, each once. *)
Theorem c15_search : forall goals units, Forall (once seq_eqb) goals -> Forall nonzero goals -> Forall (fun g => g <> []) goals ->
  exists res, find_units goals units = Ok res /\ length res = length goals /\
    forall j g, nth_error goals j = Some g -> exists cs, nth_error res j = Some (map (found_units units) cs) /\ NoDup cs /\
      forall c, In c cs <-> Forall2 between (upow units) c /\ forall d, combo_total units c d = psum seq_eqb d g.
Proof. exact find_units_spec. Qed.
Example c15_ex : find_units [[($"length", 1); ($"time", -1)]] (subunits rel0 [(metre, 2); (second, -2); (foot, 1)]) =
  Ok [[[(second, -1); (foot, 1)]; [(metre, 1); (second, -1)]]].
Proof. vm_compute. reflexivity. Qed.

(** ** C16 *)

(** When it succeeds, the value times the size of the unit list is unchanged; when all units involved have one
    dimension, so is the dimension. *)
Theorem c16_value_partial : forall us rel v l v' l', units_ok us -> over us l -> dedupe v l = Ok (v', l') ->
  (v' * factor l' == v * factor l)%Q /\
  ((forall u w, In u us -> In w us -> norm_dim rel (udim u) = norm_dim rel (udim w)) -> forall d, dim_total rel l' d = dim_total rel l d).
Proof.
  intros us rel v l v' l' U O. unfold dedupe. destruct (1 <? length l)%nat.
  - intros H. destruct (dedupe_quantity us rel U _ _ _ _ _ O H) as (A & B & C). split; auto.
  - intros H. inversion H; subst. split; [reflexivity|auto].
Qed.
(** The dimension is not kept: seconds * metres * feet becomes a power of seconds. *)
Theorem c16_dimension_refuted : exists v' l', dedupe 1 [(second, 1); (metre, 1); (foot, 1); (joule, 1)] = Ok (v', l') /\
  dim_total rel0 l' ($"length") <> dim_total rel0 [(second, 1); (metre, 1); (foot, 1); (joule, 1)] ($"length").
Proof. eexists. eexists. split; [vm_compute; reflexivity|]. vm_compute. discriminate. Qed.
(** Three units of one dimension end in an IndexError. *)
Theorem c16_fails_refuted : dedupe 1 [(metre, 1); (foot, 1); (inch, 1)] = Py.
Proof. vm_compute. reflexivity. Qed.
Example c16_ex : exists v', dedupe 1 [(metre, 1); (foot, 1)] = Ok (v', [(metre, 2)]) /\ (v' == 3048 # 10000)%Q.
Proof. eexists. split; [vm_compute; reflexivity|reflexivity]. Qed.

(** ** C51 *)

(** Rewriting the second operand of a product in the units of the first never fails or loops, and keeps the
    quantity: value times size, and every base dimension. *)
Theorem c51_normalise_from_left : forall rel us unit1 unit2 v relative, units_ok us -> Forall (dim_ok rel) us ->
  over us unit1 -> over us unit2 -> once ueqb unit2 ->
  exists v' l', normalise_from_left rel unit1 v unit2 relative = Ok (v', l') /\
    (v' * factor l' == v * factor unit2)%Q /\ once ueqb l' /\ forall d, dim_total rel l' d = dim_total rel unit2 d.
Proof.
  intros rel us unit1 unit2 v relative U D O1 O2 On.
  destruct (normalise_from_left_spec rel us unit1 unit2 v relative U D O1 O2 On) as (v' & l' & A & B & _ & C & E). exists v', l'. auto.
Qed.
Theorem c51_normalise_from_right : forall rel us unit1 unit2 v relative, units_ok us -> Forall (dim_ok rel) us ->
  over us unit1 -> over us unit2 -> once ueqb unit2 ->
  exists v' l', normalise_from_right rel unit1 v unit2 relative = Ok (v', l') /\
    (v' * factor l' == v * factor unit2)%Q /\ once ueqb l' /\ forall d, dim_total rel l' d = dim_total rel unit2 d.
Proof.
  intros rel us unit1 unit2 v relative U D O1 O2 On.
  destruct (normalise_from_right_spec rel us unit1 unit2 v relative U D O1 O2) as (v' & l' & A & B & _ & C & E). exists v', l'. auto.
Qed.
Example c51_ex : exists v', normalise_from_left rel0 [(metre, 1)] 1 [(foot, 2); (second, -1)] true = Ok (v', [(second, -1); (metre, 2)]) /\ (v' == (3048 # 10000) * (3048 # 10000))%Q.
Proof. eexists. split; [vm_compute; reflexivity|reflexivity]. Qed.
Example c51_ex_right : exists v', normalise_from_right rel0 [(metre, 3)] 1 [(litre, 1)] true = Ok (v', [(metre, 3)]) /\ (v' == 1 # 1000)%Q.
Proof. eexists. split; [vm_compute; reflexivity|reflexivity]. Qed.
Example c51_ex_hyps : units_ok [metre; foot; second; litre] /\ Forall (dim_ok rel0) [metre; foot; second; litre].
Proof.
  split.
  - split.
    + intros u v J K E. cbn in J, K. decompose [or] J; decompose [or] K; subst; try contradiction; try reflexivity; discriminate.
    + repeat constructor; cbn; intros H; discriminate.
  - repeat (apply Forall_cons || apply Forall_nil); unfold dim_ok; cbn -[clean];
      (split; [repeat constructor|split; [repeat constructor; discriminate|split; [discriminate|]]]);
      repeat (apply Forall_cons || apply Forall_nil); split; cbn; intros J; decompose [or] J; try discriminate; contradiction.
Qed.

(** ** C44 *)

(** After registering an ambiguous unit, any of its names or symbols resolves to the unit of the most preferred
    system that has one; if no preferred system has one, the lookup raises a KeyError. *)
Theorem c44_lookup : forall prefs a names r r' n, aunits a = [] -> reg_add_ambiguous prefs a names r = Ok r' ->
  own_name (anames a) (asyms a) n -> find_ambig n (ambigs r) = None ->
  exists us, Forall2 (fun m u => get_unit prefs r m = Ok (Some (UDef u))) names us /\
    forall prefs', (forall u, get_unit prefs' r' n = Ok (Some (UDef u)) <-> most_preferred prefs' (systems_of us) u) /\
      (get_unit prefs' r' n = Py <-> forall s u, In s prefs' -> ~ In (s, u) (systems_of us)).
Proof. exact registered_lookup. Qed.
(** The order in which the units were given does not matter. *)
Theorem c44_order : forall prefs names syms us us', Permutation us us' ->
  match ambig_all (mkAmbig names syms []) us, ambig_all (mkAmbig names syms []) us' with
  | Some a, Some b => preferred_unit prefs a = preferred_unit prefs b
  | None, None => True
  | _, _ => False
  end.
Proof. exact ambiguous_order. Qed.
Definition usgal := mkUnit 21 [$"usgallons"] [] ($"volume") 1 UScale [$"us"].
Definition ukgal := mkUnit 22 [$"ukgallons"] [] ($"volume") 1 UScale [$"uk"].
Definition gallon := mkAmbig [$"gallons"; $"gallon"] [$"gal"] [].
Definition reg1 := reg_add_unit ukgal (reg_add_unit usgal (mkReg [] [] [])).
Example c44_ex : exists r, reg_add_ambiguous [$"us"; $"uk"] gallon [$"usgallons"; $"ukgallons"] reg1 = Ok r /\
  get_unit [$"us"; $"uk"] r ($"Gallon") = Ok (Some (UDef usgal)) /\ get_unit [$"si"; $"uk"; $"us"] r ($"gal") = Ok (Some (UDef ukgal)) /\
  get_unit [$"si"] r ($"gal") = Py.
Proof. eexists. split; [vm_compute; reflexivity|]. repeat split; vm_compute; reflexivity. Qed.

Print Assumptions c11_power_list.
Print Assumptions c12_round_trip.
Print Assumptions c12_transitive.
Print Assumptions c13_conversion_partial.
Print Assumptions c14_temperature.
Print Assumptions c15_search.
Print Assumptions c16_value_partial.
Print Assumptions c51_normalise_from_left.
Print Assumptions c51_normalise_from_right.
Print Assumptions c44_lookup.
Print Assumptions c44_order.
