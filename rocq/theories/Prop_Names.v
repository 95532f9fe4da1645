(** C62: the names of units. *)
From Coq Require Import ZArith QArith Ascii String List Bool Lia.
From Verif Require Import Base Bases Formats Units Syntax UnitReg UnitCalc Std StdRun UnitRun NameSpec NameProofs.
Import ListNotations.
Open Scope nat_scope.

(** A name means the last unit added that has it, in any case; if there is none, the last unit that has it as a symbol,
    in this case; and nothing if there is none. *)
Theorem c62_lookup : forall prefs us name,
  let r := fold_left (fun r u => reg_add_unit u r) us (mkReg [] [] []) in
  (forall u, last_with (has_name name) us u -> get_unit prefs r name = Ok (Some (UDef u))) /\
  (Forall (fun u => ~ has_name name u) us ->
    (forall u, last_with (has_symbol name) us u -> get_unit prefs r name = Ok (Some (UDef u))) /\
    (Forall (fun u => ~ has_symbol name u) us -> get_unit prefs r name = Ok None)).
Proof. exact lookup_added. Qed.
Print Assumptions c62_lookup.
(** Whatever units are registered, the longest beginning of a text that is a unit name (or symbol) not followed by a
    letter is taken for a unit, and nothing if there is none. *)
Theorem c62_longest : forall U steps s, reg_steps steps norm_init = Ok (u_norm U) ->
  (parse_units U s = Ok None /\ forall m, ~ unit_here (u_norm U) (u_syms U) s m) \/
  exists m, unit_here (u_norm U) (u_syms U) s m /\ (forall k, m < k -> ~ unit_here (u_norm U) (u_syms U) s k) /\
    forall u, get_unit (n_prefs (u_norm U)) (n_reg (u_norm U)) (firstn m s) = Ok (Some (UDef u)) -> parse_units U s = Ok (Some (m, mkEU (ulist u) false)).
Proof.
  intros U steps s H. destruct (parse_units_longest U s (steps_fit _ _ _ init_fit H)) as [K|[m [H1 [H2 H3]]]]; [left; exact K|right].
  exists m. split; [exact H1|]. split; [exact H2|]. intros u Hu. rewrite H3. unfold the_unit. rewrite Hu. cbn [obind].
  destruct H1 as [_ [Hl _]]. rewrite firstn_length, Nat.min_l by exact Hl. reflexivity.
Qed.
Print Assumptions c62_longest.
Definition nm_unit (names syms : list string) : udata := mkUD (map list_ascii_of_string names) (map list_ascii_of_string syms) 1%Q UScale [] [] true true.
Definition nm_steps : list ustep := [SDim ($"d") None; SUnit ($"d") (nm_unit ["meters"; "meter"] ["m"]) None None; SUnit ($"d") (nm_unit ["miles"; "mile"; "statute miles"] ["mi"]) None None;
  SUnit ($"d") (nm_unit ["minutes"] ["min"; "M"]) None None]%string.
Definition nm_norm : normaliser := match reg_steps nm_steps norm_init with Ok N => N | _ => norm_init end.
Definition nm_read (t : string) : option (option (nat * list (list string))) :=
  match parse_units (demo_units nm_norm) ($t) with
  | Ok None => Some None | Ok (Some (n, e)) => Some (Some (n, map (fun p => map string_of_list_ascii (unames (fst p))) (eu_list e))) | _ => None end.
Example c62_ex : reg_steps nm_steps norm_init = Ok (u_norm (demo_units nm_norm)) /\
  map nm_read ["Meters + 1"; "mi/M"; "min"; "MI"; "statute mile"; "STATUTE miles"; "meterx"; "m2"]%string =
  [Some (Some (6, [["meters"; "meter"]])); Some (Some (2, [["miles"; "mile"; "statute miles"]])); Some (Some (3, [["minutes"]])); Some None; Some None;
   Some (Some (13, [["miles"; "mile"; "statute miles"]])); Some None; Some (Some (1, [["meters"; "meter"]]))]%string.
Proof. split; vm_compute; reflexivity. Qed.
Example c62_lookup_ex : exists u, last_with (has_name ($"MILES")) (all_units nm_norm) u /\ usyms u = [$"mi"].
Proof.
  destruct (all_units nm_norm) as [|a [|b [|c [|d l]]]] eqn:E; try (vm_compute in E; discriminate E). exists b. vm_compute in E. injection E as <- <- <-.
  split; [|reflexivity]. eexists [_], [_]. split; [reflexivity|]. split; [left; reflexivity|]. repeat constructor. intros [H|[]]. discriminate.
Qed.
