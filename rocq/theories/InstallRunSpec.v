(** What the theorems about the calculator that is built by installing are stated with. *)
From Coq Require Import ZArith QArith Ascii String List Bool.
From Verif Require Import Base Bases Units Install InstallSpec UnitReg UnitData InstallRun.
Import ListNotations.
Open Scope nat_scope.

(** What the features add, in order: parsers, with the feature; operators; entries of tables *)
Definition parsers_of (tr : list str) : list (str * str) :=
  flat_map (fun f => flat_map (fun e => match e with EParser n => [(n, f)] | _ => [] end) (effects_of f)) tr.
Definition ops_of (tr : list str) : list (str * (bool * list str)) :=
  flat_map (fun f => flat_map (fun e => match e with EOp s r w => [(s, (r, w))] | _ => [] end) (effects_of f)) tr.
Definition adds (f a k : str) : Prop := In (EPut a k) (effects_of f).
Definition makes (f a : str) : Prop := In (ENew a) (effects_of f).
(** The tables and entries of a new calculator *)
Definition from_start (a k : str) : Prop := a = $"validators" /\ (k = $"exception" \/ k = $"number").
Definition tables_at_start : list str := [$"validators"; $"number_types"; $"feature_options"].

(** A calculator is made of exactly the parts of the features [tr]: its parsers in the order of the layout; its operators,
    one level for each level of the layout that is used; its tables with the entries of all features, none lost. *)
Definition made_of (tr : list str) (K : calc) : Prop :=
  k_parsers K = in_map_order parser_map (parsers_of tr) /\ table_ok (ops_of tr) op_map (k_ops K) /\
  (forall a, assoc a (k_dicts K) <> None <-> In a tables_at_start \/ exists f, In f tr /\ makes f a) /\
  (forall a l k, assoc a (k_dicts K) = Some l -> (In k l <-> from_start a k \/ exists f, In f tr /\ adds f a k)).
(** The units: those of the features, in order; there are some only with [units.units] *)
Definition units_of (tr : list str) (K : calc) : Prop :=
  match k_norm K with
  | Some N => In ($"units.units") tr /\ reg_steps (flat_map steps_of tr) norm_init = Ok N
  | None => ~ In ($"units.units") tr
  end.
(** Calls of [install_features] one after another *)
Fixpoint install_calls (rs : list (list str)) (st : ist) (K : calc) : out (ist * calc) :=
  match rs with [] => Ok (st, K) | r :: rest => do x <- install_calc r st K; install_calls rest (fst x) (snd x) end.
(** Two calculators have the same parts: the parsers of the same features in the same order, levels with the same operators, and
    tables with the same entries *)
Definition same_parts (K K' : calc) : Prop :=
  k_parsers K = k_parsers K' /\ Forall2 (fun t t' => forall s, assoc s t = assoc s t') (k_ops K) (k_ops K') /\
  forall a, (assoc a (k_dicts K) = None <-> assoc a (k_dicts K') = None) /\
    forall l l', assoc a (k_dicts K) = Some l -> assoc a (k_dicts K') = Some l' -> forall k, In k l <-> In k l'.
(** A name that a feature gives to a unit: of a unit with a fixed prefix or none, or of one that takes all prefixes in a range,
    itself (the case that the prefix is 1) *)
Definition unit_of_feature (f n : str) : Prop :=
  exists st, In st (steps_of f) /\
    match st with
    | SUnit _ d p _ => In n (prefixed (match p with Some x => p_name x | None => None end) (d_names d))
    | SPrefixed _ d lo hi => within lo hi 1%Q = true /\ In n (d_names d)
    | _ => False
    end.
