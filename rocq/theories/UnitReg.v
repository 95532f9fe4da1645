(** Model of how units get into the normaliser: [UnitNormaliser.add_dimension] … [add_multiunit] (services/unitnormaliser.py
    13-89), the construction of a unit from its class and a prefix (objects/units.py 7-56, 71-85), the prefixes and systems of
    the features.  What an [install] does is a list of steps ([ustep]); UnitData.v has those of the code. *)
From Coq Require Import ZArith QArith Qpower Ascii String List Bool Lia.
From Verif Require Import Base Bases Units.
Import ListNotations.
Open Scope nat_scope.

(** The class attributes of a [UnitDefinition] (units.py:9-12, 73-78) *)
Record udata := mkUD { d_names : list str; d_syms : list str; d_scale : Q; d_kind : ukind; d_systems : list str;
                       d_relevant : list str; d_use : bool; d_condense : bool }.
(** A prefix (name, symbol, scale) *)
Record prefix := mkPre { p_name : option str; p_sym : option str; p_scale : Q }.

(** A registered unit, with the attributes only [simplify_units] and [format] look at: [namelist], [nameprefix],
    [relevant_to_systems], [use], [use_for_condense]. *)
Record cand := mkCand { c_unit : unit; c_base : list str; c_prefix : option str; c_relevant : list str; c_use : bool; c_condense : bool }.

(** The normaliser (15-36).  [n_next] is the identity of the next unit object. *)
Record normaliser := mkNorm {
  n_dims : list str; n_rels : rels; n_units : list (str * list cand); n_multis : list (str * list upl);
  n_prefixes : list prefix; n_systems : list str; n_prefs : list str; n_reg : unitreg; n_maxlen : nat; n_next : Z }.

(** [names()], [symbols()] (units.py:42-54) *)
Definition prefixed (p : option str) (l : list str) : list str := match p with None => l | Some x => map (app x) l end.
(** [UnitDefinition(prefix)] (units.py:14-17, 80-85) added to a dimension; [systems] replaces the systems if given (data.py:46-49). *)
Definition make_unit (d : udata) (dim : str) (p : option prefix) (systems : option (list str)) (id : Z) : cand :=
  let np := match p with Some x => p_name x | None => None end in
  let sp := match p with Some x => p_sym x | None => None end in
  let scale := match p with Some x => (d_scale d * p_scale x)%Q | None => d_scale d end in
  mkCand (mkUnit id (prefixed np (d_names d)) (prefixed sp (d_syms d)) dim scale (d_kind d)
                 (match systems with Some s => s | None => d_systems d end))
         (d_names d) np (d_relevant d) (d_use d) (d_condense d).

Definition max_len (names : list str) (n : nat) : nat := fold_left (fun m s => Nat.max m (length s)) names n.
Definition append_to {A} (k : str) (x : A) (l : list (str * list A)) : list (str * list A) :=
  match assoc k l with Some xs => dset k (xs ++ [x]) l | None => dset k [x] l end.

(** [relationship_to_dimensions] (382-390), [add_dimension] (39-43); [Py] is the exception for a dimension not there *)
Definition add_dimension (d : str) (rel : option dlist) (N : normaliser) : out normaliser :=
  let dims := if mem_str d (n_dims N) then n_dims N else n_dims N ++ [d] in
  let mk rels := mkNorm dims rels (n_units N) (n_multis N) (n_prefixes N) (n_systems N) (n_prefs N) (n_reg N) (n_maxlen N) (n_next N) in
  match rel with
  | None => Ok (mk (n_rels N))
  | Some l => if forallb (fun e => mem_str (fst e) dims) l then Ok (mk (dset d l (n_rels N))) else Py
  end.
(** [add_unit] (45-59) *)
Definition add_unit (dim : str) (mk : Z -> cand) (N : normaliser) : out normaliser :=
  if mem_str dim (n_dims N) then
    let c := mk (n_next N) in
    Ok (mkNorm (n_dims N) (n_rels N) (append_to dim c (n_units N)) (n_multis N) (n_prefixes N) (n_systems N) (n_prefs N)
               (reg_add_unit (c_unit c) (n_reg N)) (max_len (unames (c_unit c)) (n_maxlen N)) (n_next N + 1)%Z)
  else Py.
(** [add_prefixed_unit] (61-69): a prefix with a name and no symbol removes the symbols *)
Definition within (lo hi : option Q) (x : Q) : bool :=
  match lo with Some m => Qle_bool m x | None => true end && match hi with Some m => Qle_bool x m | None => true end.
Definition no_symbols (p : prefix) (d : udata) : udata :=
  match p_sym p, p_name p with
  | None, Some _ => mkUD (d_names d) [] (d_scale d) (d_kind d) (d_systems d) (d_relevant d) (d_use d) (d_condense d)
  | _, _ => d
  end.
Fixpoint add_prefixed (dim : str) (d : udata) (lo hi : option Q) (ps : list prefix) (N : normaliser) : out normaliser :=
  match ps with
  | [] => Ok N
  | p :: r => do N' <- (if within lo hi (p_scale p) then add_unit dim (make_unit (no_symbols p d) dim (Some p) None) N else Ok N);
              add_prefixed dim d lo hi r N'
  end.
(** [add_ambiguous_unit] (71-82) *)
Definition add_ambiguous (names syms units : list str) (N : normaliser) : out normaliser :=
  do r <- reg_add_ambiguous (n_prefs N) (mkAmbig names syms []) units (n_reg N);
  Ok (mkNorm (n_dims N) (n_rels N) (n_units N) (n_multis N) (n_prefixes N) (n_systems N) (n_prefs N) r
             (max_len names (n_maxlen N)) (n_next N)).
(** [make_multiunit] (135-139), [add_multiunit] (84-88).  [Py]: a name without a unit, or an empty list. *)
Fixpoint get_units (N : normaliser) (l : list (str * Z)) : out (list (upl * Z)) :=
  match l with
  | [] => Ok []
  | (n, k) :: r =>
    do d <- get_unit (n_prefs N) (n_reg N) n;
    match d with
    | Some (UDef u) => do us <- get_units N r; Ok ((ulist u, k) :: us)
    | _ => Py
    end
  end.
Definition make_multiunit (N : normaliser) (l : list (str * Z)) : out upl :=
  do us <- get_units N l; match upl_new us with Some m => Ok m | None => Py end.
Definition add_multiunit (dim : str) (l : list (str * Z)) (N : normaliser) : out normaliser :=
  do m <- make_multiunit N l;
  Ok (mkNorm (n_dims N) (n_rels N) (n_units N) (append_to dim m (n_multis N)) (n_prefixes N) (n_systems N) (n_prefs N)
             (n_reg N) (n_maxlen N) (n_next N)).
(** [get_unit(name).systems.append(s)] (data.py:42, 51): the unit object is changed wherever it is.  (No ambiguous unit or
    multiunit has one when it is called.) *)
Definition with_system (id : Z) (s : str) (u : unit) : unit :=
  if (uid u =? id)%Z then mkUnit (uid u) (unames u) (usyms u) (udim u) (uscale u) (ukind_of u) (usystems u ++ [s]) else u.
Definition add_system (name s : str) (N : normaliser) : out normaliser :=
  do d <- get_unit (n_prefs N) (n_reg N) name;
  match d with
  | Some (UDef u) =>
    let f := with_system (uid u) s in
    let g d := match d with UDef u => UDef (f u) | UAmb a => UAmb a end in
    let r := n_reg N in
    Ok (mkNorm (n_dims N) (n_rels N)
          (map (fun e => (fst e, map (fun c => mkCand (f (c_unit c)) (c_base c) (c_prefix c) (c_relevant c) (c_use c) (c_condense c)) (snd e))) (n_units N))
          (n_multis N) (n_prefixes N) (n_systems N) (n_prefs N)
          (mkReg (ambigs r) (map (fun e => (fst e, g (snd e))) (rnames r)) (map (fun e => (fst e, g (snd e))) (rsyms r))) (n_maxlen N) (n_next N))
  | _ => Py
  end.

(** One call of an [install] method *)
Inductive ustep :=
| SDim (d : str) (rel : option dlist)
| SUnit (dim : str) (d : udata) (p : option prefix) (systems : option (list str))
| SPrefixed (dim : str) (d : udata) (lo hi : option Q)
| SAmb (names syms units : list str)
| SMulti (dim : str) (l : list (str * Z))
| SSystem (name s : str)
| SPrefixes (l : list prefix)
| SSystems (l : list str).
Definition reg_step (N : normaliser) (s : ustep) : out normaliser :=
  match s with
  | SDim d rel => add_dimension d rel N
  | SUnit dim d p systems => add_unit dim (make_unit d dim p systems) N
  | SPrefixed dim d lo hi => add_prefixed dim d lo hi (n_prefixes N) N
  | SAmb names syms units => add_ambiguous names syms units N
  | SMulti dim l => add_multiunit dim l N
  | SSystem name s => add_system name s N
  | SPrefixes l => Ok (mkNorm (n_dims N) (n_rels N) (n_units N) (n_multis N) (n_prefixes N ++ l) (n_systems N) (n_prefs N) (n_reg N) (n_maxlen N) (n_next N))
  | SSystems l => Ok (mkNorm (n_dims N) (n_rels N) (n_units N) (n_multis N) (n_prefixes N) (n_systems N ++ l) (n_prefs N ++ l) (n_reg N) (n_maxlen N) (n_next N))
  end.
Fixpoint reg_steps (l : list ustep) (N : normaliser) : out normaliser :=
  match l with [] => Ok N | s :: r => do N' <- reg_step N s; reg_steps r N' end.
(** [__init__] (13-36) *)
Definition norm_init : normaliser := mkNorm [] [] [] [] [] [] [] (mkReg [] [] []) 0 0.
(** All the units registered *)
Definition all_units (N : normaliser) : list unit := flat_map (fun e => map c_unit (snd e)) (n_units N).
