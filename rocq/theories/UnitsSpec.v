(** Specification vocabulary for units, independent of how the code computes. *)
From Coq Require Import ZArith QArith Qpower Ascii String List.
From Verif Require Import Base Units.
Import ListNotations.
Open Scope Z_scope.

(** Key comparison is an equivalence. *)
Definition equiv {K} (eqb : K -> K -> bool) : Prop :=
  (forall a, eqb a a = true) /\ (forall a b, eqb a b = eqb b a) /\
  (forall a b c, eqb a b = true -> eqb b c = true -> eqb a c = true).

(** Total power of a key. *)
Fixpoint psum {K} (eqb : K -> K -> bool) (k : K) (l : list (K * Z)) : Z :=
  match l with
  | [] => 0
  | (k', q) :: r => (if eqb k' k then q else 0) + psum eqb k r
  end.

(** No key is listed twice. *)
Fixpoint once {K} (eqb : K -> K -> bool) (l : list (K * Z)) : Prop :=
  match l with
  | [] => True
  | (k, _) :: r => Forall (fun e => eqb (fst e) k = false) r /\ once eqb r
  end.
(** No entry has power zero. *)
Definition nonzero {K} (l : list (K * Z)) : Prop := Forall (fun e => snd e <> 0) l.

(** Operations that build a compound unit. *)
Inductive plop (K : Type) := PAdd (k : K) (q : Z) | PRemove (k : K) (q : Z) | PMult (q : Z) | PMerge (l : list (K * Z)).
Arguments PAdd {K} k q. Arguments PRemove {K} k q. Arguments PMult {K} q. Arguments PMerge {K} l.

Definition plop_run {K} (eqb : K -> K -> bool) (l : plist K) (o : plop K) : plist K :=
  match o with
  | PAdd k q => pl_add eqb k q l
  | PRemove k q => pl_remove eqb k q l
  | PMult q => pl_remove_zeros (pl_multiply q l)
  | PMerge m => pl_merge eqb l m
  end.
(** Only non-zero powers are added. *)
Definition plop_ok {K} (o : plop K) : Prop :=
  match o with
  | PAdd _ q => q <> 0
  | PRemove _ q => q <> 0
  | PMult _ => True
  | PMerge l => nonzero l
  end.
(** What an operation should do to the total power of a key. *)
Definition plop_spec {K} (eqb : K -> K -> bool) (k : K) (s : Z) (o : plop K) : Z :=
  match o with
  | PAdd k' q => if eqb k' k then s + q else s
  | PRemove k' q => if eqb k' k then s - q else s
  | PMult q => s * q
  | PMerge l => s + psum eqb k l
  end.

(** A unit that is a plain non-zero multiple of its dimension's base. *)
Definition scaled (u : unit) : Prop := ukind_of u = UScale /\ ~ (uscale u == 0)%Q.
Definition all_scaled (l : upl) : Prop := Forall (fun e => scaled (fst e)) l.

(** Size of a compound unit in base units. *)
Fixpoint factor (l : upl) : Q :=
  match l with
  | [] => 1%Q
  | (u, q) :: r => (Qpower (uscale u) q * factor r)%Q
  end.

(** Exponent of the base dimension [d] in a compound unit. *)
Fixpoint dim_total (rel : rels) (l : upl) (d : str) : Z :=
  match l with
  | [] => 0
  | (u, q) :: r => q * psum seq_eqb d (norm_dim rel (udim u)) + dim_total rel r d
  end.

(** Units with the same identity are the same unit. *)
Definition coherent (us : list unit) : Prop := forall u v, In u us -> In v us -> uid u = uid v -> u = v.

(** Text without the characters that separate entries. *)
Definition clean (s : str) : Prop := ~ In "^"%char s /\ ~ In ","%char s.

(** The running totals of a list of powers do not vanish before its end. *)
Fixpoint no_vanish (cur : Z) (ps : list Z) : Prop :=
  match ps with
  | [] => True
  | q :: r => cur <> 0 /\ no_vanish (cur + q) r
  end.
Definition powers_of {K} (eqb : K -> K -> bool) (k : K) (l : list (K * Z)) : list Z :=
  map snd (filter (fun e => eqb (fst e) k) l).
Definition no_vanishing {K} (eqb : K -> K -> bool) (l : list (K * Z)) : Prop :=
  forall k, match powers_of eqb k l with [] => True | q :: r => no_vanish q r end.

(** [c] lies between 0 and the unit's power. *)
Definition between (power c : Z) : Prop := (0 <= c <= power) \/ (power <= c <= 0).
(** Total exponent of [d] when unit number [i] is used [c_i] times. *)
Fixpoint combo_total (units : list (unit * Z * dlist)) (c : list Z) (d : str) : Z :=
  match units, c with
  | (_, _, ds) :: us, n :: cs => n * psum seq_eqb d ds + combo_total us cs d
  | _, _ => 0
  end.

(** The names of the units in use identify them and contain no separator. *)
Definition named (us : list unit) : Prop :=
  (forall u, In u us -> clean (plural u)) /\ (forall u v, In u us -> In v us -> plural u = plural v -> u = v).
Definition clean_dims (rel : rels) (l : upl) : Prop := Forall (fun e => clean (fst e)) (expand_dims rel l).
Definition upow (units : list (unit * Z * dlist)) : list Z := map (fun s => snd (fst s)) units.
(** A set of units in use: identified by their ids, all plain multiples. *)
Definition units_ok (us : list unit) : Prop := coherent us /\ Forall scaled us.
Definition over (us : list unit) (l : upl) : Prop := Forall (fun e => In (fst e) us) l.
(** The unit's base dimensions are listed once, with non-zero powers and plain names. *)
Definition dim_ok (rel : rels) (u : unit) : Prop :=
  let ds := norm_dim rel (udim u) in once seq_eqb ds /\ nonzero ds /\ ds <> [] /\ Forall (fun e => clean (fst e)) ds.
(** ** Temperatures *)
(** Kelvin, Celsius or Fahrenheit. *)
Definition temperature (u : unit) : Prop := match ukind_of u with UScale => (uscale u == 1)%Q | _ => True end.
Definition to_kelvin (k : ukind) (x : Q) : Q :=
  match k with UScale => x | UCelsius => x + 273.15 | UFahrenheit => (x + 459.67) * (5 / 9) end%Q.
Definition from_kelvin (k : ukind) (x : Q) : Q :=
  match k with UScale => x | UCelsius => x - 273.15 | UFahrenheit => x * (9 / 5) - 459.67 end%Q.
(** Size of one degree in kelvin. *)
Definition degree (k : ukind) : Q := match k with UFahrenheit => 5 / 9 | _ => 1 end%Q.
(** ** Ambiguous units *)
Definition systems_of (us : list unit) : list (str * unit) := flat_map (fun u => map (fun s => (s, u)) (usystems u)) us.
(** The choice: the unit of the most preferred system that has one. *)
Definition most_preferred (prefs : list str) (units : list (str * unit)) (u : unit) : Prop :=
  exists i s, nth_error prefs i = Some s /\ In (s, u) units /\
    forall j s', (j < i)%nat -> nth_error prefs j = Some s' -> forall w, ~ In (s', w) units.
(** [n] is a symbol, or a name up to letter case. *)
Definition own_name (names syms : list str) (n : str) : Prop := In n syms \/ exists m, In m names /\ lower m = lower n.
(** Units added in turn. *)
Fixpoint ambig_all (a : ambig) (us : list unit) : option ambig :=
  match us with
  | [] => Some a
  | u :: r => match ambig_add a u with Some a' => ambig_all a' r | None => None end
  end.
