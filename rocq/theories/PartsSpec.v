(** What the theorems about [format] are stated with. *)
From Coq Require Import ZArith QArith Ascii String List.
From Verif Require Import Base Num NumSpec Bases Formats Units UnitReg.
Import ListNotations.
Open Scope Q_scope.

(** What one part is worth, in base units, and all of them together. *)
(** Units that are positive multiples of the base unit *)
Definition positive (us : list unit) : Prop := Forall (fun u => 0 < uscale u) us.
(** The name without prefix *)
Definition base (c : cand) : str := hd [] (c_base c).
Definition size (c : cand) : Q := uscale (c_unit c).
Definition worth (p : Q * cand) : Q := fst p * size (snd p).
Definition total_worth (ps : list (Q * cand)) : Q := fold_right (fun p a => worth p + a) 0 ps.

(** A unit of the dimension that belongs to the system and may be used for answers *)
Definition offered (N : normaliser) (sys dim : str) (c : cand) : Prop :=
  exists cs, assoc dim (n_units N) = Some cs /\ In c cs /\ In sys (usystems (c_unit c)) /\ c_use c = true.
Definition unprefixed (c : cand) : Prop := c_prefix c = None.
Definition smallest (N : normaliser) (sys dim : str) (c : cand) : Prop :=
  offered N sys dim c /\ forall d, offered N sys dim d -> size c <= size d.
(** No unit under the same name, with another prefix, can be counted at least once and is larger. *)
Definition best_prefix (N : normaliser) (sys dim : str) (p : Q * cand) : Prop :=
  offered N sys dim (snd p) /\
  (forall d, offered N sys dim d -> base d = base (snd p) -> size d <= worth p -> size d <= size (snd p)) /\
  (1 <= fst p \/ smallest N sys dim (snd p)).
(** Every part but the last is a whole number of an unprefixed unit (written with the prefix that suits it), and all parts
    after it make up less than one of that unit. *)
Inductive largest_first (N : normaliser) (sys dim : str) : list (Q * cand) -> Prop :=
| LFNone : largest_first N sys dim []
| LFLast p : best_prefix N sys dim p -> largest_first N sys dim [p]
| LFMore p ps c n : best_prefix N sys dim p -> offered N sys dim c -> unprefixed c -> base c = base (snd p) ->
    size c <= size (snd p) -> worth p == inject_Z n * size c -> total_worth ps < size c -> largest_first N sys dim ps ->
    largest_first N sys dim (p :: ps).
(** Every dimension that has units of a system has one without prefix. *)
Definition has_unprefixed (N : normaliser) : Prop := forall sys dim c, offered N sys dim c -> exists d, offered N sys dim d /\ unprefixed d.
(** The smallest units of a system come from the smallest unprefixed ones. *)
Definition smallest_unprefixed (N : normaliser) (sys dim : str) (c : cand) : Prop :=
  offered N sys dim c /\ unprefixed c /\ forall d, offered N sys dim d -> unprefixed d -> size c <= size d.
Definition ends_well (N : normaliser) (sys dim : str) : Prop :=
  forall c z, smallest_unprefixed N sys dim c -> smallest N sys dim z -> base z = base c.
(** The measuring system: the one asked for, otherwise the first of the preferred ones that the unit belongs to. *)
Definition system_used (N : normaliser) (u : unit) (asked : option str) (sys : str) : Prop :=
  match asked with
  | Some s => sys = s
  | None => exists a b, n_prefs N = a ++ sys :: b /\ In sys (usystems u) /\ forall s, In s a -> ~ In s (usystems u)
  end.
(** A part as text: the number, a space, and the name, which is singular for exactly one (units.py:26-37). *)
Definition written (F : fmt) (c : option cast) (p : Q * cand) (t : str) : Prop :=
  exists m s name, val m == fst p /\ ncast m = c /\ num_to_string F m = Ok s /\
    (fst p == 1 -> nth_error (unames (c_unit (snd p))) 1 = Some name) /\ (~ fst p == 1 -> nth_error (unames (c_unit (snd p))) 0 = Some name) /\
    t = s ++ " "%char :: name.
