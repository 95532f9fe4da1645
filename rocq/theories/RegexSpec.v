(** What the theorems about regular expressions are stated with. *)
From Coq Require Import ZArith QArith Ascii List Bool.
From Verif Require Import Base Regex.
Import ListNotations.
Open Scope nat_scope.

(** What is asked of the engine: a match lies within the text and not before the place where the search began, and is not
    the empty one at that place when that was forbidden; a replacement without a backslash stands for itself. *)
Definition engine_ok (R : relib) : Prop :=
  (forall p m, re_compile R p = Some m -> forall s from adv r, from <= length s -> m s from adv = Some r ->
     from <= m_from r /\ m_from r <= m_to r /\ m_to r <= length s /\ (adv = true -> from < m_to r)) /\
  (forall p m t, re_compile R p = Some m -> ~ In "\"%char t -> exists f, re_template R p t = Some f /\ forall s r, f s r = t).

(** The matches found from a place on: after each the search goes on at its end, without the empty match there if it was
    empty itself. *)
Inductive scanned (m : matcher) (s : str) : nat -> bool -> list rmatch -> Prop :=
| scanned_none from adv : m s from adv = None -> scanned m s from adv []
| scanned_some from adv r l : m s from adv = Some r -> scanned m s (m_to r) (m_to r =? m_from r) l -> scanned m s from adv (r :: l).
(** The matches of a pattern in a text *)
Definition matches (R : relib) (p s : str) (l : list rmatch) : Prop :=
  exists m, re_compile R p = Some m /\ scanned m s 0 false l.

(** The text from place [k] on is made of pieces [ps] and, between them, the texts [xs] of the matches *)
Inductive laid : nat -> str -> list rmatch -> list str -> list str -> Prop :=
| laid_end k t : laid k t [] [t] []
| laid_more k p x t r l ps xs :
    m_from r = k + length p -> m_to r = k + length p + length x -> laid (m_to r) t l ps xs ->
    laid k (p ++ x ++ t) (r :: l) (p :: ps) (x :: xs).
(** Pieces with texts between them *)
Fixpoint weave (ps xs : list str) : str :=
  match ps, xs with
  | p :: ps', x :: xs' => p ++ x ++ weave ps' xs'
  | p :: _, [] => p
  | [], _ => []
  end.
(** No match has groups; every match has exactly one *)
Definition ungrouped (l : list rmatch) : Prop := Forall (fun r => m_groups r = []) l.
(** The text that a match of a pattern with one group gives: that of the group, empty if it took no part *)
Definition of_group (r : rmatch) (t : str) : Prop := m_groups r = [Some t] \/ (m_groups r = [None] /\ t = []).
(** The first [n] taken from [new], the others from [old] *)
Fixpoint first_of (n : nat) (new old : list str) : list str :=
  match n, new, old with
  | S n', x :: new', _ :: old' => x :: first_of n' new' old'
  | _, _, _ => old
  end.
(** One after the other *)
Inductive one_after_other : nat -> list rmatch -> Prop :=
| one_none k : one_after_other k []
| one_more k r l : k <= m_from r -> m_from r <= m_to r -> one_after_other (m_to r) l -> one_after_other k (r :: l).
Definition same_place (a b : rmatch) : Prop := m_from a = m_from b /\ m_to a = m_to b.
