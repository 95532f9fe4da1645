(** What the theorems about the items reported with an error are stated with. *)
From Coq Require Import ZArith QArith Ascii String List Bool.
From Verif Require Import Base Dec Num Bases Units Syntax Call Loop.
Import ListNotations.
Open Scope nat_scope.

(** Operators that are not written: a unit after a value, units next to each other or with a slash, values next to each
    other *)
Definition unwritten (T : optable) (s : str) : Prop := t_uassign T = Some s \/ t_umul T = Some s \/ t_udiv T = Some s \/ t_imul T = Some s.
(** They take one operand on each side *)
Definition unwritten_infix (T : optable) : Prop :=
  forall s o, unwritten T s -> find_op T s = Some o -> op_l o = [None] /\ op_r o = [None].

(** A value that is no error *)
Definition no_error (r : result) : Prop := forall e, rval r <> VExc e.
Definition value_clean (o : oc result) : Prop := match o with OOk r => no_error r | _ => True end.
(** An operator only gives errors as values that it was given as inputs *)
Definition passes_errors (call : str -> list result -> M result) (sym : str) : Prop :=
  forall ins s r s' e, call sym ins s = (OOk r, s') -> rval r = VExc e -> exists x, In x ins /\ rval x = VExc e.
(** The operators a statement may use: those written in it, and those that are not written *)
Definition used_in (T : optable) (items : list item) (sym : str) : Prop := In (IOp sym) items \/ unwritten T sym.

(** The items [its] reported with an error are those of the statement before some operator or operand, whose text is the
    one reported, if there is one *)
Definition before_an_item (items its : list item) (nx : option str) : Prop :=
  exists i q, items = its ++ i :: q /\ ifunc i = true /\ (nx = None \/ nx = Some (itext i)).
(** They are those of the statement up to an operand that fails when it is run by [ev]; what is left of that operand
    ends where its error is *)
Definition within_an_item (ev : item -> M result) (items its : list item) (m : msg) (nx : option str) : Prop :=
  exists p i y q s s' rest, items = p ++ i :: q /\ ifunc i = true /\ its = p ++ [y] /\
    ev i s = (OErr (XExec m [y] nx true), s') /\ itext i = itext y ++ rest /\
    (forall t, nx = Some t -> exists more, rest = t ++ more).

(** The arguments of a call are run one after the other, giving the results *)
Inductive args_in_turn (run : list item -> M result) : list (list item) -> st -> list result -> st -> Prop :=
| at_nil s : args_in_turn run [] s [] s
| at_cons a l s r s1 rs s2 : run a s = (OOk r, s1) -> args_in_turn run l s1 rs s2 -> args_in_turn run (a :: l) s (r :: rs) s2.
(** The text of the items reported is the beginning of the text of the statement, and what follows starts with the text
    reported *)
Definition points_into (items its : list item) (nx : option str) : Prop :=
  exists rest, items_text items = items_text its ++ rest /\ forall t, nx = Some t -> exists more, rest = t ++ more.
