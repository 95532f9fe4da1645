(** Independent statements for error positions (C38) and highlighting (C39). *)
From Coq Require Import Ascii String List Bool.
From Verif Require Import Base Units Syntax Pos.
Import ListNotations.

(** [parts_in parts text rest]: the parts occur in [text] one after the other without overlap, and what follows the
    last of them is [rest]. *)
Inductive parts_in : list str -> str -> str -> Prop :=
| parts_nil : forall t, parts_in [] t t
| parts_cons : forall gap p ps t rest, parts_in ps t rest -> parts_in (p :: ps) (gap ++ p ++ t) rest.

(** An item tree whose texts agree: the sub-items of an item spell its text. *)
Inductive spelled : item -> Prop :=
| spelled_leaf : forall i, isub i = None -> spelled i
| spelled_rec : forall i l, isub i = Some l -> items_text l = itext i -> Forall spelled l -> spelled i.
(** The weaker condition that holds of truncated items as well: the sub-items occur in order in the item's text. *)
Inductive covered : item -> Prop :=
| covered_leaf : forall i, isub i = None -> covered i
| covered_rec : forall i l rest, isub i = Some l -> parts_in (map itext l) (itext i) rest -> Forall covered l -> covered i.

(** The leaves of an item, in order. *)
Fixpoint leaves (i : item) : list item :=
  match i with
  | IInner _ _ l | IInline _ _ l | IFunc _ _ l _ _ | IPtr _ _ l _ _ | IArr _ _ l _ => flat_map leaves l
  | _ => [i]
  end.
