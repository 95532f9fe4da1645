(** Model of [find_pos] and [truncate] (objects/exceptions.py:4-25, 55-60, 86-91) and of the syntax highlighter
    ([services/syntaxhighlighter.py]).  What they print is not modelled. *)
From Coq Require Import ZArith Ascii String List Bool Lia.
From Verif Require Import Base Bases Units Syntax.
Import ListNotations.
Open Scope nat_scope.

(** The loop of [find_pos] (7-19) over the items of one statement; [None] is the Exception raised when an item is not
    found (10-11). *)
Fixpoint find_items (text : str) (l : list item) (i : nat) : option nat :=
  match l with
  | [] => Some i
  | x :: r => match sfind_from (itext x) text i with
              | None => None
              | Some ii => find_items text r (ii + length (itext x))
              end
  end.
(** [find_pos] (4-25) *)
Definition find_pos (text : str) (statements : list (list item)) (next : option str) : option nat :=
  match fold_left (fun i items => match i with None => None | Some i => find_items text items i end) statements (Some 0) with
  | None => None
  | Some i => match next with None => Some i | Some n => sfind_from n text i end
  end.
(** [truncate] (58-60, 89-91) *)
Definition truncate (text : str) (statements : list (list item)) (next : option str) : option str :=
  option_map (fun i => firstn i text) (find_pos text statements next).

(** The categories items are highlighted as: [category()] of every item class. *)
Inductive cat := CDefault | CStructural | CLiteral | CVariable | CConstant | CSpecial | CFunction | CComment | CWhitespace.
Definition category (i : item) : cat :=
  match i with
  | IOp _ => CStructural
  | ILit _ _ => CLiteral
  | IVar _ => CVariable
  | IConst _ _ _ => CConstant
  | IUnit _ _ | IWord _ _ => CSpecial
  | INon NSpace _ => CWhitespace
  | INon NComment _ => CComment
  | INon NFuncName _ | INon NPtrName _ => CFunction
  | INon _ _ => CStructural
  | IInner _ _ _ | IInline _ _ _ | IArr _ _ _ _ => CStructural
  | IFunc _ _ _ _ _ | IPtr _ _ _ _ _ => CFunction
  end.

Definition slice (s : str) (a b : nat) : str := firstn (b - a) (skipn a s).
(** The loop of [highlight] (25-48), given how one item is highlighted; [None] is the CalculatorException (28-29). *)
Definition hl_loop (one : item -> option (list (cat * str))) (text : str) : list item -> nat -> option (list (cat * str)) :=
  fix go l i :=
    match l with
    | [] => Some (if i <? length text then [(CDefault, skipn i text)] else [])
    | x :: r =>
      match sfind_from (itext x) text i with
      | None => None
      | Some ii =>
        match one x, go r (ii + length (itext x)) with
        | Some a, Some b => Some ((if i =? ii then [] else [(CDefault, slice text i ii)]) ++ a ++ b)
        | _, _ => None
        end
      end
    end.
(** One item (38-43): a recursive item is highlighted by its sub-items within its own text. *)
Fixpoint hl_item (x : item) : option (list (cat * str)) :=
  match x with
  | IInner t _ l | IInline t _ l | IFunc t _ l _ _ | IPtr t _ l _ _ | IArr t _ l _ => hl_loop hl_item t l 0
  | _ => Some [(category x, itext x)]
  end.
(** [highlight] (20-50) and [highlight_statements] (13-18). *)
Definition highlight (text : str) (l : list item) : option (list (cat * str)) := hl_loop hl_item text l 0.
Definition highlight_statements (statements : list (list item)) : list (option (list (cat * str))) :=
  map (fun items => highlight (items_text items) items) statements.
