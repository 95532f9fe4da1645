(** Independent statements about parsing (C20-C22, C40, C41). *)
From Coq Require Import ZArith Ascii String List Bool.
From Verif Require Import Base Bases Units Syntax Loop Parse.
Import ListNotations.

(** No parser of the calculator raises anything but parse errors: the functions that read literals and units do not,
    and there are variables if there are terminators. *)
Definition quiet_parser (C : pcfg) (p : parser) : Prop :=
  match p with
  | PLit _ f => forall s, exists x, f s = Ok x
  | PUnit f => forall s, exists x, f s = Ok x
  | PTerm _ => pc_vars C = true
  | _ => True
  end.
Definition quiet (C : pcfg) : Prop := Forall (quiet_parser C) (pc_parsers C).

(** [op] is acceptable at the start of [s]: [s] starts with it, and if it is a word, the word ends there. *)
Definition op_starts (s op : str) : Prop :=
  exists r, s = op ++ r /\
  (op <> [] -> Forall (fun c => is_alpha c = true) op -> match r with [] => True | c :: _ => is_word c = false end).

(** Writing a text as a string literal: the quote and the escape character are preceded by an escape character. *)
Fixpoint escaped (q e : ascii) (s : str) : str :=
  match s with
  | [] => []
  | c :: r => if ceq c q || ceq c e then e :: c :: escaped q e r else c :: escaped q e r
  end.

(** A statement ended by a terminator (C42): the terminator is its last item and the only one, and the items before it
    are a complete statement, one that does not lack a right operand at the end. *)
Definition is_term (i : item) : bool := match i with INon NTerm _ => true | _ => false end.
Definition term_free (items : list item) : Prop := Forall (fun i => is_term i = false) items.
Definition ended (C : pcfg) (s : list item) : Prop :=
  exists body sym, s = body ++ [INon NTerm sym] /\ In (PTerm sym) (pc_parsers C) /\ term_free body /\
    forall st, incomplete (pc_ops C) (functional_items body) st = false.
(** What may be remembered in [last_failed_terminator]. *)
Definition memory_ok (C : pcfg) (lft : option str) : Prop :=
  match lft with
  | None => True
  | Some t => exists func, items_text func = t /\ forall st, incomplete (pc_ops C) func st = true
  end.
