(** Programs whose lines are choices or assign them.  What the theorems about running such programs are stated with; nothing here is
    defined with the calculator. *)
From Coq Require Import ZArith QArith Ascii String List Bool.
From Verif Require Import Base Lex LexSpec VarNameSpec ArithTextSpec ArithErrSpec CondTextSpec ChoiceTextSpec.
Import ListNotations.
Open Scope nat_scope.

(** * Lines *)
(** A line assigns with [=], or with an operator before it: [n += e] is [n = n + (e)]; [n++] is [n += 1] and [n--] is [n -= 1]. *)
Inductive cline := KBlank | KExp (e : cexp) | KSet (h : option aop) (n : str) (e : cexp) | KStep (up : bool) (n : str).
Definition step_sym (up : bool) : str := if up then $"++" else $"--".
Definition step_op (up : bool) : aop := if up then Plus else Minus.
Definition set_sym (h : option aop) : str := match h with Some o => osym o ++ $"=" | None => $"=" end.
Definition computed (h : option aop) (n : str) (a : aexp) : aexp := match h with Some o => ABin o (AVar n) a | None => a end.
Inductive cline_reads : str -> cline -> Prop :=
| cline_blank b : blank_text b -> cline_reads b KBlank
| cline_exp t e : choice_text t e -> cline_reads t (KExp e)
| cline_set h b1 n b2 t e : h <> Some Beside -> blank_text b1 -> is_name n -> ~ taken n -> blank_text b2 -> choice_text t e ->
    cline_reads (b1 ++ n ++ b2 ++ set_sym h ++ t) (KSet h n e)
| cline_step up b1 n b2 b3 : blank_text b1 -> is_name n -> ~ taken n -> blank_text b2 -> blank_text b3 ->
    cline_reads (b1 ++ n ++ b2 ++ step_sym up ++ b3) (KStep up n).

(** * What becomes of them *)
(** The arithmetic that is computed on a line *)
Definition meant (vars : str -> option Q) (l : cline) : option aexp :=
  match l with
  | KBlank => None
  | KExp e => chosen vars e
  | KSet h n e => option_map (computed h n) (chosen vars e)
  | KStep up n => Some (computed (Some (step_op up)) n (ANum (mkLit false ($"1") None)))
  end.
Definition cline_value (vars : str -> option Q) (l : cline) : option Q := match meant vars l with Some a => avalue vars a | None => None end.
Definition cvars_then (vars : str -> option Q) (l : cline) : str -> option Q :=
  match l with KSet _ n _ | KStep _ n => fun m => if seq_eqb n m then cline_value vars l else vars m | _ => vars end.
Definition cvars_end (vars : str -> option Q) (ls : list cline) : str -> option Q := fold_left cvars_then ls vars.
Fixpoint canswers (vars : str -> option Q) (ls : list cline) : list (option Q) :=
  match ls with [] => [] | l :: r => cline_value vars l :: canswers (cvars_then vars l) r end.
(** The numbers on the way, in the branches not taken as well, are small *)
Definition cline_sized (vars : str -> option Q) (p k : Z) (l : cline) : Prop :=
  match l with KBlank | KStep _ _ => True | KExp e | KSet _ _ e => csized vars p k e end /\ match meant vars l with Some a => sized vars p k a | None => True end.
(** All lines have a value *)
Fixpoint call_stay (vars : str -> option Q) (p k : Z) (ls : list cline) : Prop :=
  match ls with
  | [] => True
  | l :: r => cline_sized vars p k l /\ match l with KBlank => True | _ => cline_value vars l <> None end /\ call_stay (cvars_then vars l) p k r
  end.
(** A line whose chosen arithmetic goes wrong, and one of which only the numerals matter *)
Definition cline_wrong (vars : str -> option Q) (p k : Z) (l : cline) : Prop :=
  cline_sized vars p k l /\ exists a, meant vars l = Some a /\ judge vars a = Wrong.
Fixpoint bnumerals_fit (p : Z) (e : bexp) : Prop :=
  match e with BTruth _ => True | BCmp _ a b => numerals_fit p a /\ numerals_fit p b | BJoin _ a b => bnumerals_fit p a /\ bnumerals_fit p b | BNot a => bnumerals_fit p a end.
Fixpoint cnumerals_fit (p : Z) (e : cexp) : Prop :=
  match e with CNum a => numerals_fit p a | CIf c x y => bnumerals_fit p c /\ cnumerals_fit p x /\ cnumerals_fit p y end.
Definition cline_numerals (p : Z) (l : cline) : Prop := match l with KBlank | KStep _ _ => True | KExp e | KSet _ _ e => cnumerals_fit p e end.
