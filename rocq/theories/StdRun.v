(** Running the standard calculator on texts, for the examples. *)
From Coq Require Import ZArith QArith Ascii String List Bool.
From Verif Require Import Base Dec Num Lex Bases Formats NumProofs3 Units Syntax Pos Call Loop Parse Exec Std.
Import ListNotations.
Open Scope nat_scope.

(** Precision 100 and 30 places as in the defaults (number_size, number_prec: numericalengine.py:15-17); powers with an
    integer exponent only. *)
Definition demo_pow (x y : Q) : option Q := if q_is_int y then dpow_int x y else None.
Definition demo : lib := mkLib (mkFmt 100 30 demo_pow ($"E")) (fun _ => $"?").
Definition start : st := mkSt [] None.
Definition plain_flags : cflags := mkCF false false false.
Fixpoint show (v : value) : string :=
  match v with
  | VNum n => match num_to_string (l_fmt demo) n with Ok t => string_of_list_ascii t | _ => "!" end
  | VStr s => ("'" ++ string_of_list_ascii s ++ "'")%string
  | VBool b => if b then "True" else "False"
  | VNone => "None"
  | VList l => ("[" ++ fold_right (fun r a => (match r with Res v _ _ _ => show v end) ++ ";" ++ a)%string "]" l)%string
  | VExc _ => "error"
  | VUnit _ => "unit" | VFun _ => "function"
  end.
Definition calc_in (s : st) (t : str) : cout * st := calculate (std demo) 20 plain_flags t s.
Definition tell (c : cout) : string :=
  match c with
  | CDone rs => match last_answer rs with Some (v, _) => show v | None => "nothing" end
  | CFail true _ _ _ _ => "parse error" | CFail false _ _ _ _ => "execute error"
  | CRaw => "raw error" | CPy => "python error" | CFuel => "no answer"
  end.
(** The text of the last answer, or the kind of error; a ; stands for a newline *)
Definition lines (t : string) : str := map (fun c => if ceq c ";"%char then newline else c) ($t).
Definition answer (t : string) : string := tell (fst (calc_in start (lines t))).
Definition vars_after (t : string) : list (string * string) :=
  map (fun p => (string_of_list_ascii (fst p), show (fst (snd p)))) (s_vars (snd (calc_in start (lines t)))).
