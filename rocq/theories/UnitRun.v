(** Running the calculator with units on texts, for the examples. *)
From Coq Require Import ZArith QArith Qabs Ascii String List Bool.
From Verif Require Import Base Dec Num Lex Bases Formats Units UnitReg UnitData Syntax Pos Call Loop Parse Exec Std StdRun Install UnitCalc.
Import ListNotations.
Open Scope nat_scope.

(** [UnitPowerList.name] (units.py:294-350), as text *)
Definition power_text (p : Z) : str := ("^"%char :: if (p <? 0)%Z then ["-"%char] else []) ++ dec_str (Z.abs p).
Definition uname (i : nat) (u : unit) : str := nth i (unames u) ($"?").
Definition unit_part (plural negative : bool) (e : unit * Z) : str :=
  let p := snd e in
  let q := if negative then p else Z.abs p in
  uname (if plural then 0 else 1) (fst e) ++ (if (q =? 1)%Z then [] else power_text q).
Fixpoint mult_texts (plural : bool) (l : upl) : list str :=
  match l with [] => [] | e :: r => unit_part (plural && is_nil r) false e :: mult_texts plural r end.
Definition unit_name (plural : bool) (l : upl) : str :=
  let mults := filter (fun e : unit * Z => (0 <=? snd e)%Z) l in
  let divs := filter (fun e : unit * Z => (snd e <? 0)%Z) l in
  let ms := sjoin ($" ") (mult_texts plural mults) in
  let ds := sjoin ($" ") (map (unit_part (is_nil mults) (is_nil mults)) divs) in
  if is_nil divs then ms
  else if is_nil mults then ds
  else ms ++ "/"%char :: (if 1 <? length divs then "("%char :: ds ++ [")"%char] else ds).

(** [get_closeness] with the default settings (30-33, 298-302), without the rounding of floats: a value below 0.1 loses to
    any other, then the one nearer to 10 in ratio wins.  A penalised value that is very near to 10 does not occur: it is
    below 0.1. *)
Definition from_ten (x : Q) : Q := away (Qred (Qabs x / 10)).
Definition demo_closer (a b : Q) : bool :=
  let low x := negb (Qle_bool (1 # 10) x) in
  match low a, low b with
  | true, false => false
  | false, true => true
  | _, _ => negb (Qle_bool (from_ten b) (from_ten a))
  end.
Definition demo_norm : normaliser := match preset_units preset_computing with Ok n => n | _ => norm_init end.
Definition demo_units (N : normaliser) : ucfg := mkU demo N true true demo_closer.
(** @ stands for the degree sign, ` for the micro sign and ; for a newline *)
Definition uchars (t : string) : str :=
  map (fun c => if ceq c "@"%char then chr 176 else if ceq c "`"%char then chr 181 else c) (lines t).
Definition ucalc (N : normaliser) (s : st) (t : str) : cout * st := calculate (with_units (demo_units N)) 20 plain_flags t s.
Definition show_unit (v : value) (u : option eunit) : string :=
  match u with
  | None => show v
  | Some x => (show v ++ " " ++ string_of_list_ascii (unit_name (match v with VNum n => negb (Qeq_bool (num_q n) 1) | _ => true end) (eu_list x)))%string
  end.
Definition utell (c : cout) : string :=
  match c with
  | CDone rs => match last_answer rs with Some (VUnit x, _) => string_of_list_ascii (unit_name true (eu_list x)) | Some (v, u) => show_unit v u | None => "nothing" end
  | c => tell c
  end.
Definition uanswer (N : normaliser) (t : string) : string := utell (fst (ucalc N start (uchars t))).
