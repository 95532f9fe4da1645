(** Running the calculator with dates on texts, for the examples. *)
From Coq Require Import ZArith QArith Qround Ascii String List Bool.
From Verif Require Import Base Dec Num Lex Bases Formats Units UnitReg UnitData Syntax Pos Call Loop Parse Exec Std StdRun Install UnitCalc UnitRun Dates.
Import ListNotations.
Open Scope Z_scope.

(** Seconds to microseconds, rounded half to even, without the rounding of floats *)
Definition half_even (x : Q) : Z :=
  let f := Qfloor x in
  let r := (x - inject_Z f)%Q in
  match (r ?= 1 # 2)%Q with Lt => f | Gt => f + 1 | Eq => if Z.even f then f else f + 1 end.
Definition demo_micros (q : Q) : option Z :=
  let t := half_even (q * inject_Z us_second)%Q in if Z.abs t <? 999999999 * us_day then Some t else None.
Definition demo_seconds (t : Z) : Q := (inject_Z t / inject_Z us_second)%Q.
Definition demo_dates (N : normaliser) : dlib := mkDL (demo_units N) demo_micros demo_seconds.
Definition dcalc (N : normaliser) (s : st) (t : str) : cout * st := calculate (with_dates (demo_dates N)) 20 plain_flags t s.
Definition danswer (N : normaliser) (t : string) : string := utell (fst (dcalc N start (uchars t))).
