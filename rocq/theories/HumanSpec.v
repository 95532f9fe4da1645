(** What a date written for people looks like. *)
From Coq Require Import ZArith Ascii String List.
From Verif Require Import Base Dates DateSpec.
Import ListNotations.
Open Scope Z_scope.

(** A number in decimal digits, and one filled up with zeros to [w] digits *)
Definition digit_of (c : ascii) : Z := Z.of_N (N_of_ascii c) - 48.
Definition number_of (s : str) : Z := fold_left (fun a c => 10 * a + digit_of c) s 0.
Definition decimal (s : str) (n : Z) : Prop := Forall (fun c => 0 <= digit_of c < 10) s /\ s <> [] /\ number_of s = n.
Definition wide (w : nat) (s : str) (n : Z) : Prop := decimal s n /\ length s = w.
(** The days of the week follow each other; 1 January 2000 was a Saturday. *)
Definition week : list string := ["Saturday"; "Sunday"; "Monday"; "Tuesday"; "Wednesday"; "Thursday"; "Friday"]%string.
Definition weekday (x : day) (s : str) : Prop :=
  exists n k, days_apart (2000, 1, 1) x (7 * n + Z.of_nat k) /\ option_map list_ascii_of_string (nth_error week k) = Some s.
Definition months : list string := ["Jan"; "Feb"; "Mar"; "Apr"; "May"; "Jun"; "Jul"; "Aug"; "Sep"; "Oct"; "Nov"; "Dec"]%string.
Definition month_called (m : Z) (s : str) : Prop := exists k, m = Z.of_nat k + 1 /\ option_map list_ascii_of_string (nth_error months k) = Some s.
(** A time in microseconds as hours, minutes, seconds and their parts *)
Definition clock (t h m s f : Z) : Prop := t = ((h * 60 + m) * 60 + s) * 1000000 + f /\ 0 <= m < 60 /\ 0 <= s < 60 /\ 0 <= f < 1000000.
(** The time of day: nothing at midnight *)
Definition time_shown (t : Z) (x : str) : Prop :=
  t = 0 /\ x = [] \/
  t <> 0 /\ exists h m s f hh mm ss ff, clock t h m s f /\ wide 2 hh h /\ wide 2 mm m /\ wide 2 ss s /\
    x = $" at " ++ hh ++ $":" ++ mm ++ $":" ++ ss ++ ff /\ (f = 0 /\ ff = [] \/ f <> 0 /\ exists d, wide 6 d f /\ ff = $"." ++ d).
(** The offset from UTC: nothing if there is none *)
Definition offset_shown (o : option Z) (x : str) : Prop :=
  match o with
  | None => x = []
  | Some o => exists h m s f sg hh mm ss, clock (Z.abs o) h m s f /\ wide 2 hh h /\ wide 2 mm m /\
      (o < 0 /\ sg = $"-" \/ 0 <= o /\ sg = $"+") /\ x = $" (" ++ sg ++ hh ++ mm ++ ss ++ $")" /\
      (s = 0 /\ f = 0 /\ ss = [] \/ (s <> 0 \/ f <> 0) /\ exists d ff, wide 2 d s /\ ss = d ++ ff /\ (f = 0 /\ ff = [] \/ f <> 0 /\ exists e, wide 6 e f /\ ff = $"." ++ e))
  end.
Definition for_people (d : date) (x : str) : Prop :=
  exists wd dd mo yy tt zz, weekday (day_of d) wd /\ wide 2 dd (dday d) /\ month_called (dmonth d) mo /\ decimal yy (dyear d) /\
    time_shown (dmicro d) tt /\ offset_shown (doffset d) zz /\ x = wd ++ $", " ++ dd ++ $"-" ++ mo ++ $"-" ++ yy ++ tt ++ zz.
