(** What dates and the time between them are, independent of the model's way to compute them: the Gregorian calendar by its
    rules, one day after the other. *)
From Coq Require Import ZArith QArith Ascii String List.
From Verif Require Import Base Bases Units UnitReg Syntax Call Loop Parse Exec UnitCalc UnitCalcSpec Dates.
Import ListNotations.
Open Scope Z_scope.

Definition leap_year (y : Z) : Prop := (4 | y) /\ (~ (100 | y) \/ (400 | y)).
(** [last_day y m n]: month [m] of year [y] has [n] days *)
Inductive last_day (y : Z) : Z -> Z -> Prop :=
  | LD31 m : In m [1; 3; 5; 7; 8; 10; 12] -> last_day y m 31
  | LD30 m : In m [4; 6; 9; 11] -> last_day y m 30
  | LDFeb : leap_year y -> last_day y 2 29
  | LDFeb' : ~ leap_year y -> last_day y 2 28.
Definition day := (Z * Z * Z)%type.
Definition is_day (x : day) : Prop := let '(y, m, d) := x in 1 <= y /\ 1 <= d /\ exists n, last_day y m n /\ d <= n.
(** The day after a day *)
Inductive next_day : day -> day -> Prop :=
  | NDay y m d n : last_day y m n -> d < n -> next_day (y, m, d) (y, m, d + 1)
  | NMonth y m n : last_day y m n -> m < 12 -> next_day (y, m, n) (y, m + 1, 1)
  | NYear y n : last_day y 12 n -> next_day (y, 12, n) (y + 1, 1, 1).
(** [days_later n a b]: [b] is [n] days after [a] *)
Inductive days_later : nat -> day -> day -> Prop :=
  | DL0 a : days_later 0 a a
  | DLS n a b c : days_later n a b -> next_day b c -> days_later (S n) a c.
Definition days_apart (a b : day) (n : Z) : Prop :=
  (exists k, n = Z.of_nat k /\ days_later k a b) \/ (exists k, n = - Z.of_nat k /\ days_later k b a).

Definition day_of (d : date) : day := (dyear d, dmonth d, dday d).
Definition day_micros : Z := 24 * 60 * 60 * 1000000.
(** A date of the calendar with a time of day, up to the year 9999, and an offset below a day *)
Definition is_date (d : date) : Prop :=
  is_day (day_of d) /\ dyear d <= 9999 /\ 0 <= dmicro d < day_micros /\
  match doffset d with Some o => - day_micros < o < day_micros | None => True end.
(** [t] microseconds pass on the clock from [a] to [b] *)
Definition apart (a b : date) (t : Z) : Prop :=
  exists n, days_apart (day_of a) (day_of b) n /\ t = n * day_micros + dmicro b - dmicro a.
(** Microseconds from [a] to [b], of which both or none have an offset from UTC *)
Definition time_between (a b : date) (t : Z) : Prop :=
  match doffset a, doffset b with
  | Some o, Some o' => apart a b (t + o' - o)
  | None, None => apart a b t
  | _, _ => False
  end.
(** The offset is a whole number of minutes, or the year has four digits *)
Definition padded (d : date) : Prop := 1000 <= dyear d \/ match doffset d with Some o => (60 * 1000000 | o) | None => True end.

(** * Calculating with dates *)
(** The operator or function of a name, called with these inputs *)
Definition run_named (G : ecfg) (stl : bool) (name : str) (ins : list result) : M result :=
  match find_op (g_ops G) name with
  | Some _ => callop G stl name ins
  | None => match assoc name (g_funcs G) with Some d => call (g_env G) (callop G stl) d stl ins | None => pyerr end
  end.
(** What moves a date by a time: forwards or backwards, and its name in errors *)
Definition movers : list (str * Z * str) :=
  [($"+%", 1, $"operator +%"); ($"-%", -1, $"operator -%"); ($"dateadd", 1, $"dateadd"); ($"datesubtract", -1, $"datesubtract")].
(** A unit of time: the first power of that dimension and nothing else *)
Definition is_time (rel : rels) (u : eunit) : Prop := forall d, dims_of rel (Some u) d = if seq_eqb d ($"time") then 1 else 0.
(** The second is known by its name, and the base unit of time. *)
Definition knows_time (N : normaliser) (us : list unit) (sec : unit) : Prop :=
  In ($"time") (n_dims N) /\ get_unit (n_prefs N) (n_reg N) ($"seconds") = Ok (Some (UDef sec)) /\ In sec us /\ (uscale sec == 1)%Q /\
  let u := mkEU [(sec, 1)] false in is_time (n_rels N) u /\ steady (n_rels N) u.
(** The date [t] microseconds later on the clock, with the same offset *)
Definition moved (a : date) (t : Z) (b : date) : Prop := is_date b /\ apart a b t /\ doffset b = doffset a.
