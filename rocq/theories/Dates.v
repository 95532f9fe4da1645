(** Model of the features dates ([features/dates/dates.py]), date functions ([datefunctions.py]) and date operators
    ([dateoperators.py]), with the formats of [default_options].  [now()] is not modelled, as it reads the clock.

    A datetime of python is a date, the microseconds since midnight and the offset from UTC in microseconds, if it has one
    ([strptime] makes no other kind of time zone).  Of the datetime library are modelled: the calendar, [strptime] for the
    directives in use, with the regular expressions of [_strptime.py], and [strftime], where [%Y] is not padded (glibc; this is
    what the padding in [default_options] is for) and names are the English ones. *)
From Coq Require Import ZArith QArith Qround Ascii String List Bool Lia.
From Verif Require Import Base Dec Num Lex Bases Formats Units UnitReg Syntax Pos Call Loop Parse Exec Std UnitCalc.
Import ListNotations.
Open Scope Z_scope.

(** * The calendar of the library *)
Record date := mkDate { dyear : Z; dmonth : Z; dday : Z; dmicro : Z; doffset : option Z }.
Definition leap (y : Z) : bool := (y mod 4 =? 0) && (negb (y mod 100 =? 0) || (y mod 400 =? 0)).
Definition month_lengths (y : Z) : list Z := [31; if leap y then 29 else 28; 31; 30; 31; 30; 31; 31; 30; 31; 30; 31].
Definition month_length (y m : Z) : Z := nth (Z.to_nat (m - 1)) (month_lengths y) 0.
Definition days_before_year (y : Z) : Z := let p := y - 1 in p * 365 + p / 4 - p / 100 + p / 400.
Definition days_before_month (y m : Z) : Z := fold_right Z.add 0 (firstn (Z.to_nat (m - 1)) (month_lengths y)).
(** [toordinal]; 0001-01-01 is day 1 *)
Definition ordinal (y m d : Z) : Z := days_before_year y + days_before_month y m + d.
(** [fromordinal] *)
Fixpoint month_day (n m : Z) (l : list Z) : Z * Z :=
  match l with
  | [] => (m, n + 1)
  | [_] => (m, n + 1)
  | k :: r => if n <? k then (m, n + 1) else month_day (n - k) (m + 1) r
  end.
Definition from_ordinal (o : Z) : Z * Z * Z :=
  let n := o - 1 in
  let n400 := n / 146097 in let n := n mod 146097 in
  let n100 := n / 36524 in let n := n mod 36524 in
  let n4 := n / 1461 in let n := n mod 1461 in
  let n1 := n / 365 in let n := n mod 365 in
  let y := n400 * 400 + n100 * 100 + n4 * 4 + n1 + 1 in
  if (n1 =? 4) || (n100 =? 4) then (y - 1, 12, 31)
  else let '(m, d) := month_day n 1 (month_lengths y) in (y, m, d).
Definition max_ordinal : Z := 3652059.
Definition us_hour : Z := 3600000000.
Definition us_minute : Z := 60000000.
Definition us_second : Z := 1000000.
Definition us_day : Z := 86400000000.
(** [dt += td]; [None]: OverflowError *)
Definition add_micros (d : date) (t : Z) : option date :=
  let n := ordinal (dyear d) (dmonth d) (dday d) * us_day + dmicro d + t in
  let o := n / us_day in
  if (1 <=? o) && (o <=? max_ordinal)
  then let '(y, m, dd) := from_ordinal o in Some (mkDate y m dd (n mod us_day) (doffset d))
  else None.
(** [date1 - date2], in microseconds; dates with an offset are compared in UTC *)
Definition micros_of (d : date) : Z :=
  ordinal (dyear d) (dmonth d) (dday d) * us_day + dmicro d - match doffset d with Some o => o | None => 0 end.
Definition is_aware (d : date) : bool := match doffset d with Some _ => true | None => false end.

(** * Formats *)
Inductive dtok := TYear | TMonth | TDay | THour | TMinute | TSecond | TMicro | TZone | TWeekday | TMonthName | TLit (c : ascii).
Definition lits (s : string) : list dtok := map TLit ($s).
(** [default_options] (dates.py:40-54) *)
Definition f_date : list dtok := [TYear; TLit "-"; TMonth; TLit "-"; TDay].
Definition f_time : list dtok := [TLit "T"; THour; TLit ":"; TMinute; TLit ":"; TSecond].
Definition f_hires : list dtok := [TLit "."; TMicro].
Definition date_format (time hires zone : bool) : list dtok :=
  f_date ++ (if time then f_time else []) ++ (if hires then f_hires else []) ++ (if zone then [TZone] else []).
Definition date_padding (time hires zone : bool) : nat :=
  match zone, time, hires with
  | false, false, _ => 10 | false, true, false => 19 | false, true, true => 26
  | true, false, _ => 15 | true, true, false => 24 | true, true, true => 31
  end.
(** [attempt_order] (22) *)
Definition attempts : list (list dtok) :=
  [date_format true true true; date_format true false true; date_format false false true;
   date_format true true false; date_format true false false; date_format false false false].

(** * [strptime] *)
(** Each directive is a regular expression; its matches at the start of a text, in the order in which they are tried *)
Record fields := mkF { fy : Z; fm : Z; fd : Z; fH : Z; fM : Z; fS : Z; fu : Z; fz : option (option Z) }.
Definition no_fields : fields := mkF 1900 1 1 0 0 0 0 None.
Definition dig (lo hi : Z) (c : ascii) : bool := (48 + lo <=? code c) && (code c <=? 48 + hi).
Definition dval (c : ascii) : Z := code c - 48.
Definition one (p : ascii -> bool) (s : str) : list (Z * str) :=
  match s with a :: r => if p a then [(dval a, r)] else [] | [] => [] end.
Definition two (p q : ascii -> bool) (s : str) : list (Z * str) :=
  match s with a :: b :: r => if p a && q b then [(10 * dval a + dval b, r)] else [] | _ => [] end.
Definition any : ascii -> bool := dig 0 9.
Definition is (n : Z) : ascii -> bool := dig n n.
Definition m_year (s : str) : list (Z * str) :=
  match s with a :: b :: c :: d :: r => if any a && any b && any c && any d then [(1000 * dval a + 100 * dval b + 10 * dval c + dval d, r)] else [] | _ => [] end.
(** 1[0-2]|0[1-9]|[1-9] *)
Definition m_month (s : str) : list (Z * str) := two (is 1) (dig 0 2) s ++ two (is 0) (dig 1 9) s ++ one (dig 1 9) s.
(** 3[0-1]|[1-2]\d|0[1-9]|[1-9]| [1-9] *)
Definition m_day (s : str) : list (Z * str) :=
  two (is 3) (dig 0 1) s ++ two (dig 1 2) any s ++ two (is 0) (dig 1 9) s ++ one (dig 1 9) s ++
  match s with a :: r => if ceq a " "%char then one (dig 1 9) r else [] | [] => [] end.
(** 2[0-3]|[0-1]\d|\d *)
Definition m_hour (s : str) : list (Z * str) := two (is 2) (dig 0 3) s ++ two (dig 0 1) any s ++ one any s.
(** [0-5]\d|\d *)
Definition m_minute (s : str) : list (Z * str) := two (dig 0 5) any s ++ one any s.
(** 6[0-1]|[0-5]\d|\d *)
Definition m_second (s : str) : list (Z * str) := two (is 6) (dig 0 1) s ++ two (dig 0 5) any s ++ one any s.
(** [0-9]{1,6}: the longest first; the digits are a fraction *)
Fixpoint m_fraction (n : nat) (acc : Z) (s : str) : list (Z * str) :=
  match n, s with
  | S k, a :: r => if any a then m_fraction k (acc + dval a * 10 ^ Z.of_nat k) r ++ [(acc + dval a * 10 ^ Z.of_nat k, r)] else []
  | _, _ => []
  end.
Definition m_micro (s : str) : list (Z * str) := m_fraction 6 0 s.
Definition lit (c : ascii) (s : str) : list str := match s with a :: r => if ceq a c then [r] else [] | [] => [] end.
(** A literal character, in either case *)
Definition lit_i (c : ascii) (s : str) : list str := match s with a :: r => if ceq (lower_c a) (lower_c c) then [r] else [] | [] => [] end.
(** An optional colon: whether there is one *)
Definition m_colon (s : str) : list (bool * str) := map (fun r => (true, r)) (lit ":"%char s) ++ [(false, s)].
(** (:?[0-5]\d(\.\d{1,6})?)? with the colon, if the group takes part, and the microseconds *)
Definition m_zone_seconds (s : str) : list (option bool * Z * str) :=
  flat_map (fun c : bool * str =>
    flat_map (fun x : Z * str =>
      map (fun y : Z * str => (Some (fst c), fst x * us_second + fst y, snd y)) (flat_map m_micro (lit "."%char (snd x))) ++
      [(Some (fst c), fst x * us_second, snd x)]) (two (dig 0 5) any (snd c))) (m_colon s) ++
  [(None, 0, s)].
(** [+-]\d\d:?[0-5]\d(:?[0-5]\d(\.\d{1,6})?)?|Z (Z in upper case): the offset; [None] when colons are used inconsistently,
    which is a ValueError *)
Definition m_zone (s : str) : list (option Z * str) :=
  match s with
  | a :: r =>
    if ceq a "+"%char || ceq a "-"%char then
      flat_map (fun h : Z * str =>
      flat_map (fun c : bool * str =>
      flat_map (fun m : Z * str =>
        map (fun x : option bool * Z * str =>
               let '(c', us, rest) := x in
               let off := fst h * us_hour + fst m * us_minute + us in
               (if match c' with Some b => Bool.eqb b (fst c) | None => true end
                then Some (if ceq a "-"%char then - off else off) else None, rest)) (m_zone_seconds (snd m)))
      (two (dig 0 5) any (snd c))) (m_colon (snd h))) (two any any r)
    else if ceq a "Z"%char then [(Some 0, r)] else []
  | [] => []
  end.
Definition m_tok (t : dtok) (f : fields) (s : str) : list (fields * str) :=
  let '(mkF y m d H M sc u z) := f in
  match t with
  | TYear => map (fun p => (mkF (fst p) m d H M sc u z, snd p)) (m_year s)
  | TMonth => map (fun p => (mkF y (fst p) d H M sc u z, snd p)) (m_month s)
  | TDay => map (fun p => (mkF y m (fst p) H M sc u z, snd p)) (m_day s)
  | THour => map (fun p => (mkF y m d (fst p) M sc u z, snd p)) (m_hour s)
  | TMinute => map (fun p => (mkF y m d H (fst p) sc u z, snd p)) (m_minute s)
  | TSecond => map (fun p => (mkF y m d H M (fst p) u z, snd p)) (m_second s)
  | TMicro => map (fun p => (mkF y m d H M sc (fst p) z, snd p)) (m_micro s)
  | TZone => map (fun p => (mkF y m d H M sc u (Some (fst p)), snd p)) (m_zone s)
  | TLit c => map (fun r => (f, r)) (lit_i c s)
  | TWeekday | TMonthName => []
  end.
Fixpoint matches (ts : list dtok) (f : fields) (s : str) : list (fields * str) :=
  match ts with [] => [(f, s)] | t :: r => flat_map (fun p => matches r (fst p) (snd p)) (m_tok t f s) end.
(** The values the constructors of date, time and timezone accept *)
Definition make_date (f : fields) : option date :=
  if (1 <=? fy f) && (1 <=? fm f) && (fm f <=? 12) && (1 <=? fd f) && (fd f <=? month_length (fy f) (fm f)) && (fS f <=? 59) then
    let us := fH f * us_hour + fM f * us_minute + fS f * us_second + fu f in
    match fz f with
    | None => Some (mkDate (fy f) (fm f) (fd f) us None)
    | Some (Some o) => if Z.abs o <? us_day then Some (mkDate (fy f) (fm f) (fd f) us (Some o)) else None
    | Some None => None
    end
  else None.
(** The first match must use the whole text; [None]: ValueError *)
Definition strptime (ts : list dtok) (s : str) : option date :=
  match matches ts no_fields s with (f, []) :: _ => make_date f | _ => None end.
(** [string_to_date] (62-68); [None] an exception *)
Fixpoint try_formats (l : list (list dtok)) (s : str) : option date :=
  match l with [] => None | f :: r => match strptime f s with Some d => Some d | None => try_formats r s end end.
Definition string_to_date (s : str) : option date := try_formats attempts s.

(** * [strftime] *)
Definition weekday_names : list string := ["Monday"; "Tuesday"; "Wednesday"; "Thursday"; "Friday"; "Saturday"; "Sunday"]%string.
Definition month_names : list string := ["Jan"; "Feb"; "Mar"; "Apr"; "May"; "Jun"; "Jul"; "Aug"; "Sep"; "Oct"; "Nov"; "Dec"]%string.
Definition name_at (l : list string) (n : Z) : str := $(nth (Z.to_nat n) l ""%string).
Definition fill (w : nat) (n : Z) : str := zfill w (dec_str n).
Definition zone_text (o : option Z) : str :=
  match o with
  | None => []
  | Some o =>
    let a := Z.abs o in
    (if o <? 0 then "-"%char else "+"%char) :: fill 2 (a / us_hour) ++ fill 2 (a / us_minute mod 60) ++
    (if a mod us_minute =? 0 then []
     else fill 2 (a / us_second mod 60) ++ (if a mod us_second =? 0 then [] else "."%char :: fill 6 (a mod us_second)))
  end.
Definition tok_text (d : date) (t : dtok) : str :=
  match t with
  | TYear => dec_str (dyear d)
  | TMonth => fill 2 (dmonth d)
  | TDay => fill 2 (dday d)
  | THour => fill 2 (dmicro d / us_hour)
  | TMinute => fill 2 (dmicro d / us_minute mod 60)
  | TSecond => fill 2 (dmicro d / us_second mod 60)
  | TMicro => fill 6 (dmicro d mod us_second)
  | TZone => zone_text (doffset d)
  | TWeekday => name_at weekday_names ((ordinal (dyear d) (dmonth d) (dday d) + 6) mod 7)
  | TMonthName => name_at month_names (dmonth d - 1)
  | TLit c => [c]
  end.
Definition strftime (ts : list dtok) (d : date) : str := flat_map (tok_text d) ts.
(** [correct_format_for_date] (70-93) *)
Definition has_time (d : date) : bool := negb (dmicro d =? 0).
Definition has_micro (d : date) : bool := negb (dmicro d mod us_second =? 0).
(** [date_to_string] (95-99) *)
Definition date_to_string (d : date) : str :=
  zfill (date_padding (has_time d) (has_micro d) (is_aware d)) (strftime (date_format (has_time d) (has_micro d) (is_aware d)) d).

(** * datefunctions.py *)
(** What is computed with floats: [timedelta(seconds=float(q))] in microseconds ([None] when the number is too large), and
    [Decimal(str(td.total_seconds()))] *)
Record dlib := mkDL { dl_units : ucfg; dl_micros : Q -> option Z; dl_seconds : Z -> Q }.
(** [default_options] (41-54); the padding is empty *)
Definition human_format (time hires zone : bool) : list dtok :=
  [TWeekday] ++ lits ", " ++ [TDay; TLit "-"; TMonthName; TLit "-"; TYear] ++
  (if time then lits " at " ++ [THour; TLit ":"; TMinute; TLit ":"; TSecond] else []) ++
  (if hires then f_hires else []) ++ (if zone then lits " (" ++ [TZone] ++ lits ")" else []).
(** [func_dateformat] (110-115) *)
Definition fn_dateformat : impl := fun _ vs _ _ _ =>
  match vs with
  | [VStr s] => let* d := pym (string_to_date s) in just (VStr (strftime (human_format (has_time d) (has_micro d) (is_aware d)) d))
  | _ => pyerr
  end.
(** [get_unit('seconds')]; a normaliser without it fails later *)
Definition seconds_unit (N : normaliser) : out eunit :=
  do u <- get_unit (n_prefs N) (n_reg N) ($"seconds");
  match u with Some (UDef x) => Ok (mkEU (ulist x) false) | _ => Py end.
(** [func_dateadd] (117-129) *)
Definition date_add (D : dlib) (s : str) (v : value) (u : option eunit) : M opres :=
  let* d := pym (string_to_date s) in
  let* sec := lift (seconds_unit (u_norm (dl_units D))) in
  let* r := lift (convert_value (u_rels (dl_units D)) v u (Some sec) false) in
  match fst r with
  | VNum n =>
    let* t := pym (dl_micros D (to_decimal (l_prec (u_lib (dl_units D))) n)) in
    let* d' := pym (add_micros d t) in
    unitless (VStr (date_to_string d'))
  | _ => pyerr
  end.
Definition fn_dateadd (D : dlib) : impl := fun _ vs us _ _ =>
  match vs, us with
  | VStr s :: v :: _, _ :: u :: _ => date_add D s v u
  | _, _ => pyerr
  end.
(** [func_datesubtract] (131-132) *)
Definition fn_datesubtract (D : dlib) : impl := fun _ vs us _ _ =>
  match vs, us with
  | VStr s :: VNum n :: _, _ :: u :: _ => date_add D s (VNum (num_neg (l_prec (u_lib (dl_units D))) n)) u
  | _, _ => pyerr
  end.
(** The seconds (141-142): rounded to six places, or the precision if that is less *)
Definition difference_seconds (D : dlib) (t : Z) : option number :=
  let p := l_prec (u_lib (dl_units D)) in
  match num_make p None (dl_seconds D t) 1 with
  | Some n => let k := Z.min 6 p in
              match quantize p k (to_decimal p n) with
              | Some m => num_make p None (inject_Z m / inject_Z (10 ^ k)) 1
              | None => None
              end
  | None => None
  end.
(** [func_datedifference] (134-152) *)
Definition fn_datedifference (D : dlib) : impl := fun _ vs us _ _ =>
  match vs with
  | VStr s1 :: VStr s2 :: more =>
    let* d1 := pym (string_to_date s1) in
    let* d2 := pym (string_to_date s2) in
    if xorb (is_aware d1) (is_aware d2) then calc_err
    else
      let* n := pym (difference_seconds D (Z.abs (micros_of d1 - micros_of d2))) in
      let* sec := lift (seconds_unit (u_norm (dl_units D))) in
      match more with
      | [] => with_unit (Some sec) (VNum n)
      | VUnit x :: _ => let* r := lift (convert_value (u_rels (dl_units D)) (VNum n) (Some sec) (Some x) false) in
                        with_unit (snd r) (fst r)
      | _ => pyerr
      end
  | _ => pyerr
  end.

(** * Installation (dates.py:56-60, datefunctions.py:58-108, dateoperators.py:25-46) *)
Definition date_valid (U : ucfg) (t : str) : option (value -> option eunit -> option ref -> option str -> out bool) :=
  if seq_eqb t ($"date")
  then Some (fun v _ _ _ => Ok (match v with VStr s => match string_to_date s with Some _ => true | None => false end | _ => false end))
  else unit_valid U t.
Definition date_env (U : ucfg) : env :=
  mkEnv (date_valid U) (e_parse (unit_env U)) (e_norm (unit_env U)) (e_dims (unit_env U)) (e_tostr (unit_env U)).
Definition ty_date : typ := ty ($"date").
Definition time_only : list urestr := [mkURestr 1 (Some 1%nat) [($"time", 1)]].
Definition limited (us : list urestr) (d : opdef) : opdef :=
  mkOp (o_name d) (o_min d) (o_max d) (o_vals d) us (o_rel d) (o_multi d) (o_norm d) (o_excs d) (o_autoin d) (o_autores d) (o_impl d).
Definition date_op (sym : str) (f : impl) : str * operator :=
  infix sym (limited time_only (odef sym 2 (each_is 0 [[ty_date]; [tynum]]) false false false false f)).
Definition date_fun (name : str) (f : impl) : str * opdef :=
  (name, limited time_only (no_norm (snd (fdef name 2 2 (each_is 0 [[ty_date]; [tynum]]) f)))).
Definition date_levels (D : dlib) : list level :=
  map (fun l => match l with
                | (s, o) :: _ => if seq_eqb s ($"+") then l ++ [date_op ($"+%") (fn_dateadd D); date_op ($"-%") (fn_datesubtract D)] else l
                | [] => []
                end) (unit_levels (dl_units D)).
Definition date_table (D : dlib) : optable :=
  let T := unit_table (dl_units D) in mkTab (date_levels D) (t_uassign T) (t_umul T) (t_udiv T) (t_div T) (t_imul T).
Definition date_funcs (D : dlib) : list (str * opdef) :=
  unit_funcs (dl_units D) ++
  [ ($"dateformat", no_norm (snd (fdef ($"dateformat") 1 1 (all_are ty_date) fn_dateformat)));
    date_fun ($"dateadd") (fn_dateadd D);
    date_fun ($"datesubtract") (fn_datesubtract D);
    fdef ($"datedifference") 2 3 [mkRestr 0 (Some 1%nat) [ty_date]; mkRestr 2 (Some 2%nat) [ty_unit]] (fn_datedifference D) ].
Definition date_parsers (D : dlib) : list parser :=
  map (fun p => match p with PFunc _ => PFunc (map fst (date_funcs D)) | p => p end) (unit_parsers (dl_units D)).
Definition with_dates (D : dlib) : ecfg :=
  let U := dl_units D in
  mkG (l_prec (u_lib U)) (date_env U) (mkPC (date_parsers D) (date_table D) std_arr true) (date_funcs D)
      true false (fun _ => None) (fun _ => Calc) (finalize U).
