(** C28: failures reach the caller only as calculator exceptions. *)
From Coq Require Import ZArith QArith Ascii String List Bool.
From Verif Require Import Base Dec Num Bases Units Syntax Call Loop Parse Exec Formats Std StdRun UnitReg UnitCalc UnitRun Dates DateRun Regex RegexRun
  ErrorSpec ContainSpec ContainSpec2 ContainProofs2 ContainProofs4 ContainProofs6 ContainProofs7 ContainProofs9.
Import ListNotations.
Open Scope nat_scope.

(** For any calculator.  Assumed of it: how its operators are declared ([proper_table]), that the symbols in arrays are
    nothing else ([array_symbols]), and that each operator and function, called with values, gives a value or a calculator
    exception ([ops_contained], [fns_contained]; for the standard ones this is proved below).  Assumed of the text: reading
    it raises nothing but a parse exception, and it has no function pointers and no ranges.  Then whatever the text and the
    variables, the outcome is a response or an exception of the calculator, and that names a place in the text. *)
Theorem c28_contained : forall G u okop okfn n fl text s, proper_table u (g_ops G) -> array_symbols (g_parse G) ->
  ops_contained G u (cf_stl fl) okop -> fns_contained G u (cf_stl fl) okfn ->
  (forall r, sane_res u r -> is_exc (rval r) = false -> g_final G r <> Py) ->
  usable_vars u s ->
  match fst (parse_text (g_parse G) text (s_lft s)) with
  | POk sts _ _ => Forall (Forall (tame u okop okfn)) sts | PCalc | PPy => False | _ => True end ->
  shown_at text (fst (calculate G n fl text s)).
Proof. exact calculate_contained. Qed.
Print Assumptions c28_contained.

(** The standard calculator, with all its operators, and all its functions but [element], if every number can be
    displayed. *)
Theorem c28_standard : forall L n fl text s, usable_vars false s ->
  match fst (parse_text (std_pcfg L) text (s_lft s)) with
  | POk sts _ _ => Forall (Forall (tame false (fun t => find_op (std_table L) t <> None) (fun f => In f (map fst (std_funcs L)) /\ f <> $"element"))) sts
  | PCalc | PPy => False | _ => True end ->
  shown_at text (fst (calculate (displayed (std L)) n fl text s)).
Proof. exact std_contained. Qed.
Print Assumptions c28_standard.

(** None of the conditions can be left out: a number too large to display, a range from a text, an error taken out of an
    array, and digits that a base does not have. *)
Theorem c28_conditions_refuted : forall text, In text [$"10^80 + 'a'"; $"['1'..3]"; $"abs(element([1,2]/0,1))"; $"10zFF"] ->
  fst (calculate (std demo) 20 plain_flags text start) = CPy.
Proof. intros text H. repeat (destruct H as [<-|H]; [vm_compute; reflexivity|]). destruct H. Qed.
Print Assumptions c28_conditions_refuted.

(** The condition on the text holds of these, which fail in a nested expression, in an argument after an assignment, for lack
    of an operand, and in reading. *)
Definition c28_texts : list str :=
  [$"x = 2" ++ [newline] ++ $"y = abs([1, 2 * (x + 'a')])"; $"1 + sum([1, 2, 'b'])"; $"2 (3) * * 4"; $"1 + (2"].
Example c28_ex2 : forallb (fun text =>
  match fst (parse_text (std_pcfg demo) text None) with POk sts _ _ => forallb (forallb (std_tameb demo)) sts | PErr _ _ => true | _ => false end &&
  match fst (calculate (displayed (std demo)) 20 plain_flags text start) with CFail _ _ _ _ _ => true | _ => false end) c28_texts = true.
Proof. vm_compute. reflexivity. Qed.
Example c28_ex3 : forall text, In text c28_texts -> shown_at text (fst (calculate (displayed (std demo)) 20 plain_flags text start)).
Proof.
  intros text H. apply c28_standard; [intros n v w []|]. pose proof c28_ex2 as K. rewrite forallb_forall in K. specialize (K text H).
  apply andb_true_iff in K. destruct K as [K _]. cbn [s_lft start]. destruct (fst (parse_text (std_pcfg demo) text None)); try discriminate K; [|exact I].
  apply std_tameb_tame, K.
Qed.

(** The calculator with regular expressions, with any engine. *)
Theorem c28_regex : forall L R n fl text s, usable_vars false s ->
  match fst (parse_text (g_parse (with_regex L R)) text (s_lft s)) with
  | POk sts _ _ => Forall (Forall (tame false (fun t => find_op (regex_table L R) t <> None) (fun f => In f (map fst (regex_funcs L R)) /\ f <> $"element"))) sts
  | PCalc | PPy => False | _ => True end ->
  shown_at text (fst (calculate (displayed (with_regex L R)) n fl text s)).
Proof. exact regex_contained. Qed.
Print Assumptions c28_regex.

(** The calculator with units and dates, with any units whose names are apart from the symbols in arrays, if answers are not
    simplified. *)
Theorem c28_units : forall D n fl text s, u_simplify (dl_units D) = false -> names_apart (u_norm (dl_units D)) = true -> usable_vars true s ->
  match fst (parse_text (g_parse (with_dates D)) text (s_lft s)) with
  | POk sts _ _ => Forall (Forall (tame true (fun t => find_op (date_table D) t <> None) (fun f => In f (map fst (date_funcs D)) /\ f <> $"element"))) sts
  | PCalc | PPy => False | _ => True end ->
  shown_at text (fst (calculate (displayed (with_dates D)) n fl text s)).
Proof. exact dates_contained. Qed.
Print Assumptions c28_units.

(** The condition holds of the units of the repository, and of these texts, which fail in an operator, in an argument, in a
    conversion, and in reading. *)
Definition c28_dates : dlib := mkDL (mkU demo demo_norm true false demo_closer) demo_micros demo_seconds.
Definition is_fail (o : cout) : bool := match o with CFail _ _ _ _ _ => true | _ => false end.
Definition is_done (o : cout) : bool := match o with CDone _ => true | _ => false end.
Definition is_py (o : cout) : bool := match o with CPy => true | _ => false end.
Definition c28_unit_texts : list str :=
  [$"x = 3 metres" ++ [newline] ++ $"abs([1 metre, x + 2 seconds])"; $"1 + dateadd('2020-01-01', 3 metres)"; $"datedifference('2020-01-01', '2020-01-02', metres)";
   $"format(1 metre second)"; $"3 metres to (seconds"].
Example c28_ex4 : names_apart demo_norm && forallb (fun text =>
  text_tameb (with_dates c28_dates) true text && is_fail (fst (calculate (displayed (with_dates c28_dates)) 20 plain_flags text start))) c28_unit_texts = true.
Proof. vm_cast_no_check (@eq_refl bool true). Qed.
Lemma c28_checked D n fl text : u_simplify (dl_units D) = false -> names_apart (u_norm (dl_units D)) = true -> text_tameb (with_dates D) true text = true ->
  shown_at text (fst (calculate (displayed (with_dates D)) n fl text start)).
Proof. intros HS HN HT. apply (c28_units D n fl text start HS HN); [intros k v w []|]. exact (text_tame (with_dates D) true text HT). Qed.
Example c28_ex5 : forall text, In text c28_unit_texts -> shown_at text (fst (calculate (displayed (with_dates c28_dates)) 20 plain_flags text start)).
Proof.
  intros text H. pose proof c28_ex4 as K. apply andb_true_iff in K. destruct K as [K1 K2]. rewrite forallb_forall in K2. specialize (K2 text H).
  apply andb_true_iff in K2. destruct K2 as [K2 _]. apply c28_checked; [reflexivity|exact K1|exact K2].
Qed.
(** That answers are not simplified cannot be left out. *)
Theorem c28_simplify_refuted : is_py (fst (calculate (with_dates (demo_dates demo_norm)) 20 plain_flags ($"6 seconds * 3 metres feet") start)) = true /\
  is_done (fst (calculate (with_dates c28_dates) 20 plain_flags ($"6 seconds * 3 metres feet") start)) = true.
Proof. split; vm_cast_no_check (@eq_refl bool true). Qed.
Print Assumptions c28_simplify_refuted.

Definition c28_regex_texts : list str := [$"1 + regexget('abc', 'x', 'y')"; $"regexsub('abc', 'b', 'c') + 1"; $"('a' =~ (1"].
Example c28_ex6 : forallb (fun text =>
  text_tameb (with_regex demo demo_re) false text && is_fail (fst (calculate (displayed (with_regex demo demo_re)) 20 plain_flags text start))) c28_regex_texts = true.
Proof. vm_compute. reflexivity. Qed.
