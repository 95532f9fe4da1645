(** C63: a date written for people. *)
From Coq Require Import ZArith QArith Ascii String List Bool Lia.
From Verif Require Import Base BaseProofs Dec Num NumSpec Bases Formats Units UnitsSpec UnitReg UnitData Install Syntax Pos Call Loop Parse Exec Std StdSpec StdRun StdProofs5 TextProofs UnitCalc UnitCalcSpec UnitRun
  Dates DateSpec DateProofs DateProofs2 DateProofs3 DateRun HumanSpec HumanProofs.
Import ListNotations.
Open Scope Z_scope.

Definition d_human : opdef := no_norm (snd (fdef ($"dateformat") 1 1 (all_are ty_date) fn_dateformat)).
Lemma human_def D stl ins : run_named (with_dates D) stl ($"dateformat") ins = call (date_env (dl_units D)) (callop (with_dates D) stl) d_human stl ins.
Proof. reflexivity. Qed.
Lemma human_call D stl x s st : rval x = VStr s ->
  run_named (with_dates D) stl ($"dateformat") [x] st =
  match string_to_date s with
  | Some d => (OOk (mkRes (VStr (strftime (human_format (has_time d) (has_micro d) (is_aware d)) d)) None None), st)
  | None => (OErr (XCalc true (MOp ($"dateformat"))), st)
  end.
Proof.
  intros Hx. rewrite human_def.
  rewrite call_scalars; [|cbn [forallb]; rewrite Hx; reflexivity|reflexivity]. unfold call_plain.
  replace (o_excs d_human) with false by reflexivity. assert (Fe : find_exc [x] = None) by (unfold find_exc; cbn [find]; rewrite Hx; reflexivity). rewrite Fe.
  assert (Sh : forallb (e_tostr (date_env (dl_units D))) [x] = true) by (cbn [forallb e_tostr date_env unit_env]; rewrite Hx; reflexivity).
  assert (V : validate (date_env (dl_units D)) d_human (map rval [x]) (map runit [x]) (map rref [x]) = match string_to_date s with Some _ => Ok tt | _ => Calc end).
  { unfold validate. cbn [d_human no_norm fdef snd o_min o_max o_vals o_units map length Nat.ltb Nat.leb obind out_each indices all_are rs_from rs_to rs_types Nat.min Nat.add Nat.sub seq nth_error].
    rewrite (date_type (dl_units D) x s Hx). destruct (string_to_date s); reflexivity. }
  assert (P : prepare (date_env (dl_units D)) d_human (map rval [x]) (map runit [x]) (map rref [x]) =
    match string_to_date s with Some _ => Ok ([VStr s], map runit [x], None, None) | None => Calc end).
  { unfold prepare. rewrite V. cbn [map]. rewrite Hx. destruct (string_to_date s); reflexivity. }
  rewrite Sh. rewrite P. destruct (string_to_date s) as [d|] eqn:E; [|reflexivity]. unfold bind, lift. cbn [fst snd].
  replace (o_impl d_human) with fn_dateformat by reflexivity. unfold fn_dateformat. rewrite E. reflexivity.
Qed.
(** The answer of [dateformat] is the date for people: the day of the week that comes up by counting from a known day, the
    day, the name of the month, the year, the time if it is not midnight and the offset from UTC if there is one. *)
Theorem c63_human : forall D stl x s d st, rval x = VStr s -> string_to_date s = Some d ->
  exists t, run_named (with_dates D) stl ($"dateformat") [x] st = (OOk (mkRes (VStr t) None None), st) /\ for_people d t.
Proof.
  intros D stl x s d st Hx Hd. eexists. split; [rewrite (human_call D stl x s st Hx), Hd; reflexivity|]. apply human_ok. exact (read_is_date s d Hd).
Qed.
Print Assumptions c63_human.
(** A text that is no date is an error. *)
Theorem c63_human_refused : forall D stl x s st, rval x = VStr s -> string_to_date s = None ->
  run_named (with_dates D) stl ($"dateformat") [x] st = (OErr (XCalc true (MOp ($"dateformat"))), st).
Proof. intros D stl x s st Hx Hd. now rewrite (human_call D stl x s st Hx), Hd. Qed.
Print Assumptions c63_human_refused.
Example c63_human_ex : map (danswer demo_norm) ["dateformat('2026-11-17')"; "dateformat('2000-02-29T23:59:59.000001-0430')"; "dateformat('1969-07-20T20:17:40+000030')"; "dateformat('2001-02-29')"]%string =
  ["'Tuesday, 17-Nov-2026'"; "'Tuesday, 29-Feb-2000 at 23:59:59.000001 (-0430)'"; "'Sunday, 20-Jul-1969 at 20:17:40 (+000030)'"; "execute error"]%string.
Proof. vm_compute. reflexivity. Qed.
