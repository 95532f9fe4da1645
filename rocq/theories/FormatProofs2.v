(** Calls that change the format of a number. *)
From Coq Require Import ZArith QArith Qabs Ascii String List Bool Lia.
From Verif Require Import Base BaseProofs Dec Num NumSpec Lex Bases Formats Units UnitReg Syntax Pos Call Loop Parse Exec Std StdSpec StdProofs5 StdProofs7 StdProofs9 TextProofs UnitCalc UnitCalcProofs DateSpec Floats FloatSpec FloatProofs FormatSpec.
Import ListNotations.
Open Scope nat_scope.

(** Functions that leave the units alone *)
Lemma raw_prepare U d xs l mn mx : takes_number d -> o_norm d = false -> o_min d = Some mn -> o_max d = Some mx -> mn <= length xs -> length xs <= mx ->
  Forall2 (number_at (u_lib U)) xs l ->
  prepare (unit_env U) d (map rval xs) (map runit xs) (map rref xs) = Ok (map VNum l, map runit xs, first_format l, None).
Proof.
  intros (Ev & Eu & Ea & _) En Emin Emax Hmn Hmx H. unfold prepare.
  assert (V : validate (unit_env U) d (map rval xs) (map runit xs) (map rref xs) = Ok tt).
  { unfold validate. rewrite Emin, Emax, Eu, Ev, map_length.
    destruct (Nat.ltb_spec (length xs) mn); [lia|]. destruct (Nat.ltb_spec mx (length xs)); [lia|]. cbn [obind all_are out_each rs_from rs_to rs_types].
    rewrite out_each_ok; [reflexivity|]. intros i Hi. unfold indices in Hi. apply in_seq in Hi.
    destruct (at_number U xs l i H ltac:(lia)) as (x & a & E1 & _ & Hx). rewrite !nth_error_map, E1. cbn [option_map]. exact (unit_type_num U x a [] Hx). }
  assert (C : convert_numbers (unit_env U) d (map rval xs) = (map VNum l, first_format l)).
  { unfold convert_numbers. rewrite Ev. cbn [all_are fold_left rs_types existsb is_plain_number tynum ty].
    replace (seq_eqb ($"number") s_number) with true by reflexivity. cbn [orb]. unfold convert_range. cbn [rs_from rs_to]. rewrite map_length, Nat.sub_0_r.
    exact (convert_all U l [] [] xs None (Forall2_nil _) H). }
  rewrite V, Ea, C. cbn [obind fst snd]. rewrite (all_numbers_ok U d l Ev 0), En. reflexivity.
Qed.
Lemma raw_call U h d stl xs l mn mx s : takes_number d -> o_norm d = false -> o_min d = Some mn -> o_max d = Some mx -> mn <= length xs -> length xs <= mx ->
  Forall2 (number_at (u_lib U)) xs l ->
  call (unit_env U) h d stl xs s =
  match o_impl d h (map VNum l) (map runit xs) (map rref xs) stl s with
  | (OOk o, s') => (OOk (finish d (first_format l) None o), s')
  | (OErr e, s') => if wrapped e then (OErr e, s') else if forallb (fun x => shows (u_lib U) (rval x)) xs then (OErr (XCalc true (MOp (o_name d))), s') else (OPy, s')
  | (OPy, s') => if forallb (fun x => shows (u_lib U) (rval x)) xs then (OErr (XCalc false (MOp (o_name d))), s') else (OPy, s')
  | (OFuel, s') => (OFuel, s')
  end.
Proof.
  intros Hd En Emin Emax Hmn Hmx H. rewrite call_scalars; [| |apply must_not_array, Hd].
  - unfold call_plain. pose proof Hd as (_ & _ & _ & Ee). rewrite Ee.
    assert (X : find_exc xs = None).
    { clear - H. unfold find_exc. induction H as [|x a xs l Hx H IH]; [reflexivity|]. cbn [map find]. destruct (is_num_scalar _ _ _ Hx) as [_ ->]. exact IH. }
    rewrite X, (raw_prepare U d xs l mn mx Hd En Emin Emax Hmn Hmx H). unfold bind, lift. cbn [fst snd e_tostr unit_env].
    destruct (o_impl d h (map VNum l) (map runit xs) (map rref xs) stl s) as [[o|e| |] s']; reflexivity.
  - clear - H. induction H as [|x a xs l Hx H IH]; [reflexivity|]. cbn [forallb]. destruct (is_num_scalar _ _ _ Hx) as [-> _]. exact IH.
Qed.

(** dec, bin, oct and hex *)
Definition d_convert (f : str) (c : option cast) : opdef := snd (fdef f 1 1 (all_are tynum) (fn_convert c)).
Lemma run_convert U stl f c ins : In (f, c) conversions ->
  run_named (with_units U) stl f ins = call (unit_env U) (callop (with_units U) stl) (no_result (d_convert f c)) stl ins.
Proof. intros H. unfold conversions in H. cbn [In] in H. repeat (destruct H as [H|H]; [injection H as <- <-; reflexivity|]). destruct H. Qed.
Lemma convert_call U stl f c x a s : In (f, c) conversions -> number_at (u_lib U) x a ->
  run_named (with_units U) stl f [x] s = (OOk (mkRes (VNum (mkNum (nnum a) (nden a) c None)) (runit x) None), s).
Proof.
  intros H Hx. rewrite (run_convert U stl f c [x] H).
  rewrite (fnum_call U _ (no_result (d_convert f c)) stl [x] [a] 1 1 s); [|repeat split|reflexivity..|cbn; lia|cbn; lia|constructor; [exact Hx|constructor]].
  cbn [map]. rewrite norm_one. unfold bind, lift. cbn [fst snd no_result d_convert fdef o_impl fn_convert]. unfold just, ret. cbn [fst snd].
  unfold finish. cbn [or_val or_unit or_ref no_result o_autores]. unfold convert_to, with_cast, num_copy, set_width. cbn [nnum nden ncast nwidth].
  destruct (first_format [a]); reflexivity.
Qed.

(** The operator as *)
Definition d_as : opdef := no_result (odef ($"as") 2 (each_is 0 [[tynum]; [ty s_repr]]) false false true false op_as).
Lemma find_as U : find_op (unit_table U) ($"as") = Some (mkOper [None] [None] false d_as).
Proof. reflexivity. Qed.
Lemma valid_repr U t u r : validate_types (unit_env U) [ty s_repr] (VStr t) u r = if mem_str t number_types then Ok tt else Calc.
Proof.
  assert (V : validate_input (unit_env U) (ty s_repr) (VStr t) u r = Ok (mem_str t number_types)) by reflexivity.
  cbn [validate_types]. rewrite V. cbn [obind]. destruct (mem_str t number_types); reflexivity.
Qed.
Lemma as_prepare U x y a t : number_at (u_lib U) x a -> rval y = VStr t ->
  prepare (unit_env U) d_as [rval x; rval y] [runit x; runit y] [rref x; rref y] =
  if mem_str t number_types then Ok ([VNum a; VStr t], [runit x; runit y], ncast a, None) else Calc.
Proof.
  intros Hx Hy. unfold prepare.
  assert (V : validate (unit_env U) d_as [rval x; rval y] [runit x; runit y] [rref x; rref y] = if mem_str t number_types then Ok tt else Calc).
  { unfold validate. cbn [d_as no_result odef o_min o_max o_vals o_units length Nat.ltb Nat.leb obind each_is out_each indices rs_from rs_to rs_types Nat.min Nat.add Nat.sub seq nth_error].
    rewrite (unit_type_num U x a [] Hx), Hy, valid_repr. cbn [obind]. destruct (mem_str t number_types); reflexivity. }
  rewrite V. destruct (mem_str t number_types); [|reflexivity].
  assert (C : convert_numbers (unit_env U) d_as [rval x; rval y] = ([VNum a; VStr t], ncast a)).
  { unfold number_at in Hx. unfold convert_numbers. cbn [d_as no_result odef o_vals each_is fold_left rs_types existsb is_plain_number tynum ty].
    replace (seq_eqb ($"number") s_number) with true by reflexivity. replace (seq_eqb s_repr s_number) with false by reflexivity. cbn [orb].
    unfold convert_range. cbn [rs_from rs_to length Nat.add Nat.sub seq fold_left Nat.min]. unfold convert_one. cbn [nth_error]. rewrite !unit_to_number, Hx, Hy. reflexivity. }
  cbn [obind]. replace (o_autoin d_as) with true by reflexivity. rewrite C. reflexivity.
Qed.
Lemma as_call U stl x y a t s : number_at (u_lib U) x a -> rval y = VStr t ->
  run_named (with_units U) stl ($"as") [x; y] s =
  if mem_str t number_types then
    match assoc t representations with
    | Some (Some c) => (OOk (mkRes (VNum (mkNum (nnum a) (nden a) c None)) (runit x) None), s)
    | Some None => if shows (u_lib U) (rval x) then (OErr (XCalc false (MOp ($"operator as"))), s) else (OPy, s)
    | None => if shows (u_lib U) (rval x) then (OErr (XCalc true (MOp ($"operator as"))), s) else (OPy, s)
    end
  else if shows (u_lib U) (rval x) then (OErr (XCalc true (MOp ($"operator as"))), s) else (OPy, s).
Proof.
  intros Hx Hy. unfold run_named. change (g_ops (with_units U)) with (unit_table U). rewrite find_as.
  rewrite ucallop_eq, find_as. cbn [op_def].
  destruct (is_num_scalar _ _ _ Hx) as [Lx Ex]. rewrite call_scalars; [| |reflexivity].
  2:{ cbn [forallb]. rewrite Lx, Hy. reflexivity. }
  unfold call_plain. replace (o_excs d_as) with false by reflexivity. unfold find_exc. cbn [find]. rewrite Ex. assert (is_exc (rval y) = false) as -> by (rewrite Hy; reflexivity). cbn [map].
  rewrite (as_prepare U x y a t Hx Hy). cbn [forallb e_tostr unit_env]. rewrite Hy. cbn [shows]. rewrite !andb_true_r.
  replace (o_name d_as) with ($"operator as") by reflexivity.
  destruct (mem_str t number_types).
  - unfold bind, lift. cbn [fst snd]. change (o_impl d_as) with op_as. unfold op_as.
    destruct (assoc t representations) as [[c|]|].
    + assert (X : forall w, finish d_as (ncast a) None (mkOR (VNum (convert_to c a)) w None) = mkRes (VNum (mkNum (nnum a) (nden a) c None)) (match w with Some u => u | None => None end) None).
      { intros w. unfold finish. cbn [or_val or_unit or_ref]. replace (o_autores d_as) with false by reflexivity. destruct (ncast a), w as [[u|]|]; reflexivity. }
      destruct (runit x) as [u|]; unfold with_unit, just, ret; rewrite X; reflexivity.
    + unfold pyerr. reflexivity.
    + unfold calc_err. reflexivity.
  - reflexivity.
Qed.

(** scientific *)
Definition d_scientific (U : ucfg) : opdef := no_norm (no_result (snd (fdef ($"scientific") 1 2 (all_are tynum) (fn_scientific (u_lib U))))).
Lemma run_scientific U stl ins : run_named (with_units U) stl ($"scientific") ins = call (unit_env U) (callop (with_units U) stl) (d_scientific U) stl ins.
Proof. reflexivity. Qed.
Lemma scientific_call U stl x a s : number_at (u_lib U) x a ->
  run_named (with_units U) stl ($"scientific") [x] s = (OOk (mkRes (VNum (mkNum (nnum a) (nden a) (Some CExp) None)) (runit x) None), s).
Proof.
  intros Hx. rewrite run_scientific. rewrite (raw_call U _ (d_scientific U) stl [x] [a] 1 2 s); [|repeat split|reflexivity..|cbn; lia|cbn; lia|constructor; [exact Hx|constructor]].
  change (o_impl (d_scientific U)) with (fn_scientific (u_lib U)). cbn [map]. unfold fn_scientific, scientific, bind, lift, with_unit, ret.
  unfold finish. cbn [or_val or_unit or_ref]. replace (o_autores (d_scientific U)) with false by reflexivity. destruct (first_format [a]), (runit x); reflexivity.
Qed.
Lemma scientific_places U stl x y a b s : number_at (u_lib U) x a -> number_at (u_lib U) y b ->
  run_named (with_units U) stl ($"scientific") [x; y] s =
  match scientific (l_fmt (u_lib U)) a (Some b) with
  | Ok r => (OOk (mkRes (VNum r) (runit x) None), s)
  | Calc => if shows (u_lib U) (rval x) && shows (u_lib U) (rval y) then (OErr (XCalc true (MOp ($"scientific"))), s) else (OPy, s)
  | Py => if shows (u_lib U) (rval x) && shows (u_lib U) (rval y) then (OErr (XCalc false (MOp ($"scientific"))), s) else (OPy, s)
  end.
Proof.
  intros Hx Hy. rewrite run_scientific. rewrite (raw_call U _ (d_scientific U) stl [x; y] [a; b] 1 2 s); [|repeat split|reflexivity..|cbn; lia|cbn; lia|repeat (constructor; [assumption|]); constructor].
  change (o_impl (d_scientific U)) with (fn_scientific (u_lib U)). cbn [map forallb]. rewrite andb_true_r. unfold fn_scientific.
  destruct (scientific (l_fmt (u_lib U)) a (Some b)) as [r| |]; unfold bind, lift, with_unit, ret; try reflexivity.
  unfold finish. cbn [or_val or_unit or_ref]. replace (o_autores (d_scientific U)) with false by reflexivity. destruct (first_format [a; b]), (runit x); reflexivity.
Qed.
