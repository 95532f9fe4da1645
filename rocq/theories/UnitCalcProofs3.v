(** The conversion operator, and powers of numbers with units. *)
From Coq Require Import ZArith QArith Qpower Qabs Qround Qreduction Ascii String List Bool Lia Permutation.
From Verif Require Import Base BaseProofs Dec DecProofs Num NumSpec NumProofs NumProofs2 NumProofs3 NumProofs4 Bases BasesProofs Formats Units UnitsSpec UnitsProofs UnitsProofs2 UnitsProofs3 UnitsProofs4 UnitsProofs5 UnitReg Install Syntax Pos Call CallSpec CallProofs Loop Parse Exec ExecSpec Std StdSpec StdProofs StdProofs3 StdProofs4 StdProofs5 StdProofs6 StdProofs7 StdProofs9 TextSpec TextProofs ArithSpec ArithProofs UnitCalc UnitCalcSpec UnitCalcProofs UnitCalcProofs2.
Import ListNotations.
Open Scope Z_scope.

Definition d_to (U : ucfg) : opdef := odef ($"to") 2 (each_is 0 [[ty ($"number with unit"); ty_unit]; [ty_unit]]) false false false false (op_to U).
Lemma ufind_to U : find_op (unit_table U) ($"to") = Some (mkOper [None] [None] false (d_to U)). Proof. reflexivity. Qed.
(** What counts as a quantity for [to]: a number with a unit, or a unit by itself, which is one of it *)
Definition quantity_at (U : ucfg) (x : result) (a : number) (u : eunit) : Prop :=
  (rval x = VNum a /\ runit x = Some u) \/ (rval x = VUnit u /\ a = num_of_Z (l_prec (u_lib U)) 1).
Lemma convert_num rel a from to relative w c : convert_value rel (VNum a) from to relative = Ok (w, c) -> exists n, w = VNum n.
Proof.
  unfold convert_value. destruct (same_unit from to); [intros H; injection H as <- _; eauto|].
  destruct (unit_conversion rel (num_q a) (ulist_of from) (ulist_of to) relative) as [r| |]; cbn [obind]; intros H; try discriminate. injection H as <- _. eauto.
Qed.
Lemma uto_call U stl x y a u v s : quantity_at U x a u -> rval y = VUnit v ->
  callop (with_units U) stl ($"to") [x; y] s =
  match convert_value (u_rels U) (VNum a) (Some u) (Some v) false with
  | Ok (w, c) => (OOk (mkRes w (flag_simple c) None), s)
  | Calc => if shows (u_lib U) (rval x) && shows (u_lib U) (rval y) then (OErr (XCalc true (MOp ($"operator " ++ $"to"))), s) else (OPy, s)
  | Py => if shows (u_lib U) (rval x) && shows (u_lib U) (rval y) then (OErr (XCalc false (MOp ($"operator " ++ $"to"))), s) else (OPy, s)
  end.
Proof.
  intros Hx Hy. rewrite ucallop_eq, ufind_to. cbn [op_def].
  assert (Lx : is_list (rval x) = false /\ is_exc (rval x) = false) by (destruct Hx as [[-> _]|[-> _]]; auto).
  rewrite call_scalars; [| cbn [forallb]; rewrite (proj1 Lx), Hy; reflexivity | reflexivity].
  unfold call_plain. replace (o_excs (d_to U)) with false by reflexivity. unfold find_exc. cbn [find map]. rewrite (proj2 Lx), Hy. cbn [is_exc].
  assert (P : exists w u', prepare (unit_env U) (d_to U) [rval x; VUnit v] [runit x; runit y] [rref x; rref y] = Ok ([rval x; VUnit v], [runit x; runit y], None, None) /\
    unit_value (l_prec (u_lib U)) (rval x) (runit x) = (w, u') /\ w = VNum a /\ u' = Some u).
  { destruct Hx as [[E1 E2]|[E1 ->]].
    - rewrite E1, E2. do 2 eexists. split; [|split; [reflexivity|split; reflexivity]]. reflexivity.
    - rewrite E1. do 2 eexists. split; [|split; [reflexivity|split; reflexivity]]. reflexivity. }
  destruct P as (w & u' & P & P2 & -> & ->). rewrite P. replace (o_impl (d_to U)) with (op_to U) by reflexivity. unfold bind, lift, op_to. cbn [fst snd]. rewrite P2.
  destruct (convert_value (u_rels U) (VNum a) (Some u) (Some v) false) as [[w c]| |] eqn:E; cbn [fst snd forallb].
  - destruct (convert_num _ _ _ _ _ _ _ E) as [n ->]. reflexivity.
  - cbn [wrapped e_tostr unit_env rval]. rewrite Hy. reflexivity.
  - cbn [e_tostr unit_env rval]. rewrite Hy. reflexivity.
Qed.
(** Not a quantity on the left, or not a unit on the right *)
Definition has_type (U : ucfg) (t : str) (x : result) : bool := match unit_valid U t with Some f => match f (rval x) (runit x) (rref x) None with Ok b => b | _ => false end | None => false end.
Lemma uto_refused U stl x y s : is_list (rval x) = false -> is_exc (rval x) = false -> is_list (rval y) = false -> is_exc (rval y) = false ->
  (has_type U ($"number with unit") x = false /\ (forall u, rval x <> VUnit u)) \/ (forall v, rval y <> VUnit v) ->
  shows (u_lib U) (rval x) = true -> shows (u_lib U) (rval y) = true ->
  callop (with_units U) stl ($"to") [x; y] s = (OErr (XCalc true (MOp ($"operator " ++ $"to"))), s).
Proof.
  intros Lx Ex Ly Ey H Sx Sy. rewrite ucallop_eq, ufind_to. cbn [op_def]. rewrite call_scalars; [|cbn [forallb]; rewrite Lx, Ly; reflexivity|reflexivity].
  unfold call_plain. replace (o_excs (d_to U)) with false by reflexivity. unfold find_exc. cbn [find map]. rewrite Ex, Ey.
  assert (V : validate (unit_env U) (d_to U) [rval x; rval y] [runit x; runit y] [rref x; rref y] = Calc).
  { unfold validate. cbn [d_to odef o_min o_max o_vals each_is length Nat.ltb Nat.leb obind out_each indices rs_from rs_to rs_types Nat.min Nat.add Nat.sub seq nth_error].
    cbn [validate_types ty ty_unit validate_input e_valid unit_env obind].
    replace (unit_valid U ($"unit")) with (Some (fun (v : value) (_ : option eunit) (_ : option ref) (_ : option str) => Ok (match v with VUnit _ => true | _ => false end))) by reflexivity.
    unfold has_type in H. replace (unit_valid U ($"number with unit")) with (Some (fun (v : value) (u : option eunit) (_ : option ref) (_ : option str) => Ok (match any_number (l_fmt (u_lib U)) v, u with Ok _, Some _ => true | _, _ => false end))) in * by reflexivity.
    cbn [obind]. destruct H as [[H1 H2]|H].
    - rewrite H1. destruct (rval x); try reflexivity. now destruct (H2 u).
    - set (b := match any_number (l_fmt (u_lib U)) (rval x) with Ok _ => match runit x with Some _ => true | None => false end | _ => false end).
      destruct b; [|destruct (rval x)]; cbn [obind]; try reflexivity; (destruct (rval y) as [| | | |w| | |]; try reflexivity; exfalso; exact (H w eq_refl)). }
  unfold prepare. rewrite V. cbn [obind]. unfold bind, lift. cbn [wrapped forallb e_tostr unit_env]. rewrite Sx, Sy. reflexivity.
Qed.

Lemma finish_unit (d : opdef) a b n u ru : o_autores d = true -> ncast n = ncast a ->
  finish d (format_of a b) ru (mkOR (VNum n) (Some u) None) = mkRes (VNum (with_cast n (format_of a b))) u None.
Proof. intros A C. pose proof (finish_cast d a b n A C) as P. unfold finish in *. cbn [or_val or_unit or_ref] in *. injection P as P. now rewrite P. Qed.

(** * Powers *)
Lemma upow_call U stl x y a b n s u : number_at (u_lib U) x a -> number_at (u_lib U) y b -> runit x = Some u -> runit y = None -> nden b = 1 ->
  num_pow (l_prec (u_lib U)) (f_pow (l_fmt (u_lib U))) a b = Some n -> ncast n = ncast a ->
  callop (with_units U) stl ($"^") [x; y] s = (OOk (mkRes (VNum (with_cast n (format_of a b))) (option_map (fun l => mkEU l false) (upower (eu_list u) (nnum b))) None), s).
Proof.
  intros Hx Hy Ux Uy Db Hn Cn. rewrite ucallop_eq, ufind_caret. cbn [op_def]. rewrite (utakes2_call U _ (d_pow (u_lib U)) stl x y a b s); [|repeat split; auto|exact Hx|exact Hy].
  unfold normalised. replace (o_norm (d_pow (u_lib U))) with false by reflexivity. replace (o_impl (d_pow (u_lib U))) with (op_power (u_lib U)) by reflexivity.
  rewrite Ux, Uy. unfold bind, lift, op_power. cbn [fst snd]. unfold pym. rewrite Hn. unfold ret, bind, int_power. rewrite Db. cbn [Z.eqb Pos.eqb]. unfold ret, with_unit.
  unfold ret. rewrite (finish_unit (d_pow (u_lib U)) a b n _ _ eq_refl Cn). reflexivity.
Qed.
Lemma upow_refused U stl x y a b n s v : number_at (u_lib U) x a -> number_at (u_lib U) y b -> runit y = Some v ->
  num_pow (l_prec (u_lib U)) (f_pow (l_fmt (u_lib U))) a b = Some n -> shows (u_lib U) (rval x) = true -> shows (u_lib U) (rval y) = true ->
  callop (with_units U) stl ($"^") [x; y] s = (OErr (XCalc true (MOp ($"operator " ++ $"^"))), s).
Proof.
  intros Hx Hy Uy Hn Sx Sy. rewrite ucallop_eq, ufind_caret. cbn [op_def]. rewrite (utakes2_call U _ (d_pow (u_lib U)) stl x y a b s); [|repeat split; auto|exact Hx|exact Hy].
  unfold normalised. replace (o_norm (d_pow (u_lib U))) with false by reflexivity. replace (o_impl (d_pow (u_lib U))) with (op_power (u_lib U)) by reflexivity.
  rewrite Uy. unfold bind, lift, op_power. cbn [fst snd]. unfold pym. rewrite Hn. unfold ret, bind, calc_err, raise. cbn [wrapped]. rewrite Sx, Sy. reflexivity.
Qed.

(** * Units by themselves *)
Definition d_units (U : ucfg) (sym : str) f : opdef := odef sym 2 (all_are ty_unit) false false false false f.
Definition d_assign (U : ucfg) : opdef := odef ($"UNIT_ASSIGNMENT") 2 (each_is 0 [[tynum]; [ty_unit]]) false false false false (op_multiply (u_lib U)).
Lemma ufind_umul U : find_op (unit_table U) ($"UNIT_MULTIPLY") = Some (mkOper [None] [None] false (d_units U ($"UNIT_MULTIPLY") (op_multiply (u_lib U)))). Proof. reflexivity. Qed.
Lemma ufind_udiv U : find_op (unit_table U) ($"UNIT_DIVIDE") = Some (mkOper [None] [None] false (d_units U ($"UNIT_DIVIDE") (op_divide (u_lib U)))). Proof. reflexivity. Qed.
Lemma ufind_assign U : find_op (unit_table U) ($"UNIT_ASSIGNMENT") = Some (mkOper [None] [None] false (d_assign U)). Proof. reflexivity. Qed.
Lemma uunits_call U stl sym sg x y u v s : In (sym, sg) [($"UNIT_MULTIPLY", 1); ($"UNIT_DIVIDE", -1)] -> rval x = VUnit u -> rval y = VUnit v ->
  callop (with_units U) stl sym [x; y] s = match upl_new [(eu_list u, 1); (eu_list v, sg)] with
    | Some l => (OOk (mkRes (VUnit (mkEU l true)) None None), s)
    | None => if shows (u_lib U) (VUnit u) && shows (u_lib U) (VUnit v) then (OErr (XCalc false (MOp ($"operator " ++ sym))), s) else (OPy, s)
    end.
Proof.
  intros H Hx Hy. destruct x as [vx ux rx ox], y as [vy uy ry oy]. cbn [rval] in Hx, Hy. subst vx vy.
  assert (G : exists d f, find_op (unit_table U) sym = Some (mkOper [None] [None] false d) /\ o_excs d = false /\ o_impl d = op_scale (u_lib U) sg f /\ o_name d = $"operator " ++ sym /\ must_be d 0 s_array None = false /\
    prepare (unit_env U) d [VUnit u; VUnit v] [ux; uy] [rx; ry] = Ok ([VUnit u; VUnit v], [ux; uy], None, None)).
  { destruct H as [H|[H|[]]]; injection H as <- <-; do 2 eexists; (split; [apply ufind_umul || apply ufind_udiv|]); repeat split; reflexivity. }
  destruct G as (d & f & F & X & I & Nm & Mb & P). rewrite ucallop_eq, F. cbn [op_def]. rewrite call_scalars; [|reflexivity|exact Mb].
  unfold call_plain. rewrite X. unfold find_exc. cbn [find map rval runit rref is_exc]. rewrite P, I, Nm. unfold bind, lift. cbn [fst snd]. unfold op_scale.
  destruct (upl_new _); [reflexivity|]. unfold pyerr. cbn [forallb e_tostr unit_env rval]. rewrite andb_true_r. reflexivity.
Qed.
Lemma uassign_call U stl x y a u n s : number_at (u_lib U) x a -> rval y = VUnit u -> runit x = None ->
  num_mul (l_prec (u_lib U)) a (num_of_Z (l_prec (u_lib U)) 1) = Some n -> ncast n = ncast a ->
  callop (with_units U) stl ($"UNIT_ASSIGNMENT") [x; y] s = (OOk (mkRes (VNum n) (Some u) None), s).
Proof.
  intros Hx Hy Ux Hn Cn. rewrite ucallop_eq, ufind_assign. cbn [op_def]. destruct (is_num_scalar (u_lib U) x a Hx) as [Lx Ex].
  rewrite call_scalars; [|cbn [forallb]; rewrite Lx, Hy; reflexivity|reflexivity]. unfold call_plain. cbn [d_assign odef o_excs]. unfold find_exc. cbn [find map]. rewrite Ex, Hy. cbn [is_exc].
  assert (P : prepare (unit_env U) (d_assign U) [rval x; VUnit u] [runit x; runit y] [rref x; rref y] = Ok ([VNum a; VUnit u], [runit x; runit y], ncast a, None)).
  { unfold prepare.
    assert (V : validate (unit_env U) (d_assign U) [rval x; VUnit u] [runit x; runit y] [rref x; rref y] = Ok tt).
    { unfold validate. cbn [d_assign odef o_min o_max o_vals each_is length Nat.ltb Nat.leb obind out_each indices rs_from rs_to rs_types Nat.min Nat.add Nat.sub seq nth_error].
      rewrite (unit_type_num U x a _ Hx). reflexivity. }
    assert (C : convert_numbers (unit_env U) (d_assign U) [rval x; VUnit u] = ([VNum a; VUnit u], ncast a)).
    { unfold number_at in Hx. unfold convert_numbers. cbn [d_assign odef o_vals each_is fold_left rs_types existsb is_plain_number tynum ty ty_unit].
      replace (seq_eqb ($"number") s_number) with true by reflexivity. replace (seq_eqb ($"unit") s_number) with false by reflexivity. cbn [orb].
      unfold convert_range; cbn [rs_from rs_to length Nat.add Nat.sub seq fold_left]; unfold convert_one; cbn [nth_error]; rewrite unit_to_number, Hx. reflexivity. }
    rewrite V. cbn [obind]. replace (o_autoin (d_assign U)) with true by reflexivity. rewrite C. cbn [fst snd]. reflexivity. }
  fold (d_assign U). rewrite P. unfold bind, lift. cbn [fst snd]. replace (o_impl (d_assign U)) with (op_multiply (u_lib U)) by reflexivity.
  unfold op_multiply, op_scale. rewrite Ux. cbn [unit_value]. unfold pym. rewrite Hn. unfold bind, ret, finish. cbn [or_val or_unit or_ref join_units Z.eqb Pos.eqb].
  destruct n as [p q c w]. cbn [ncast] in Cn. subst c. unfold with_cast. cbn. destruct (ncast a); reflexivity.
Qed.
Lemma uunitpow_call U stl x y b u s : rval x = VUnit u -> number_at (u_lib U) y b -> nden b = 1 ->
  callop (with_units U) stl ($"^") [x; y] s = (OOk (mkRes (match upower (eu_list u) (nnum b) with Some l => VUnit (mkEU l false) | None => VNone end) None None), s).
Proof.
  intros Hx Hy Db. rewrite ucallop_eq, ufind_caret. cbn [op_def]. destruct (is_num_scalar (u_lib U) y b Hy) as [Ly Ey].
  rewrite call_scalars; [|cbn [forallb]; rewrite Ly, Hx; reflexivity|reflexivity]. unfold call_plain. replace (o_excs (d_pow (u_lib U))) with false by reflexivity. unfold find_exc. cbn [find map]. rewrite Ey, Hx. cbn [is_exc].
  assert (P : prepare (unit_env U) (d_pow (u_lib U)) [VUnit u; rval y] [runit x; runit y] [rref x; rref y] = Ok ([VUnit u; VNum b], [runit x; runit y], ncast b, None)).
  { unfold prepare.
    assert (V : validate (unit_env U) (d_pow (u_lib U)) [VUnit u; rval y] [runit x; runit y] [rref x; rref y] = Ok tt).
    { unfold validate. cbn [d_pow odef o_min o_max o_vals base_exponent each_is length Nat.ltb Nat.leb obind out_each indices rs_from rs_to rs_types Nat.min Nat.add Nat.sub seq nth_error].
      rewrite (unit_type_num U y b _ Hy). reflexivity. }
    assert (C : convert_numbers (unit_env U) (d_pow (u_lib U)) [VUnit u; rval y] = ([VUnit u; VNum b], ncast b)).
    { unfold number_at in Hy. unfold convert_numbers. cbn [d_pow odef o_vals base_exponent each_is fold_left rs_types existsb is_plain_number tynum ty].
      replace (seq_eqb ($"number") s_number) with true by reflexivity. cbn [orb].
      unfold convert_range; cbn [rs_from rs_to length Nat.add Nat.sub seq fold_left]; unfold convert_one; cbn [nth_error]; rewrite !unit_to_number, Hy. reflexivity. }
    rewrite V. cbn [obind]. replace (o_autoin (d_pow (u_lib U))) with true by reflexivity. rewrite C. cbn [fst snd]. reflexivity. }
  rewrite P. unfold bind, lift. cbn [fst snd]. replace (o_impl (d_pow (u_lib U))) with (op_power (u_lib U)) by reflexivity.
  unfold op_power, int_power. rewrite Db. cbn [Z.eqb Pos.eqb]. unfold ret, bind. destruct (upower (eu_list u) (nnum b)); reflexivity.
Qed.
