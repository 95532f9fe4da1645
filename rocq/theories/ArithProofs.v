(** The arithmetic operators on operands of any format. *)
From Coq Require Import ZArith QArith Qabs Qround Ascii String List Bool Lia.
From Verif Require Import Base BaseProofs Dec DecProofs Num NumSpec NumProofs NumProofs2 NumProofs3 NumProofs4 Bases BasesProofs Formats Units Install Syntax Pos Call CallSpec CallProofs Loop Parse Exec ExecSpec Std StdSpec StdProofs StdProofs3 StdProofs4 StdProofs5 StdProofs6 StdProofs7 StdProofs9 TextSpec TextProofs.
Import ListNotations.
Open Scope nat_scope.

(** * Calls of operations on two operands that count as numbers *)
Definition num_or_unit : list restr := each_is 0 [[tynum; ty ($"unit")]; [tynum; ty ($"unit")]].
Definition base_exponent : list restr := each_is 0 [[tynum; ty ($"unit")]; [tynum]].
Definition takes2 (d : opdef) : Prop :=
  (o_vals d = all_are tynum \/ o_vals d = num_or_unit \/ o_vals d = base_exponent) /\
  o_min d = Some 2 /\ o_max d = Some 2 /\ o_units d = [] /\ o_autoin d = true /\ o_excs d = false.
Lemma type_num_first L x n ts : number_at L x n -> validate_types (std_env L) (tynum :: ts) (rval x) (runit x) (rref x) = Ok tt.
Proof.
  intros H. pose proof (type_num L x n H) as T. cbn [validate_types] in *. destruct (validate_input (std_env L) tynum (rval x) (runit x) (rref x)) as [[]| |]; try discriminate; reflexivity.
Qed.
Lemma takes2_prepare L d x y a b : takes2 d -> number_at L x a -> number_at L y b ->
  prepare (std_env L) d [rval x; rval y] [runit x; runit y] [rref x; rref y] = Ok ([VNum a; VNum b], [runit x; runit y], format_of a b, None).
Proof.
  intros (Ev & Emin & Emax & Eu & Ea & _) Hx Hy. unfold prepare.
  assert (V : validate (std_env L) d [rval x; rval y] [runit x; runit y] [rref x; rref y] = Ok tt).
  { unfold validate. rewrite Emin, Emax, Eu. destruct Ev as [-> | [-> | ->]].
    all: cbn [all_are num_or_unit base_exponent each_is length Nat.ltb Nat.leb obind out_each indices rs_from rs_to rs_types Nat.min Nat.add Nat.sub seq nth_error].
    all: rewrite !(type_num_first L x a _ Hx), !(type_num_first L y b _ Hy); reflexivity. }
  assert (C : convert_numbers (std_env L) d [rval x; rval y] = ([VNum a; VNum b], format_of a b)).
  { unfold number_at in Hx, Hy. unfold convert_numbers. destruct Ev as [-> | [-> | ->]].
    all: cbn [all_are num_or_unit base_exponent each_is fold_left rs_types existsb is_plain_number tynum ty].
    all: replace (seq_eqb ($"number") s_number) with true by reflexivity; cbn [orb].
    all: unfold convert_range; cbn [rs_from rs_to length Nat.add Nat.sub seq fold_left]; unfold convert_one; cbn [nth_error]; rewrite !to_number_any, Hx, Hy; cbn [fst snd list_set].
    all: unfold format_of, first_some; destruct (ncast a); reflexivity. }
  assert (A : all_numbers (std_env L) d 0 [VNum a; VNum b] = true).
  { cbn [all_numbers]. unfold can_be. destruct Ev as [-> | [-> | ->]]; reflexivity. }
  rewrite V, Ea, C. cbn [obind fst snd]. rewrite A. reflexivity.
Qed.
Lemma takes2_call L h d stl x y a b s : takes2 d -> number_at L x a -> number_at L y b ->
  call (std_env L) h d stl [x; y] s =
  match o_impl d h [VNum a; VNum b] [runit x; runit y] [rref x; rref y] stl s with
  | (OOk o, s') => (OOk (finish d (format_of a b) None o), s')
  | (OErr e, s') => if wrapped e then (OErr e, s') else if shows L (rval x) && shows L (rval y) then (OErr (XCalc true (MOp (o_name d))), s') else (OPy, s')
  | (OPy, s') => if shows L (rval x) && shows L (rval y) then (OErr (XCalc false (MOp (o_name d))), s') else (OPy, s')
  | (OFuel, s') => (OFuel, s')
  end.
Proof.
  intros Hd Hx Hy. destruct (is_num_scalar L x a Hx) as [Lx Ex]. destruct (is_num_scalar L y b Hy) as [Ly Ey]. rewrite call_scalars.
  - unfold call_plain. replace (o_excs d) with false by (symmetry; apply Hd). unfold find_exc. cbn [find map]. rewrite Ex, Ey.
    rewrite (takes2_prepare L d x y a b Hd Hx Hy). unfold bind, lift. cbn [fst snd forallb e_tostr std_env]. rewrite andb_true_r.
    destruct (o_impl d h _ _ _ stl s) as [[o|e| |] s']; reflexivity.
  - cbn [forallb]. rewrite Lx, Ly. reflexivity.
  - unfold must_be. destruct Hd as ([-> | [-> | ->]] & _); reflexivity.
Qed.

(** * The operators *)
Definition d_add (L : lib) (sym : str) f : opdef := odef sym 2 (all_are tynum) true false true false (op_num2 L f).
Definition d_mul (L : lib) (sym : str) f : opdef := odef sym 2 num_or_unit true true true false f.
Definition d_mod (L : lib) : opdef := odef ($"%") 2 (all_are tynum) false false true false (op_num2 L num_mod).
Definition d_idiv (L : lib) : opdef := odef ($"\") 2 (all_are tynum) false false true false (op_int_divide L).
Definition d_pow (L : lib) : opdef := odef ($"^") 2 base_exponent false false false false (op_power L).
Definition d_cmp (L : lib) (sym : str) f : opdef := odef sym 2 (all_are tynum) false false true false (op_compare L f).
Lemma find_plus L : find_op (g_ops (std L)) ($"+") = Some (mkOper [None] [None] false (d_add L ($"+") num_add)). Proof. reflexivity. Qed.
Lemma find_minus L : find_op (g_ops (std L)) ($"-") = Some (mkOper [None] [None] false (d_add L ($"-") num_sub)). Proof. reflexivity. Qed.
Lemma find_star L : find_op (g_ops (std L)) ($"*") = Some (mkOper [None] [None] false (d_mul L ($"*") (op_multiply L))). Proof. reflexivity. Qed.
Lemma find_slash L : find_op (g_ops (std L)) ($"/") = Some (mkOper [None] [None] false (d_mul L ($"/") (op_divide L))). Proof. reflexivity. Qed.
Lemma find_percent L : find_op (g_ops (std L)) ($"%") = Some (mkOper [None] [None] false (d_mod L)). Proof. reflexivity. Qed.
Lemma find_backslash L : find_op (g_ops (std L)) ($"\") = Some (mkOper [None] [None] false (d_idiv L)). Proof. reflexivity. Qed.
Lemma find_caret L : find_op (g_ops (std L)) ($"^") = Some (mkOper [None] [None] false (d_pow L)). Proof. reflexivity. Qed.
Definition cmp_ops : list (str * (Z -> number -> number -> bool)) :=
  [($"<", num_ltb); ($">", fun p a b => num_ltb p b a); ($"<=", num_leb); ($">=", fun p a b => num_leb p b a); ($"==", num_eqb); ($"!=", fun p a b => negb (num_eqb p a b))].
Lemma find_cmp L sym f : In (sym, f) cmp_ops -> find_op (g_ops (std L)) sym = Some (mkOper [None] [None] false (d_cmp L sym f)).
Proof. intros H. repeat (destruct H as [H|H]; [injection H as <- <-; reflexivity|]). destruct H. Qed.

Lemma finish_cast (d : opdef) a b n : o_autores d = true -> ncast n = ncast a ->
  finish d (format_of a b) None (mkOR (VNum n) None None) = mkRes (VNum (with_cast n (format_of a b))) None None.
Proof.
  intros A C. unfold finish. cbn [or_val or_unit or_ref]. rewrite A. destruct n as [x y c w]. cbn [ncast] in C. subst c. unfold format_of, with_cast. cbn [nnum nden ncast nwidth].
  destruct (ncast a); [reflexivity|]. destruct (ncast b); reflexivity.
Qed.
Lemma with_cast_val n c : val (with_cast n c) = val n. Proof. reflexivity. Qed.
Lemma plain2_call L stl sym f x y a b n s : (sym = $"+" /\ f = num_add) \/ (sym = $"-" /\ f = num_sub) \/ (sym = $"%" /\ f = num_mod) ->
  number_at L x a -> number_at L y b -> f (l_prec L) a b = Some n -> ncast n = ncast a ->
  callop (std L) stl sym [x; y] s = (OOk (mkRes (VNum (with_cast n (format_of a b))) None None), s).
Proof.
  intros Hs Hx Hy Hn Hc. assert (G : exists d, find_op (g_ops (std L)) sym = Some (mkOper [None] [None] false d) /\ takes2 d /\ o_impl d = op_num2 L f /\ o_autores d = true).
  { destruct Hs as [[-> ->]|[[-> ->]|[-> ->]]]; eexists; (split; [apply find_plus || apply find_minus || apply find_percent|]); (split; [repeat split; auto|]); split; reflexivity. }
  destruct G as (d & F & T & I & A). rewrite callop_eq, F. cbn [op_def]. rewrite (takes2_call L _ d stl x y a b s T Hx Hy), I. unfold op_num2, bind, pym. rewrite Hn. unfold just, ret.
  now rewrite (finish_cast d a b n A Hc).
Qed.
Lemma scale_call L stl sym sg f x y a b n s : (sym = $"*" /\ sg = 1%Z /\ f = num_mul) \/ (sym = $"/" /\ sg = (-1)%Z /\ f = num_div) ->
  number_at L x a -> number_at L y b -> runit x = None -> runit y = None -> f (l_prec L) a b = Some n -> ncast n = ncast a ->
  callop (std L) stl sym [x; y] s = (OOk (mkRes (VNum (with_cast n (format_of a b))) None None), s).
Proof.
  intros Hs Hx Hy Ux Uy Hn Hc. assert (G : exists d, find_op (g_ops (std L)) sym = Some (mkOper [None] [None] false d) /\ takes2 d /\ o_impl d = op_scale L sg f /\ o_autores d = true).
  { destruct Hs as [(-> & -> & ->)|(-> & -> & ->)]; eexists; (split; [apply find_star || apply find_slash|]); (split; [repeat split; auto|]); split; reflexivity. }
  destruct G as (d & F & T & I & A). rewrite callop_eq, F. cbn [op_def]. rewrite (takes2_call L _ d stl x y a b s T Hx Hy), I, Ux, Uy. unfold op_scale, bind, pym. cbn [unit_value]. rewrite Hn. unfold ret.
  cbn [join_units]. now rewrite (finish_cast d a b n A Hc).
Qed.
Lemma refused_call L stl sym x y a b s : In sym [$"/"; $"%"; $"\"] -> number_at L x a -> number_at L y b -> runit x = None -> runit y = None -> shows L (rval x) = true -> shows L (rval y) = true ->
  shows L (VNum a) = true -> shows L (VNum b) = true ->
  (sym = $"%" -> num_mod (l_prec L) a b = None) -> (sym <> $"%" -> num_div (l_prec L) a b = None) ->
  exists e, callop (std L) stl sym [x; y] s = (OErr e, s).
Proof.
  intros Hs Hx Hy Ux Uy Sx Sy Sa Sb Hm Hd.
  assert (D : forall x y, number_at L x a -> number_at L y b -> runit x = None -> runit y = None -> shows L (rval x) = true -> shows L (rval y) = true -> num_div (l_prec L) a b = None ->
    callop (std L) stl ($"/") [x; y] s = (OErr (XCalc false (MOp ($"operator /"))), s)).
  { clear - b. intros x y Hx Hy Ux Uy Sx Sy Hn. rewrite callop_eq, find_slash. cbn [op_def]. rewrite (takes2_call L _ (d_mul L ($"/") (op_divide L)) stl x y a b s); [|repeat split; auto|exact Hx|exact Hy].
    rewrite Ux, Uy. replace (o_impl (d_mul L ($"/") (op_divide L))) with (op_divide L) by reflexivity. unfold op_divide, op_scale, bind, pym. cbn [unit_value]. rewrite Hn. unfold pyerr. rewrite Sx, Sy. reflexivity. }
  destruct Hs as [<-|[<-|[<-|[]]]].
  - eexists. apply D; try assumption. apply Hd. discriminate.
  - eexists. rewrite callop_eq, find_percent. cbn [op_def]. rewrite (takes2_call L _ (d_mod L) stl x y a b s); [|repeat split; auto|exact Hx|exact Hy].
    replace (o_impl (d_mod L)) with (op_num2 L num_mod) by reflexivity. unfold op_num2, bind, pym. rewrite (Hm eq_refl). unfold pyerr. rewrite Sx, Sy. reflexivity.
  - eexists. rewrite callop_eq, find_backslash. cbn [op_def]. rewrite (takes2_call L _ (d_idiv L) stl x y a b s); [|repeat split; auto|exact Hx|exact Hy].
    replace (o_impl (d_idiv L)) with (op_int_divide L) by reflexivity. unfold op_int_divide, bind. rewrite callop_inner by (cbn; tauto).
    rewrite (D (mkRes (VNum a) (runit x) None) (mkRes (VNum b) (runit y) None)); try assumption; try reflexivity; [|apply Hd; discriminate].
    cbn [wrapped]. rewrite Sx, Sy. reflexivity.
Qed.
Lemma idiv_call L stl x y a b n s : number_at L x a -> number_at L y b -> runit x = None -> runit y = None -> num_div (l_prec L) a b = Some n -> ncast n = ncast a ->
  callop (std L) stl ($"\") [x; y] s = (OOk (mkRes (VNum (with_cast (num_floor (l_prec L) n) (format_of a b))) None None), s).
Proof.
  intros Hx Hy Ux Uy Hn Hc. rewrite callop_eq, find_backslash. cbn [op_def]. rewrite (takes2_call L _ (d_idiv L) stl x y a b s); [|repeat split; auto|exact Hx|exact Hy].
  replace (o_impl (d_idiv L)) with (op_int_divide L) by reflexivity. unfold op_int_divide, bind. rewrite callop_inner by (cbn; tauto).
  rewrite (scale_call L stl ($"/") (-1)%Z num_div (mkRes (VNum a) (runit x) None) (mkRes (VNum b) (runit y) None) a b n s); try reflexivity; try assumption; [|right; auto].
  cbn [rval runit mkRes]. unfold with_unit, ret, finish. cbn [or_val or_unit or_ref]. replace (o_autores (d_idiv L)) with true by reflexivity.
  unfold num_floor, with_cast, to_decimal. cbn [nnum nden ncast nwidth]. destruct (format_of a b); reflexivity.
Qed.
Lemma pow_call L stl x y a b n s : number_at L x a -> number_at L y b -> runit x = None -> runit y = None -> num_pow (l_prec L) (f_pow (l_fmt L)) a b = Some n -> ncast n = ncast a ->
  callop (std L) stl ($"^") [x; y] s = (OOk (mkRes (VNum (with_cast n (format_of a b))) None None), s).
Proof.
  intros Hx Hy Ux Uy Hn Hc. rewrite callop_eq, find_caret. cbn [op_def]. rewrite (takes2_call L _ (d_pow L) stl x y a b s); [|repeat split; auto|exact Hx|exact Hy].
  replace (o_impl (d_pow L)) with (op_power L) by reflexivity. unfold op_power, bind, pym. rewrite Ux, Uy, Hn. unfold just, ret. now rewrite (finish_cast (d_pow L) a b n eq_refl Hc).
Qed.
Lemma cmp_call L stl sym f x y a b s : In (sym, f) cmp_ops -> number_at L x a -> number_at L y b ->
  callop (std L) stl sym [x; y] s = (OOk (mkRes (VBool (f (l_prec L) a b)) None None), s).
Proof.
  intros Hs Hx Hy. rewrite callop_eq, (find_cmp L sym f Hs). cbn [op_def]. rewrite (takes2_call L _ (d_cmp L sym f) stl x y a b s); [|repeat split; auto|exact Hx|exact Hy]. reflexivity.
Qed.
Lemma mod_zero p a b : nnum b = 0%Z -> num_mod p a b = None.
Proof.
  intros Hb. unfold num_mod, num_normalise. rewrite Hb. unfold dmul at 2, ddiv at 2.
  rewrite (rnd_0 p (inject_Z 0 * inject_Z (Z.lcm (nden a) (nden b)))) by (change (inject_Z 0) with 0%Q; ring).
  rewrite (rnd_0 p (0 / inject_Z (nden b))) by (unfold Qdiv; ring). unfold dmod. reflexivity.
Qed.
