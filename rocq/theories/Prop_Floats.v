(** C69: functions computed in floating point or by libraries. *)
From Coq Require Import ZArith QArith Qabs Ascii String List Bool Lia Lqa.
From Verif Require Import GatherSpec StatSpec StatProofs UnitCalcSpec Base BaseProofs Dec DecProofs Num NumSpec NumProofs NumProofs2 Lex LexProofs Bases Formats Units UnitReg Syntax Pos Call Loop Parse Exec Std StdSpec StdProofs7 StdProofs9 TextProofs UnitCalc ArithProofs UnitCalcProofs GatherProofs DateSpec Floats FloatSpec FloatProofs StdRun UnitData Install UnitsSpec UnitsProofs UnitRun DefinitionSpec.
Import ListNotations.
Open Scope Z_scope.

Lemma math_call U X stl f x a s : In f math_names -> number_at (u_lib U) x a ->
  run_named (with_floats U X) stl f [x] s =
  match x_math X f (closest (l_prec (u_lib U)) a) with
  | Some q => match num_make (l_prec (u_lib U)) None q 1 with
              | Some n => (OOk (finish (d_float f 1 1 (fn_math (u_lib U) X f)) (ncast a) (runit x) (mkOR (VNum n) None None)), s)
              | None => if shows (u_lib U) (rval x) then (OErr (XCalc false (MOp f)), s) else (OPy, s)
              end
  | None => if shows (u_lib U) (rval x) then (OErr (XCalc false (MOp f)), s) else (OPy, s)
  end.
Proof.
  intros I H. rewrite (run_math U X stl f [x] I).
  destruct (d_float_takes f 1 1 (fn_math (u_lib U) X f)) as [T N].
  rewrite (fnum_call U _ _ stl [x] [a] 1 1 s T N eq_refl eq_refl (le_n _) (le_n _)); [|repeat constructor; exact H].
  cbn [map]. change (o_multi (d_float f 1 1 (fn_math (u_lib U) X f))) with false. rewrite norm_one. unfold bind at 1, lift. cbn [fst snd o_impl d_float fdef].
  unfold fn_math. cbn [forallb]. rewrite andb_true_r, to_decimal_val. unfold number_of, pym, just, ret, bind. unfold closest.
  destruct (x_math X f (rnd (l_prec (u_lib U)) (val a))) as [q|]; [|reflexivity].
  destruct (num_make (l_prec (u_lib U)) None q 1) as [n|]; reflexivity.
Qed.
(** A function of [math] is computed from the number alone, at the decimal closest to it.  The float that comes back is the
    answer, exactly if a Number holds it, in the format of the argument.  The answer has the unit of the argument. *)
Theorem c69_math : forall U X stl f x a s, 1 <= l_prec (u_lib U) -> In f math_names -> number_at (u_lib U) x a ->
  (forall q, x_math X f (closest (l_prec (u_lib U)) a) = Some q -> holds (l_prec (u_lib U)) q ->
   exists n, run_named (with_floats U X) stl f [x] s = (OOk (mkRes (VNum n) (runit x) None), s) /\ (val n == q)%Q /\ ncast n = ncast a) /\
  (x_math X f (closest (l_prec (u_lib U)) a) = None -> shows (u_lib U) (rval x) = true ->
   run_named (with_floats U X) stl f [x] s = (OErr (XCalc false (MOp f)), s)).
Proof.
  intros U X stl f x a s Hp I H. rewrite (math_call U X stl f x a s I H). split.
  - intros q E Hq. rewrite E. destruct (num_make_exact_Q _ None q Hp Hq) as (n & -> & V & _ & _ & C).
    destruct (finish_first (d_float f 1 1 (fn_math (u_lib U) X f)) (ncast a) (runit x) n eq_refl C) as (m & -> & Vm & Cm).
    exists m. rewrite Vm. auto.
  - intros E Sh. rewrite E, Sh. reflexivity.
Qed.
Print Assumptions c69_math.

(** So an angle does not have one sine: the number is taken as it is, whatever unit it is in.  180 degrees are pi radians (in
    the code's digits of pi), but the sine asked of the library is that of 180 in one case and that of pi in the other, and the
    answers are in degrees and in radians. *)
Definition half_turn : number := mkNum 180 1 None None.
Definition pi_digits : number := mkNum 314159265358979323846264338327950288419716939937511 100000000000000000000000000000000000000000000000000 None None.
Definition angles_b (N : normaliser) : bool :=
  match get_unit (n_prefs N) (n_reg N) ($"degree"), get_unit (n_prefs N) (n_reg N) ($"radian") with
  | Ok (Some (UDef u)), Ok (Some (UDef v)) => Qeq_bool (val half_turn * factor [(u, 1%Z)]) (val pi_digits * factor [(v, 1%Z)])
  | _, _ => false
  end.
Lemma angles_ok N : angles_b N = true -> exists u v, stands_for N "degree" u /\ stands_for N "radian" v /\ (val half_turn * factor [(u, 1%Z)] == val pi_digits * factor [(v, 1%Z)])%Q.
Proof.
  unfold angles_b, stands_for. intros H.
  destruct (get_unit (n_prefs N) (n_reg N) ($"degree")) as [[[u|w]|]| |] eqn:E1; try discriminate H.
  destruct (get_unit (n_prefs N) (n_reg N) ($"radian")) as [[[v|w]|]| |] eqn:E2; try discriminate H.
  exists u, v. split; [reflexivity|]. split; [reflexivity|]. apply Qeq_bool_iff, H.
Qed.
Lemma preset_angles : angles_b demo_norm = true.
Proof. vm_cast_no_check (@eq_refl bool true). Qed.
Theorem c69_angle_refuted : exists u v, stands_for demo_norm "degree" u /\ stands_for demo_norm "radian" v /\
  (val half_turn * factor [(u, 1%Z)] == val pi_digits * factor [(v, 1%Z)])%Q /\
  forall U X stl s q r, 1 <= l_prec (u_lib U) -> let p := l_prec (u_lib U) in
  x_math X ($"sin") (closest p half_turn) = Some q -> x_math X ($"sin") (closest p pi_digits) = Some r -> holds p q -> holds p r ->
  exists n m, run_named (with_floats U X) stl ($"sin") [mkRes (VNum half_turn) (Some (mkEU [(u, 1%Z)] false)) None] s = (OOk (mkRes (VNum n) (Some (mkEU [(u, 1%Z)] false)) None), s) /\ (val n == q)%Q /\
    run_named (with_floats U X) stl ($"sin") [mkRes (VNum pi_digits) (Some (mkEU [(v, 1%Z)] false)) None] s = (OOk (mkRes (VNum m) (Some (mkEU [(v, 1%Z)] false)) None), s) /\ (val m == r)%Q.
Proof.
  destruct (angles_ok _ preset_angles) as (u & v & H1 & H2 & H3). exists u, v. split; [exact H1|]. split; [exact H2|]. split; [exact H3|].
  intros U X stl s q r Hp p E1 E2 F1 F2.
  assert (I : In ($"sin") math_names) by (left; reflexivity).
  destruct (c69_math U X stl ($"sin") (mkRes (VNum half_turn) (Some (mkEU [(u, 1%Z)] false)) None) half_turn s Hp I eq_refl) as [A _].
  destruct (c69_math U X stl ($"sin") (mkRes (VNum pi_digits) (Some (mkEU [(v, 1%Z)] false)) None) pi_digits s Hp I eq_refl) as [B _].
  destruct (A q E1 F1) as (n & R1 & V1 & _). destruct (B r E2 F2) as (m & R2 & V2 & _). exists n, m. auto.
Qed.
Print Assumptions c69_angle_refuted.

(** A special function of the library is computed from the decimals closest to its arguments. *)
Lemma special_call U X stl name f k o ints xs l s : special name f k o ints -> length xs = k -> Forall2 (number_at (u_lib U)) xs l -> Forall (fun x => runit x = None) xs ->
  run_named (with_floats U X) stl name xs s =
  match (if ints then x_special_int X ($f) o (map (num_int (l_prec (u_lib U))) l) else x_special X ($f) o (map (closest (l_prec (u_lib U))) l)) with
  | Some q => match num_make (l_prec (u_lib U)) None q 1 with
              | Some n => (OOk (finish (d_float name k k (fn_special (u_lib U) X ($f) o ints)) (first_format l) None (mkOR (VNum n) None None)), s)
              | None => if forallb (fun x => shows (u_lib U) (rval x)) xs then (OErr (XCalc false (MOp name)), s) else (OPy, s)
              end
  | None => if forallb (fun x => shows (u_lib U) (rval x)) xs then (OErr (XCalc false (MOp name)), s) else (OPy, s)
  end.
Proof.
  intros Hs Hk H Hu. rewrite (run_special U X stl name f k o ints xs Hs).
  destruct (d_float_takes name k k (fn_special (u_lib U) X ($f) o ints)) as [T N].
  rewrite (fnum_call U _ _ stl xs l k k s T N eq_refl eq_refl ltac:(lia) ltac:(lia) H).
  rewrite norm_none by (clear - Hu; induction Hu as [|x xs Hx Hu IH]; [constructor|constructor; assumption]).
  unfold bind at 1, lift. cbn [fst snd o_impl d_float fdef]. unfold fn_special. rewrite numbers_of_map. unfold number_of, pym, just, ret, bind. rewrite closest_dec.
  destruct (if ints then _ else _) as [q|]; [|reflexivity].
  destruct (num_make (l_prec (u_lib U)) None q 1) as [n|]; reflexivity.
Qed.
Theorem c69_special : forall U X stl name f k o xs l s, 1 <= l_prec (u_lib U) -> special name f k o false -> length xs = k ->
  Forall2 (number_at (u_lib U)) xs l -> Forall (fun x => runit x = None) xs ->
  (forall q, x_special X ($f) o (map (closest (l_prec (u_lib U))) l) = Some q -> holds (l_prec (u_lib U)) q ->
   exists n, run_named (with_floats U X) stl name xs s = (OOk (mkRes (VNum n) None None), s) /\ (val n == q)%Q /\ ncast n = first_format l) /\
  (x_special X ($f) o (map (closest (l_prec (u_lib U))) l) = None -> Forall (fun x => shows (u_lib U) (rval x) = true) xs ->
   run_named (with_floats U X) stl name xs s = (OErr (XCalc false (MOp name)), s)).
Proof.
  intros U X stl name f k o xs l s Hp Hs Hk H Hu. rewrite (special_call U X stl name f k o false xs l s Hs Hk H Hu). cbn iota. split.
  - intros q E Hq. rewrite E. destruct (num_make_exact_Q _ None q Hp Hq) as (n & -> & V & _ & _ & C).
    destruct (finish_first (d_float name k k (fn_special (u_lib U) X ($f) o false)) (first_format l) None n eq_refl C) as (m & -> & Vm & Cm).
    exists m. rewrite Vm. auto.
  - intros E Sh. rewrite E. replace (forallb (fun x => shows (u_lib U) (rval x)) xs) with true; [reflexivity|].
    symmetry. apply forallb_forall. apply Forall_forall. exact Sh.
Qed.
Print Assumptions c69_special.
(** With another number of arguments it is refused. *)
Theorem c69_special_count : forall U X stl name f k o ints xs l s, special name f k o ints -> length xs <> k -> Forall2 (number_at (u_lib U)) xs l ->
  Forall (fun x => shows (u_lib U) (rval x) = true) xs ->
  run_named (with_floats U X) stl name xs s = (OErr (XCalc true (MOp name)), s).
Proof.
  intros U X stl name f k o ints xs l s Hs Hk H Sh. rewrite (run_special U X stl name f k o ints xs Hs).
  destruct (d_float_takes name k k (fn_special (u_lib U) X ($f) o ints)) as [T _].
  rewrite (fnum_count U _ _ stl xs l k k s T eq_refl eq_refl ltac:(lia) H).
  replace (forallb (fun x => shows (u_lib U) (rval x)) xs) with true; [reflexivity|].
  symmetry. apply forallb_forall. apply Forall_forall. exact Sh.
Qed.
Print Assumptions c69_special_count.

(** Four of them are computed from integers: what is after the point in any argument does not matter. *)
Theorem c69_integers : forall U X stl name f k o xs l s, 1 <= l_prec (u_lib U) -> special name f k o true -> length xs = k ->
  Forall2 (number_at (u_lib U)) xs l -> Forall (fun x => runit x = None) xs -> Forall good l -> Forall (fun a => Z.abs (nnum a) < 10 ^ (l_prec (u_lib U) - 1)) l ->
  forall q, x_special_int X ($f) o (map cut l) = Some q -> holds (l_prec (u_lib U)) q ->
  exists n, run_named (with_floats U X) stl name xs s = (OOk (mkRes (VNum n) None None), s) /\ (val n == q)%Q /\ ncast n = first_format l.
Proof.
  intros U X stl name f k o xs l s Hp Hs Hk H Hu G B q E Hq. rewrite (special_call U X stl name f k o true xs l s Hs Hk H Hu). cbn iota.
  assert (M : map (num_int (l_prec (u_lib U))) l = map cut l).
  { clear - G B Hp. induction G as [|a l Ga G IH]; [reflexivity|]. apply Forall_cons_iff in B as [Ba B]. cbn [map]. rewrite (cut_int _ a Hp Ga Ba), (IH B). reflexivity. }
  rewrite M, E. destruct (num_make_exact_Q _ None q Hp Hq) as (n & -> & V & _ & _ & C).
  destruct (finish_first (d_float name k k (fn_special (u_lib U) X ($f) o true)) (first_format l) None n eq_refl C) as (m & -> & Vm & Cm).
  exists m. rewrite Vm. auto.
Qed.
Print Assumptions c69_integers.
(** For the binomial survival function this is wrong, as its third argument is a probability: any probability below one counts as zero. *)
Lemma bdtrc_special : special ($"sp_bdtrc") "bdtrc" 3 None true.
Proof. exists []. split; [|left; repeat split]. vm_compute. repeat (try (left; reflexivity); right). Qed.
Theorem c69_probability_refuted : forall U X stl k n x s a b c q, 1 <= l_prec (u_lib U) ->
  rval k = VNum a -> rval n = VNum b -> rval x = VNum c -> runit k = None -> runit n = None -> runit x = None -> good a -> good b -> good c ->
  Forall (fun a => Z.abs (nnum a) < 10 ^ (l_prec (u_lib U) - 1)) [a; b; c] -> (0 <= val c < 1)%Q ->
  x_special_int X ($"bdtrc") None [cut a; cut b; 0] = Some q -> holds (l_prec (u_lib U)) q ->
  exists r, run_named (with_floats U X) stl ($"sp_bdtrc") [k; n; x] s = (OOk (mkRes (VNum r) None None), s) /\ (val r == q)%Q.
Proof.
  intros U X stl k n x s a b c q Hp Va Vb Vc Ua Ub Uc Ga Gb Gc B Hc E Hq.
  assert (Z0 : cut c = 0).
  { unfold cut. unfold good in Gc. unfold val in Hc. destruct Hc as [H0 H1].
    assert (D : (0 < inject_Z (nden c))%Q) by (change 0%Q with (inject_Z 0); rewrite <- Zlt_Qlt; exact Gc).
    apply Z.quot_small. split.
    - apply (Qmult_le_compat_r _ _ (inject_Z (nden c))) in H0; [|lra]. rewrite Qmult_0_l in H0. unfold Qdiv in H0. rewrite <- Qmult_assoc, (Qmult_comm (/ _)), Qmult_inv_r, Qmult_1_r in H0 by lra.
      rewrite Zle_Qle. exact H0.
    - apply (Qmult_lt_compat_r _ _ (inject_Z (nden c))) in H1; [|lra]. rewrite Qmult_1_l in H1. unfold Qdiv in H1. rewrite <- Qmult_assoc, (Qmult_comm (/ _)), Qmult_inv_r, Qmult_1_r in H1 by lra.
      rewrite Zlt_Qlt. exact H1. }
  destruct (c69_integers U X stl ($"sp_bdtrc") "bdtrc" 3 None [k; n; x] [a; b; c] s Hp bdtrc_special eq_refl) with (q := q) as (r & R & V & _); auto.
  - unfold number_at. repeat constructor; [rewrite Va|rewrite Vb|rewrite Vc]; reflexivity.
  - cbn [map]. rewrite Z0. exact E.
  - exists r. auto.
Qed.
Print Assumptions c69_probability_refuted.

(** * Logarithms *)
Lemma log_call1 U X stl x a s : number_at (u_lib U) x a ->
  run_named (with_floats U X) stl ($"log") [x] s =
  match fn_log (u_lib U) X (callop (with_floats U X) stl) [VNum a] [runit x] [rref x] stl s with
  | (OOk o, s') => (OOk (finish (d_float ($"log") 1 2 (fn_log (u_lib U) X)) (ncast a) (runit x) o), s')
  | (OErr e, s') => if wrapped e then (OErr e, s') else if shows (u_lib U) (rval x) then (OErr (XCalc true (MOp ($"log"))), s') else (OPy, s')
  | (OPy, s') => if shows (u_lib U) (rval x) then (OErr (XCalc false (MOp ($"log"))), s') else (OPy, s')
  | (OFuel, s') => (OFuel, s')
  end.
Proof.
  intros H. rewrite run_log. destruct (d_float_takes ($"log") 1 2 (fn_log (u_lib U) X)) as [T N].
  rewrite (fnum_call U _ _ stl [x] [a] 1 2 s T N eq_refl eq_refl (le_n _) ltac:(cbn; lia)); [|repeat constructor; exact H].
  cbn [map]. change (o_multi (d_float ($"log") 1 2 (fn_log (u_lib U) X))) with false. rewrite norm_one. unfold bind at 1, lift. cbn [fst snd o_impl d_float fdef forallb]. rewrite andb_true_r.
  unfold bind. destruct (fn_log (u_lib U) X (callop (with_floats U X) stl) [VNum a] [runit x] [rref x] stl s) as [[o|e| |] s']; reflexivity.
Qed.
Lemma log_call2 U X stl x y a b s : number_at (u_lib U) x a -> number_at (u_lib U) y b -> runit y = runit x ->
  run_named (with_floats U X) stl ($"log") [x; y] s =
  match fn_log (u_lib U) X (callop (with_floats U X) stl) [VNum a; VNum b] [runit x; runit y] [rref x; rref y] stl s with
  | (OOk o, s') => (OOk (finish (d_float ($"log") 1 2 (fn_log (u_lib U) X)) (first_format [a; b]) (runit x) o), s')
  | (OErr e, s') => if wrapped e then (OErr e, s') else if shows (u_lib U) (rval x) && shows (u_lib U) (rval y) then (OErr (XCalc true (MOp ($"log"))), s') else (OPy, s')
  | (OPy, s') => if shows (u_lib U) (rval x) && shows (u_lib U) (rval y) then (OErr (XCalc false (MOp ($"log"))), s') else (OPy, s')
  | (OFuel, s') => (OFuel, s')
  end.
Proof.
  intros H K E. rewrite run_log. destruct (d_float_takes ($"log") 1 2 (fn_log (u_lib U) X)) as [T N].
  rewrite (fnum_call U _ _ stl [x; y] [a; b] 1 2 s T N eq_refl eq_refl ltac:(cbn; lia) (le_n _)); [|repeat constructor; assumption].
  assert (F : normalise_inputs (u_rels U) (map VNum [a; b]) (map runit [x; y]) (o_multi (d_float ($"log") 1 2 (fn_log (u_lib U) X))) (o_rel (d_float ($"log") 1 2 (fn_log (u_lib U) X))) = Ok ([VNum a; VNum b], [runit x; runit y], runit x)).
  { cbn [map]. rewrite E. change (o_multi (d_float ($"log") 1 2 (fn_log (u_lib U) X))) with false. unfold normalise_inputs. destruct (runit x) as [u|] eqn:Ux; [|reflexivity].
    cbn [first_unit length Nat.ltb Nat.leb convert_rest]. unfold convert_value. rewrite same_unit_refl. reflexivity. }
  rewrite F. unfold bind at 1, lift. cbn [fst snd o_impl d_float fdef forallb map]. rewrite andb_true_r.
  unfold bind. destruct (fn_log (u_lib U) X (callop (with_floats U X) stl) [VNum a; VNum b] [runit x; runit y] [rref x; rref y] stl s) as [[o|e| |] s']; reflexivity.
Qed.
Lemma finish_unit d c u w n : o_autores d = true ->
  exists m, finish d c u (mkOR (VNum n) (Some w) None) = mkRes (VNum m) w None /\ val m = val n /\ (ncast m = c \/ c = None /\ ncast m = ncast n).
Proof. intros A. unfold finish. cbn [or_val or_unit or_ref]. rewrite A. destruct c as [c|]; eexists; (split; [reflexivity|]); split; auto. Qed.

(** The logarithm of a fraction is the difference of the library's logarithms of its numerator and denominator, rounded once.
    It is in the unit of the argument. *)
Theorem c69_log : forall U X stl x a s lx ly, 1 <= l_prec (u_lib U) -> number_at (u_lib U) x a ->
  x_ln X (inject_Z (nnum a)) = Some lx -> x_ln X (inject_Z (nden a)) = Some ly -> holds (l_prec (u_lib U)) (rnd (l_prec (u_lib U)) (lx - ly)) ->
  exists n, run_named (with_floats U X) stl ($"log") [x] s = (OOk (mkRes (VNum n) (runit x) None), s) /\
    (val n == rnd (l_prec (u_lib U)) (lx - ly))%Q /\ ncast n = ncast a.
Proof.
  intros U X stl x a s lx ly Hp H Ex Ey Hh. rewrite (log_call1 U X stl x a s H). set (d := d_float ($"log") 1 2 (fn_log (u_lib U) X)). unfold fn_log, log_of, with_unit, pym, ret, bind. rewrite Ex, Ey.
  unfold dsub. destruct (num_make_exact_Q _ (ncast a) _ Hp Hh) as (n & -> & V & _ & _ & C).
  destruct (finish_unit d (ncast a) (runit x) (runit x) n eq_refl) as (m & -> & Vm & Cm).
  exists m. rewrite Vm. split; [reflexivity|]. split; [exact V|]. destruct Cm as [Cm|[_ Cm]]; [exact Cm|congruence].
Qed.
Print Assumptions c69_log.
(** To a base: divided by the library's logarithm of the float of the base, rounded again *)
Theorem c69_log_base : forall U X stl x y a b s f lx ly lf, 1 <= l_prec (u_lib U) -> number_at (u_lib U) x a -> number_at (u_lib U) y b -> runit y = runit x ->
  x_float X (closest (l_prec (u_lib U)) b) = Some f -> (0 < f)%Q -> x_ln X f = Some lf -> ~ (lf == 0)%Q ->
  x_ln X (inject_Z (nnum a)) = Some lx -> x_ln X (inject_Z (nden a)) = Some ly ->
  holds (l_prec (u_lib U)) (rnd (l_prec (u_lib U)) (rnd (l_prec (u_lib U)) (lx - ly) / lf)) ->
  exists n, run_named (with_floats U X) stl ($"log") [x; y] s = (OOk (mkRes (VNum n) (runit x) None), s) /\
    (val n == rnd (l_prec (u_lib U)) (rnd (l_prec (u_lib U)) (lx - ly) / lf))%Q /\ ncast n = first_format [a; b].
Proof.
  intros U X stl x y a b s f lx ly lf Hp H K Eu Ef Pf El Nl Ex Ey Hh. rewrite (log_call2 U X stl x y a b s H K Eu). set (d := d_float ($"log") 1 2 (fn_log (u_lib U) X)).
  unfold fn_log, log_of, with_unit, pym, ret, bind. rewrite to_decimal_val. unfold closest in Ef. rewrite Ef, Ex, Ey.
  assert (B1 : Qle_bool f 0 = false). { destruct (Qle_bool f 0) eqn:E; [|reflexivity]. apply Qle_bool_iff in E. lra. }
  assert (B2 : Qeq_bool lf 0 = false). { destruct (Qeq_bool lf 0) eqn:E; [|reflexivity]. apply Qeq_bool_iff in E. contradiction. }
  rewrite B1, El, B2. unfold ddiv, dsub. destruct (num_make_exact_Q _ (ncast a) _ Hp Hh) as (n & -> & V & _ & _ & C).
  destruct (finish_unit d (first_format [a; b]) (runit x) (runit x) n eq_refl) as (m & -> & Vm & Cm).
  exists m. rewrite Vm. split; [reflexivity|]. split; [exact V|]. destruct Cm as [Cm|[Ec Cm]]; [exact Cm|].
  rewrite Cm, C, Ec. unfold first_format in Ec. cbn [fold_left] in Ec. destruct (ncast a); [discriminate|reflexivity].
Qed.
Print Assumptions c69_log_base.
(** The logarithm of an integer to itself is one, and that of one is zero. *)
Theorem c69_log_same : forall U X stl x y a b s f l, 1 <= l_prec (u_lib U) -> ln_like X -> number_at (u_lib U) x a -> number_at (u_lib U) y b -> runit y = runit x ->
  1 < nnum a -> nden a = 1 -> x_float X (closest (l_prec (u_lib U)) b) = Some f -> (f == val a)%Q -> x_ln X (inject_Z (nnum a)) = Some l -> fits (l_prec (u_lib U)) l -> ~ (l == 0)%Q ->
  exists n, run_named (with_floats U X) stl ($"log") [x; y] s = (OOk (mkRes (VNum n) (runit x) None), s) /\ (val n == 1)%Q.
Proof.
  intros U X stl x y a b s f l Hp (Lc & (z & Ez & Zz) & _) H K Eu Pa Da Ef Fa El Fl Nl.
  assert (Va : (val a == inject_Z (nnum a))%Q) by (unfold val; rewrite Da; change (inject_Z 1) with 1%Q; field).
  assert (E1 : (rnd (l_prec (u_lib U)) (l - z) == l)%Q) by (rewrite (rnd_comp _ _ l); [apply rnd_fits; assumption|rewrite Zz; ring]).
  assert (E2 : rnd (l_prec (u_lib U)) (rnd (l_prec (u_lib U)) (l - z) / l) = inject_Z 1).
  { apply (rnd_Z _ 1); [exact Hp|rewrite E1; change (inject_Z 1) with 1%Q; field; exact Nl|]. pose proof (Z.pow_pos_nonneg 10 (l_prec (u_lib U))). lia. }
  destruct (c69_log_base U X stl x y a b s f l z l Hp H K Eu Ef) as (n & R & V & _); auto.
  - rewrite Fa, Va. change 0%Q with (inject_Z 0). rewrite <- Zlt_Qlt. lia.
  - rewrite (Lc f (inject_Z (nnum a))); [exact El|rewrite Fa; exact Va].
  - rewrite Da. exact Ez.
  - rewrite E2. unfold holds. cbn. pose proof (Z.pow_pos_nonneg 10 (l_prec (u_lib U))). lia.
  - exists n. split; [exact R|]. rewrite V, E2. reflexivity.
Qed.
Print Assumptions c69_log_same.
Theorem c69_log_one : forall U X stl x a s, 1 <= l_prec (u_lib U) -> ln_like X -> number_at (u_lib U) x a -> nnum a = 1 -> nden a = 1 ->
  exists n, run_named (with_floats U X) stl ($"log") [x] s = (OOk (mkRes (VNum n) (runit x) None), s) /\ (val n == 0)%Q.
Proof.
  intros U X stl x a s Hp (_ & (z & Ez & Zz) & _) H N D.
  assert (E : rnd (l_prec (u_lib U)) (z - z) = 0%Q) by (apply rnd_0; ring).
  destruct (c69_log U X stl x a s z z Hp H) as (n & R & V & _).
  - rewrite N. exact Ez.
  - rewrite D. exact Ez.
  - rewrite E. unfold holds. cbn. pose proof (Z.pow_pos_nonneg 10 (l_prec (u_lib U))). lia.
  - exists n. split; [exact R|]. rewrite V, E. reflexivity.
Qed.
Print Assumptions c69_log_one.
(** Numbers that are not positive have no logarithm; a base that is not positive, or one, is refused. *)
Theorem c69_log_refused : forall U X stl x a s, ln_like X -> number_at (u_lib U) x a -> shows (u_lib U) (rval x) = true ->
  (nnum a <= 0 -> run_named (with_floats U X) stl ($"log") [x] s = (OErr (XCalc false (MOp ($"log"))), s)) /\
  (forall y b f, number_at (u_lib U) y b -> shows (u_lib U) (rval y) = true -> runit y = runit x ->
   x_float X (closest (l_prec (u_lib U)) b) = Some f -> (f <= 0 \/ f == 1)%Q \/ nnum a <= 0 ->
   run_named (with_floats U X) stl ($"log") [x; y] s = (OErr (XCalc false (MOp ($"log"))), s)).
Proof.
  intros U X stl x a s (Lc & (z & Ez & Zz) & Ln) H Sh. split.
  - intros Na. rewrite (log_call1 U X stl x a s H). set (d := d_float ($"log") 1 2 (fn_log (u_lib U) X)). unfold fn_log, log_of, with_unit, pym, pyerr, ret, bind.
    rewrite Ln by (change 0%Q with (inject_Z 0); rewrite <- Zle_Qle; exact Na). rewrite Sh. reflexivity.
  - intros y b f K Sy Eu Ef C. rewrite (log_call2 U X stl x y a b s H K Eu). set (d := d_float ($"log") 1 2 (fn_log (u_lib U) X)).
    unfold fn_log, log_of, with_unit, pym, pyerr, ret, bind. rewrite to_decimal_val. unfold closest in Ef. rewrite Ef, Sh, Sy. cbn [andb].
    destruct (x_ln X (inject_Z (nnum a))) as [lx|] eqn:E1; [|reflexivity]. destruct (x_ln X (inject_Z (nden a))) as [ly|]; [|reflexivity].
    destruct (Qle_bool f 0) eqn:B; [reflexivity|]. destruct C as [[C|C]|C].
    + apply Qle_bool_iff in C. congruence.
    + rewrite (Lc f 1%Q C), Ez. apply Qeq_bool_iff in Zz. rewrite Zz. reflexivity.
    + rewrite Ln in E1; [discriminate|]. change 0%Q with (inject_Z 0). rewrite <- Zle_Qle. exact C.
Qed.
Print Assumptions c69_log_refused.

(** [exp] gives what [e ^ x] gives for the number alone; the answer has the unit of the argument. *)
Lemma make_cast p c q r n : num_make p c q r = Some n -> ncast n = c.
Proof.
  unfold num_make. destruct (Qeq_bool r 0); [discriminate|]. destruct (if q_is_int q then _ else _) as [x y]. destruct (if q_is_int y then _ else _) as [z t].
  intros E. injection E as <-. unfold num_reduce. destruct (if _ <? 0 then _ else _) as [u v]. destruct (1 <? Z.gcd u v); reflexivity.
Qed.
Lemma pow_cast p dpow a b n : num_pow p dpow a b = Some n -> ncast n = ncast a.
Proof.
  unfold num_pow. destruct (negb (Qle_bool 0 (to_decimal p b))).
  - destruct (dpow _ _) as [q1|]; [|discriminate]. destruct (dpow _ _) as [q2|]; [|discriminate]. apply make_cast.
  - destruct (dpow _ _) as [q1|]; [|discriminate]. destruct (dpow _ _) as [q2|]; [|discriminate]. apply make_cast.
Qed.
Lemma the_plain L t c w : the_number L t = (LNum c, w) -> ncast c = None.
Proof.
  unfold the_number. destruct (match_number t) as [[l [|x r]]|]; try discriminate. destruct (number_of_lit (l_prec L) l) as [n|] eqn:N; [|discriminate].
  intros E. injection E as <- <-. exact (make_cast _ _ _ _ _ N).
Qed.
Theorem c69_exp : forall U X stl x a c w s y s', number_at (u_lib U) x a -> assoc ($"e") (std_consts (u_lib U)) = Some (LNum c, w) ->
  run_named (with_floats U X) stl ($"^") [mkRes (VNum c) None None; mkRes (rval x) None None] s = (OOk y, s') ->
  run_named (with_floats U X) stl ($"exp") [x] s = (OOk (mkRes (rval y) (runit x) None), s').
Proof.
  intros U X stl x a c w s y s' H Ec R.
  assert (Tc : the_number (u_lib U) ($"2.71828182845904523536028747135266249775724709369995") = (LNum c, w)).
  { unfold std_consts in Ec. cbn [assoc] in Ec. replace (seq_eqb ($"e") ($"e")) with true in Ec by reflexivity. congruence. }
  pose proof (the_plain _ _ _ _ Tc) as Nc.
  assert (Hx : number_at (u_lib U) (mkRes (rval x) None None) a) by exact H.
  assert (Hc : number_at (u_lib U) (mkRes (VNum c) None None) c) by reflexivity.
  change (run_named (with_floats U X) stl ($"^")) with (call (unit_env U) (op_handle (with_floats U X) 4 stl) (d_pow (u_lib U)) stl) in R.
  rewrite (utakes2_call U _ (d_pow (u_lib U)) stl _ _ c a s) in R; [|repeat split; auto|exact Hc|exact Hx].
  unfold normalised in R. replace (o_norm (d_pow (u_lib U))) with false in R by reflexivity. replace (o_impl (d_pow (u_lib U))) with (op_power (u_lib U)) in R by reflexivity.
  cbn [runit mkRes] in R. unfold bind, lift, op_power in R. cbn [fst snd] in R. unfold pym in R.
  rewrite run_exp. destruct (d_float_takes ($"exp") 1 1 (fn_exp (u_lib U))) as [T N].
  rewrite (fnum_call U _ _ stl [x] [a] 1 1 s T N eq_refl eq_refl (le_n _) (le_n _)); [|repeat constructor; exact H].
  cbn [map]. change (o_multi (d_float ($"exp") 1 1 (fn_exp (u_lib U)))) with false. rewrite norm_one. unfold bind at 1, lift. cbn [fst snd o_impl d_float fdef].
  unfold fn_exp. rewrite Tc. unfold bind, pym.
  destruct (num_pow (l_prec (u_lib U)) (f_pow (l_fmt (u_lib U))) c a) as [n|] eqn:P.
  - unfold just, ret, bind in R. unfold with_unit, ret. pose proof (pow_cast _ _ _ _ _ P) as Cn. rewrite Nc in Cn.
    assert (Y : y = finish (d_pow (u_lib U)) (format_of c a) None (mkOR (VNum n) None None)) by congruence. assert (S' : s' = s) by congruence. subst y s'.
    unfold finish. cbn [or_val or_unit or_ref]. replace (o_autores (d_pow (u_lib U))) with true by reflexivity. replace (format_of c a) with (ncast a); [|unfold format_of; rewrite Nc; destruct (ncast a); reflexivity].
    destruct a as [an ad [k|] aw]; reflexivity.
  - exfalso. unfold pyerr, bind in R. cbn [rval mkRes] in R. destruct (shows _ _ && shows _ _) in R; discriminate R.
Qed.
Print Assumptions c69_exp.

(** [stdev]: what the library gives for the decimals that the elements show in the unit of the first, in that unit *)
Theorem c69_stdev : forall U X us, world (u_rels U) us -> exists o, assoc ($"stdev") (g_funcs (with_floats U X)) = Some o /\
  forall h stl x r0 l u s q, made_of us u -> steady (u_rels U) u -> rval x = VList (r0 :: l) -> runit r0 = Some u ->
  Forall (comparable U us u) (r0 :: l) -> (1 <= l_prec (u_lib U))%Z ->
  x_stdev X (map (shown_in (u_lib U) u) (r0 :: l)) = Some q -> narrow (l_prec (u_lib U)) q ->
  exists n, call (unit_env U) h o stl [x] s = (OOk (mkRes (VNum n) (Some u) None), s) /\ (val n == q)%Q.
Proof.
  intros U X us W. exists (d_stat (u_lib U) ($"stdev") (fun _ => x_stdev X)). split.
  - change (g_funcs (with_floats U X)) with (float_funcs U X). apply assoc_in; [exact (nodup_b_ok _ (all_distinct U X))|].
    unfold float_funcs. cbv zeta. apply in_or_app. right. apply in_or_app. right. right. right. now left.
  - intros h stl x r0 l u s q Mu Su Hx H0 Hl Hp E N. now apply (stat_gather U us h stl x r0 l u s ($"stdev") (fun _ => x_stdev X) q).
Qed.
Print Assumptions c69_stdev.

(** A library for the examples: a few values; the logarithms are cut off after two digits. *)
Definition few_math : mathlib :=
  mkMath (fun f q => if seq_eqb f ($"cos") then (if Qeq_bool q 0 then Some 1%Q else None)
                     else if seq_eqb f ($"sin") then (if Qeq_bool q 0 then Some 0%Q else if Qeq_bool q 180 then Some (-8011526357338304 # 10000000000000000)%Q else None)
                     else None)
         (fun f o l => if seq_eqb f ($"gamma") then match l with [q] => if Qeq_bool q 5 then Some 24%Q else if Qeq_bool q (1 # 2) then Some (17725 # 10000)%Q else None | _ => None end
                       else if seq_eqb f ($"sici") then match o, l with Some O, [q] => if Qeq_bool q 1 then Some (946 # 1000)%Q else None | _, _ => None end else None)
         (fun f o l => if seq_eqb f ($"bdtrc") then match l with [k; n; 0] => if k <? 0 then Some 1%Q else Some 0%Q | _ => None end else None)
         (fun q => Some q)
         (fun q => if Qle_bool q 0 then None else if Qeq_bool q 1 then Some 0%Q else if Qeq_bool q 2 then Some (69 # 100)%Q else if Qeq_bool q 8 then Some (207 # 100)%Q else None)
         (fun l => match l with [a; b; c] => if Qeq_bool (a + c) (2 * b) then Some (if Qle_bool a b then b - a else a - b)%Q else None | _ => None end).
Definition fanswer (t : string) : string := utell (fst (calculate (with_floats (demo_units demo_norm) few_math) 20 plain_flags (uchars t) start)).
Example c69_ex : map fanswer ["cos(0)"; "cos(0x0)"; "sin(180 degrees)"; "tan(0)"; "sp_gamma(5)"; "sp_gamma(1/2)"; "sp_sici_si(1)"; "sp_gamma(5, 6)"; "sp_bdtrc(1, 2, 0.5)"; "sp_bdtrc(1, 2, 0)";
  "log(1)"; "log(8)"; "log(1/2)"; "log(8, 2)"; "log(2 m)"; "exp(0)"; "exp(0x2) - e*e"; "exp(0 m)"; "stdev([1, 3, 5])"; "stdev([1 m, 300 cm, 5 m])"; "stdev([1, 2])"; "log(2, 2)"; "log(0)"; "log(2, -1)"; "log(2, 1)"; "sin([0, 180])"]%string =
  ["1"; "0x1"; "-0.8011526357338304 degrees"; "execute error"; "24"; "1.7725"; "0.946"; "execute error"; "0"; "0";
   "0"; "2.07"; "-0.69"; "3"; "0.69 meters"; "1"; "0x0"; "1 meter"; "2"; "2 meters"; "execute error"; "1"; "execute error"; "execute error"; "execute error"; "[0;-0.8011526357338304;]"]%string.
Proof. vm_compute. reflexivity. Qed.
Example c69_ln_ex : ln_like few_math.
Proof.
  split; [|split].
  - intros q r E. unfold few_math. cbn [x_ln].
    assert (A : forall z, Qeq_bool q z = Qeq_bool r z) by (intros z; apply eq_true_iff_eq; rewrite !Qeq_bool_iff, E; reflexivity).
    rewrite !A. replace (Qle_bool q 0) with (Qle_bool r 0); [reflexivity|]. apply eq_true_iff_eq. rewrite !Qle_bool_iff, E. reflexivity.
  - exists 0%Q. split; reflexivity.
  - intros q H. unfold few_math. cbn [x_ln]. apply Qle_bool_iff in H. rewrite H. reflexivity.
Qed.
Example c69_exp_ex : exists c, assoc ($"e") (std_consts demo) = Some (LNum c, None).
Proof. eexists. vm_compute. reflexivity. Qed.
