(** C55 for [abs], and C70 for [base]. *)
From Coq Require Import ZArith QArith Qround Qabs Ascii String List Bool Lia Lqa.
From Verif Require Import Base BaseProofs Dec DecProofs Num NumSpec NumProofs NumProofs3 Lex LexSpec LexProofs Bases BasesProofs BasesProofs4 Formats Units UnitReg Syntax Pos Call Loop Parse Exec Std StdSpec StdProofs7 StdProofs9 TextProofs UnitCalc UnitCalcProofs DateSpec FloatSpec FloatProofs FormatSpec SciProofs FormatProofs FormatProofs2 Prop_Bases StdRun.
Import ListNotations.
Open Scope Z_scope.

Definition d_abs (U : ucfg) : opdef := snd (fdef ($"abs") 1 1 (all_are tynum) (fn_abs (u_lib U))).
Lemma run_abs U stl ins : run_named (with_units U) stl ($"abs") ins = call (unit_env U) (callop (with_units U) stl) (d_abs U) stl ins.
Proof. reflexivity. Qed.
(** The absolute value is exact, in the unit and format of the number. *)
Theorem c55_abs : forall U stl x a s, number_at (u_lib U) x a -> good a -> 1 <= l_prec (u_lib U) -> Z.abs (nnum a) < 10 ^ l_prec (u_lib U) ->
  exists r, run_named (with_units U) stl ($"abs") [x] s = (OOk (mkRes (VNum r) (runit x) None), s) /\
    (val r == Qabs (val a))%Q /\ ncast r = ncast a.
Proof.
  intros U stl x a s Hx G Hp Ha. exists (mkNum (Z.abs (nnum a)) (nden a) (ncast a) None). split.
  - rewrite run_abs, (fnum_call U _ (d_abs U) stl [x] [a] 1 1 s); [|repeat split|reflexivity..|cbn; lia|cbn; lia|constructor; [exact Hx|constructor]].
    cbn [map]. rewrite norm_one. unfold bind, lift. cbn [fst snd]. change (o_impl (d_abs U)) with (fn_abs (u_lib U)). unfold fn_abs, with_unit, ret.
    rewrite num_abs_eq by (exact Hp || exact Ha). cbn [fst snd]. unfold finish. cbn [or_val or_unit or_ref].
    replace (o_autores (d_abs U)) with true by reflexivity. unfold first_format. destruct a as [n d c w]. cbn. destruct c; reflexivity.
  - split; [|reflexivity]. unfold val, Qdiv. cbn [nnum nden]. rewrite Qabs_Qmult, Qabs_Qinv, (Qabs_pos (inject_Z (nden a))); [reflexivity|].
    change 0%Q with (inject_Z 0). rewrite <- Zle_Qle. unfold good in G. lia.
Qed.
Print Assumptions c55_abs.
Example c55_abs_ex : answer "abs(-0x1F)" = "0x1F"%string /\ answer "abs(-7/3)*3" = "7"%string /\ answer "abs(5)" = "5"%string.
Proof. vm_compute. repeat split; reflexivity. Qed.

(** [base(x, b)] is a text that is read as x in base b. *)
Definition d_base (U : ucfg) : opdef := snd (fdef ($"base") 2 2 (all_are tynum) (fn_base (u_lib U))).
Lemma run_base U stl ins : run_named (with_units U) stl ($"base") ins = call (unit_env U) (callop (with_units U) stl) (no_result (d_base U)) stl ins.
Proof. reflexivity. Qed.
Lemma base_call U stl x y a b s : number_at (u_lib U) x a -> number_at (u_lib U) y b -> runit x = None -> runit y = None ->
  let F := l_fmt (u_lib U) in
  run_named (with_units U) stl ($"base") [x; y] s =
  match arb_to_string (f_prec F) (f_places F) (f_pow F) (num_to_string F) a (num_int (f_prec F) b) with
  | Ok t => (OOk (mkRes (VStr t) None None), s)
  | Calc => if shows (u_lib U) (rval x) && shows (u_lib U) (rval y) then (OErr (XCalc true (MOp ($"base"))), s) else (OPy, s)
  | Py => if shows (u_lib U) (rval x) && shows (u_lib U) (rval y) then (OErr (XCalc false (MOp ($"base"))), s) else (OPy, s)
  end.
Proof.
  intros Hx Hy Ux Uy F. rewrite run_base, (fnum_call U _ (no_result (d_base U)) stl [x; y] [a; b] 2 2 s); [|repeat split|reflexivity..|cbn; lia|cbn; lia|constructor; [exact Hx|constructor; [exact Hy|constructor]]].
  cbn [map]. rewrite Ux, Uy, norm_none by (repeat constructor). unfold bind, lift. cbn [fst snd forallb]. rewrite andb_true_r. change (o_impl (no_result (d_base U))) with (fn_base (u_lib U)).
  unfold fn_base, bind, lift. fold F.
  destruct (arb_to_string _ _ _ _ a _) as [t| |]; cbn [fst snd]; [|reflexivity|reflexivity].
  unfold just, ret. cbn [fst snd]. unfold finish. cbn [or_val or_unit or_ref]. replace (o_autores (no_result (d_base U))) with false by reflexivity. destruct (first_format [a; b]); reflexivity.
Qed.
Theorem c70_base : forall U stl x y a b n m f s, let F := l_fmt (u_lib U) in let p := f_prec F in
  number_at (u_lib U) x a -> number_at (u_lib U) y b -> runit x = None -> runit y = None ->
  1 <= p -> pow_ok p (f_pow F) -> symbol_apart (f_sym F) -> 2 <= n <= 35 -> n <> 10 -> num_int p b = n ->
  good a -> lowest a -> Z.of_nat f <= f_places F ->
  (val a == inject_Z m / inject_Z (n ^ Z.of_nat f))%Q -> Z.abs m * n ^ Z.of_nat f < 10 ^ (p - 1) ->
  exists T r, run_named (with_units U) stl ($"base") [x; y] s = (OOk (mkRes (VStr T) None None), s) /\
    text_number F T = Ok r /\ nnum r = nnum a /\ nden r = nden a /\ ncast r = Some (CArb n).
Proof.
  intros U stl x y a b n m f s F p Hx Hy Ux Uy Hp PO SO Hn H10 Hb G L Hf V S.
  destruct (c09_arb_round_trip p (f_places F) (f_pow F) (num_to_string F) n a m f [] Hp PO Hn H10 G L Hf V S I) as (T & r & E1 & E2 & E3 & E4 & E5 & E6).
  rewrite app_nil_r in E2. exists T, r. rewrite (base_call U stl x y a b s Hx Hy Ux Uy). fold F p. rewrite Hb, E1. split; [reflexivity|].
  split; [rewrite text_number_arb by auto; fold p; rewrite E3; reflexivity|]. repeat split; assumption.
Qed.
Print Assumptions c70_base.
(** A base below 2 or above 36 is refused, for every number but zero. *)
Theorem c70_base_refused : forall U stl x y a b s, number_at (u_lib U) x a -> number_at (u_lib U) y b -> runit x = None -> runit y = None ->
  shows (u_lib U) (rval x) = true -> shows (u_lib U) (rval y) = true ->
  let n := num_int (f_prec (l_fmt (u_lib U))) b in n < 2 \/ 36 < n -> 1 <= f_prec (l_fmt (u_lib U)) -> good a -> nnum a <> 0 ->
  run_named (with_units U) stl ($"base") [x; y] s = (OErr (XCalc true (MOp ($"base"))), s).
Proof.
  intros U stl x y a b s Hx Hy Ux Uy Sx Sy n Hn Hp G Ha. rewrite (base_call U stl x y a b s Hx Hy Ux Uy). cbv zeta. fold n.
  unfold arb_to_string, dec_to_base.
  assert (NZ : ~ (rnd (f_prec (l_fmt (u_lib U))) (val a) == 0)%Q).
  { apply rnd_nz; [exact Hp|]. unfold val, good in *. intros E. apply Ha. assert (D : ~ (inject_Z (nden a) == 0)%Q) by (apply inject_nz; lia).
    assert (N0 : (inject_Z (nnum a) == 0)%Q) by (rewrite <- (Qmult_div_r (inject_Z (nnum a)) (inject_Z (nden a)) D), E; ring).
    unfold Qeq in N0. cbn in N0. lia. }
  destruct (Qeq_bool (to_decimal (f_prec (l_fmt (u_lib U))) a) 0) eqn:Z0; [apply Qeq_bool_iff in Z0; rewrite to_decimal_val in Z0; contradiction|].
  replace (n =? 10) with false by (symmetry; apply Z.eqb_neq; lia).
  replace ((n <? 2) || (36 <? n)) with true by (symmetry; apply orb_true_iff; rewrite !Z.ltb_lt; exact Hn).
  cbn [obind]. rewrite Sx, Sy. reflexivity.
Qed.
Print Assumptions c70_base_refused.
(** Zero has a text in any base, even in one there is none of *)
Theorem c70_base_zero_refuted : answer "base(0, 99)" = "'99z0'"%string /\ answer "base(1, 99)" = "execute error"%string.
Proof. vm_compute. split; reflexivity. Qed.
Print Assumptions c70_base_zero_refuted.
Example c70_base_ex : answer "base(35, 20)" = "'20z1F'"%string /\ answer "base('-0x10', 2)" = "'-2z10000'"%string /\ answer "base(35, 20) + 0" = "20z1F"%string /\ answer "base(5.5, 12)" = "'12z5.6'"%string.
Proof. vm_compute. repeat split; reflexivity. Qed.


(** C08: a number too large for the digits printed is an error of python, not a text *)
Theorem c08_too_large : forall F v, let p := f_prec F in let k := f_places F in 1 <= k <= p -> ncast v = None \/ ncast v = Some CDec ->
  (inject_Z (10 ^ (p - k)) <= Qabs (val v))%Q -> num_to_string F v = Py.
Proof.
  intros F v p k Hk Hc Hv. unfold num_to_string. fold p k.
  assert (E : to_string_plain p k v = None); [|destruct Hc as [-> | ->]; rewrite E; reflexivity].
  unfold to_string_plain. rewrite to_decimal_val. set (d := rnd p (val v)).
  assert (Pk : 0 < 10 ^ (p - k)) by (apply Z.pow_pos_nonneg; lia). assert (Pl : 0 < 10 ^ k) by (apply Z.pow_pos_nonneg; lia).
  assert (Lk : 10 ^ (p - k) <= 10 ^ p) by (apply Z.pow_le_mono_r; lia).
  assert (D : (inject_Z (10 ^ (p - k)) <= d \/ d <= - inject_Z (10 ^ (p - k)))%Q).
  { assert (R : forall z, Z.abs z = 10 ^ (p - k) -> rnd p (inject_Z z) = inject_Z z) by (intros z Hz; apply rnd_Z; [lia|reflexivity|lia]).
    destruct (Qlt_le_dec (val v) 0) as [N|P].
    - right. rewrite Qabs_neg in Hv by lra. change (- inject_Z (10 ^ (p - k)))%Q with (inject_Z (- 10 ^ (p - k))). rewrite <- R by lia. apply rnd_mono; [lia|].
      change (inject_Z (- 10 ^ (p - k))) with (- inject_Z (10 ^ (p - k)))%Q. lra.
    - left. rewrite Qabs_pos in Hv by lra. rewrite <- R by lia. apply rnd_mono; [lia|exact Hv]. }
  assert (Q0 : (0 < inject_Z (10 ^ (p - k)))%Q) by (change 0%Q with (inject_Z 0); rewrite <- Zlt_Qlt; exact Pk).
  destruct (Qeq_bool d 0) eqn:Z0; [apply Qeq_bool_iff in Z0; exfalso; destruct D; lra|].
  unfold quantize. pose proof (qround_err (d * inject_Z (10 ^ k))) as R. set (m := qround_half_up _) in *.
  assert (S : inject_Z (10 ^ p) == inject_Z (10 ^ (p - k)) * inject_Z (10 ^ k)) by (rewrite <- inject_Z_mult, <- Z.pow_add_r by lia; replace (p - k + k) with p by lia; reflexivity).
  assert (Ql : (0 < inject_Z (10 ^ k))%Q) by (change 0%Q with (inject_Z 0); rewrite <- Zlt_Qlt; exact Pl).
  assert (M : 10 ^ p <= Z.abs m).
  { apply Qabs_Qle_condition in R. destruct R as [R1 R2]. destruct D as [D|D].
    - assert (X : (inject_Z (10 ^ p) <= d * inject_Z (10 ^ k))%Q) by (rewrite S; apply Qmult_le_compat_r; [exact D|lra]).
      assert (Y : (inject_Z (10 ^ p) - 1 < inject_Z m)%Q) by lra. change 1%Q with (inject_Z 1) in Y. rewrite <- inject_Z_minus in Y || unfold Qminus in Y; rewrite <- ?inject_Z_opp, <- ?inject_Z_plus, <- Zlt_Qlt in Y. lia.
    - assert (X : (d * inject_Z (10 ^ k) <= - inject_Z (10 ^ p))%Q).
      { rewrite S. setoid_replace (- (inject_Z (10 ^ (p - k)) * inject_Z (10 ^ k)))%Q with (- inject_Z (10 ^ (p - k)) * inject_Z (10 ^ k))%Q by ring. apply Qmult_le_compat_r; [exact D|lra]. }
      assert (Y : (inject_Z m < - inject_Z (10 ^ p) + 1)%Q) by lra. change 1%Q with (inject_Z 1) in Y. rewrite <- inject_Z_opp, <- inject_Z_plus, <- Zlt_Qlt in Y. lia. }
  replace (Z.abs m <? 10 ^ p) with false by (symmetry; apply Z.ltb_ge; exact M). reflexivity.
Qed.
Print Assumptions c08_too_large.
Example c08_too_large_ex : num_to_string (l_fmt demo) (mkNum (10 ^ 70) 1 None None) = Py /\ (exists t, num_to_string (l_fmt demo) (mkNum (10 ^ 70 - 1) 1 None None) = Ok t).
Proof. split; [vm_compute; reflexivity|eexists; vm_compute; reflexivity]. Qed.
