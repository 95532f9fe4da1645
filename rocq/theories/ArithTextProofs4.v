(** The sizes of fractions in lowest terms; one operator of arithmetic. *)
From Coq Require Import ZArith QArith Qpower Qcanon Qround Znumtheory Ascii String List Bool Lia.
From Verif Require Import Base BaseProofs Dec DecProofs Num NumSpec NumProofs NumProofs2 NumProofs3 NumProofs4 Lex LexSpec Bases BasesProofs Formats Units Install Syntax Pos Call CallSpec Loop LoopSpec Parse Exec Std StdSpec StdProofs4 StdProofs5 StdProofs6 StdProofs9 ArithSpec ArithProofs Prop_Arith ArithTextSpec.
Import ListNotations.
Open Scope Z_scope.

Lemma lowest_gcd n : lowest n -> Z.gcd (nnum n) (nden n) = 1.
Proof. intros H. destruct (H (Z.gcd (nnum n) (nden n)) (Z.gcd_divide_l _ _) (Z.gcd_divide_r _ _)) as [E|E]; [exact E|]. pose proof (Z.gcd_nonneg (nnum n) (nden n)). lia. Qed.
Lemma red_parts a b q : 0 < b -> Z.gcd a b = 1 -> (q == inject_Z a / inject_Z b)%Q -> Qnum (Qred q) = a /\ Z.pos (Qden (Qred q)) = b.
Proof.
  intros Hb Hg Hq. destruct b as [|b|b]; try lia. assert (E : (q == a # b)%Q) by (rewrite Hq; unfold Qdiv, Qeq, inject_Z; cbn; ring).
  apply Qred_complete in E. rewrite (Qred_identity (a # b) Hg) in E. rewrite E. split; reflexivity.
Qed.
Lemma lowest_parts n q : good n -> lowest n -> (val n == q)%Q -> Qnum (Qred q) = nnum n /\ Z.pos (Qden (Qred q)) = nden n.
Proof. intros G Lo V. apply red_parts; [exact G|apply lowest_gcd, Lo|symmetry; exact V]. Qed.
Lemma lowest_size k n q : good n -> lowest n -> (val n == q)%Q -> digits_le k q -> size_le k n.
Proof. intros G Lo V [D1 D2]. destruct (lowest_parts n q G Lo V) as [E1 E2]. split; [rewrite <- E1; exact D1|rewrite <- E2; exact D2]. Qed.
Lemma digits_eq k q r : (q == r)%Q -> digits_le k q -> digits_le k r.
Proof. intros E. unfold digits_le. rewrite (Qred_complete _ _ E). trivial. Qed.
Lemma pow_pow_gcd a b z : 0 <= z -> Z.gcd a b = 1 -> Z.gcd (a ^ z) (b ^ z) = 1.
Proof.
  intros Hz H. apply Zgcd_1_rel_prime. apply Zgcd_1_rel_prime in H. 
  assert (G : forall x y, rel_prime x y -> rel_prime (x ^ z) y).
  { intros x y R. revert z Hz. apply natlike_ind; [apply rel_prime_1|]. intros w Hw IH. rewrite Z.pow_succ_r by exact Hw. apply rel_prime_sym, rel_prime_mult; apply rel_prime_sym; assumption. }
  apply G. apply rel_prime_sym. apply G. apply rel_prime_sym. exact H.
Qed.
Lemma power_nonneg a b z : 0 < b -> 0 <= z -> (Qpower (inject_Z a / inject_Z b) z == inject_Z (a ^ z) / inject_Z (b ^ z))%Q.
Proof.
  intros Hb Hz. revert z Hz. apply natlike_ind; [reflexivity|]. intros z Hz IH. assert (B : 0 < b ^ z) by (apply Z.pow_pos_nonneg; lia).
  assert (N : ~ inject_Z b == 0) by (intros K; change 0%Q with (inject_Z 0) in K; rewrite inject_Z_injective in K; lia).
  assert (N2 : ~ inject_Z (b ^ z) == 0) by (intros K; change 0%Q with (inject_Z 0) in K; rewrite inject_Z_injective in K; lia).
  destruct (Z.eq_dec a 0) as [->|Na].
  - rewrite Z.pow_0_l by lia. assert (E : (inject_Z 0 / inject_Z b == 0)%Q) by (change (inject_Z 0) with 0%Q; unfold Qdiv; ring). rewrite E.
    change (inject_Z 0) with 0%Q. replace (Z.succ z) with (z + 1) by lia. destruct (Z.eq_dec z 0) as [->|Nz]; [cbn; unfold Qdiv; rewrite Qmult_0_l; reflexivity|].
    rewrite Qpower_0 by lia. unfold Qdiv. ring.
  - assert (Nq : ~ (inject_Z a / inject_Z b == 0)%Q).
    { intros K. apply Na. apply inject_Z_injective. change (inject_Z 0) with 0%Q. assert (inject_Z a == inject_Z a / inject_Z b * inject_Z b)%Q as -> by (field; exact N). rewrite K. ring. }
    replace (Z.succ z) with (z + 1) by lia. rewrite Qpower_plus, IH by exact Nq. change (Qpower (inject_Z a / inject_Z b) 1) with (inject_Z a / inject_Z b)%Q.
    rewrite !Z.pow_add_r, !Z.pow_1_r, !inject_Z_mult by lia. field. split; assumption.
Qed.
(** The parts of a power, from the size of its value *)
Lemma power_sizes k n z : good n -> lowest n -> (nnum n <> 0 \/ 0 < z) -> digits_le k (Qpower (val n) z) ->
  Z.abs (nnum n ^ Z.abs z) < 10 ^ k /\ nden n ^ Z.abs z < 10 ^ k.
Proof.
  intros G Lo Nz D. unfold good in G. pose proof (lowest_gcd n Lo) as Hg. unfold val in D. destruct (Z.leb_spec 0 z) as [Hz|Hz].
  - rewrite (Z.abs_eq z) by lia. destruct (red_parts (nnum n ^ z) (nden n ^ z) _ (Z.pow_pos_nonneg _ _ G Hz) (pow_pow_gcd _ _ z Hz Hg) (power_nonneg _ _ z G Hz)) as [E1 E2].
    destruct D as [D1 D2]. rewrite E1 in D1. rewrite E2 in D2. split; assumption.
  - rewrite (Z.abs_neq z) by lia. set (w := - z). assert (Hw : 0 < w) by lia. assert (Na : nnum n <> 0) by (destruct Nz; [assumption|lia]).
    assert (E : (Qpower (inject_Z (nnum n) / inject_Z (nden n)) z == inject_Z (Z.sgn (nnum n) ^ w * nden n ^ w) / inject_Z (Z.abs (nnum n) ^ w))%Q).
    { replace z with (- w) by lia. rewrite Qpower_opp, power_nonneg by lia. rewrite <- (Z.abs_sgn (nnum n)) at 1. rewrite Z.pow_mul_l, !inject_Z_mult.
      assert (P1 : 0 < Z.abs (nnum n) ^ w) by (apply Z.pow_pos_nonneg; lia). assert (P2 : 0 < nden n ^ w) by (apply Z.pow_pos_nonneg; lia).
      assert (Sq : Z.sgn (nnum n) ^ w * Z.sgn (nnum n) ^ w = 1).
      { rewrite <- Z.pow_mul_l. destruct (nnum n); [congruence|cbn [Z.sgn]; rewrite Z.mul_1_l; apply Z.pow_1_l; lia|]. replace (Z.sgn (Z.neg p) * Z.sgn (Z.neg p)) with 1 by reflexivity. apply Z.pow_1_l. lia. }
      assert (Q1 : ~ inject_Z (Z.abs (nnum n) ^ w) == 0) by (intros K; change 0%Q with (inject_Z 0) in K; rewrite inject_Z_injective in K; lia).
      assert (Q2 : ~ inject_Z (nden n ^ w) == 0) by (intros K; change 0%Q with (inject_Z 0) in K; rewrite inject_Z_injective in K; lia).
      assert (Q3 : ~ inject_Z (Z.sgn (nnum n) ^ w) == 0) by (intros K; change 0%Q with (inject_Z 0) in K; rewrite inject_Z_injective in K; lia).
      assert (Q4 : (inject_Z (Z.sgn (nnum n) ^ w) * inject_Z (Z.sgn (nnum n) ^ w) == 1)%Q) by (rewrite <- inject_Z_mult, Sq; reflexivity).
      set (x := inject_Z (Z.abs (nnum n) ^ w)) in *. set (y := inject_Z (nden n ^ w)) in *. set (u := inject_Z (Z.sgn (nnum n) ^ w)) in *.
      assert (Iu : (/ u == u)%Q) by (rewrite <- (Qmult_1_l (/ u)), <- Q4; field; exact Q3).
      transitivity (/ u * (y / x))%Q; [field; repeat split; assumption|]. rewrite Iu. field. exact Q1. }
    assert (P1 : 0 < Z.abs (nnum n) ^ w) by (apply Z.pow_pos_nonneg; lia).
    assert (Gg : Z.gcd (Z.sgn (nnum n) ^ w * nden n ^ w) (Z.abs (nnum n) ^ w) = 1).
    { rewrite <- Z.pow_mul_l. apply pow_pow_gcd; [lia|]. rewrite Z.gcd_abs_r. rewrite Z.gcd_comm, <- Z.gcd_abs_r, Z.abs_mul, Z.abs_sgn || rewrite Z.gcd_comm, <- Z.gcd_abs_r, Z.abs_mul.
      replace (Z.abs (Z.sgn (nnum n))) with 1 by (destruct (nnum n); [congruence|reflexivity|reflexivity]). rewrite Z.mul_1_l, Z.gcd_abs_r. exact Hg. }
    destruct (red_parts _ _ _ P1 Gg E) as [E1 E2]. destruct D as [D1 D2]. rewrite E1 in D1. rewrite E2 in D2.
    rewrite Z.abs_mul in D1. assert (As : Z.abs (Z.sgn (nnum n) ^ w) = 1) by (rewrite Z.abs_pow; replace (Z.abs (Z.sgn (nnum n))) with 1 by (destruct (nnum n); [congruence|reflexivity|reflexivity]); apply Z.pow_1_l; lia).
    rewrite As, Z.mul_1_l in D1. rewrite Z.abs_eq in D1 by (apply Z.pow_nonneg; lia). rewrite Z.abs_pow. split; assumption.
Qed.

(** * One operator *)
Definition holds_value (r : result) (q : Q) : Prop := exists n, rval r = VNum n /\ runit r = None /\ good n /\ lowest n /\ (val n == q)%Q /\ ncast n <> Some CPct.
Definition imp_sym : str := $"IMPLICIT_MULTIPLY".
Definition run_sym (o : aop) : str := match o with Beside => imp_sym | _ => osym o end.
Lemma find_imp L : find_op (g_ops (std L)) imp_sym = Some (mkOper [None] [None] false (odef imp_sym 2 (all_are tynum) true true true false (op_multiply L))).
Proof. reflexivity. Qed.
Lemma imp_call L stl x y a b n s : number_at L x a -> number_at L y b -> runit x = None -> runit y = None -> num_mul (l_prec L) a b = Some n -> ncast n = ncast a ->
  callop (std L) stl imp_sym [x; y] s = (OOk (mkRes (VNum (with_cast n (format_of a b))) None None), s).
Proof.
  intros Hx Hy Ux Uy Hn Hc. rewrite callop_eq, find_imp. cbn [op_def]. set (d := odef imp_sym 2 (all_are tynum) true true true false (op_multiply L)).
  rewrite (takes2_call L _ d stl x y a b s); [|repeat split; auto|exact Hx|exact Hy]. replace (o_impl d) with (op_scale L 1 num_mul) by reflexivity. rewrite Ux, Uy.
  unfold op_scale, bind, pym. cbn [unit_value]. rewrite Hn. unfold ret. cbn [join_units]. now rewrite (finish_cast d a b n eq_refl Hc).
Qed.
Lemma op_value_cast L stl o x y qx qy q k s : pow_ok (l_prec L) (f_pow (l_fmt L)) -> 0 <= k -> 3 * k + 1 <= l_prec L -> holds_value x qx -> holds_value y qy ->
  digits_le k qx -> digits_le k qy -> digits_le k q -> apply_op o qx qy = Some q ->
  exists n, callop (std L) stl (run_sym o) [x; y] s = (OOk (mkRes (VNum n) None None), s) /\ good n /\ lowest n /\ (val n == q)%Q /\
    forall a b, rval x = VNum a -> rval y = VNum b -> ncast n = format_of a b.
Proof.
  intros Hpow Hk Hp (a & Ra & Ua & Ga & La & Va & _) (b & Rb & Ub & Gb & Lb & Vb & _) Dx Dy Dq Hq.
  assert (Nx : number_at L x a) by (unfold number_at; rewrite Ra; reflexivity). assert (Ny : number_at L y b) by (unfold number_at; rewrite Rb; reflexivity).
  pose proof (lowest_size k a qx Ga La Va Dx) as Sa. pose proof (lowest_size k b qy Gb Lb Vb Dy) as Sb.
  assert (G : forall f, In (osym o, f) exact_ops -> (osym o = $"/" -> nnum b <> 0) -> (f (val a) (val b) == q)%Q -> run_sym o = osym o ->
    exists n, callop (std L) stl (run_sym o) [x; y] s = (OOk (mkRes (VNum n) None None), s) /\ good n /\ lowest n /\ (val n == q)%Q /\ ncast n = format_of a b).
  { intros f Hf Hd Hv Hs. destruct (c55_exact L stl (osym o) f x y a b k s Hf Nx Ny Ua Ub Ga Gb Sa Sb Hk Hp Hd) as (n & C & V & G & Lo & Nc).
    exists n. split; [rewrite Hs; exact C|]. repeat split; try assumption. rewrite V. exact Hv. }
  assert (W : (exists n, callop (std L) stl (run_sym o) [x; y] s = (OOk (mkRes (VNum n) None None), s) /\ good n /\ lowest n /\ (val n == q)%Q /\ ncast n = format_of a b) ->
    exists n, callop (std L) stl (run_sym o) [x; y] s = (OOk (mkRes (VNum n) None None), s) /\ good n /\ lowest n /\ (val n == q)%Q /\
    forall a b, rval x = VNum a -> rval y = VNum b -> ncast n = format_of a b).
  { intros (n & N1 & N2 & N3 & N4 & N5). exists n. repeat split; try assumption. intros a' b' Ea Eb. replace a' with a by congruence. replace b' with b by congruence. exact N5. }
  apply W. clear W.
  destruct o; cbn [apply_op] in Hq.
  - injection Hq as <-. apply (G Qplus); [left; reflexivity|discriminate|rewrite Va, Vb; reflexivity|reflexivity].
  - injection Hq as <-. apply (G Qminus); [right; left; reflexivity|discriminate|rewrite Va, Vb; reflexivity|reflexivity].
  - injection Hq as <-. apply (G Qmult); [right; right; left; reflexivity|discriminate|rewrite Va, Vb; reflexivity|reflexivity].
  - destruct (Qeq_bool qy 0) eqn:Z0; [discriminate|]. injection Hq as <-. apply (G Qdiv); [right; right; right; left; reflexivity| |rewrite Va, Vb; reflexivity|reflexivity].
    intros _ E. apply Qeq_bool_neq in Z0. apply Z0. rewrite <- Vb. unfold val. rewrite E. unfold Qdiv. change (inject_Z 0) with 0%Q. ring.
  - destruct (whole qy) as [z|] eqn:W; [|discriminate]. unfold whole in W. destruct (Pos.eqb_spec (Qden (Qred qy)) 1) as [D1|]; [|discriminate]. injection W as W.
    destruct (lowest_parts b qy Gb Lb Vb) as [E1 E2]. rewrite D1 in E2. assert (Ez : nnum b = z) by congruence.
    destruct (Qeq_bool qx 0 && (z <=? 0))%bool eqn:Z0; [discriminate|]. injection Hq as <-.
    assert (Nz : nnum a <> 0 \/ 0 < z).
    { apply andb_false_iff in Z0. destruct Z0 as [Z0|Z0]; [left|right; apply Z.leb_gt in Z0; exact Z0]. apply Qeq_bool_neq in Z0. intros E. apply Z0. rewrite <- Va. unfold val. rewrite E.
      unfold Qdiv. change (inject_Z 0) with 0%Q. ring. }
    assert (Dp : digits_le k (Qpower (val a) z)) by (apply (digits_eq k (Qpower qx z)); [rewrite Va; reflexivity|exact Dq]).
    destruct (power_sizes k a z Ga La Nz Dp) as [S1 S2]. assert (Pk : 10 ^ k <= 10 ^ l_prec L) by (apply Z.pow_le_mono_r; lia).
    destruct (c55_power L stl x y a b s Nx Ny Ua Ub) as (n & C & V & G0 & Lo & Nc); try assumption.
    + lia.
    + symmetry. exact E2.
    + destruct Sb. lia.
    + rewrite Ez. exact Nz.
    + rewrite Ez. lia.
    + rewrite Ez. lia.
    + exists n. split; [exact C|]. repeat split; try assumption. rewrite V, Ez, Va. reflexivity.
  - injection Hq as <-. assert (P1 : 1 <= l_prec L) by lia. destruct (num_mul_exact (l_prec L) a b P1 Ga Gb) as (n & E & V & G0 & Lo & C); [apply (size_mul (l_prec L) k); auto; lia|].
    exists (with_cast n (format_of a b)). split; [apply imp_call; assumption|]. repeat split; try assumption; try reflexivity.
    rewrite with_cast_val, V, Va, Vb. reflexivity.
Qed.
Lemma op_value L stl o x y qx qy q k s : pow_ok (l_prec L) (f_pow (l_fmt L)) -> 0 <= k -> 3 * k + 1 <= l_prec L -> holds_value x qx -> holds_value y qy ->
  digits_le k qx -> digits_le k qy -> digits_le k q -> apply_op o qx qy = Some q ->
  exists r, callop (std L) stl (run_sym o) [x; y] s = (OOk r, s) /\ holds_value r q.
Proof.
  intros Hpow Hk Hp Hx Hy Dx Dy Dq Hq. destruct (op_value_cast L stl o x y qx qy q k s Hpow Hk Hp Hx Hy Dx Dy Dq Hq) as (n & C & G & Lo & V & Nc).
  exists (mkRes (VNum n) None None). split; [exact C|]. exists n. repeat (split; [assumption || reflexivity|]). destruct Hx as (a & Ra & _ & _ & _ & _ & Pa). destruct Hy as (b & Rb & _ & _ & _ & _ & Pb).
  rewrite (Nc a b Ra Rb). unfold format_of. destruct (ncast a); assumption.
Qed.
