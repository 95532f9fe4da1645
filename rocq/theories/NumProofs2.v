From Coq Require Import ZArith QArith Qround Qabs Qreduction Ascii String List Bool Lia Lqa Setoid Znumtheory.
From Verif Require Import Base Dec Num NumSpec Lex LexSpec DecProofs NumProofs BaseProofs LexProofs.
Import ListNotations.
Open Scope Z_scope.

(** ** Size conditions that imply exactness *)
Lemma abs_mul_lt a b x y : Z.abs a < x -> Z.abs b < y -> Z.abs (a * b) < x * y.
Proof. intros. rewrite Z.abs_mul. nia. Qed.

Lemma lcm_le a b : 0 < a -> 0 < b -> Z.lcm a b <= a * b.
Proof.
  intros. apply Z.divide_pos_le; [nia|]. apply Z.lcm_least; [apply Z.divide_factor_l|apply Z.divide_factor_r].
Qed.

Lemma div_le_self l d : 0 < d -> 0 <= l -> l / d <= l.
Proof. intros. apply Z.div_le_upper_bound; auto. nia. Qed.

Lemma small_mono p q z : p <= q -> 0 <= p -> small p z -> small q z.
Proof. unfold small. intros. assert (10 ^ p <= 10 ^ q) by (apply Z.pow_le_mono_r; lia). lia. Qed.

  Lemma size_mul p k a b : 0 <= k -> good a -> good b -> size_le k a -> size_le k b -> 2 * k <= p -> mul_fits p a b.
  Proof.
    intros Hk Ga Gb Sa Sb Hp. unfold mul_fits, size_le, good in *. pose proof (pow10_pos k Hk).
    assert (E : 10 ^ (2 * k) = 10 ^ k * 10 ^ k) by (rewrite <- Z.pow_add_r by lia; f_equal; lia).
    split; apply (small_mono (2 * k)); try lia; unfold small; rewrite E; apply abs_mul_lt; lia.
  Qed.

  Lemma size_div p k a b : 0 <= k -> good a -> good b -> size_le k a -> size_le k b -> 2 * k <= p -> div_fits p a b.
  Proof.
    intros Hk Ga Gb Sa Sb Hp. unfold div_fits, size_le, good in *. pose proof (pow10_pos k Hk).
    assert (E : 10 ^ (2 * k) = 10 ^ k * 10 ^ k) by (rewrite <- Z.pow_add_r by lia; f_equal; lia).
    split; apply (small_mono (2 * k)); try lia; unfold small; rewrite E; apply abs_mul_lt; lia.
  Qed.

  Lemma size_lcm k a b : 0 <= k -> good a -> good b -> size_le k a -> size_le k b -> let l := Z.lcm (nden a) (nden b) in 0 < l < 10 ^ k * 10 ^ k.
  Proof.
    intros Hk Ga Gb Sa Sb. cbn. unfold size_le, good in *. pose proof (lcm_pos (nden a) (nden b) Ga Gb).
    pose proof (lcm_le (nden a) (nden b) Ga Gb). nia.
  Qed.

  Lemma size_add_sub p k a b : 0 <= k -> good a -> good b -> size_le k a -> size_le k b -> 3 * k + 1 <= p -> add_fits p a b /\ sub_fits p a b.
  Proof.
    intros Hk Ga Gb Sa Sb Hp. unfold add_fits, sub_fits. pose proof (size_lcm k a b Hk Ga Gb Sa Sb) as L. cbv zeta in *. set (l := Z.lcm (nden a) (nden b)) in *.
    unfold size_le, good in *. pose proof (pow10_pos k Hk).
    assert (E : 10 ^ (3 * k + 1) = 10 * (10 ^ k * (10 ^ k * 10 ^ k))).
    { rewrite <- !Z.pow_add_r by lia. rewrite <- Z.pow_succ_r by lia. f_equal; lia. }
    pose proof (div_le_self l (nden a) Ga ltac:(lia)). pose proof (div_le_self l (nden b) Gb ltac:(lia)).
    pose proof (Z.div_pos l (nden a) ltac:(lia) Ga). pose proof (Z.div_pos l (nden b) ltac:(lia) Gb).
    assert (A1 : Z.abs (nnum a * l) < 10 ^ k * (10 ^ k * 10 ^ k)) by (apply abs_mul_lt; lia).
    assert (A2 : Z.abs (nnum b * l) < 10 ^ k * (10 ^ k * 10 ^ k)) by (apply abs_mul_lt; lia).
    assert (A3 : Z.abs (nnum a * (l / nden a)) < 10 ^ k * (10 ^ k * 10 ^ k)) by (apply abs_mul_lt; lia).
    assert (A4 : Z.abs (nnum b * (l / nden b)) < 10 ^ k * (10 ^ k * 10 ^ k)) by (apply abs_mul_lt; lia).
    assert (Z.abs l < 10 ^ k * (10 ^ k * 10 ^ k)) by nia.
    repeat split; apply (small_mono (3 * k + 1)); try lia; unfold small; rewrite E; lia.
  Qed.


(** ** floor, ceiling and truncation of a rounded quotient *)
Lemma p10_1p p n : 1 <= p -> Z.abs n < 10 ^ (p - 1) ->
  ((1 # 2) * p10 (1 - p) * inject_Z (Z.abs n) < 1)%Q.
Proof.
  intros Hp Hn.
  assert (E : (p10 (1 - p) * inject_Z (10 ^ (p - 1)) == 1)%Q).
  { rewrite <- (p10_nonneg (p - 1)) by lia. rewrite <- p10_plus. replace (1 - p + (p - 1)) with 0 by lia. reflexivity. }
  assert (I : (inject_Z (Z.abs n) <= inject_Z (10 ^ (p - 1)))%Q) by (rewrite <- Zle_Qle; lia).
  pose proof (p10_pos (1 - p)). assert (0 <= inject_Z (Z.abs n))%Q by (change 0%Q with (inject_Z 0); rewrite <- Zle_Qle; lia).
  nra.
Qed.

Lemma fits_Z_le p z x : 1 <= p -> Z.abs z <= 10 ^ p -> (inject_Z z <= x)%Q -> (inject_Z z <= rnd p x)%Q.
Proof. intros. rewrite <- (rnd_int_id p z) by auto. apply rnd_mono; auto. Qed.
Lemma fits_Z_ge p z x : 1 <= p -> Z.abs z <= 10 ^ p -> (x <= inject_Z z)%Q -> (rnd p x <= inject_Z z)%Q.
Proof. intros. rewrite <- (rnd_int_id p z) by auto. apply rnd_mono; auto. Qed.

Lemma frac_abs n d : 0 < d -> (Qabs (inject_Z n / inject_Z d) == inject_Z (Z.abs n) / inject_Z d)%Q.
Proof.
  intros Hd. unfold Qdiv. rewrite Qabs_Qmult. rewrite (Qabs_pos (/ inject_Z d)).
  - reflexivity.
  - apply Qinv_le_0_compat. change 0%Q with (inject_Z 0). rewrite <- Zle_Qle. lia.
Qed.

(** Rounding a quotient n/d moves it by less than 1/d when n has fewer than p digits. *)
Lemma rnd_close p n d : 1 <= p -> 0 < d -> Z.abs n < 10 ^ (p - 1) ->
  (Qabs (rnd p (inject_Z n / inject_Z d) - inject_Z n / inject_Z d) * inject_Z d < 1)%Q.
Proof.
  intros Hp Hd Hn. pose proof (rnd_err_rel p (inject_Z n / inject_Z d)) as R.
  rewrite (frac_abs n d Hd) in R. pose proof (p10_1p p n Hp Hn) as S.
  assert (D : (0 < inject_Z d)%Q) by (change 0%Q with (inject_Z 0); rewrite <- Zlt_Qlt; auto).
  apply (Qmult_le_compat_r _ _ (inject_Z d)) in R; [|lra].
  eapply Qle_lt_trans; [exact R|]. eapply Qle_lt_trans; [|exact S].
  apply Qle_lteq. right. field. lra.
Qed.

Lemma floor_rnd p n d : 1 <= p -> 0 < d -> Z.abs n < 10 ^ (p - 1) ->
  Qfloor (rnd p (inject_Z n / inject_Z d)) = n / d.
Proof.
  intros Hp Hd Hn. pose proof (rnd_close p n d Hp Hd Hn) as C.
  assert (P : 10 ^ (p - 1) <= 10 ^ p) by (apply Z.pow_le_mono_r; lia).
  pose proof (Z.div_mod n d ltac:(lia)) as DM. pose proof (Z.mod_pos_bound n d Hd) as MB.
  assert (D : (0 < inject_Z d)%Q) by (change 0%Q with (inject_Z 0); rewrite <- Zlt_Qlt; auto).
  set (q := n / d) in *.
  assert (L : (inject_Z q <= inject_Z n / inject_Z d)%Q).
  { apply Qle_shift_div_l; auto. rewrite <- inject_Z_mult, <- Zle_Qle. lia. }
  assert (Hq : Z.abs q <= 10 ^ p) by nia.
  pose proof (fits_Z_le p q _ Hp Hq L) as L2.
  assert (U : (rnd p (inject_Z n / inject_Z d) < inject_Z (q + 1))%Q).
  { apply Qnot_le_lt. intro G.
    assert (X : (inject_Z (q + 1) - inject_Z n / inject_Z d <= Qabs (rnd p (inject_Z n / inject_Z d) - inject_Z n / inject_Z d))%Q).
    { eapply Qle_trans; [|apply Qle_Qabs]. lra. }
    apply (Qmult_le_compat_r _ _ (inject_Z d)) in X; [|lra].
    assert (Y : ((inject_Z (q + 1) - inject_Z n / inject_Z d) * inject_Z d == inject_Z ((q + 1) * d - n))%Q).
    { unfold Z.sub. rewrite (inject_Z_plus ((q + 1) * d)), inject_Z_mult, inject_Z_opp. field. lra. }
    rewrite Y in X. assert (1 <= inject_Z ((q + 1) * d - n))%Q by (change 1%Q with (inject_Z 1); rewrite <- Zle_Qle; lia). lra. }
  pose proof (Qfloor_le (rnd p (inject_Z n / inject_Z d))). pose proof (Qlt_floor (rnd p (inject_Z n / inject_Z d))) as F2.
  assert (q < Qfloor (rnd p (inject_Z n / inject_Z d)) + 1) by (rewrite Zlt_Qlt; lra).
  assert (Qfloor (rnd p (inject_Z n / inject_Z d)) < q + 1) by (rewrite Zlt_Qlt; lra). lia.
Qed.

Lemma neg_frac n d : (- (inject_Z n / inject_Z d) == inject_Z (- n) / inject_Z d)%Q.
Proof. rewrite inject_Z_opp. unfold Qdiv. ring. Qed.

Lemma ceil_rnd p n d : 1 <= p -> 0 < d -> Z.abs n < 10 ^ (p - 1) ->
  Qceiling (rnd p (inject_Z n / inject_Z d)) = - (- n / d).
Proof.
  intros Hp Hd Hn. unfold Qceiling. f_equal. rewrite <- (floor_rnd p (- n) d Hp Hd) by lia.
  apply Qfloor_comp. rewrite <- rnd_opp. rewrite (rnd_eq p _ _ (neg_frac n d)). reflexivity.
Qed.

Lemma qtrunc_floor x : qtrunc x = if Qle_bool 0 x then Qfloor x else Qceiling x.
Proof.
  unfold qtrunc. destruct (Qle_bool 0 x) eqn:E.
  - apply Qle_bool_iff in E. destruct x as [n d]. unfold Qle in E; cbn in *. rewrite Z.quot_div_nonneg by lia. reflexivity.
  - assert (~ (0 <= x)%Q) as N by (intro F; apply Qle_bool_iff in F; congruence).
    destruct x as [n d]. unfold Qle in N; cbn in *.
    rewrite <- (Z.opp_involutive n) at 1. rewrite Z.quot_opp_l by lia. rewrite Z.quot_div_nonneg by lia. reflexivity.
Qed.

Lemma trunc_rnd p n d : 1 <= p -> 0 < d -> Z.abs n < 10 ^ (p - 1) ->
  qtrunc (rnd p (inject_Z n / inject_Z d)) = Z.quot n d.
Proof.
  intros Hp Hd Hn. rewrite qtrunc_floor.
  assert (D : (0 < / inject_Z d)%Q) by (apply Qinv_lt_0_compat; change 0%Q with (inject_Z 0); rewrite <- Zlt_Qlt; auto).
  destruct (Qle_bool 0 _) eqn:E.
  - rewrite floor_rnd by auto. apply Qle_bool_iff in E.
    assert (0 <= n).
    { destruct (Z_le_gt_dec 0 n); auto. exfalso.
      assert (P : (0 < rnd p (- (inject_Z n / inject_Z d)))%Q).
      { apply rnd_pos; auto. rewrite neg_frac. unfold Qdiv.
        assert (0 < inject_Z (- n))%Q by (change 0%Q with (inject_Z 0); rewrite <- Zlt_Qlt; lia). nra. }
      rewrite rnd_opp in P. lra. }
    rewrite Z.quot_div_nonneg by lia. reflexivity.
  - rewrite ceil_rnd by auto.
    assert (n < 0).
    { destruct (Z_lt_le_dec n 0); auto. exfalso. 
      assert (0 <= rnd p (inject_Z n / inject_Z d))%Q; [|apply Qle_bool_iff in H; congruence].
      change 0%Q with (inject_Z 0). apply fits_Z_le; auto.
      - cbn. assert (0 < 10 ^ p) by (apply pow10_pos; lia). lia.
      - unfold Qdiv. assert (0 <= inject_Z n)%Q by (change 0%Q with (inject_Z 0); rewrite <- Zle_Qle; auto). 
        change (inject_Z 0) with 0%Q. nra. }
    rewrite <- (Z.opp_involutive n) at 2. rewrite Z.quot_opp_l by lia. rewrite Z.quot_div_nonneg by lia. reflexivity.
Qed.

(** ** floor division *)
Lemma num_div_size p a b r : 1 <= p -> good a -> good b -> div_fits p a b -> nnum b <> 0 ->
  num_div p a b = Some r -> Z.abs (nnum r) <= Z.abs (nnum a * nden b).
Proof.
  intros Hp Ga Gb (F1 & F2) Hb. unfold num_div. rewrite !dmul_Z by auto. unfold good, small in *.
  rewrite num_make_Z. destruct (Z.eqb_spec (nden a * nnum b) 0); [nia|]. intros H; inversion H; subst.
  apply num_reduce_props; auto; lia.
Qed.

Lemma val_frac r : good r -> forall k : Z, (inject_Z k <= val r)%Q <-> k <= nnum r / nden r.
Proof.
  intros G k. unfold good in G. unfold val.
  assert (D : (0 < inject_Z (nden r))%Q) by (change 0%Q with (inject_Z 0); rewrite <- Zlt_Qlt; auto).
  split; intros H.
  - apply Z.div_le_lower_bound; auto. apply (Qmult_le_compat_r _ _ (inject_Z (nden r))) in H; [|lra].
    assert (E : (inject_Z (nnum r) / inject_Z (nden r) * inject_Z (nden r) == inject_Z (nnum r))%Q) by (field; lra).
    rewrite E, <- inject_Z_mult, <- Zle_Qle in H. lia.
  - apply Qle_shift_div_l; auto. rewrite <- inject_Z_mult, <- Zle_Qle. pose proof (Z.mul_div_le (nnum r) (nden r) G). nia.
Qed.

Lemma floor_val r : good r -> Qfloor (val r) = nnum r / nden r.
Proof.
  intros G. pose proof (val_frac r G) as V. pose proof (Qfloor_le (val r)) as L. pose proof (Qlt_floor (val r)) as U.
  apply V in L. assert (inject_Z (nnum r / nden r) <= val r)%Q by (apply V; lia).
  assert (nnum r / nden r < Qfloor (val r) + 1) by (rewrite Zlt_Qlt; lra). lia.
Qed.

Lemma num_floordiv_spec p a b : 1 <= p -> good a -> good b -> nnum b <> 0 ->
  small (p - 1) (nnum a * nden b) -> small p (nden a * nnum b) ->
  exists r, num_floordiv p a b = Some r /\ nden r = 1 /\ nnum r = Qfloor (val a / val b) /\ ncast r = ncast a.
Proof.
  intros Hp Ga Gb Hb S1 S2.
  assert (F : div_fits p a b).
  { split; auto. unfold small in *. assert (10 ^ (p - 1) <= 10 ^ p) by (apply Z.pow_le_mono_r; lia). lia. }
  destruct (num_div_exact p a b Hp Ga Gb F Hb) as (r & R1 & R2 & R3 & R4 & R5).
  unfold num_floordiv. rewrite R1. eexists. split; [reflexivity|]. unfold num_floor; cbn [nnum nden ncast]. split; auto. split; auto.
  rewrite <- (Qfloor_comp _ _ R2). rewrite floor_val by auto. unfold to_decimal, ddiv.
  apply floor_rnd; auto. pose proof (num_div_size p a b r Hp Ga Gb F Hb R1). unfold small in S1. lia.
Qed.

(** ** remainder *)
Definition mod_fits (p : Z) (a b : number) : Prop :=
  let l := Z.lcm (nden a) (nden b) in small p (nnum a * l) /\ small p (nnum b * l) /\ small p l.

Lemma num_mod_spec p a b : 1 <= p -> good a -> good b -> nnum b <> 0 -> mod_fits p a b ->
  exists r k, num_mod p a b = Some r /\ (val a == inject_Z k * val b + val r)%Q /\
    (Qabs (val r) < Qabs (val b))%Q /\ (0 <= val r * val a)%Q /\ (Qabs (val r) <= Qabs (val a))%Q /\
    good r /\ lowest r /\ ncast r = ncast a.
Proof.
  intros Hp Ga Gb Hb (F1 & F2 & F3). unfold num_mod, num_normalise. unfold good, small in *.
  set (l := Z.lcm (nden a) (nden b)) in *.
  assert (Hl : 0 < l) by (apply lcm_pos; auto).
  rewrite (scale_exact p (nnum a) l (nden a) Hp Ga (Z.divide_lcm_l _ _) ltac:(lia)).
  rewrite (scale_exact p (nnum b) l (nden b) Hp Gb (Z.divide_lcm_r _ _) ltac:(lia)).
  pose proof (lcm_quot (nden a) (nden b) Ga Gb) as Qa. fold l in Qa.
  pose proof (lcm_quot (nden b) (nden a) Gb Ga) as Qb. rewrite Z.lcm_comm in Qb. fold l in Qb.
  set (x := nnum a * (l / nden a)). set (y := nnum b * (l / nden b)).
  assert (0 < l / nden a) by nia. assert (0 < l / nden b) by nia.
  assert (Hy : y <> 0) by (unfold y; nia).
  assert (Sx : Z.abs x < 10 ^ p).
  { unfold x. pose proof (div_le_self l (nden a) Ga ltac:(lia)). rewrite Z.abs_mul in *. nia. }
  unfold dmod. destruct (Qeq_bool (inject_Z y) 0) eqn:Ey.
  { apply Qeq_bool_iff in Ey. exfalso. revert Ey. apply inject_nz; auto. }
  assert (Tq : qtrunc (inject_Z x / inject_Z y) = Z.quot x y).
  { rewrite qtrunc_floor.
    assert (G : forall u v, 0 < v -> Qfloor (inject_Z u / inject_Z v) = u / v).
    { intros u v Hv. pose proof (floor_val (mkNum u v None None) Hv) as V. exact V. }
    assert (C : forall u v, 0 < v -> (if Qle_bool 0 (inject_Z u / inject_Z v) then Qfloor (inject_Z u / inject_Z v) else Qceiling (inject_Z u / inject_Z v)) = Z.quot u v).
    { intros u v Hv.
      assert (D : (0 < / inject_Z v)%Q) by (apply Qinv_lt_0_compat; change 0%Q with (inject_Z 0); rewrite <- Zlt_Qlt; auto).
      destruct (Qle_bool 0 _) eqn:E.
      - rewrite G by auto. apply Qle_bool_iff in E. assert (0 <= u).
        { destruct (Z_le_gt_dec 0 u); auto. exfalso. unfold Qdiv in E.
          assert (inject_Z u < 0)%Q by (change 0%Q with (inject_Z 0); rewrite <- Zlt_Qlt; lia). nra. }
        rewrite Z.quot_div_nonneg by lia. reflexivity.
      - assert (u < 0).
        { destruct (Z_lt_le_dec u 0); auto. exfalso. assert (0 <= inject_Z u / inject_Z v)%Q; [|apply Qle_bool_iff in H1; congruence].
          unfold Qdiv. assert (0 <= inject_Z u)%Q by (change 0%Q with (inject_Z 0); rewrite <- Zle_Qle; auto). nra. }
        unfold Qceiling. rewrite (Qfloor_comp _ _ (neg_frac u v)), G by auto.
        rewrite <- (Z.opp_involutive u) at 2. rewrite Z.quot_opp_l by lia. rewrite Z.quot_div_nonneg by lia. reflexivity. }
    rewrite <- qtrunc_floor.
    assert (CT : forall q q', (q == q')%Q -> qtrunc q = qtrunc q').
    { intros q q' E. rewrite !qtrunc_floor. rewrite (Qfloor_comp _ _ E), (Qceiling_comp _ _ E).
      destruct (Qle_bool 0 q) eqn:E1, (Qle_bool 0 q') eqn:E2; auto.
      - apply Qle_bool_iff in E1. rewrite E in E1. apply Qle_bool_iff in E1. congruence.
      - apply Qle_bool_iff in E2. rewrite <- E in E2. apply Qle_bool_iff in E2. congruence. }
    destruct (Z_lt_le_dec 0 y) as [Py|Ny].
    - rewrite qtrunc_floor. apply C; auto.
    - rewrite (CT _ (inject_Z (- x) / inject_Z (- y))%Q).
      + rewrite qtrunc_floor, C by lia. apply Z.quot_opp_opp; auto.
      + rewrite !inject_Z_opp. field. apply inject_nz; auto. }
  rewrite Tq. pose proof (Z.quot_rem x y Hy) as QR. pose proof (Z.rem_bound_abs x y Hy) as RB.
  pose proof (Z.rem_sign_mul x y Hy) as RS.
  assert (Qle1 : Z.abs (Z.quot x y) <= Z.abs x).
  { rewrite <- Z.quot_abs by auto. rewrite Z.quot_div_nonneg by lia. apply div_le_self; lia. }
  destruct (Z.ltb_spec (Z.abs (Z.quot x y)) (10 ^ p)); [|lia].
  assert (Rle : Z.abs (Z.rem x y) <= Z.abs x).
  { rewrite <- Z.rem_abs by auto. apply Z.rem_le; lia. }
  rewrite (rnd_Z p (Z.rem x y)).
  2: auto.
  2: { rewrite <- inject_Z_mult. unfold Qminus. rewrite <- inject_Z_opp, <- inject_Z_plus. f_equiv. lia. }
  2: lia.
  destruct (make_exact p (ncast a) (Z.rem x y) l (inject_Z (Z.rem x y) / inject_Z l)%Q) as (r & R1 & R2 & R3 & R4 & R5);
    auto; try lia; unfold small; try lia; [reflexivity|].
  exists r, (Z.quot x y). split; [auto|].
  assert (Va : (val a == inject_Z x / inject_Z l)%Q).
  { unfold val. unfold x. rewrite <- Qa at 2. rewrite !inject_Z_mult. field. split; apply inject_nz; lia. }
  assert (Vb : (val b == inject_Z y / inject_Z l)%Q).
  { unfold val. unfold y. rewrite <- Qb at 2. rewrite !inject_Z_mult. field. split; apply inject_nz; lia. }
  assert (D : (0 < / inject_Z l)%Q) by (apply Qinv_lt_0_compat; change 0%Q with (inject_Z 0); rewrite <- Zlt_Qlt; auto).
  split; [|split; [|split; [|split; [|auto]]]].
  - rewrite R2, Va, Vb. rewrite QR at 1. rewrite inject_Z_plus, inject_Z_mult. field. apply inject_nz; lia.
  - rewrite R2, Vb, !frac_abs by auto. unfold Qdiv. apply Qmult_lt_compat_r; auto. rewrite <- Zlt_Qlt. lia.
  - rewrite R2, Va. unfold Qdiv.
    setoid_replace (inject_Z (Z.rem x y) * / inject_Z l * (inject_Z x * / inject_Z l))%Q
      with (inject_Z (Z.rem x y * x) * (/ inject_Z l * / inject_Z l))%Q by (rewrite inject_Z_mult; ring).
    assert (0 <= inject_Z (Z.rem x y * x))%Q by (change 0%Q with (inject_Z 0); rewrite <- Zle_Qle; lia). nra.
  - rewrite R2, Va, !frac_abs by auto. unfold Qdiv. apply Qmult_le_compat_r; [|lra]. rewrite <- Zle_Qle. lia.
Qed.
