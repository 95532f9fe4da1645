From Coq Require Import ZArith QArith Qpower Qround Qabs Qreduction Ascii String List Bool Lia Lqa Setoid Znumtheory.
From Verif Require Import Base Dec Num NumSpec DecProofs NumProofs NumProofs2 NumProofs3.
Import ListNotations.
Open Scope Z_scope.

(** ** Every Number that operations can produce has a positive denominator *)
Inductive produced (p : Z) : number -> Prop :=
| pr_make c n d r : num_make p c n d = Some r -> produced p r
| pr_add a b r : produced p a -> produced p b -> num_add p a b = Some r -> produced p r
| pr_sub a b r : produced p a -> produced p b -> num_sub p a b = Some r -> produced p r
| pr_mul a b r : produced p a -> produced p b -> num_mul p a b = Some r -> produced p r
| pr_div a b r : produced p a -> produced p b -> num_div p a b = Some r -> produced p r
| pr_floordiv a b r : produced p a -> produced p b -> num_floordiv p a b = Some r -> produced p r
| pr_mod a b r : produced p a -> produced p b -> num_mod p a b = Some r -> produced p r
| pr_pow f a b r : produced p a -> produced p b -> num_pow p f a b = Some r -> produced p r
| pr_neg a : produced p a -> produced p (num_neg p a)
| pr_abs a : produced p a -> produced p (num_abs p a)
| pr_trunc a : produced p a -> produced p (num_trunc p a)
| pr_floor a : produced p a -> produced p (num_floor p a)
| pr_ceil a : produced p a -> produced p (num_ceil p a).

Lemma produced_good p n : 1 <= p -> produced p n -> good n.
Proof.
  intros Hp. induction 1; try (unfold good; cbn; auto; lia).
  - eapply num_make_good; eauto.
  - unfold num_add in *. destruct (num_normalise p a b) as [[? ?] ?]. eapply num_make_good; eauto.
  - unfold num_sub in *. destruct (num_normalise p a b) as [[? ?] ?]. eapply num_make_good; eauto.
  - unfold num_mul in *. eapply num_make_good; eauto.
  - unfold num_div in *. eapply num_make_good; eauto.
  - unfold num_floordiv in *. destruct (num_div p a b); [|discriminate]. injection H1 as <-. reflexivity.
  - unfold num_mod in *. destruct (num_normalise p a b) as [[? ?] ?]. destruct (dmod _ _ _); [|discriminate]. eapply num_make_good; eauto.
  - unfold num_pow in *. destruct (negb _); destruct (f _ _); try discriminate; destruct (f _ _); try discriminate; eapply num_make_good; eauto.
Qed.

(** ** Relative error *)
Definition rel (u x y : Q) : Prop := exists d, (Qabs d <= u)%Q /\ (y == x * (1 + d))%Q.

Definition ulp2 (p : Z) : Q := ((1 # 2) * p10 (1 - p))%Q.

Lemma rnd_rel p x : rel (ulp2 p) x (rnd p x).
Proof.
  destruct (Qeq_dec x 0) as [E|N].
  - exists 0%Q. split.
    + change (Qabs 0) with 0%Q. unfold ulp2. pose proof (p10_pos (1 - p)). lra.
    + rewrite rnd_0 by auto. rewrite E. ring.
  - exists ((rnd p x - x) / x)%Q. split; [|field; auto].
    unfold Qdiv. rewrite Qabs_Qmult, Qabs_Qinv. pose proof (rnd_err_rel p x) as R. fold (ulp2 p) in R.
    assert (P : (0 < Qabs x)%Q).
    { destruct (Qabs_cases x) as [[A B]|[A B]]; rewrite B; apply Qle_lteq in A; destruct A as [A|A]; try lra; exfalso; apply N; rewrite A; reflexivity. }
    apply Qle_shift_div_r; auto.
Qed.

Lemma rel_opp u x y : rel u x y -> rel u (- x) (- y).
Proof. intros (d & H1 & H2). exists d. split; auto. rewrite H2. ring. Qed.

(** The reduction step changes numerator and denominator by one rounding each. *)
Lemma num_reduce_rel p c n d : 1 <= p -> d <> 0 -> fits p (inject_Z n) -> fits p (inject_Z d) ->
  exists s t, rel (ulp2 p) (inject_Z n / inject_Z d) s /\ rel (ulp2 p) 1 t /\ ~ (t == 0)%Q /\
    (val (num_reduce p c n d) == s / t)%Q.
Proof.
  intros Hp Hd Fn Fd. unfold num_reduce.
  assert (G : forall n d, 0 < d -> exists s t, rel (ulp2 p) (inject_Z n / inject_Z d) s /\ rel (ulp2 p) 1 t /\ ~ (t == 0)%Q /\
    (val (if 1 <? Z.gcd n d then mkNum (Qfloor (ddiv p (inject_Z n) (inject_Z (Z.gcd n d)))) (Qfloor (ddiv p (inject_Z d) (inject_Z (Z.gcd n d)))) c None else mkNum n d c None) == s / t)%Q).
  { clear n d Hd Fn Fd. intros n d Hd.
    assert (R0 : forall x, rel (ulp2 p) x x).
    { intros x. exists 0%Q. split; [|ring]. change (Qabs 0) with 0%Q. unfold ulp2. pose proof (p10_pos (1 - p)). lra. }
    destruct (1 <? Z.gcd n d) eqn:E.
    - apply Z.ltb_lt in E. set (g := Z.gcd n d) in *.
      assert (Gn : (inject_Z n / inject_Z g == inject_Z (n / g))%Q) by (apply inject_div_exact; [lia|apply Z.gcd_divide_l]).
      assert (Gd : (inject_Z d / inject_Z g == inject_Z (d / g))%Q) by (apply inject_div_exact; [lia|apply Z.gcd_divide_r]).
      destruct (rnd_Z_ex p (n / g) _ Hp Gn) as [n1 N1]. destruct (rnd_Z_ex p (d / g) _ Hp Gd) as [d1 D1].
      unfold ddiv. rewrite N1, D1, !Qfloor_Z. unfold val. cbn [nnum nden].
      assert (Pdg : 0 < d / g).
      { destruct (Z.gcd_divide_r n d) as [k K]. fold g in K. rewrite K, Z.div_mul by lia. nia. }
      assert (Pd1 : (0 < inject_Z d1)%Q).
      { rewrite <- D1. apply rnd_pos; auto. rewrite Gd. change 0%Q with (inject_Z 0). rewrite <- Zlt_Qlt; auto. }
      pose proof (rnd_rel p (inject_Z n / inject_Z g)) as (e1 & A1 & B1). pose proof (rnd_rel p (inject_Z d / inject_Z g)) as (e2 & A2 & B2).
      rewrite N1 in B1. rewrite D1 in B2.
      exists (inject_Z n / inject_Z d * (1 + e1))%Q, (1 + e2)%Q.
      assert (Nz : ~ (1 + e2 == 0)%Q) by (intro F; rewrite F in B2; rewrite B2 in Pd1; lra).
      split; [exists e1; split; auto; reflexivity|]. split; [exists e2; split; auto; ring|]. split; auto.
      rewrite B1, B2. field. repeat split; auto; apply inject_nz; lia.
    - exists (inject_Z n / inject_Z d)%Q, 1%Q. split; [apply R0|]. split; [apply R0|]. split; [lra|].
      unfold val. cbn [nnum nden]. field. apply inject_nz; lia. }
  destruct (Z.ltb_spec d 0) as [L|L].
  - assert (X : forall z, fits p (inject_Z z) -> Qfloor (dneg p (inject_Z z)) = - z).
    { intros z F. unfold dneg. assert (E : (rnd p (- inject_Z z) == inject_Z (- z))%Q).
      { rewrite inject_Z_opp. apply rnd_fits; auto. apply fits_opp; auto. }
      rewrite (Qfloor_comp _ _ E). apply Qfloor_Z. }
    rewrite !X by auto. destruct (G (- n) (- d)) as (s & t & G1 & G2 & G3 & G4); [lia|].
    exists s, t. split; [|auto].
    destruct G1 as (e & A & B). exists e. split; auto. rewrite B, !inject_Z_opp. field. apply inject_nz; auto.
  - apply G. lia.
Qed.

(** One multiplication or division: two roundings of the products and two of the reduction. *)
Lemma make_rel p c x y : 1 <= p -> y <> 0 ->
  exists r e1 e2 e3 e4, num_make p c (rnd p (inject_Z x)) (rnd p (inject_Z y)) = Some r /\
    (Qabs e1 <= ulp2 p)%Q /\ (Qabs e2 <= ulp2 p)%Q /\ (Qabs e3 <= ulp2 p)%Q /\ (Qabs e4 <= ulp2 p)%Q /\
    (~ (1 + e2) * (1 + e4) == 0)%Q /\
    (val r == inject_Z x / inject_Z y * ((1 + e1) * (1 + e3) / ((1 + e2) * (1 + e4))))%Q.
Proof.
  intros Hp Hy.
  destruct (rnd_int p x Hp) as [x1 X1]. destruct (rnd_int p y Hp) as [y1 Y1].
  pose proof (rnd_rel p (inject_Z x)) as (e1 & A1 & B1). pose proof (rnd_rel p (inject_Z y)) as (e2 & A2 & B2).
  assert (Fx : fits p (inject_Z x1)) by (rewrite <- X1; apply fits_rnd; auto).
  assert (Fy : fits p (inject_Z y1)) by (rewrite <- Y1; apply fits_rnd; auto).
  rewrite X1 in *. rewrite Y1 in *.
  assert (Ny : y1 <> 0).
  { intro F. subst y1. assert (~ rnd p (inject_Z y) == 0)%Q as R by (apply rnd_nz; auto; apply inject_nz; auto).
    apply R. rewrite Y1. reflexivity. }
  rewrite num_make_Z. destruct (Z.eqb_spec y1 0); [contradiction|].
  destruct (num_reduce_rel p c x1 y1 Hp Ny Fx Fy) as (s & t & (e3 & A3 & B3) & (e4 & A4 & B4) & Nt & V).
  eexists; exists e1, e2, e3, e4. split; [reflexivity|]. do 4 (split; [assumption|]).
  assert (N2 : ~ (1 + e2 == 0)%Q).
  { intro F. rewrite F in B2. apply (inject_nz y1 Ny). rewrite B2. ring. }
  assert (N4 : ~ (1 + e4 == 0)%Q) by (intro F; apply Nt; rewrite B4, F; ring).
  split.
  - intro F. apply Qmult_integral in F. tauto.
  - rewrite V, B3, B4, B1, B2. field. repeat split; auto; apply inject_nz; auto.
Qed.

Lemma num_mul_rel p a b : 1 <= p -> good a -> good b ->
  exists r e1 e2 e3 e4, num_mul p a b = Some r /\
    (Qabs e1 <= ulp2 p)%Q /\ (Qabs e2 <= ulp2 p)%Q /\ (Qabs e3 <= ulp2 p)%Q /\ (Qabs e4 <= ulp2 p)%Q /\
    (~ (1 + e2) * (1 + e4) == 0)%Q /\
    (val r == val a * val b * ((1 + e1) * (1 + e3) / ((1 + e2) * (1 + e4))))%Q.
Proof.
  intros Hp Ga Gb. unfold good in *. unfold num_mul, dmul.
  rewrite (rnd_eq p _ (inject_Z (nnum a * nnum b))) by (rewrite inject_Z_mult; reflexivity).
  rewrite (rnd_eq p (inject_Z (nden a) * inject_Z (nden b)) (inject_Z (nden a * nden b))) by (rewrite inject_Z_mult; reflexivity).
  destruct (make_rel p (ncast a) (nnum a * nnum b) (nden a * nden b) Hp ltac:(nia)) as (r & e1 & e2 & e3 & e4 & R & A1 & A2 & A3 & A4 & N & V).
  exists r, e1, e2, e3, e4. repeat (split; [auto|]). rewrite V. unfold val. rewrite !inject_Z_mult.
  assert (N2 : ~ (1 + e2 == 0)%Q) by (intro F; apply N; rewrite F; ring).
  assert (N4 : ~ (1 + e4 == 0)%Q) by (intro F; apply N; rewrite F; ring).
  field. repeat split; auto; apply inject_nz; lia.
Qed.

Lemma num_div_rel p a b : 1 <= p -> good a -> good b -> nnum b <> 0 ->
  exists r e1 e2 e3 e4, num_div p a b = Some r /\
    (Qabs e1 <= ulp2 p)%Q /\ (Qabs e2 <= ulp2 p)%Q /\ (Qabs e3 <= ulp2 p)%Q /\ (Qabs e4 <= ulp2 p)%Q /\
    (~ (1 + e2) * (1 + e4) == 0)%Q /\
    (val r == val a / val b * ((1 + e1) * (1 + e3) / ((1 + e2) * (1 + e4))))%Q.
Proof.
  intros Hp Ga Gb Nb. unfold good in *. unfold num_div, dmul.
  rewrite (rnd_eq p _ (inject_Z (nnum a * nden b))) by (rewrite inject_Z_mult; reflexivity).
  rewrite (rnd_eq p (inject_Z (nden a) * inject_Z (nnum b)) (inject_Z (nden a * nnum b))) by (rewrite inject_Z_mult; reflexivity).
  destruct (make_rel p (ncast a) (nnum a * nden b) (nden a * nnum b) Hp ltac:(nia)) as (r & e1 & e2 & e3 & e4 & R & A1 & A2 & A3 & A4 & N & V).
  exists r, e1, e2, e3, e4. repeat (split; [auto|]). rewrite V. unfold val. rewrite !inject_Z_mult.
  assert (N2 : ~ (1 + e2 == 0)%Q) by (intro F; apply N; rewrite F; ring).
  assert (N4 : ~ (1 + e4 == 0)%Q) by (intro F; apply N; rewrite F; ring).
  field. repeat split; auto; apply inject_nz; lia.
Qed.

(** ** Comparison is exact on Numbers small enough *)
Lemma num_ltb_complete p k a b : 0 <= k -> 2 * k + 1 <= p -> good a -> good b -> size_le k a -> size_le k b ->
  (val a < val b)%Q -> num_ltb p a b = true.
Proof.
  intros Hk Hp Ga Gb [Sa1 Sa2] [Sb1 Sb2] L. apply num_ltb_iff. destruct (num_leb p b a) eqn:E; auto. exfalso.
  apply num_leb_iff in E. unfold good in *.
  pose proof (rnd_err_rel p (val a)) as Ra. pose proof (rnd_err_rel p (val b)) as Rb.
  apply Qabs_Qle_condition in Ra. apply Qabs_Qle_condition in Rb.
  unfold val in Ra, Rb at 5. unfold val in *.
  rewrite (frac_abs _ _ Ga) in Ra. rewrite (frac_abs _ _ Gb) in Rb.
  set (x := (inject_Z (nnum a) / inject_Z (nden a))%Q) in *. set (y := (inject_Z (nnum b) / inject_Z (nden b))%Q) in *.
  set (u := ((1 # 2) * p10 (1 - p))%Q) in *.
  assert (Da : (0 < inject_Z (nden a))%Q) by (change 0%Q with (inject_Z 0); rewrite <- Zlt_Qlt; auto).
  assert (Db : (0 < inject_Z (nden b))%Q) by (change 0%Q with (inject_Z 0); rewrite <- Zlt_Qlt; auto).
  assert (D : (y - x <= u * (inject_Z (Z.abs (nnum a)) / inject_Z (nden a)) + u * (inject_Z (Z.abs (nnum b)) / inject_Z (nden b)))%Q) by lra.
  set (P := (inject_Z (nden a) * inject_Z (nden b))%Q).
  assert (HP : (0 < P)%Q) by (unfold P; nra).
  apply (Qmult_le_compat_r _ _ P) in D; [|lra].
  assert (D1 : ((y - x) * P == inject_Z (nnum b * nden a - nnum a * nden b))%Q).
  { unfold x, y, P, Z.sub. rewrite inject_Z_plus, inject_Z_opp, !inject_Z_mult. field. lra. }
  assert (D2 : ((u * (inject_Z (Z.abs (nnum a)) / inject_Z (nden a)) + u * (inject_Z (Z.abs (nnum b)) / inject_Z (nden b))) * P ==
    u * inject_Z (Z.abs (nnum a) * nden b + Z.abs (nnum b) * nden a))%Q).
  { unfold P. rewrite inject_Z_plus, !inject_Z_mult. field. lra. }
  rewrite D1, D2 in D.
  assert (L1 : (0 < inject_Z (nnum b * nden a - nnum a * nden b))%Q) by (rewrite <- D1; assert (0 < y - x)%Q by lra; nra).
  change 0%Q with (inject_Z 0) in L1. rewrite <- Zlt_Qlt in L1.
  assert (L2 : (1 <= inject_Z (nnum b * nden a - nnum a * nden b))%Q) by (change 1%Q with (inject_Z 1); rewrite <- Zle_Qle; lia).
  assert (L3 : Z.abs (nnum a) * nden b + Z.abs (nnum b) * nden a <= 2 * 10 ^ (2 * k) - 1).
  { assert (E2 : 10 ^ (2 * k) = 10 ^ k * 10 ^ k) by (rewrite <- Z.pow_add_r by lia; f_equal; lia). rewrite E2. nia. }
  assert (L4 : 2 * 10 ^ (2 * k) <= 2 * 10 ^ (p - 1)) by (pose proof (Z.pow_le_mono_r 10 (2 * k) (p - 1)); lia).
  assert (L5 : (inject_Z (Z.abs (nnum a) * nden b + Z.abs (nnum b) * nden a) < inject_Z (2 * 10 ^ (p - 1)))%Q) by (rewrite <- Zlt_Qlt; lia).
  assert (U : (u * inject_Z (2 * 10 ^ (p - 1)) == 1)%Q).
  { unfold u. rewrite inject_Z_mult. rewrite <- (p10_nonneg (p - 1)) by lia.
    setoid_replace ((1 # 2) * p10 (1 - p) * (inject_Z 2 * p10 (p - 1)))%Q with (p10 (1 - p) * p10 (p - 1))%Q by (change (inject_Z 2) with 2%Q; ring).
    rewrite <- p10_plus. replace (1 - p + (p - 1)) with 0 by lia. reflexivity. }
  assert (0 < u)%Q by (unfold u; pose proof (p10_pos (1 - p)); lra).
  nra.
Qed.

Lemma num_ltb_exact p k a b : 0 <= k -> 2 * k + 1 <= p -> good a -> good b -> size_le k a -> size_le k b ->
  (num_ltb p a b = true <-> (val a < val b)%Q) /\ (num_eqb p a b = true <-> (val a == val b)%Q).
Proof.
  intros Hk Hp Ga Gb Sa Sb. split; split; intros H.
  - apply (num_ltb_sound p); auto. lia.
  - eapply num_ltb_complete; eauto.
  - apply num_eqb_iff in H as [H1 H2].
    destruct (Q_dec (val a) (val b)) as [[L|L]|E]; auto; exfalso; eapply num_ltb_complete in L; eauto; apply num_ltb_iff in L; congruence.
  - apply num_eqb_iff. split; apply num_leb_mono; try lia; rewrite H; apply Qle_refl.
Qed.

(** Equal values within the size bound have the same hash. *)
Lemma num_hash_eq p k a b : 0 <= k -> 2 * k + 1 <= p -> good a -> good b -> lowest a -> lowest b -> size_le k a -> size_le k b ->
  num_eqb p a b = true -> num_hash a = num_hash b.
Proof.
  intros. destruct (num_ltb_exact p k a b) as [_ E]; auto. apply E in H7.
  destruct (lowest_unique a b) as [A B]; auto. unfold num_hash. congruence.
Qed.

(** Laws of exponents *)
Lemma num_pow_plus p dpow a m n : 1 <= p -> pow_ok p dpow -> good a -> nnum a <> 0 ->
  nden m = 1 -> nden n = 1 -> 0 <= nnum m -> 0 <= nnum n -> small p (nnum m + nnum n) ->
  small p (nnum a ^ (nnum m + nnum n)) -> small p (nden a ^ (nnum m + nnum n)) ->
  forall s, nden s = 1 -> nnum s = nnum m + nnum n ->
  exists x y z w, num_pow p dpow a m = Some x /\ num_pow p dpow a n = Some y /\ num_pow p dpow a s = Some z /\
     num_mul p x y = Some w /\ (val w == val z)%Q.
Proof.
  intros Hp PO Ga Na Dm Dn Hm Hn Ss S1 S2 s Ds Es.
  assert (M : forall b e f, b <> 0 -> 0 <= e <= f -> small p (b ^ f) -> small p (b ^ e)).
  { intros b e f Hb Hef. unfold small. replace f with (e + (f - e)) by lia. rewrite Z.pow_add_r, Z.abs_mul by lia.
    assert (0 < Z.abs (b ^ (f - e))) by (pose proof (Z.pow_nonzero b (f - e)); lia).
    assert (0 <= Z.abs (b ^ e)) by lia. nia. }
  assert (Sm : small p (nnum m)) by (unfold small in *; lia). assert (Sn : small p (nnum n)) by (unfold small in *; lia).
  assert (Dz : nden a <> 0) by (unfold good in Ga; lia).
  destruct (num_pow_nonneg p dpow a m) as (x & X1 & X2 & X3 & X4 & _); auto; try (eapply M; [ | |eassumption]; auto; lia).
  destruct (num_pow_nonneg p dpow a n) as (y & Y1 & Y2 & Y3 & Y4 & _); auto; try (eapply M; [ | |eassumption]; auto; lia).
  destruct (num_pow_nonneg p dpow a s) as (z & Z1 & Z2 & Z3 & Z4 & _); auto; try rewrite Es; auto; try lia.
  (* the two factors have components dividing the powers *)
  assert (B : forall e r, 0 <= e -> good r -> lowest r -> (val r == Qpower (val a) e)%Q ->
     Z.abs (nnum r) <= Z.abs (nnum a ^ e) /\ nden r <= nden a ^ e).
  { intros e r He Gr Lr V. unfold good in *. unfold val in V. rewrite Qpower_frac in V by auto.
    assert (Pd : 0 < nden a ^ e) by (apply Z.pow_pos_nonneg; auto).
    assert (E : nnum r * nden a ^ e = nnum a ^ e * nden r).
    { apply inject_eq. rewrite !inject_Z_mult.
      setoid_replace (inject_Z (nnum r)) with (inject_Z (nnum r) / inject_Z (nden r) * inject_Z (nden r))%Q by (field; apply inject_nz; lia).
      rewrite V. field. apply inject_nz; lia. }
    apply lowest_gcd1 in Lr; auto.
    assert (D1 : (nden r | nden a ^ e)).
    { apply (Z.gauss _ (nnum r)); [exists (nnum a ^ e); lia|rewrite Z.gcd_comm; auto]. }
    destruct D1 as [k K]. rewrite K in E.
    assert (nnum a ^ e = nnum r * k) by nia.
    assert (0 < k) by nia. split; [|nia]. rewrite H, Z.abs_mul. nia. }
  destruct (B (nnum m) x) as [Bx1 Bx2]; auto. destruct (B (nnum n) y) as [By1 By2]; auto.
  unfold good in *.
  destruct (num_mul_exact p x y) as (w & W1 & W2 & _); auto.
  - unfold mul_fits, small. rewrite Z.pow_add_r in S1, S2 by auto. unfold small in S1, S2. rewrite Z.abs_mul in S1, S2.
    assert (0 < nden a ^ nnum m) by (apply Z.pow_pos_nonneg; auto). assert (0 < nden a ^ nnum n) by (apply Z.pow_pos_nonneg; auto).
    rewrite !Z.abs_mul. split; nia.
  - exists x, y, z, w. repeat (split; [auto|]). rewrite W2, X2, Y2, Z2, Es. rewrite Qpower_plus; [reflexivity|].
    apply val_nz; auto.
Qed.
