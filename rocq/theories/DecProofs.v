From Coq Require Import ZArith QArith Qabs Qround Lia Qpower Lqa Setoid Morphisms.
From Verif Require Import Dec.
Open Scope Z_scope.

Global Instance inject_Z_proper : Proper (eq ==> Qeq) inject_Z.
Proof. intros x y ->; reflexivity. Qed.
Global Instance Qfloor_proper : Proper (Qeq ==> eq) Qfloor.
Proof. intros x y E; apply Qfloor_comp; auto. Qed.

(** ** digits *)
Lemma pow10_pos k : 0 <= k -> 0 < 10 ^ k.
Proof. intros; apply Z.pow_pos_nonneg; lia. Qed.

Lemma ndig_fuel_spec f z : 0 < z -> Z.log2 z <= Z.of_nat f ->
  1 <= ndig_fuel f z /\ 10 ^ (ndig_fuel f z - 1) <= z < 10 ^ ndig_fuel f z.
Proof.
  revert z; induction f as [|f IH]; intros z Hz Hf.
  - cbn [ndig_fuel]. assert (Z.log2 z = 0) by (pose proof (Z.log2_nonneg z); lia).
    pose proof (Z.log2_spec z Hz) as Hs. rewrite H in Hs. cbn in Hs. cbn. lia.
  - cbn [ndig_fuel]. destruct (Z.ltb_spec z 10).
    + cbn. lia.
    + assert (Hz' : 0 < z / 10) by (apply Z.div_str_pos; lia).
      assert (Hl : Z.log2 (z / 10) <= Z.of_nat f).
      { pose proof (Z.log2_spec z Hz) as [_ Hu].
        assert (z / 10 < 2 ^ Z.log2 z).
        { apply Z.div_lt_upper_bound; [lia|].
          rewrite Z.pow_succ_r in Hu by apply Z.log2_nonneg. lia. }
        apply Z.log2_lt_pow2 in H0; [lia|lia]. }
      destruct (IH _ Hz' Hl) as (H1 & H2 & H3).
      set (k := ndig_fuel f (z / 10)) in *.
      assert (E : 10 * (z / 10) <= z < 10 * (z / 10) + 10).
      { pose proof (Z.div_mod z 10). pose proof (Z.mod_pos_bound z 10). lia. }
      split; [lia|]. split.
      * replace (1 + k - 1) with (Z.succ (k - 1)) by lia.
        rewrite Z.pow_succ_r by lia. lia.
      * replace (1 + k) with (Z.succ k) by lia. rewrite Z.pow_succ_r by lia. lia.
Qed.

Lemma ndig_spec z : 0 < z -> 1 <= ndig z /\ 10 ^ (ndig z - 1) <= z < 10 ^ ndig z.
Proof.
  intros. apply ndig_fuel_spec; auto. rewrite Z2Nat.id; [lia|apply Z.log2_nonneg].
Qed.

(** ** powers of ten in Q *)
Definition p10 (k : Z) : Q := Qpower (10#1) k.

Lemma p10_pos k : (0 < p10 k)%Q.
Proof. apply Qpower_0_lt. reflexivity. Qed.

Lemma p10_nz k : ~ (p10 k == 0)%Q.
Proof. pose proof (p10_pos k). intro E. rewrite E in H. revert H. apply Qlt_irrefl. Qed.

Lemma p10_plus a b : (p10 (a + b) == p10 a * p10 b)%Q.
Proof. apply Qpower_plus. discriminate. Qed.

Lemma p10_nonneg k : 0 <= k -> (p10 k == inject_Z (10 ^ k))%Q.
Proof. intros. unfold p10. rewrite Zpower_Qpower by auto. reflexivity. Qed.

Lemma p10_opp k : (p10 (- k) == / p10 k)%Q.
Proof. apply Qpower_opp. Qed.

Lemma p10_0 : (p10 0 == 1)%Q.
Proof. reflexivity. Qed.

Lemma p10_succ k : (p10 (k + 1) == 10 * p10 k)%Q.
Proof. rewrite p10_plus. change (p10 1) with (10#1)%Q. ring. Qed.

Lemma p10_le a b : a <= b -> (p10 a <= p10 b)%Q.
Proof. intros. apply Qpower_le_compat_l; auto. discriminate. Qed.

Lemma p10_lt_inv a b : (p10 a < p10 b)%Q -> a < b.
Proof. intros. apply Qpower_lt_compat_l_inv with (q := (10#1)%Q); auto. reflexivity. Qed.

(** ** fractions *)
Lemma qmake_div n d : (n # d == inject_Z n / inject_Z (Zpos d))%Q.
Proof. rewrite Qmake_Qdiv. reflexivity. Qed.

Lemma Qmult_le_r' x y z : (0 < z -> x * z <= y * z <-> x <= y)%Q.
Proof. intros; apply Qmult_le_r; auto. Qed.

Lemma ge10_spec k a d : 0 < a -> 0 < d ->
  ge10 k a d = true <-> (p10 k <= inject_Z a / inject_Z d)%Q.
Proof.
  intros Ha Hd. unfold ge10.
  assert (Hdq : (0 < inject_Z d)%Q) by (change 0%Q with (inject_Z 0); rewrite <- Zlt_Qlt; auto).
  rewrite <- (Qmult_le_r _ _ (inject_Z d)) by auto.
  assert (E : (inject_Z a / inject_Z d * inject_Z d == inject_Z a)%Q).
  { field. intro E; rewrite E in Hdq; inversion Hdq. }
  rewrite E.
  destruct (Z.leb_spec 0 k).
  - rewrite Z.leb_le, p10_nonneg by auto. rewrite <- inject_Z_mult, <- Zle_Qle. reflexivity.
  - rewrite Z.leb_le.
    replace k with (- (- k)) at 2 by lia. rewrite p10_opp, p10_nonneg by lia.
    assert (Hp : 0 < 10 ^ (- k)) by (apply pow10_pos; lia).
    assert (Hpq : (0 < inject_Z (10 ^ (- k)))%Q) by (change 0%Q with (inject_Z 0); rewrite <- Zlt_Qlt; auto).
    rewrite <- (Qmult_le_r _ _ (inject_Z (10 ^ (- k)))) by auto.
    assert (E2 : (/ inject_Z (10 ^ (- k)) * inject_Z d * inject_Z (10 ^ (- k)) == inject_Z d)%Q).
    { field. intro E2; rewrite E2 in Hpq; inversion Hpq. }
    rewrite E2, <- inject_Z_mult, <- Zle_Qle. reflexivity.
Qed.

Lemma ilog10_spec a d : 0 < a -> 0 < d ->
  (p10 (ilog10 a d) <= inject_Z a / inject_Z d < p10 (ilog10 a d + 1))%Q.
Proof.
  intros Ha Hd. unfold ilog10.
  destruct (ndig_spec a Ha) as (A1 & A2 & A3).
  destruct (ndig_spec d Hd) as (D1 & D2 & D3).
  set (i := ndig a) in *. set (j := ndig d) in *.
  assert (Hdq : (0 < inject_Z d)%Q) by (change 0%Q with (inject_Z 0); rewrite <- Zlt_Qlt; auto).
  assert (Ed : ~ (inject_Z d == 0)%Q) by (intro E; rewrite E in Hdq; inversion Hdq).
  assert (Ea : (inject_Z a / inject_Z d * inject_Z d == inject_Z a)%Q) by (field; auto).
  rewrite Zle_Qle, <- p10_nonneg in A2 by lia.
  rewrite Zlt_Qlt, <- p10_nonneg in A3 by lia.
  rewrite Zle_Qle, <- p10_nonneg in D2 by lia.
  rewrite Zlt_Qlt, <- p10_nonneg in D3 by lia.
  assert (Hlo : (p10 (i - j - 1) <= inject_Z a / inject_Z d)%Q).
  { apply Qmult_lt_0_le_reg_r with (inject_Z d); auto. rewrite Ea.
    apply Qle_trans with (p10 (i - j - 1) * p10 j)%Q.
    - apply Qmult_le_l; [apply p10_pos|]. apply Qlt_le_weak; auto.
    - rewrite <- p10_plus. replace (i - j - 1 + j) with (i - 1) by lia. auto. }
  assert (Hhi : (inject_Z a / inject_Z d < p10 (i - j + 1))%Q).
  { apply Qmult_lt_r with (inject_Z d); auto. rewrite Ea.
    apply Qlt_le_trans with (p10 i); auto.
    apply Qle_trans with (p10 (i - j + 1) * p10 (j - 1))%Q.
    - rewrite <- p10_plus. replace (i - j + 1 + (j - 1)) with i by lia. apply Qle_refl.
    - apply Qmult_le_l; [apply p10_pos|]. auto. }
  destruct (ge10 (i - j) a d) eqn:G.
  - apply ge10_spec in G; auto.
  - split; auto. replace (i - j - 1 + 1) with (i - j) by lia.
    apply Qnot_le_lt. intro L. apply ge10_spec in L; auto. congruence.
Qed.

Lemma half_up_floor a b : 0 < b -> half_up a b = Qfloor (inject_Z a / inject_Z b + (1#2)).
Proof.
  intros Hb. unfold half_up.
  assert (E : (inject_Z a / inject_Z b + (1#2) == (2 * a + b) # (Z.to_pos (2 * b)))%Q).
  { rewrite (qmake_div (2 * a + b)), Z2Pos.id by lia. rewrite inject_Z_plus, !inject_Z_mult.
    change (inject_Z 2) with (2#1)%Q. field.
    intro E.
    assert (Hbq : (0 < inject_Z b)%Q) by (change 0%Q with (inject_Z 0); rewrite <- Zlt_Qlt; auto).
    rewrite E in Hbq; inversion Hbq. }
  rewrite E. cbn [Qfloor]. rewrite Z2Pos.id by lia. reflexivity.
Qed.

(** Exponent of the leading digit and of the last kept digit. *)
Definition expo (x : Q) : Z := ilog10 (Z.abs (Qnum x)) (Zpos (Qden x)).

Lemma Qabs_num x : (Qabs x == inject_Z (Z.abs (Qnum x)) / inject_Z (Zpos (Qden x)))%Q.
Proof. destruct x as [n d]. cbn [Qabs Qnum Qden]. apply qmake_div. Qed.

Lemma expo_spec x : ~ (x == 0)%Q -> (p10 (expo x) <= Qabs x < p10 (expo x + 1))%Q.
Proof.
  intros Hx. rewrite Qabs_num. unfold expo. apply ilog10_spec; [|lia].
  destruct x as [n d]; cbn in *. unfold Qeq in Hx; cbn in Hx. lia.
Qed.

Lemma expo_unique x k : (p10 k <= Qabs x < p10 (k + 1))%Q -> expo x = k.
Proof.
  intros [H1 H2].
  assert (Hx : ~ (x == 0)%Q).
  { intro E. rewrite E in H1. pose proof (p10_pos k). cbn in H1.
    apply (Qlt_irrefl 0). eapply Qlt_le_trans; eauto. }
  destruct (expo_spec x Hx) as [E1 E2].
  assert (expo x < k + 1) by (apply p10_lt_inv; eapply Qle_lt_trans; eauto).
  assert (k < expo x + 1) by (apply p10_lt_inv; eapply Qle_lt_trans; eauto).
  lia.
Qed.

(** Rounding to an integer multiple of [10^e], for non-negative values. *)
Definition grid (e : Z) (x : Q) : Q := (inject_Z (Qfloor (x / p10 e + (1#2))) * p10 e)%Q.

Definition qsgn (x : Q) : Q := inject_Z (Z.sgn (Qnum x)).

Lemma rnd_grid p x : ~ (x == 0)%Q -> (rnd p x == qsgn x * grid (expo x - p + 1) (Qabs x))%Q.
Proof.
  intros Hx. unfold rnd.
  destruct (Z.eqb_spec (Qnum x) 0) as [E|NE].
  { exfalso; apply Hx. destruct x; cbn in *. subst. reflexivity. }
  fold (expo x). set (e := expo x - p + 1).
  set (a := Z.abs (Qnum x)). set (d := Zpos (Qden x)).
  assert (Hd : 0 < d) by (unfold d; lia).
  assert (Hdq : (0 < inject_Z d)%Q) by (change 0%Q with (inject_Z 0); rewrite <- Zlt_Qlt; auto).
  assert (Ed : ~ (inject_Z d == 0)%Q) by (intro E; rewrite E in Hdq; inversion Hdq).
  assert (EA : (Qabs x == inject_Z a / inject_Z d)%Q) by apply Qabs_num.
  unfold qsgn, grid. rewrite EA.
  destruct (Z.leb_spec 0 e).
  - rewrite half_up_floor by (pose proof (pow10_pos e); nia).
    rewrite !inject_Z_mult. rewrite <- (p10_nonneg e) by auto.
    assert (F : (inject_Z a / (inject_Z d * p10 e) + (1#2) == inject_Z a / inject_Z d / p10 e + (1#2))%Q).
    { pose proof (p10_nz e). field. auto. }
    rewrite F. reflexivity.
  - rewrite Qred_correct. rewrite qmake_div.
    assert (Hp : 0 < 10 ^ (- e)) by (apply pow10_pos; lia).
    rewrite Z2Pos.id by auto.
    rewrite half_up_floor by auto.
    rewrite !inject_Z_mult. rewrite <- (p10_nonneg (- e)) by lia.
    pose proof (p10_nz e). pose proof (p10_nz (- e)).
    assert (F : (inject_Z a * p10 (- e) / inject_Z d + (1#2) == inject_Z a / inject_Z d / p10 e + (1#2))%Q).
    { rewrite p10_opp. field. auto. }
    rewrite F. rewrite p10_opp. field. auto.
Qed.

(** ** Properties of [grid] *)
Lemma Qfloor_half_bounds y a b : (inject_Z a <= y)%Q -> (y < inject_Z b)%Q ->
  a <= Qfloor (y + (1#2)) <= b.
Proof.
  intros Ha Hb. split.
  - rewrite <- (Qfloor_Z a). apply Qfloor_resp_le. lra.
  - assert (Qfloor (y + (1#2)) < b + 1); [|lia].
    rewrite Zlt_Qlt, inject_Z_plus. change (inject_Z 1) with 1%Q.
    pose proof (Qfloor_le (y + (1#2))). lra.
Qed.

Lemma Qdiv_p10_le e x y : (x <= y)%Q -> (x / p10 e <= y / p10 e)%Q.
Proof.
  intros. unfold Qdiv. apply Qmult_le_compat_r; auto.
  apply Qinv_le_0_compat. apply Qlt_le_weak, p10_pos.
Qed.

Lemma Qdiv_p10_lt e x y : (x < y)%Q -> (x / p10 e < y / p10 e)%Q.
Proof.
  intros. unfold Qdiv. apply Qmult_lt_compat_r; auto.
  apply Qinv_lt_0_compat, p10_pos.
Qed.

Lemma p10_div a b : (p10 a / p10 b == p10 (a - b))%Q.
Proof. unfold Z.sub. rewrite p10_plus, p10_opp. reflexivity. Qed.

Lemma grid_mono e x y : (x <= y)%Q -> (grid e x <= grid e y)%Q.
Proof.
  intros. unfold grid. apply Qmult_le_compat_r; [|apply Qlt_le_weak, p10_pos].
  rewrite <- Zle_Qle. apply Qfloor_resp_le. apply Qplus_le_compat; [|apply Qle_refl].
  apply Qdiv_p10_le; auto.
Qed.

Lemma grid_floor_bounds p k x : 1 <= p -> (p10 k <= x < p10 (k + 1))%Q ->
  10 ^ (p - 1) <= Qfloor (x / p10 (k - p + 1) + (1#2)) <= 10 ^ p.
Proof.
  intros Hp [H1 H2]. apply Qfloor_half_bounds.
  - rewrite <- p10_nonneg by lia.
    replace (p - 1) with (k - (k - p + 1)) by lia. rewrite <- p10_div. apply Qdiv_p10_le; auto.
  - rewrite <- p10_nonneg by lia.
    replace p with (k + 1 - (k - p + 1)) at 2 by lia. rewrite <- p10_div. apply Qdiv_p10_lt; auto.
Qed.

Lemma grid_bounds p k x : 1 <= p -> (p10 k <= x < p10 (k + 1))%Q ->
  (p10 k <= grid (k - p + 1) x <= p10 (k + 1))%Q.
Proof.
  intros Hp Hx. destruct (grid_floor_bounds p k x Hp Hx) as [F1 F2].
  unfold grid. set (z := Qfloor _) in *.
  rewrite Zle_Qle, <- p10_nonneg in F1, F2 by lia.
  pose proof (p10_pos (k - p + 1)) as P.
  split.
  - assert (E : (p10 k == p10 (p - 1) * p10 (k - p + 1))%Q)
      by (rewrite <- p10_plus; replace (p - 1 + (k - p + 1)) with k by lia; reflexivity).
    rewrite E. apply Qmult_le_compat_r; auto. apply Qlt_le_weak; auto.
  - assert (E : (p10 (k + 1) == p10 p * p10 (k - p + 1))%Q)
      by (rewrite <- p10_plus; replace (p + (k - p + 1)) with (k + 1) by lia; reflexivity).
    rewrite E. apply Qmult_le_compat_r; auto. apply Qlt_le_weak; auto.
Qed.

Lemma grid_err e x : (Qabs (grid e x - x) <= (1#2) * p10 e)%Q.
Proof.
  unfold grid. set (y := (x / p10 e)%Q).
  assert (E : (x == y * p10 e)%Q) by (unfold y; field; apply p10_nz).
  pose proof (Qfloor_le (y + (1#2))) as A. pose proof (Qlt_floor (y + (1#2))) as B.
  set (z := Qfloor (y + (1#2))) in *. rewrite inject_Z_plus in B. change (inject_Z 1) with 1%Q in B.
  rewrite E. pose proof (p10_pos e) as P.
  setoid_replace (inject_Z z * p10 e - y * p10 e)%Q with ((inject_Z z - y) * p10 e)%Q by ring.
  rewrite Qabs_Qmult. rewrite (Qabs_pos (p10 e)) by (apply Qlt_le_weak; auto).
  apply Qmult_le_compat_r; [|apply Qlt_le_weak; auto].
  apply Qabs_Qle_condition. split; lra.
Qed.

Lemma grid_exact e x m : (x == inject_Z m * p10 e)%Q -> (grid e x == x)%Q.
Proof.
  intros E. unfold grid.
  assert (Qfloor (x / p10 e + (1#2)) = m) as ->; [|symmetry; auto].
  assert (E2 : (x / p10 e == inject_Z m)%Q) by (rewrite E; field; apply p10_nz).
  rewrite E2.
  assert (m <= Qfloor (inject_Z m + (1#2)) /\ Qfloor (inject_Z m + (1#2)) < m + 1); [|lia].
  split.
  - rewrite <- (Qfloor_Z m) at 1. apply Qfloor_resp_le. lra.
  - rewrite Zlt_Qlt, inject_Z_plus. change (inject_Z 1) with 1%Q.
    pose proof (Qfloor_le (inject_Z m + (1#2))). lra.
Qed.

(** ** Properties of [rnd] *)
Lemma Qnum_0 x : Qnum x = 0 <-> (x == 0)%Q.
Proof. destruct x as [n d]; unfold Qeq; cbn. lia. Qed.

Lemma rnd_0 p x : (x == 0)%Q -> rnd p x = 0%Q.
Proof. intros E. unfold rnd. apply Qnum_0 in E. rewrite E. reflexivity. Qed.

Lemma qsgn_comp x y : (x == y)%Q -> (qsgn x = qsgn y).
Proof.
  intros E. unfold qsgn. f_equal. destruct x as [n d], y as [m c]; unfold Qeq in E; cbn in *.
  destruct n, m; cbn in *; try reflexivity; try lia.
Qed.

Lemma expo_comp x y : ~ (x == 0)%Q -> (x == y)%Q -> expo x = expo y.
Proof.
  intros NZ E. symmetry. apply expo_unique. rewrite <- E. apply expo_spec; auto.
Qed.

Global Instance grid_proper : Proper (eq ==> Qeq ==> Qeq) grid.
Proof. intros e ? <- x y E. unfold grid. rewrite E. reflexivity. Qed.

Lemma rnd_comp p x y : (x == y)%Q -> (rnd p x == rnd p y)%Q.
Proof.
  intros E. destruct (Qeq_dec x 0) as [Z0|NZ].
  - rewrite !rnd_0; auto; [reflexivity|rewrite <- E; auto].
  - assert (NZy : ~ (y == 0)%Q) by (rewrite <- E; auto).
    rewrite !rnd_grid by auto. rewrite (expo_comp x y NZ E), (qsgn_comp x y E), E. reflexivity.
Qed.
Global Instance rnd_proper : Proper (eq ==> Qeq ==> Qeq) rnd.
Proof. intros p ? <- x y E. apply rnd_comp; auto. Qed.

Lemma rnd_red p x : Qred (rnd p x) = rnd p x.
Proof.
  unfold rnd. destruct (Qnum x =? 0); [reflexivity|].
  destruct (0 <=? _).
  - unfold inject_Z. unfold Qred.
    pose proof (Z.ggcd_gcd (Z.sgn (Qnum x) * (half_up (Z.abs (Qnum x)) (Z.pos (Qden x) * 10 ^ (ilog10 (Z.abs (Qnum x)) (Z.pos (Qden x)) - p + 1)) * 10 ^ (ilog10 (Z.abs (Qnum x)) (Z.pos (Qden x)) - p + 1))) 1) as G.
    pose proof (Z.ggcd_correct_divisors (Z.sgn (Qnum x) * (half_up (Z.abs (Qnum x)) (Z.pos (Qden x) * 10 ^ (ilog10 (Z.abs (Qnum x)) (Z.pos (Qden x)) - p + 1)) * 10 ^ (ilog10 (Z.abs (Qnum x)) (Z.pos (Qden x)) - p + 1))) 1) as D.
    set (z := Z.sgn _ * _) in *.
    destruct (Z.ggcd z 1) as [g [aa bb]]. cbn in *. rewrite Z.gcd_1_r in G. subst g.
    destruct D as [D1 D2]. replace aa with z by lia. replace bb with 1 by lia. reflexivity.
  - apply Qred_complete, Qred_correct.
Qed.

Lemma rnd_eq p x y : (x == y)%Q -> rnd p x = rnd p y.
Proof.
  intros E. rewrite <- (rnd_red p x), <- (rnd_red p y). apply Qred_complete. apply rnd_comp; auto.
Qed.

Lemma rnd_eq_iff p x y : (rnd p x == rnd p y)%Q -> rnd p x = rnd p y.
Proof.
  intros E. rewrite <- (rnd_red p x), <- (rnd_red p y). apply Qred_complete; auto.
Qed.

Lemma Qopp_nz x : ~ (x == 0)%Q -> ~ (- x == 0)%Q.
Proof. intros H E. apply H. rewrite <- (Qopp_involutive x), E. reflexivity. Qed.

Lemma rnd_opp p x : (rnd p (- x) == - rnd p x)%Q.
Proof.
  destruct (Qeq_dec x 0) as [Z0|NZ].
  - rewrite !rnd_0; [reflexivity|auto|rewrite Z0; reflexivity].
  - rewrite !rnd_grid by auto using Qopp_nz.
    assert (Ex : expo (- x) = expo x).
    { apply expo_unique. rewrite Qabs_opp. apply expo_spec; auto. }
    rewrite Ex, Qabs_opp. unfold qsgn. destruct x as [n d]; cbn [Qopp Qnum].
    rewrite Z.sgn_opp, inject_Z_opp. ring.
Qed.

Lemma qsgn_pos x : (0 < x)%Q -> qsgn x = 1%Q.
Proof. destruct x as [n d]; unfold Qlt, qsgn; cbn; intros. destruct n; cbn; try reflexivity; lia. Qed.

Lemma rnd_pos_grid p x : (0 < x)%Q -> (rnd p x == grid (expo x - p + 1) x)%Q.
Proof.
  intros H. rewrite rnd_grid by (intro E; rewrite E in H; inversion H).
  rewrite qsgn_pos by auto. rewrite Qmult_1_l. rewrite Qabs_pos; [reflexivity|apply Qlt_le_weak; auto].
Qed.

Lemma expo_spec_pos x : (0 < x)%Q -> (p10 (expo x) <= x < p10 (expo x + 1))%Q.
Proof.
  intros H. pose proof (expo_spec x) as E. rewrite Qabs_pos in E by (apply Qlt_le_weak; auto).
  apply E. intro F; rewrite F in H; inversion H.
Qed.

Lemma rnd_pos p x : 1 <= p -> (0 < x)%Q -> (0 < rnd p x)%Q.
Proof.
  intros Hp H. rewrite rnd_pos_grid by auto.
  destruct (grid_bounds p (expo x) x Hp (expo_spec_pos x H)).
  pose proof (p10_pos (expo x)). lra.
Qed.

Lemma rnd_mono_pos p x y : 1 <= p -> (0 < x)%Q -> (x <= y)%Q -> (rnd p x <= rnd p y)%Q.
Proof.
  intros Hp Hx Hxy. assert (Hy : (0 < y)%Q) by lra.
  rewrite !rnd_pos_grid by auto.
  pose proof (expo_spec_pos x Hx) as [X1 X2]. pose proof (expo_spec_pos y Hy) as [Y1 Y2].
  assert (expo x < expo y + 1) by (apply p10_lt_inv; lra).
  destruct (Z.eq_dec (expo x) (expo y)) as [E|NE].
  - rewrite E. apply grid_mono; auto.
  - destruct (grid_bounds p (expo x) x Hp) as [_ B]; auto.
    destruct (grid_bounds p (expo y) y Hp) as [B2 _]; auto.
    assert (p10 (expo x + 1) <= p10 (expo y))%Q by (apply p10_le; lia). lra.
Qed.

Lemma rnd_mono p x y : 1 <= p -> (x <= y)%Q -> (rnd p x <= rnd p y)%Q.
Proof.
  intros Hp Hxy.
  destruct (Qlt_le_dec 0 x) as [Px|Nx].
  { apply rnd_mono_pos; auto. }
  destruct (Qlt_le_dec y 0) as [Py|Ny].
  { assert (rnd p (- y) <= rnd p (- x))%Q by (apply rnd_mono_pos; [lia|lra|lra]).
    rewrite !rnd_opp in H. lra. }
  assert (rnd p x <= 0)%Q.
  { destruct (Qeq_dec x 0) as [E|NE]; [rewrite rnd_0 by auto; lra|].
    assert (0 < rnd p (- x))%Q; [|rewrite rnd_opp in H; lra].
    apply rnd_pos; auto. apply Qle_lteq in Nx. destruct Nx; [lra|contradiction]. }
  assert (0 <= rnd p y)%Q; [|lra].
  destruct (Qeq_dec y 0) as [E|NE]; [rewrite rnd_0 by auto; lra|].
  apply Qlt_le_weak, rnd_pos; auto. apply Qle_lteq in Ny. destruct Ny; [lra|]. exfalso; apply NE; symmetry; auto.
Qed.

(** Rational numbers with at most [p] significant decimal digits. *)
Definition fits (p : Z) (x : Q) : Prop :=
  exists m e : Z, Z.abs m < 10 ^ p /\ (x == inject_Z m * p10 e)%Q.

Lemma fits_opp p x : fits p x -> fits p (- x).
Proof.
  intros (m & e & H1 & H2). exists (- m), e. split; [lia|]. rewrite H2, inject_Z_opp. ring.
Qed.

Lemma rnd_fits_pos p x : 1 <= p -> (0 < x)%Q -> fits p x -> (rnd p x == x)%Q.
Proof.
  intros Hp Hx (m & e & Hm & E). rewrite rnd_pos_grid by auto.
  destruct (expo_spec_pos x Hx) as [X1 X2].
  set (k := expo x) in *.
  assert (Hk : k - p + 1 <= e).
  { assert (k < p + e); [|lia]. apply p10_lt_inv.
    eapply Qle_lt_trans; [exact X1|]. rewrite E, p10_plus.
    apply Qmult_lt_r; [apply p10_pos|]. rewrite p10_nonneg by lia. rewrite <- Zlt_Qlt. lia. }
  apply grid_exact with (m * 10 ^ (e - (k - p + 1))).
  rewrite inject_Z_mult, <- p10_nonneg by lia. rewrite <- Qmult_assoc, <- p10_plus.
  replace (e - (k - p + 1) + (k - p + 1)) with e by lia. auto.
Qed.

Lemma rnd_fits p x : 1 <= p -> fits p x -> (rnd p x == x)%Q.
Proof.
  intros Hp F. destruct (Qlt_le_dec 0 x) as [Px|Nx].
  { apply rnd_fits_pos; auto. }
  destruct (Qeq_dec x 0) as [E|NE]; [rewrite rnd_0 by auto; symmetry; auto|].
  assert (rnd p (- x) == - x)%Q.
  { apply rnd_fits_pos; auto using fits_opp. apply Qle_lteq in Nx. destruct Nx; [lra|contradiction]. }
  rewrite rnd_opp in H. lra.
Qed.

Lemma fits_rnd p x : 1 <= p -> fits p (rnd p x).
Proof.
  intros Hp.
  assert (P : forall x, (0 < x)%Q -> fits p (rnd p x)).
  { clear x. intros x Hx.
    pose proof (grid_floor_bounds p (expo x) x Hp (expo_spec_pos x Hx)) as [F1 F2].
    assert (1 <= 10 ^ (p - 1)) by (pose proof (pow10_pos (p - 1)); lia).
    pose proof (rnd_pos_grid p x Hx) as E. unfold grid in E.
    set (z := Qfloor _) in *.
    destruct (Z.eq_dec z (10 ^ p)) as [E1|N1].
    - exists 1, (expo x + 1). split; [apply Z.lt_le_trans with (10 ^ 1); [reflexivity|]; apply Z.pow_le_mono_r; lia|].
      rewrite E, E1, <- p10_nonneg by lia. rewrite <- p10_plus. rewrite Qmult_1_l.
      replace (p + (expo x - p + 1)) with (expo x + 1) by lia. reflexivity.
    - exists z, (expo x - p + 1). split; [lia|auto]. }
  destruct (Qlt_le_dec 0 x) as [Px|Nx]; [auto|].
  destruct (Qeq_dec x 0) as [E|NE].
  - rewrite rnd_0 by auto. exists 0, 0. split; [cbn; apply pow10_pos; lia|reflexivity].
  - assert (Px : (0 < - x)%Q) by (apply Qle_lteq in Nx; destruct Nx; [lra|contradiction]).
    specialize (P _ Px). apply fits_opp in P. destruct P as (m & e & H1 & H2).
    exists m, e. split; auto. rewrite <- H2, rnd_opp. ring.
Qed.

Lemma rnd_idem p x : 1 <= p -> (rnd p (rnd p x) == rnd p x)%Q.
Proof. intros. apply rnd_fits; auto. apply fits_rnd; auto. Qed.

Lemma fits_int p z : 1 <= p -> Z.abs z <= 10 ^ p -> fits p (inject_Z z).
Proof.
  intros Hp H. destruct (Z.eq_dec (Z.abs z) (10 ^ p)) as [E|N].
  - exists (Z.sgn z), p. split.
    + apply Z.le_lt_trans with 1; [destruct z; cbn; lia|].
      apply Z.lt_le_trans with (10 ^ 1); [reflexivity|]; apply Z.pow_le_mono_r; lia.
    + rewrite p10_nonneg, <- inject_Z_mult by lia. rewrite <- E. rewrite Z.mul_comm, Z.abs_sgn. reflexivity.
  - exists z, 0. split; [lia|]. rewrite p10_0. ring.
Qed.

Lemma rnd_int_id p z : 1 <= p -> Z.abs z <= 10 ^ p -> rnd p (inject_Z z) = inject_Z z.
Proof.
  intros. rewrite <- (rnd_red p). 
  replace (inject_Z z) with (Qred (inject_Z z)) at 2.
  - apply Qred_complete. apply rnd_fits; auto. apply fits_int; auto.
  - unfold inject_Z, Qred. pose proof (Z.ggcd_gcd z 1) as G. pose proof (Z.ggcd_correct_divisors z 1) as D.
    destruct (Z.ggcd z 1) as [g [aa bb]]. cbn in *. rewrite Z.gcd_1_r in G. subst g.
    destruct D as [D1 D2]. replace aa with z by lia. replace bb with 1 by lia. reflexivity.
Qed.

(** Error of one rounding: half a unit of the last kept digit. *)
Lemma rnd_err_ulp p x : ~ (x == 0)%Q -> (Qabs (rnd p x - x) <= (1#2) * p10 (expo x - p + 1))%Q.
Proof.
  intros NZ.
  assert (P : forall x, (0 < x)%Q -> (Qabs (rnd p x - x) <= (1#2) * p10 (expo x - p + 1))%Q).
  { clear. intros x Hx. rewrite rnd_pos_grid by auto. apply grid_err. }
  destruct (Qlt_le_dec 0 x) as [Px|Nx]; [auto|].
  assert (Px : (0 < - x)%Q) by (apply Qle_lteq in Nx; destruct Nx; [lra|contradiction]).
  specialize (P _ Px). rewrite rnd_opp in P.
  assert (Ex : expo (- x) = expo x) by (apply expo_unique; rewrite Qabs_opp; apply expo_spec; auto).
  rewrite Ex in P. rewrite <- Qabs_opp.
  setoid_replace (- (rnd p x - x))%Q with (- rnd p x - - x)%Q by ring. auto.
Qed.

Lemma rnd_err_rel p x : (Qabs (rnd p x - x) <= (1#2) * p10 (1 - p) * Qabs x)%Q.
Proof.
  destruct (Qeq_dec x 0) as [E|NE].
  - rewrite rnd_0 by auto. rewrite E. cbn. rewrite Qmult_0_r. apply Qle_refl.
  - eapply Qle_trans; [apply rnd_err_ulp; auto|].
    replace (expo x - p + 1) with ((1 - p) + expo x) by lia. rewrite p10_plus.
    rewrite Qmult_assoc. apply Qmult_le_l.
    + pose proof (p10_pos (1 - p)). lra.
    + apply expo_spec; auto.
Qed.

(** Rounding an integer gives an integer. *)
Lemma rnd_int p z : 1 <= p -> exists y, rnd p (inject_Z z) = inject_Z y.
Proof.
  intros Hp. destruct (Z_le_gt_dec (Z.abs z) (10 ^ p)).
  - exists z. apply rnd_int_id; auto.
  - unfold rnd. cbn [Qnum Qden inject_Z].
    destruct (z =? 0) eqn:Ez; [exists 0; reflexivity|].
    destruct (Z.leb_spec 0 (ilog10 (Z.abs z) 1 - p + 1)); [eexists; reflexivity|].
    exfalso.
    assert (Hz : ~ (inject_Z z == 0)%Q) by (intro F; apply Qnum_0 in F; cbn in F; lia).
    pose proof (expo_spec (inject_Z z) Hz) as [_ E2]. unfold expo in E2. cbn [Qnum Qden inject_Z] in E2.
    rewrite Qabs_num in E2. cbn [Qnum Qden inject_Z] in E2.
    assert (E3 : (inject_Z (Z.abs z) < p10 (ilog10 (Z.abs z) 1 + 1))%Q).
    { eapply Qle_lt_trans; [|exact E2]. unfold Qdiv. change (/ inject_Z 1)%Q with 1%Q. rewrite Qmult_1_r. apply Qle_refl. }
    assert (E4 : (p10 (ilog10 (Z.abs z) 1 + 1) <= p10 p)%Q) by (apply p10_le; lia).
    assert (E5 : (inject_Z (Z.abs z) < inject_Z (10 ^ p))%Q) by (rewrite <- p10_nonneg by lia; lra).
    rewrite <- Zlt_Qlt in E5. lia.
Qed.
