From Coq Require Import ZArith QArith Qabs Qround Qreduction Ascii String List Bool Lia Lqa Setoid Morphisms Znumtheory.
From Verif Require Import Base Dec Num NumSpec DecProofs.
Import ListNotations.
Open Scope Z_scope.

Lemma inject_nz z : z <> 0 -> ~ (inject_Z z == 0)%Q.
Proof. intros H E. apply Qnum_0 in E. cbn in E. lia. Qed.

Lemma inject_eq a b : (inject_Z a == inject_Z b)%Q -> a = b.
Proof. unfold Qeq; cbn; lia. Qed.

Lemma q_is_int_Z z : q_is_int (inject_Z z) = true.
Proof. unfold q_is_int. rewrite Qfloor_Z. apply Qeq_bool_iff. reflexivity. Qed.

Lemma q_is_int_true x : q_is_int x = true -> (x == inject_Z (Qfloor x))%Q.
Proof. unfold q_is_int. intros H. apply Qeq_bool_iff in H. symmetry; auto. Qed.

Lemma rnd_Z p z q : 1 <= p -> (q == inject_Z z)%Q -> Z.abs z <= 10 ^ p -> rnd p q = inject_Z z.
Proof. intros. rewrite (rnd_eq p _ _ H0). apply rnd_int_id; auto. Qed.

Lemma rnd_Z_ex p z q : 1 <= p -> (q == inject_Z z)%Q -> exists y, rnd p q = inject_Z y.
Proof. intros. rewrite (rnd_eq p _ _ H0). apply rnd_int; auto. Qed.

Lemma floor_rnd_small p z q : 1 <= p -> (q == inject_Z z)%Q -> Z.abs z <= 10 ^ p -> Qfloor (rnd p q) = z.
Proof. intros. rewrite (rnd_Z p z q) by auto. apply Qfloor_Z. Qed.

Lemma inject_div_exact a g : g <> 0 -> (g | a) -> (inject_Z a / inject_Z g == inject_Z (a / g))%Q.
Proof.
  intros Hg [k E]. subst a. rewrite Z.div_mul by auto. rewrite inject_Z_mult. field. apply inject_nz; auto.
Qed.

Lemma abs_div_le a g : 0 < g -> (g | a) -> Z.abs (a / g) <= Z.abs a.
Proof.
  intros Hg [k E]. subst a. rewrite Z.div_mul by lia. rewrite Z.abs_mul. rewrite (Z.abs_eq g) by lia. nia.
Qed.

(** ** reduction *)
Lemma num_reduce_pos p c num den : 1 <= p -> 0 < den -> Z.abs num <= 10 ^ p -> den <= 10 ^ p ->
  num_reduce p c num den = mkNum (num / Z.gcd num den) (den / Z.gcd num den) c None.
Proof.
  intros Hp Hd Hn Hd2. unfold num_reduce.
  destruct (Z.ltb_spec den 0); [lia|]. cbv zeta.
  pose proof (Z.gcd_divide_l num den) as D1. pose proof (Z.gcd_divide_r num den) as D2.
  assert (G : 0 < Z.gcd num den).
  { pose proof (Z.gcd_nonneg num den). destruct (Z.eq_dec (Z.gcd num den) 0) as [E|]; [|lia].
    apply Z.gcd_eq_0_r in E. lia. }
  destruct (Z.ltb_spec 1 (Z.gcd num den)).
  - f_equal.
    + apply floor_rnd_small; auto. { apply inject_div_exact; auto; lia. }
      pose proof (abs_div_le num _ G D1). lia.
    + apply floor_rnd_small; auto. { apply inject_div_exact; auto; lia. }
      pose proof (abs_div_le den _ G D2). lia.
  - replace (Z.gcd num den) with 1 by lia. rewrite !Z.div_1_r. reflexivity.
Qed.

Lemma num_reduce_eq p c num den : 1 <= p -> den <> 0 -> Z.abs num <= 10 ^ p -> Z.abs den <= 10 ^ p ->
  num_reduce p c num den =
  mkNum (Z.sgn den * num / Z.gcd num den) (Z.abs den / Z.gcd num den) c None.
Proof.
  intros Hp Hd Hn Hd2.
  destruct (Z_lt_le_dec den 0) as [N|P].
  - assert (E : num_reduce p c num den = num_reduce p c (- num) (- den)).
    { unfold num_reduce. destruct (Z.ltb_spec den 0); [|lia]. destruct (Z.ltb_spec (- den) 0); [lia|].
      unfold dneg. rewrite (floor_rnd_small p (- num) (- inject_Z num)), (floor_rnd_small p (- den) (- inject_Z den));
        auto; try lia; try (rewrite inject_Z_opp; reflexivity). }
    rewrite E, num_reduce_pos by lia. rewrite Z.gcd_opp_l, Z.gcd_opp_r.
    rewrite (Z.sgn_neg den), (Z.abs_neq den) by lia. f_equal; f_equal; lia.
  - rewrite num_reduce_pos by lia. rewrite Z.sgn_pos, Z.abs_eq by lia. f_equal. f_equal; lia.
Qed.

Lemma gcd_pos num den : den <> 0 -> 0 < Z.gcd num den.
Proof.
  intros Hd. pose proof (Z.gcd_nonneg num den).
  destruct (Z.eq_dec (Z.gcd num den) 0) as [E|]; [|lia]. apply Z.gcd_eq_0_r in E. lia.
Qed.

Lemma num_reduce_props p c num den : 1 <= p -> den <> 0 -> Z.abs num <= 10 ^ p -> Z.abs den <= 10 ^ p ->
  let r := num_reduce p c num den in
  (val r == inject_Z num / inject_Z den)%Q /\ good r /\ Z.gcd (nnum r) (nden r) = 1 /\
  Z.abs (nnum r) <= Z.abs num /\ nden r <= Z.abs den /\ ncast r = c.
Proof.
  intros Hp Hd Hn Hd2. cbv zeta. rewrite num_reduce_eq by auto. unfold val, good. cbn [nnum nden ncast].
  set (g := Z.gcd num den).
  assert (G : 0 < g) by (apply gcd_pos; auto).
  assert (D1 : (g | num)) by apply Z.gcd_divide_l.
  assert (D2 : (g | den)) by apply Z.gcd_divide_r.
  destruct D1 as [u Eu]. destruct D2 as [v Ev].
  assert (Hv : v <> 0) by nia.
  assert (N1 : Z.sgn den * num / g = Z.sgn den * u).
  { rewrite Eu, Z.mul_assoc, Z.div_mul by lia. reflexivity. }
  assert (N2 : Z.abs den / g = Z.abs v).
  { rewrite Ev, Z.abs_mul, (Z.abs_eq g) by lia. rewrite Z.div_mul by lia. reflexivity. }
  assert (S : Z.sgn den = Z.sgn v). { rewrite Ev, Z.sgn_mul, (Z.sgn_pos g) by lia. lia. }
  rewrite N1, N2, S.
  assert (GC : Z.gcd u v = 1).
  { assert (Z.gcd (u * g) (v * g) = Z.gcd u v * g) by (rewrite Z.gcd_mul_mono_r, (Z.abs_eq g) by lia; reflexivity).
    rewrite <- Eu, <- Ev in H. fold g in H. nia. }
  repeat split.
  - rewrite Eu, Ev, !inject_Z_mult.
    assert (~ (inject_Z v == 0)%Q) by (apply inject_nz; auto).
    assert (~ (inject_Z g == 0)%Q) by (apply inject_nz; lia).
    destruct (Z_lt_le_dec v 0).
    + rewrite Z.sgn_neg, Z.abs_neq, inject_Z_opp by lia. change (inject_Z (-1)) with (-1)%Q. field. auto.
    + rewrite Z.sgn_pos, Z.abs_eq by lia. change (inject_Z 1) with 1%Q. field. auto.
  - lia.
  - rewrite Z.gcd_abs_r. destruct (Z_lt_le_dec v 0).
    + rewrite Z.sgn_neg by lia. replace (-1 * u) with (- u) by lia. rewrite Z.gcd_opp_l; auto.
    + rewrite Z.sgn_pos by lia. rewrite Z.mul_1_l; auto.
  - rewrite Eu, !Z.abs_mul. destruct (Z_lt_le_dec v 0).
    + rewrite Z.sgn_neg by lia. change (Z.abs (-1)) with 1. nia.
    + rewrite Z.sgn_pos by lia. change (Z.abs 1) with 1. nia.
  - rewrite Ev, Z.abs_mul. nia.
Qed.

Lemma num_make_Z p c a b : num_make p c (inject_Z a) (inject_Z b) =
  if b =? 0 then None else Some (num_reduce p c a b).
Proof.
  unfold num_make. rewrite !q_is_int_Z, !Qfloor_Z.
  destruct (Z.eqb_spec b 0).
  - subst. reflexivity.
  - destruct (Qeq_bool (inject_Z b) 0) eqn:E; [|reflexivity].
    apply Qeq_bool_iff in E. apply inject_nz in n. contradiction.
Qed.

Lemma lcm_pos a b : 0 < a -> 0 < b -> 0 < Z.lcm a b.
Proof.
  intros. pose proof (Z.lcm_nonneg a b). destruct (Z.eq_dec (Z.lcm a b) 0) as [E|]; [|lia].
  apply Z.lcm_eq_0 in E. lia.
Qed.

(** Scaling a numerator to the common denominator is exact when the product fits. *)
Lemma scale_exact p n l d : 1 <= p -> 0 < d -> (d | l) -> Z.abs (n * l) <= 10 ^ p ->
  ddiv p (dmul p (inject_Z n) (inject_Z l)) (inject_Z d) = inject_Z (n * (l / d)).
Proof.
  intros Hp Hd Hdl Hs. unfold dmul.
  rewrite (rnd_Z p (n * l)) by (auto; rewrite inject_Z_mult; reflexivity).
  assert (E : n * (l / d) = n * l / d).
  { destruct Hdl as [k E]. subst l. rewrite Z.div_mul, Z.mul_assoc, Z.div_mul by lia. reflexivity. }
  assert (DD : (d | n * l)) by (apply Z.divide_mul_r; auto).
  unfold ddiv. rewrite E. apply rnd_Z; auto.
  - apply inject_div_exact; auto; lia.
  - pose proof (abs_div_le (n * l) d Hd DD). lia.
Qed.

Lemma lcm_quot a b : 0 < a -> 0 < b -> Z.lcm a b / a * a = Z.lcm a b.
Proof.
  intros. destruct (Z.divide_lcm_l a b) as [k E]. rewrite E, Z.div_mul by lia. lia.
Qed.

(** What the four exact operations compute when every intermediate integer has at most p digits. *)
Definition add_fits (p : Z) (a b : number) : Prop :=
  let l := Z.lcm (nden a) (nden b) in
  small p (nnum a * l) /\ small p (nnum b * l) /\ small p l /\
  small p (nnum a * (l / nden a) + nnum b * (l / nden b)).
Definition sub_fits (p : Z) (a b : number) : Prop :=
  let l := Z.lcm (nden a) (nden b) in
  small p (nnum a * l) /\ small p (nnum b * l) /\ small p l /\
  small p (nnum a * (l / nden a) - nnum b * (l / nden b)).
Definition mul_fits (p : Z) (a b : number) : Prop :=
  small p (nnum a * nnum b) /\ small p (nden a * nden b).
Definition div_fits (p : Z) (a b : number) : Prop :=
  small p (nnum a * nden b) /\ small p (nden a * nnum b).

Definition exact_result (p : Z) (r : number) (q : Q) : Prop :=
  (val r == q)%Q /\ good r /\ lowest r.

Lemma gcd1_lowest r : Z.gcd (nnum r) (nden r) = 1 -> lowest r.
Proof.
  intros G d H1 H2. pose proof (Z.gcd_greatest _ _ _ H1 H2) as H. rewrite G in H.
  apply Z.divide_1_r; auto.
Qed.

Lemma lowest_gcd1 r : good r -> lowest r -> Z.gcd (nnum r) (nden r) = 1.
Proof.
  intros G L. destruct (L (Z.gcd (nnum r) (nden r)) (Z.gcd_divide_l _ _) (Z.gcd_divide_r _ _)); auto.
  pose proof (Z.gcd_nonneg (nnum r) (nden r)). lia.
Qed.

Lemma make_exact p c a b q : 1 <= p -> b <> 0 -> small p a -> small p b ->
  (inject_Z a / inject_Z b == q)%Q ->
  exists r, num_make p c (inject_Z a) (inject_Z b) = Some r /\ (val r == q)%Q /\ good r /\ lowest r /\ ncast r = c.
Proof.
  unfold small. intros Hp Hb Sa Sb E. rewrite num_make_Z. destruct (Z.eqb_spec b 0); [contradiction|].
  eexists. split; [reflexivity|].
  destruct (num_reduce_props p c a b) as (R1 & R2 & R3 & R4 & R5 & R6); try lia.
  rewrite R1. auto using gcd1_lowest.
Qed.

Lemma num_add_exact p a b : 1 <= p -> good a -> good b -> add_fits p a b ->
  exists r, num_add p a b = Some r /\ (val r == val a + val b)%Q /\ good r /\ lowest r /\ ncast r = ncast a.
Proof.
  intros Hp Ga Gb (F1 & F2 & F3 & F4). unfold num_add, num_normalise.
  unfold good, small in *. set (l := Z.lcm (nden a) (nden b)) in *.
  assert (L : 0 < l) by (apply lcm_pos; auto).
  rewrite (scale_exact p (nnum a) l (nden a)), (scale_exact p (nnum b) l (nden b));
    try lia; try apply Z.divide_lcm_l; try apply Z.divide_lcm_r.
  unfold dadd. rewrite (rnd_Z p (nnum a * (l / nden a) + nnum b * (l / nden b)));
    [|auto|rewrite inject_Z_plus; reflexivity|lia].
  apply make_exact; auto; try lia.
  unfold val. rewrite inject_Z_plus, !inject_Z_mult.
  assert (La : l = l / nden a * nden a) by (symmetry; apply lcm_quot; auto).
  assert (Lb : l = l / nden b * nden b) by (unfold l; rewrite Z.lcm_comm; symmetry; apply lcm_quot; auto).
  assert (Ea : (inject_Z l == inject_Z (l / nden a) * inject_Z (nden a))%Q) by (rewrite <- inject_Z_mult, <- La; reflexivity).
  assert (Eb : (inject_Z l == inject_Z (l / nden b) * inject_Z (nden b))%Q) by (rewrite <- inject_Z_mult, <- Lb; reflexivity).
  assert (~ (inject_Z (nden a) == 0)%Q) by (apply inject_nz; lia).
  assert (~ (inject_Z (nden b) == 0)%Q) by (apply inject_nz; lia).
  assert (~ (inject_Z (l / nden a) == 0)%Q) by (apply inject_nz; lia).
  assert (~ (inject_Z (l / nden b) == 0)%Q) by (apply inject_nz; lia).
  setoid_replace ((inject_Z (nnum a) * inject_Z (l / nden a) + inject_Z (nnum b) * inject_Z (l / nden b)) / inject_Z l)%Q
    with (inject_Z (nnum a) * inject_Z (l / nden a) / inject_Z l + inject_Z (nnum b) * inject_Z (l / nden b) / inject_Z l)%Q
    by (field; apply inject_nz; lia).
  rewrite Ea at 1. rewrite Eb. field. auto.
Qed.

Lemma num_sub_exact p a b : 1 <= p -> good a -> good b -> sub_fits p a b ->
  exists r, num_sub p a b = Some r /\ (val r == val a - val b)%Q /\ good r /\ lowest r /\ ncast r = ncast a.
Proof.
  intros Hp Ga Gb (F1 & F2 & F3 & F4). unfold num_sub, num_normalise.
  unfold good, small in *. set (l := Z.lcm (nden a) (nden b)) in *.
  assert (L : 0 < l) by (apply lcm_pos; auto).
  rewrite (scale_exact p (nnum a) l (nden a)), (scale_exact p (nnum b) l (nden b));
    try lia; try apply Z.divide_lcm_l; try apply Z.divide_lcm_r.
  unfold dsub. rewrite (rnd_Z p (nnum a * (l / nden a) - nnum b * (l / nden b)));
    [|auto|unfold Z.sub; rewrite inject_Z_plus, inject_Z_opp; reflexivity|lia].
  apply make_exact; auto; try lia.
  unfold val. unfold Z.sub; rewrite inject_Z_plus, inject_Z_opp, !inject_Z_mult.
  assert (La : l = l / nden a * nden a) by (symmetry; apply lcm_quot; auto).
  assert (Lb : l = l / nden b * nden b) by (unfold l; rewrite Z.lcm_comm; symmetry; apply lcm_quot; auto).
  assert (Ea : (inject_Z l == inject_Z (l / nden a) * inject_Z (nden a))%Q) by (rewrite <- inject_Z_mult, <- La; reflexivity).
  assert (Eb : (inject_Z l == inject_Z (l / nden b) * inject_Z (nden b))%Q) by (rewrite <- inject_Z_mult, <- Lb; reflexivity).
  assert (~ (inject_Z (nden a) == 0)%Q) by (apply inject_nz; lia).
  assert (~ (inject_Z (nden b) == 0)%Q) by (apply inject_nz; lia).
  assert (~ (inject_Z (l / nden a) == 0)%Q) by (apply inject_nz; lia).
  assert (~ (inject_Z (l / nden b) == 0)%Q) by (apply inject_nz; lia).
  setoid_replace ((inject_Z (nnum a) * inject_Z (l / nden a) + - (inject_Z (nnum b) * inject_Z (l / nden b))) / inject_Z l)%Q
    with (inject_Z (nnum a) * inject_Z (l / nden a) / inject_Z l - inject_Z (nnum b) * inject_Z (l / nden b) / inject_Z l)%Q
    by (field; apply inject_nz; lia).
  rewrite Ea at 1. rewrite Eb. field. auto.
Qed.

Lemma dmul_Z p a b : 1 <= p -> small p (a * b) -> dmul p (inject_Z a) (inject_Z b) = inject_Z (a * b).
Proof. intros. apply rnd_Z; auto; [rewrite inject_Z_mult; reflexivity|unfold small in *; lia]. Qed.

Lemma num_mul_exact p a b : 1 <= p -> good a -> good b -> mul_fits p a b ->
  exists r, num_mul p a b = Some r /\ (val r == val a * val b)%Q /\ good r /\ lowest r /\ ncast r = ncast a.
Proof.
  intros Hp Ga Gb (F1 & F2). unfold num_mul. rewrite !dmul_Z by auto. unfold good in *.
  apply make_exact; auto; try nia.
  unfold val. rewrite !inject_Z_mult. field. split; apply inject_nz; lia.
Qed.

Lemma num_div_exact p a b : 1 <= p -> good a -> good b -> div_fits p a b -> nnum b <> 0 ->
  exists r, num_div p a b = Some r /\ (val r == val a / val b)%Q /\ good r /\ lowest r /\ ncast r = ncast a.
Proof.
  intros Hp Ga Gb (F1 & F2) Hb. unfold num_div. rewrite !dmul_Z by auto. unfold good in *.
  apply make_exact; auto; try nia.
  unfold val. rewrite !inject_Z_mult. field. repeat split; apply inject_nz; lia.
Qed.

Lemma num_div_zero p a b : nnum b = 0 -> num_div p a b = None.
Proof.
  intros H. unfold num_div. rewrite H. unfold num_make.
  assert (E : (dmul p (inject_Z (nden a)) (inject_Z 0)) = 0%Q).
  { unfold dmul. apply rnd_0. change (inject_Z 0) with 0%Q. ring. }
  rewrite E. reflexivity.
Qed.

(** ** denominators are always positive *)
Lemma rnd_nz p x : 1 <= p -> ~ (x == 0)%Q -> ~ (rnd p x == 0)%Q.
Proof.
  intros Hp NZ. destruct (Qlt_le_dec 0 x) as [P|N].
  - pose proof (rnd_pos p x Hp P). lra.
  - assert (P : (0 < - x)%Q) by (apply Qle_lteq in N; destruct N; [lra|contradiction]).
    pose proof (rnd_pos p _ Hp P) as R. rewrite rnd_opp in R. lra.
Qed.

Lemma num_reduce_good p c num den : 1 <= p -> den <> 0 -> good (num_reduce p c num den).
Proof.
  intros Hp Hd. unfold num_reduce.
  set (pr := if den <? 0 then _ else _).
  assert (P : 0 < snd pr).
  { unfold pr. destruct (Z.ltb_spec den 0); cbn [snd]; [|lia].
    unfold dneg. destruct (rnd_Z_ex p (- den) (- inject_Z den)) as [y E]; [auto|rewrite inject_Z_opp; reflexivity|].
    rewrite E, Qfloor_Z. assert (0 < rnd p (- inject_Z den))%Q.
    { apply rnd_pos; auto. assert (inject_Z den < inject_Z 0)%Q by (rewrite <- Zlt_Qlt; auto).
      change (inject_Z 0) with 0%Q in *. lra. }
    rewrite E in H0. change 0%Q with (inject_Z 0) in H0. rewrite <- Zlt_Qlt in H0. auto. }
  destruct pr as [num' den']; cbn [snd] in P.
  destruct (Z.ltb_spec 1 (Z.gcd num' den')); unfold good; cbn [nden]; [|auto].
  assert (G : 0 < Z.gcd num' den') by lia.
  assert (D : (Z.gcd num' den' | den')) by apply Z.gcd_divide_r.
  unfold ddiv.
  destruct (rnd_Z_ex p (den' / Z.gcd num' den') (inject_Z den' / inject_Z (Z.gcd num' den'))) as [y E];
    [auto|apply inject_div_exact; auto; lia|].
  rewrite E, Qfloor_Z.
  assert (Q : (0 < rnd p (inject_Z den' / inject_Z (Z.gcd num' den')))%Q).
  { apply rnd_pos; auto. rewrite inject_div_exact by (auto; lia).
    change 0%Q with (inject_Z 0). rewrite <- Zlt_Qlt.
    destruct D as [k K]. rewrite K at 1. rewrite Z.div_mul by lia. nia. }
  rewrite E in Q. change 0%Q with (inject_Z 0) in Q. rewrite <- Zlt_Qlt in Q. auto.
Qed.

Lemma floor_nz_int x : q_is_int x = true -> ~ (x == 0)%Q -> Qfloor x <> 0.
Proof. intros I N E. apply q_is_int_true in I. rewrite E in I. apply N. rewrite I. reflexivity. Qed.

Lemma num_make_good p c num den r : 1 <= p -> num_make p c num den = Some r -> good r.
Proof.
  intros Hp. unfold num_make. destruct (Qeq_bool den 0) eqn:E0; [discriminate|].
  assert (NZ : ~ (den == 0)%Q) by (intro F; apply Qeq_bool_iff in F; congruence).
  set (pr := if q_is_int num then _ else _).
  assert (N1 : ~ (snd pr == 0)%Q).
  { unfold pr. destruct (q_is_int num); cbn [snd]; auto. unfold ratio; cbn [snd].
    unfold dmul. apply rnd_nz; auto. intro F. apply Qmult_integral in F. destruct F as [F|F]; auto.
    apply (inject_nz (Z.pos (Qden (Qred num)))) in F; [auto|lia]. }
  destruct pr as [num1 den1]; cbn [snd] in N1.
  set (pr := if q_is_int den1 then _ else _).
  assert (N2 : Qfloor (snd pr) <> 0).
  { unfold pr. destruct (q_is_int den1) eqn:I; cbn [snd].
    - apply floor_nz_int; auto.
    - unfold ratio; cbn [snd]. rewrite Qfloor_Z. intro F. apply Qnum_0 in F.
      rewrite Qred_correct in F. auto. }
  destruct pr as [num2 den2]; cbn [snd] in N2.
  intros H. injection H as <-. apply num_reduce_good; auto.
Qed.

(** ** uniqueness of representation *)
Lemma lowest_unique a b : good a -> good b -> lowest a -> lowest b -> (val a == val b)%Q ->
  nnum a = nnum b /\ nden a = nden b.
Proof.
  intros Ga Gb La Lb E. apply lowest_gcd1 in La; auto. apply lowest_gcd1 in Lb; auto. unfold good in *.
  assert (X : nnum a * nden b = nnum b * nden a).
  { apply inject_eq. rewrite !inject_Z_mult. unfold val in E.
    assert (A : ~ (inject_Z (nden a) == 0)%Q) by (apply inject_nz; lia).
    assert (B : ~ (inject_Z (nden b) == 0)%Q) by (apply inject_nz; lia).
    setoid_replace (inject_Z (nnum a) * inject_Z (nden b))%Q
      with (inject_Z (nnum a) / inject_Z (nden a) * (inject_Z (nden a) * inject_Z (nden b)))%Q by (field; auto).
    rewrite E. field; auto. }
  assert (D1 : (nden a | nden b)).
  { apply Z.gauss with (nnum a). - exists (nnum b). lia. - rewrite Z.gcd_comm; auto. }
  assert (D2 : (nden b | nden a)).
  { apply Z.gauss with (nnum b). - exists (nnum a). lia. - rewrite Z.gcd_comm; auto. }
  assert (nden a = nden b) by (apply Z.divide_antisym_nonneg; auto; lia).
  split; auto. nia.
Qed.

(** ** commutativity *)
Lemma num_make_eq p c n n' d d' : (n == n')%Q -> (d == d')%Q -> num_make p c n d = num_make p c n' d'.
Proof.
  intros En Ed. unfold num_make.
  assert (E1 : Qeq_bool d 0 = Qeq_bool d' 0).
  { destruct (Qeq_bool d' 0) eqn:E.
    - apply Qeq_bool_iff in E. apply Qeq_bool_iff. rewrite Ed; auto.
    - destruct (Qeq_bool d 0) eqn:F; auto. apply Qeq_bool_iff in F. rewrite Ed in F. apply Qeq_bool_iff in F. congruence. }
  rewrite E1. destruct (Qeq_bool d' 0); auto.
  assert (I : forall x y, (x == y)%Q -> q_is_int x = q_is_int y).
  { intros x y E. unfold q_is_int. rewrite (Qfloor_comp _ _ E).
    destruct (Qeq_bool (inject_Z (Qfloor y)) y) eqn:F.
    - apply Qeq_bool_iff in F. apply Qeq_bool_iff. rewrite E; auto.
    - destruct (Qeq_bool (inject_Z (Qfloor y)) x) eqn:G; auto. apply Qeq_bool_iff in G. rewrite E in G.
      apply Qeq_bool_iff in G. congruence. }
  assert (R : forall x y, (x == y)%Q -> ratio x = ratio y).
  { intros x y E. unfold ratio. rewrite (Qred_complete _ _ E). reflexivity. }
  rewrite (I _ _ En), (R _ _ En).
  destruct (q_is_int n').
  - rewrite (I _ _ Ed), (R _ _ Ed). destruct (q_is_int d'); [|unfold ratio].
    + rewrite (Qfloor_comp _ _ En), (Qfloor_comp _ _ Ed). reflexivity.
    + unfold dmul. rewrite (rnd_eq p _ _ (Qmult_comp _ _ En _ _ (Qeq_refl (inject_Z (Z.pos (Qden (Qred d'))))))). reflexivity.
  - destruct (ratio n') as [a b].
    assert (D : dmul p d (inject_Z b) = dmul p d' (inject_Z b)).
    { unfold dmul. apply rnd_eq. rewrite Ed. reflexivity. }
    rewrite D. reflexivity.
Qed.

Definition same_value (x y : option number) : Prop :=
  option_map num_hash x = option_map num_hash y.

Lemma num_make_cast p c c' n d : same_value (num_make p c n d) (num_make p c' n d).
Proof.
  unfold same_value, num_make. destruct (Qeq_bool d 0); auto.
  destruct (if q_is_int n then _ else _) as [n1 d1].
  destruct (if q_is_int d1 then _ else _) as [n2 d2].
  cbn [option_map]. f_equal. unfold num_reduce.
  destruct (if Qfloor d2 <? 0 then _ else _) as [n3 d3].
  destruct (1 <? Z.gcd n3 d3); reflexivity.
Qed.

Lemma num_add_comm p a b : same_value (num_add p a b) (num_add p b a).
Proof.
  unfold num_add, num_normalise. rewrite (Z.lcm_comm (nden b) (nden a)).
  set (l := Z.lcm (nden a) (nden b)).
  rewrite (num_make_eq p (ncast b) _ (dadd p (ddiv p (dmul p (inject_Z (nnum a)) (inject_Z l)) (inject_Z (nden a)))
       (ddiv p (dmul p (inject_Z (nnum b)) (inject_Z l)) (inject_Z (nden b)))) _ (inject_Z l)).
  - apply num_make_cast.
  - unfold dadd. apply rnd_comp. ring.
  - reflexivity.
Qed.

Lemma num_mul_comm p a b : same_value (num_mul p a b) (num_mul p b a).
Proof.
  unfold num_mul.
  rewrite (num_make_eq p (ncast b) _ (dmul p (inject_Z (nnum a)) (inject_Z (nnum b))) _ (dmul p (inject_Z (nden a)) (inject_Z (nden b)))).
  - apply num_make_cast.
  - unfold dmul. apply rnd_comp. ring.
  - unfold dmul. apply rnd_comp. ring.
Qed.

(** ** comparison *)
Lemma to_decimal_val p a : to_decimal p a = rnd p (val a).
Proof. reflexivity. Qed.

Lemma num_leb_iff p a b : num_leb p a b = true <-> (rnd p (val a) <= rnd p (val b))%Q.
Proof. unfold num_leb. rewrite Qle_bool_iff. reflexivity. Qed.

Lemma num_leb_mono p a b : 1 <= p -> (val a <= val b)%Q -> num_leb p a b = true.
Proof. intros. apply num_leb_iff. apply rnd_mono; auto. Qed.

Lemma num_leb_total p a b : num_leb p a b = true \/ num_leb p b a = true.
Proof. rewrite !num_leb_iff. destruct (Qlt_le_dec (rnd p (val a)) (rnd p (val b))); [left|right]; lra. Qed.

Lemma num_leb_trans p a b c : num_leb p a b = true -> num_leb p b c = true -> num_leb p a c = true.
Proof. rewrite !num_leb_iff. intros; lra. Qed.

Lemma num_eqb_iff p a b : num_eqb p a b = true <-> num_leb p a b = true /\ num_leb p b a = true.
Proof.
  rewrite !num_leb_iff. unfold num_eqb. rewrite Qeq_bool_iff, !to_decimal_val. split; [intros ->; split; apply Qle_refl|].
  intros []. apply Qle_antisym; auto.
Qed.

Lemma num_ltb_iff p a b : num_ltb p a b = true <-> num_leb p b a = false.
Proof. unfold num_ltb, num_leb. rewrite negb_true_iff. reflexivity. Qed.

Lemma num_ltb_sound p a b : 1 <= p -> num_ltb p a b = true -> (val a < val b)%Q.
Proof.
  intros Hp H. apply num_ltb_iff in H. apply Qnot_le_lt. intro L.
  apply (num_leb_mono p) in L; auto. congruence.
Qed.
