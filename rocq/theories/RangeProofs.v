(** Sums over a common denominator; the values of an array range. *)
From Coq Require Import ZArith QArith Qabs Qround Ascii String List Bool Lia Lqa.
From Verif Require Import Base BaseProofs Dec DecProofs Num NumSpec NumProofs NumProofs2 NumProofs4 Bases BasesProofs Formats Units Syntax Pos Call CallSpec Loop Parse Exec RangeSpec.
Import ListNotations.
Open Scope Z_scope.

Lemma inj_pos d : 0 < d -> (0 < inject_Z d)%Q.
Proof. intros H. change 0%Q with (inject_Z 0). now rewrite <- Zlt_Qlt. Qed.
(** Cross multiplication *)
Lemma cross a b c d : 0 < b -> 0 < d -> (inject_Z a / inject_Z b == inject_Z c / inject_Z d)%Q <-> a * d = c * b.
Proof.
  intros Hb Hd. pose proof (inj_pos b Hb). pose proof (inj_pos d Hd). split; intros E.
    assert (F : (inject_Z a * inject_Z d == inject_Z c * inject_Z b)%Q).
    { transitivity ((inject_Z a / inject_Z b) * inject_Z b * inject_Z d)%Q; [field; lra|]. rewrite E. field; lra. }
    rewrite <- !inject_Z_mult in F. unfold Qeq in F. cbn in F. lia.
  - assert (F : (inject_Z a * inject_Z d == inject_Z c * inject_Z b)%Q) by (rewrite <- !inject_Z_mult; now rewrite E).
    transitivity (inject_Z a * inject_Z d / (inject_Z b * inject_Z d))%Q; [field; split; lra|]. rewrite F. field; split; lra.
Qed.
Lemma over_parts d x n : 0 < d -> over d x n -> (nden n | d) /\ Z.abs (nnum n) <= Z.abs x /\ nden n <= d /\ nnum n * d = x * nden n.
Proof.
  intros Hd (G & L & V). unfold good in G. unfold val in V. apply (proj1 (cross (nnum n) (nden n) x d G Hd)) in V.
  assert (D : (nden n | d)).
  { apply (Z.gauss _ (nnum n)); [exists x; lia|].
    pose proof (Z.gcd_nonneg (nden n) (nnum n)). destruct (L (Z.gcd (nden n) (nnum n))); [apply Z.gcd_divide_r|apply Z.gcd_divide_l|assumption|lia]. }
  split; [exact D|]. destruct D as [q D]. assert (0 < q) by nia. subst d. assert (x = nnum n * q) by nia. subst x. repeat split; nia.
Qed.
Lemma over_size d x n k : 0 < d -> over d x n -> Z.abs x < 10 ^ k -> d < 10 ^ k -> size_le k n.
Proof. intros Hd H Hx Hk. destruct (over_parts d x n Hd H) as (_ & H1 & H2 & _). unfold size_le. lia. Qed.
Lemma lcm_over d a b : 0 < d -> 0 < a -> 0 < b -> (a | d) -> (b | d) -> 0 < Z.lcm a b <= d.
Proof.
  intros Hd Ha Hb Da Db. split.
  - pose proof (Z.lcm_nonneg a b). destruct (Z.eq_dec (Z.lcm a b) 0) as [E|E]; [apply Z.lcm_eq_0 in E; lia|lia].
  - apply Z.divide_pos_le; [exact Hd|]. now apply Z.lcm_least.
Qed.
Lemma over_fits p d x y a b : 0 < d -> over d x a -> over d y b -> (Z.abs x + Z.abs y) * d < 10 ^ p -> d < 10 ^ p ->
  add_fits p a b /\ sub_fits p a b.
Proof.
  intros Hd Ha Hb S1 S2. destruct (over_parts d x a Hd Ha) as (A1 & A2 & A3 & A4). destruct (over_parts d y b Hd Hb) as (B1 & B2 & B3 & B4).
  destruct Ha as (Ga & _). destruct Hb as (Gb & _). unfold good in Ga, Gb.
  pose proof (lcm_over d (nden a) (nden b) Hd Ga Gb A1 B1) as L. unfold add_fits, sub_fits. cbv zeta. set (l := Z.lcm (nden a) (nden b)) in *.
  assert (Qa : 0 <= l / nden a <= l) by (split; [apply Z.div_pos; lia|apply Z.div_le_upper_bound; nia]).
  assert (Qb : 0 <= l / nden b <= l) by (split; [apply Z.div_pos; lia|apply Z.div_le_upper_bound; nia]).
  assert (M : forall u v w, Z.abs u <= Z.abs w -> 0 <= v <= l -> Z.abs (u * v) <= Z.abs w * d) by (intros u v w Hu Hv; rewrite Z.abs_mul, (Z.abs_eq v) by lia; apply Z.mul_le_mono_nonneg; lia).
  pose proof (M (nnum a) l x A2 ltac:(lia)). pose proof (M (nnum b) l y B2 ltac:(lia)).
  pose proof (M (nnum a) (l / nden a) x A2 Qa). pose proof (M (nnum b) (l / nden b) y B2 Qb).
  pose proof (Z.mul_nonneg_nonneg (Z.abs x) d (Z.abs_nonneg x) ltac:(lia)). pose proof (Z.mul_nonneg_nonneg (Z.abs y) d (Z.abs_nonneg y) ltac:(lia)).
  rewrite Z.mul_add_distr_r in S1. clear M A1 B1 A2 B2 A3 B3 A4 B4 Qa Qb. unfold small.
  split; (split; [lia|split; [lia|split; [rewrite Z.abs_eq; lia|]]]); lia.
Qed.
Lemma over_val d x y (r a b : number) : 0 < d -> over d x a -> over d y b -> good r -> lowest r -> (val r == val a + val b)%Q -> over d (x + y) r.
Proof.
  intros Hd (_ & _ & Va) (_ & _ & Vb) G L V. split; [exact G|]. split; [exact L|]. rewrite V, Va, Vb, inject_Z_plus. field. pose proof (inj_pos d Hd). lra.
Qed.
Lemma add_over p d x y a b : 1 <= p -> 0 < d -> over d x a -> over d y b -> (Z.abs x + Z.abs y) * d < 10 ^ p -> d < 10 ^ p ->
  exists r, num_add p a b = Some r /\ over d (x + y) r /\ ncast r = ncast a.
Proof.
  intros Hp Hd Ha Hb S1 S2. destruct (over_fits p d x y a b Hd Ha Hb S1 S2) as [F _].
  destruct (num_add_exact p a b Hp) as (r & E & V & G & L & C); [apply Ha|apply Hb|exact F|]. exists r. split; [exact E|]. split; [|exact C].
  eapply over_val; eauto.
Qed.
Lemma sub_over p d x y a b : 1 <= p -> 0 < d -> over d x a -> over d y b -> (Z.abs x + Z.abs y) * d < 10 ^ p -> d < 10 ^ p ->
  exists r, num_sub p a b = Some r /\ over d (x - y) r /\ ncast r = ncast a.
Proof.
  intros Hp Hd Ha Hb S1 S2. destruct (over_fits p d x y a b Hd Ha Hb S1 S2) as [_ F].
  destruct (num_sub_exact p a b Hp) as (r & E & V & G & L & C); [apply Ha|apply Hb|exact F|]. exists r. split; [exact E|]. split; [|exact C].
  destruct Ha as (_ & _ & Va). destruct Hb as (_ & _ & Vb). split; [exact G|]. split; [exact L|]. unfold Z.sub.
  rewrite V, Va, Vb, inject_Z_plus, inject_Z_opp. field. pose proof (inj_pos d Hd). lra.
Qed.

(** Comparing *)
Lemma over_lt d x y a b : 0 < d -> over d x a -> over d y b -> (val a < val b)%Q <-> x < y.
Proof.
  intros Hd (_ & _ & Va) (_ & _ & Vb). rewrite Va, Vb. pose proof (inj_pos d Hd) as P. split; intros H.
  - rewrite Zlt_Qlt. apply (Qmult_lt_r _ _ (/ inject_Z d)) ; [apply Qinv_lt_0_compat; exact P|exact H].
  - apply (Qmult_lt_r _ _ (/ inject_Z d)); [apply Qinv_lt_0_compat; exact P|]. now rewrite <- Zlt_Qlt.
Qed.
Lemma leb_over p k d x y a b : 0 <= k -> 2 * k + 1 <= p -> 0 < d -> over d x a -> over d y b ->
  Z.abs x < 10 ^ k -> Z.abs y < 10 ^ k -> d < 10 ^ k -> num_leb p a b = (x <=? y).
Proof.
  intros Hk Hp Hd Ha Hb Sx Sy Sd.
  assert (E : num_leb p a b = negb (num_ltb p b a)) by (unfold num_leb, num_ltb; now rewrite negb_involutive).
  rewrite E. destruct (num_ltb_exact p k b a Hk Hp) as [H _]; [apply Hb|apply Ha|eapply over_size; eauto|eapply over_size; eauto|].
  destruct (num_ltb p b a); cbn [negb].
  - assert (y < x) by (apply (over_lt d y x b a Hd Hb Ha), H; reflexivity). symmetry. apply Z.leb_gt. lia.
  - destruct (Z.leb_spec x y); [reflexivity|]. exfalso. assert (V : (val b < val a)%Q) by (apply (over_lt d y x b a Hd Hb Ha); lia).
    apply H in V. discriminate.
Qed.
Lemma sign_over p d z c : 1 <= p -> 0 < d -> over d z c ->
  Qle_bool (to_decimal p c) 0 = (z <=? 0) /\ Qle_bool 0 (to_decimal p c) = (0 <=? z).
Proof.
  intros Hp Hd (_ & _ & V). rewrite to_decimal_val, (rnd_eq p _ _ V). pose proof (inj_pos d Hd) as P.
  assert (Pi : (0 < / inject_Z d)%Q) by now apply Qinv_lt_0_compat.
  assert (POS : forall q, (0 < q)%Q -> Qle_bool (rnd p q) 0 = false /\ Qle_bool 0 (rnd p q) = true).
  { intros q Hq. pose proof (rnd_pos p q Hp Hq) as R. split; [|apply Qle_bool_iff; lra].
    destruct (Qle_bool (rnd p q) 0) eqn:E; [|reflexivity]. apply Qle_bool_iff in E. lra. }
  destruct (Z.compare_spec z 0) as [->|H|H].
  - rewrite rnd_0 by (unfold Qdiv; apply Qmult_0_l). split; reflexivity.
  - assert (N : (0 < - (inject_Z z / inject_Z d))%Q).
    { setoid_replace (- (inject_Z z / inject_Z d))%Q with (inject_Z (- z) * / inject_Z d)%Q by (rewrite inject_Z_opp; unfold Qdiv; ring).
      apply Qmult_lt_0_compat; [apply inj_pos; lia|exact Pi]. }
    destruct (POS _ N) as [P1 P2]. pose proof (rnd_opp p (inject_Z z / inject_Z d)) as O. split.
    + replace (z <=? 0) with true by (symmetry; apply Z.leb_le; lia). apply Qle_bool_iff in P2. rewrite O in P2. apply Qle_bool_iff. lra.
    + replace (0 <=? z) with false by (symmetry; apply Z.leb_gt; lia). destruct (Qle_bool 0 (rnd p (inject_Z z / inject_Z d))) eqn:E; [|reflexivity].
      apply Qle_bool_iff in E. assert (Qle_bool (rnd p (- (inject_Z z / inject_Z d))) 0 = true) by (apply Qle_bool_iff; rewrite O; lra). congruence.
  - assert (N : (0 < inject_Z z / inject_Z d)%Q) by (apply Qmult_lt_0_compat; [now apply inj_pos|exact Pi]).
    destruct (POS _ N) as [P1 P2]. rewrite P1, P2. split; [symmetry; apply Z.leb_gt; lia|symmetry; apply Z.leb_le; lia].
Qed.

(** * The loop *)
Definition going (x y z : Z) : bool := (0 <? z) && (x <=? y) || (z <? 0) && (y <=? x).
Definition count_from (x y z : Z) : nat := if going x y z then S (Z.to_nat ((y - x) / z)) else O.
Lemma count_next x y z : going x y z = true -> count_from x y z = S (count_from (x + z) y z).
Proof.
  intros H. unfold count_from. rewrite H. unfold going in *. replace (y - (x + z)) with (y - x - z) by lia.
  destruct (Z.ltb_spec 0 z) as [P|P]; cbn [andb orb] in *.
  - apply orb_true_iff in H as [H|H]; [|apply andb_true_iff in H as [H _]; apply Z.ltb_lt in H; lia]. apply Z.leb_le in H.
    replace (z <? 0) with false by (symmetry; apply Z.ltb_ge; lia). cbn [andb]. rewrite orb_false_r.
    replace ((y - x - z) / z) with ((y - x) / z + -1) by (rewrite <- (Z.div_add (y - x) (-1) z) by lia; f_equal; lia).
    assert (0 <= (y - x) / z) by (apply Z.div_pos; lia).
    destruct (Z.leb_spec (x + z) y).
    + assert (1 <= (y - x) / z) by (apply Z.div_le_lower_bound; lia). f_equal. lia.
    + rewrite Z.div_small by lia. reflexivity.
  - apply andb_true_iff in H as [H1 H2]. apply Z.ltb_lt in H1. apply Z.leb_le in H2. replace (z <? 0) with true by (symmetry; apply Z.ltb_lt; lia). cbn [andb].
    rewrite <- (Z.div_opp_opp (y - x)) by lia. rewrite <- (Z.div_opp_opp (y - x - z)) by lia.
    replace (- (y - x - z)) with (- (y - x) + (-1) * (- z)) by lia. rewrite Z.div_add by lia.
    assert (0 <= - (y - x) / - z) by (apply Z.div_pos; lia).
    destruct (Z.leb_spec y (x + z)).
    + assert (1 <= - (y - x) / - z) by (apply Z.div_le_lower_bound; lia). f_equal. lia.
    + rewrite Z.div_small by lia. reflexivity.
Qed.
Lemma loop_all p k d y z stop step B : 0 <= k -> 2 * k + 1 <= p -> 0 < d -> d < 10 ^ k -> over d y stop -> over d z step ->
  Z.abs y + Z.abs z <= B -> B < 10 ^ k ->
  forall fuel x n, over d x n -> Z.abs x <= B -> (count_from x y z < fuel)%nat ->
    exists l, range_loop fuel p n stop step = Ok (Some l) /\ length l = count_from x y z /\
      (forall i r, nth_error l i = Some r -> over d (x + Z.of_nat i * z) r).
Proof.
  intros Hk Hp Hd Sd Hy Hz HB SB. induction fuel as [|fuel IH]; intros x n Hx Bx Hf; [lia|]. cbn [range_loop].
  destruct (sign_over p d z step ltac:(lia) Hd Hz) as [S1 S2]. rewrite S1, S2.
  rewrite (leb_over p k d x y n stop Hk Hp Hd Hx Hy) by lia. rewrite (leb_over p k d y x stop n Hk Hp Hd Hy Hx) by lia.
  assert (C : negb (z <=? 0) && (x <=? y) || (negb (0 <=? z) && (y <=? x)) = going x y z).
  { unfold going. f_equal; f_equal; [rewrite Z.leb_antisym, negb_involutive; reflexivity|rewrite Z.leb_antisym, negb_involutive; reflexivity]. }
  rewrite C. destruct (going x y z) eqn:G.
  - assert (E2 : 10 ^ (2 * k + 1) = 10 * (10 ^ k * 10 ^ k)) by (rewrite <- Z.pow_add_r, <- Z.pow_succ_r by lia; f_equal; lia).
    assert (E3 : 10 ^ (2 * k + 1) <= 10 ^ p) by (apply Z.pow_le_mono_r; lia).
    assert (F : (Z.abs x + Z.abs z) * d < 10 ^ p) by nia.
    destruct (add_over p d x z n step ltac:(lia) Hd Hx Hz F ltac:(nia)) as (r & R1 & R2 & _). rewrite R1.
    pose proof (count_next x y z G) as CN.
    assert (NB : Z.abs (x + z) <= B).
    { unfold going in G. apply orb_true_iff in G as [G|G]; apply andb_true_iff in G as [G1 G2]; apply Z.ltb_lt in G1; apply Z.leb_le in G2; lia. }
    destruct (IH (x + z) r R2 NB ltac:(lia)) as (l & L1 & L2 & L3). rewrite L1. exists (n :: l). split; [reflexivity|]. split; [cbn [length]; lia|].
    intros i q Hi. destruct i as [|i]; cbn [nth_error] in Hi.
    + injection Hi as <-. cbn [Z.of_nat]. rewrite Z.mul_0_l, Z.add_0_r. exact Hx.
    + specialize (L3 i q Hi). replace (x + Z.of_nat (S i) * z) with (x + z + Z.of_nat i * z) by lia. exact L3.
  - exists []. unfold count_from. rewrite G. split; [reflexivity|]. split; [reflexivity|]. intros i q Hi. destruct i; discriminate.
Qed.
(** Enough fuel *)
Lemma fuel_enough d x y z a b c : 0 < d -> over d x a -> over d y b -> over d z c -> (count_from x y z < range_fuel a b c)%nat.
Proof.
  intros Hd Ha Hb Hc. destruct (over_parts d x a Hd Ha) as (_ & _ & _ & Ea). destruct (over_parts d y b Hd Hb) as (_ & _ & _ & Eb).
  destruct (over_parts d z c Hd Hc) as (_ & _ & _ & Ec). destruct Ha as (Ga & _). destruct Hb as (Gb & _). destruct Hc as (Gc & _). unfold good in *.
  unfold count_from. destruct (going x y z) eqn:G; [|unfold range_fuel; lia].
  assert (NZ : z <> 0) by (intros ->; unfold going in G; cbn in G; discriminate).
  assert (N : nnum c <> 0) by (intros E; rewrite E in Ec; nia).
  unfold range_fuel. assert (E : (nnum b * nden a - nnum a * nden b) * nden c / (nden a * nden b * nnum c) = (y - x) / z).
  { assert (D2 : 0 < d * d) by nia.
    rewrite <- (Z.div_mul_cancel_r _ _ (d * d)); [|apply Z.neq_mul_0; split; [apply Z.neq_mul_0; split; lia|exact N]|lia].
    rewrite <- (Z.div_mul_cancel_r (y - x) z (nden a * nden b * nden c * d)); [|exact NZ|nia].
    f_equal.
    - transitivity ((nnum b * d * nden a - nnum a * d * nden b) * nden c * d); [ring|]. rewrite Ea, Eb. ring.
    - transitivity (nden a * nden b * (nnum c * d) * d); [ring|]. rewrite Ec. ring. }
  rewrite E. lia.
Qed.

(** * The values *)
Lemma range_values_spec p k d x y z a b c s : 0 <= k -> 2 * k + 1 <= p -> 0 < d -> d < 10 ^ k -> over d x a -> over d y b -> over d z c ->
  Z.abs x + Z.abs y + Z.abs z < 10 ^ k ->
  if 0 <=? (y - x) * z then
    exists l, range_values p (VNum a) (VNum b) (VNum c) s = (OOk l, s) /\ length l = count_from x y z /\
      (forall i r, nth_error l i = Some r -> over d (x + Z.of_nat i * z) r)
  else range_values p (VNum a) (VNum b) (VNum c) s = (OErr (XExec MOther [] None false), s).
Proof.
  intros Hk Hp Hd Sd Ha Hb Hc S. unfold range_values.
  assert (E2 : 10 ^ (2 * k + 1) = 10 * (10 ^ k * 10 ^ k)) by (rewrite <- Z.pow_add_r, <- Z.pow_succ_r by lia; f_equal; lia).
  assert (E3 : 10 ^ (2 * k + 1) <= 10 ^ p) by (apply Z.pow_le_mono_r; lia).
  destruct (sub_over p d y x b a ltac:(lia) Hd Hb Ha ltac:(nia) ltac:(nia)) as (r & R1 & R2 & _). rewrite R1.
  destruct (over_parts d (y - x) r Hd R2) as (_ & P1 & P2 & _). destruct (over_parts d z c Hd Hc) as (_ & Q1 & Q2 & _).
  pose proof R2 as (Gr & _ & Vr). pose proof Hc as (Gc & _ & Vc).
  destruct (num_mul_exact p r c ltac:(lia) Gr Gc) as (m & M1 & M2 & M3 & M4 & _).
  { unfold good in Gr, Gc. split; unfold small.
    - rewrite Z.abs_mul. assert (Z.abs (nnum r) * Z.abs (nnum c) <= 10 ^ k * 10 ^ k) by (apply Z.mul_le_mono_nonneg; lia). lia.
    - assert (nden r * nden c <= 10 ^ k * 10 ^ k) by (apply Z.mul_le_mono_nonneg; lia). rewrite Z.abs_eq by nia. nia. }
  rewrite M1. assert (Om : over (d * d) ((y - x) * z) m).
  { split; [exact M3|]. split; [exact M4|]. rewrite M2, Vr, Vc, !inject_Z_mult. field. pose proof (inj_pos d Hd). lra. }
  destruct (sign_over p (d * d) ((y - x) * z) m ltac:(lia) ltac:(nia) Om) as [_ S2]. rewrite S2. destruct (0 <=? (y - x) * z); cbn [negb].
  - destruct (loop_all p k d y z b c (Z.abs x + Z.abs y + Z.abs z) Hk Hp Hd Sd Hb Hc ltac:(lia) S (range_fuel a b c) x a Ha ltac:(lia)
      (fuel_enough d x y z a b c Hd Ha Hb Hc)) as (l & L1 & L2 & L3). rewrite L1. exists l. split; [reflexivity|]. auto.
  - reflexivity.
Qed.
(** Which terms there are *)
Lemma count_iff x y z i : 0 <= (y - x) * z -> z <> 0 -> ((i < count_from x y z)%nat <-> 0 <= (y - (x + Z.of_nat i * z)) * z).
Proof.
  intros H Hz. unfold count_from. assert (G : going x y z = true).
  { unfold going. destruct (Z.ltb_spec 0 z); [replace (x <=? y) with true; [reflexivity|symmetry; apply Z.leb_le; nia]|].
    replace (z <? 0) with true by (symmetry; apply Z.ltb_lt; lia). replace (y <=? x) with true by (symmetry; apply Z.leb_le; nia). reflexivity. }
  rewrite G.
  assert (P : 0 <= (y - x) / z). { destruct (Z.ltb_spec 0 z); [apply Z.div_pos; nia|]. rewrite <- Z.div_opp_opp by lia. apply Z.div_pos; nia. }
  assert (K : (i < S (Z.to_nat ((y - x) / z)))%nat <-> Z.of_nat i <= (y - x) / z) by lia. rewrite K.
  destruct (Z.ltb_spec 0 z) as [Hp|Hp].
  - split; intros L.
    + pose proof (Z.mul_div_le (y - x) z Hp). nia.
    + apply Z.div_le_lower_bound; nia.
  - rewrite <- Z.div_opp_opp by lia. split; intros L.
    + pose proof (Z.mul_div_le (- (y - x)) (- z) ltac:(lia)). nia.
    + apply Z.div_le_lower_bound; nia.
Qed.
Lemma count_zero x y : count_from x y 0 = 0%nat.
Proof. reflexivity. Qed.

(** * In terms of values *)
Lemma over_term d x z a c i r : 0 < d -> over d x a -> over d z c -> over d (x + i * z) r -> (val r == val a + inject_Z i * val c)%Q.
Proof. intros Hd (_ & _ & Va) (_ & _ & Vc) (_ & _ & V). rewrite V, Va, Vc, inject_Z_plus, inject_Z_mult. field. pose proof (inj_pos d Hd). lra. Qed.
Lemma over_sign d x y z a b c i : 0 < d -> over d x a -> over d y b -> over d z c ->
  (0 <= (y - (x + i * z)) * z <-> (0 <= (val b - (val a + inject_Z i * val c)) * val c)%Q).
Proof.
  intros Hd (_ & _ & Va) (_ & _ & Vb) (_ & _ & Vc). rewrite Va, Vb, Vc. pose proof (inj_pos d Hd) as P.
  assert (E : ((inject_Z y / inject_Z d - (inject_Z x / inject_Z d + inject_Z i * (inject_Z z / inject_Z d))) * (inject_Z z / inject_Z d) ==
    inject_Z ((y - (x + i * z)) * z) * / (inject_Z d * inject_Z d))%Q).
  { unfold Z.sub. rewrite inject_Z_mult, inject_Z_plus, inject_Z_opp, inject_Z_plus, inject_Z_mult. field. lra. }
  assert (P2 : (0 < / (inject_Z d * inject_Z d))%Q) by (apply Qinv_lt_0_compat; nra). rewrite E.
  setoid_replace 0%Q with (0 * / (inject_Z d * inject_Z d))%Q by ring. rewrite (Qmult_le_r _ _ _ P2). change 0%Q with (inject_Z 0). now rewrite <- Zle_Qle.
Qed.
Lemma ltb_over p k d x y a b : 0 <= k -> 2 * k + 1 <= p -> 0 < d -> over d x a -> over d y b -> Z.abs x < 10 ^ k -> Z.abs y < 10 ^ k -> d < 10 ^ k ->
  num_ltb p a b = (x <? y).
Proof.
  intros Hk Hp Hd Ha Hb Sx Sy Sd. pose proof (over_size d x a k Hd Ha Sx Sd) as Za. pose proof (over_size d y b k Hd Hb Sy Sd) as Zb.
  destruct (num_ltb_exact p k a b Hk Hp) as [H _]; [apply Ha|apply Hb|exact Za|exact Zb|].
  apply eq_iff_eq_true. rewrite H, (over_lt d x y a b Hd Ha Hb). symmetry. apply Z.ltb_lt.
Qed.
Lemma one_over p d (neg : bool) : 1 <= p -> 0 < d -> over d (if neg then - d else d) (num_of_Z p (if neg then -1 else 1)).
Proof.
  intros Hp Hd. rewrite num_of_Z_eq by (unfold small; pose proof (Z.pow_gt_1 10 p); destruct neg; cbn [Z.abs]; lia).
  split; [unfold good; cbn; lia|]. split; [|].
  - intros q H1 H2. cbn [nden] in H2. now apply Z.divide_1_r.
  - unfold val. cbn [nnum nden]. pose proof (inj_pos d Hd). destruct neg; rewrite ?inject_Z_opp; field; lra.
Qed.

(** * An element *)
Lemma element_step G rec stl e e2 e3 n a b c s s1 s2 s3 :
  e_end e = Some e2 -> e_step e = Some e3 ->
  part_gives G rec stl (e_start e) s a s1 -> part_gives G rec stl e2 s1 b s2 -> part_gives G rec stl e3 s2 c s3 ->
  eval_element G rec stl e n s =
    (let m := (n + length (e_start e) + 1 + length e2 + 1 + length e3)%nat in
     count_bind (range_values (g_prec G) (VNum a) (VNum b) (VNum c)) m (fun l s => ((OOk (plain l), m), s)) s3).
Proof.
  intros E2 E3 (ra & A1 & A2 & A3) (rb & B1 & B2 & B3) (rc & C1 & C2 & C3). unfold eval_element. rewrite E2, E3. unfold count_bind at 1. rewrite A1.
  unfold count_bind at 1. rewrite B1. rewrite A2, B2. unfold range_down, lift. unfold count_bind at 1.
  unfold count_bind at 1. rewrite C1. rewrite A3, B3, C3. unfold count_bind at 1. unfold ret at 1. cbn [fst snd]. rewrite C2. reflexivity.
Qed.
Lemma element_default G rec stl e e2 n a b s s1 s2 :
  e_end e = Some e2 -> e_step e = None ->
  part_gives G rec stl (e_start e) s a s1 -> part_gives G rec stl e2 s1 b s2 ->
  eval_element G rec stl e n s =
    (let m := (n + length (e_start e) + 1 + length e2)%nat in
     count_bind (range_values (g_prec G) (VNum a) (VNum b) (VNum (num_of_Z (g_prec G) (if num_ltb (g_prec G) b a then -1 else 1)))) m
       (fun l s => ((OOk (plain l), m), s)) s2).
Proof.
  intros E2 E3 (ra & A1 & A2 & A3) (rb & B1 & B2 & B3). unfold eval_element. rewrite E2, E3. unfold count_bind at 1. rewrite A1.
  unfold count_bind at 1. rewrite B1. rewrite A2, B2. unfold range_down, lift. unfold count_bind at 1.
  unfold count_bind at 1. unfold ret at 1. cbn [runit rval mkRes]. rewrite A3, B3. unfold count_bind at 1. unfold ret at 1. reflexivity.
Qed.
Lemma steps_all p k d x y z a b c s : 0 <= k -> 2 * k + 1 <= p -> 0 < d -> d < 10 ^ k -> over d x a -> over d y b -> over d z c ->
  Z.abs x + Z.abs y + Z.abs z < 10 ^ k -> z <> 0 -> 0 <= (y - x) * z ->
  exists l, range_values p (VNum a) (VNum b) (VNum c) s = (OOk l, s) /\ steps_from a b c l.
Proof.
  intros Hk Hp Hd Sd Ha Hb Hc S Nz D. pose proof (range_values_spec p k d x y z a b c s Hk Hp Hd Sd Ha Hb Hc S) as R.
  replace (0 <=? (y - x) * z) with true in R by (symmetry; now apply Z.leb_le). destruct R as (l & R1 & R2 & R3). exists l. split; [exact R1|]. split.
  - intros i r Hi. destruct (R3 i r Hi) as (G & Lo & _). split; [exact G|]. split; [exact Lo|]. apply (over_term d x z a c _ r Hd Ha Hc). now apply R3.
  - intros i. rewrite R2, (count_iff x y z i D Nz). now apply (over_sign d).
Qed.
