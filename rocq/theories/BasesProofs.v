From Coq Require Import ZArith QArith Qpower Qround Qabs Qreduction Ascii String List Bool Lia Lqa Setoid Znumtheory.
From Verif Require Import Base Dec Num NumSpec Lex Bases BasesSpec DecProofs NumProofs BaseProofs LexProofs NumProofs2 NumProofs3.
Import ListNotations.
Open Scope Z_scope.

Lemma num_of_Z_eq p z : num_of_Z p z = mkNum z 1 None None.
Proof. unfold num_of_Z, num_reduce. cbn [Z.ltb Z.compare]. rewrite Z.gcd_1_r. reflexivity. Qed.

Lemma lowest_1 z c w : lowest (mkNum z 1 c w).
Proof. apply gcd1_lowest. apply Z.gcd_1_r. Qed.

Lemma inject_pos z : 0 < z -> (0 < inject_Z z)%Q.
Proof. intros. change 0%Q with (inject_Z 0). rewrite <- Zlt_Qlt; auto. Qed.

(** A fraction in lowest terms divides every other representation. *)
Lemma lowest_scale a A B : good a -> lowest a -> 0 < B -> (val a == inject_Z A / inject_Z B)%Q ->
  exists k, 0 < k /\ B = nden a * k /\ A = nnum a * k.
Proof.
  intros G L HB V. unfold good in G. apply lowest_gcd1 in L; auto. unfold val in V.
  assert (E : nnum a * B = A * nden a).
  { apply inject_eq. rewrite !inject_Z_mult.
    setoid_replace (inject_Z (nnum a)) with (inject_Z (nnum a) / inject_Z (nden a) * inject_Z (nden a))%Q by (field; apply inject_nz; lia).
    rewrite V. field. apply inject_nz; lia. }
  assert (D : (nden a | B)).
  { apply (Z.gauss _ (nnum a)); [exists A; lia|rewrite Z.gcd_comm; auto]. }
  destruct D as [k K]. exists k. assert (0 < k) by (apply (Z.mul_pos_cancel_r k (nden a) G); lia).
  repeat split; auto; [lia|]. apply (Z.mul_reg_r _ _ (nden a)); [lia|]. rewrite <- E, K. ring.
Qed.

(** Sizes of a sum over a common denominator. *)
Lemma scale_sizes na da A B k l x m : 0 < da -> 0 < B -> 0 <= A -> B = da * k -> A = na * k -> l = x * da -> B = m * l -> 0 < l ->
  0 <= na /\ na <= A /\ 0 <= na * x <= A /\ l <= B /\ 0 <= na * l <= A * B /\ na * x * m = A.
Proof.
  intros Hd HB HA E1 E2 E3 E4 Hl.
  assert (Hm : 0 < m) by (apply (Z.mul_pos_cancel_r m l Hl); lia).
  assert (Hx : 0 < x) by (apply (Z.mul_pos_cancel_r x da Hd); lia).
  assert (Ek : k = m * x).
  { apply (Z.mul_reg_l _ _ da); [lia|]. rewrite <- E1, E4, E3. ring. }
  assert (Hk : 0 < k) by (rewrite Ek; apply Z.mul_pos_pos; auto).
  assert (Hn : 0 <= na) by (apply (Z.mul_nonneg_cancel_r na k Hk); lia).
  assert (E5 : na * x * m = A) by (rewrite E2, Ek; ring).
  assert (0 <= na * x) by (apply Z.mul_nonneg_nonneg; lia).
  assert (na * x <= A) by (rewrite <- E5; rewrite <- (Z.mul_1_r (na * x)) at 1; apply Z.mul_le_mono_nonneg_l; lia).
  assert (na <= A) by (apply Z.le_trans with (na * x); auto; rewrite <- (Z.mul_1_r na) at 1; apply Z.mul_le_mono_nonneg_l; lia).
  assert (l <= B) by (rewrite E4; rewrite <- (Z.mul_1_l l) at 1; apply Z.mul_le_mono_nonneg_r; lia).
  repeat split; auto.
  - apply Z.mul_nonneg_nonneg; lia.
  - apply Z.mul_le_mono_nonneg; lia.
Qed.

Lemma frac_add p a t A T B : 1 <= p -> good a -> lowest a -> good t -> lowest t -> 0 < B -> 0 <= A -> 0 <= T ->
  (val a == inject_Z A / inject_Z B)%Q -> (val t == inject_Z T / inject_Z B)%Q -> B < 10 ^ p -> (A + T) * B < 10 ^ p ->
  exists r, num_add p a t = Some r /\ (val r == inject_Z (A + T) / inject_Z B)%Q /\ good r /\ lowest r /\ ncast r = ncast a.
Proof.
  intros Hp Ga La Gt Lt HB HA HT Va Vt SB S.
  destruct (lowest_scale a A B Ga La HB Va) as (k & K0 & K1 & K2).
  destruct (lowest_scale t T B Gt Lt HB Vt) as (j & J0 & J1 & J2).
  destruct (num_add_exact p a t Hp Ga Gt) as (r & R1 & R2 & R3 & R4 & R5).
  - unfold add_fits, small. set (l := Z.lcm (nden a) (nden t)).
    assert (Hl : 0 < l) by (apply lcm_pos; auto).
    assert (Dl : (l | B)) by (apply Z.lcm_least; [exists k; lia|exists j; lia]).
    destruct Dl as [m M].
    assert (Da : (nden a | l)) by apply Z.divide_lcm_l. assert (Dt : (nden t | l)) by apply Z.divide_lcm_r.
    destruct Da as [x X]. destruct Dt as [y Y]. unfold good in *.
    assert (l / nden a = x) as -> by (rewrite X; apply Z.div_mul; lia).
    assert (l / nden t = y) as -> by (rewrite Y; apply Z.div_mul; lia).
    destruct (scale_sizes (nnum a) (nden a) A B k l x m) as (a1 & a2 & a3 & a4 & a5 & a6); auto.
    destruct (scale_sizes (nnum t) (nden t) T B j l y m) as (t1 & t2 & t3 & t4 & t5 & t6); auto.
    rewrite Z.mul_add_distr_r in S. assert (A + T <= A * B + T * B) by (rewrite <- Z.mul_add_distr_r; rewrite <- (Z.mul_1_r (A + T)) at 1; apply Z.mul_le_mono_nonneg_l; lia).
    repeat split; rewrite Z.abs_eq; lia.
  - exists r. split; auto. split; auto. rewrite R2, Va, Vt. rewrite inject_Z_plus. field. apply inject_nz; lia.
Qed.

Lemma frac_sub p a t A T B : 1 <= p -> good a -> lowest a -> good t -> lowest t -> 0 < B -> 0 <= T <= A ->
  (val a == inject_Z A / inject_Z B)%Q -> (val t == inject_Z T / inject_Z B)%Q -> B < 10 ^ p -> A * B < 10 ^ p ->
  exists r, num_sub p a t = Some r /\ (val r == inject_Z (A - T) / inject_Z B)%Q /\ good r /\ lowest r /\ ncast r = ncast a.
Proof.
  intros Hp Ga La Gt Lt HB HT Va Vt SB S.
  destruct (lowest_scale a A B Ga La HB Va) as (k & K0 & K1 & K2).
  destruct (lowest_scale t T B Gt Lt HB Vt) as (j & J0 & J1 & J2).
  destruct (num_sub_exact p a t Hp Ga Gt) as (r & R1 & R2 & R3 & R4 & R5).
  - unfold sub_fits, small. set (l := Z.lcm (nden a) (nden t)).
    assert (Hl : 0 < l) by (apply lcm_pos; auto).
    assert (Dl : (l | B)) by (apply Z.lcm_least; [exists k; lia|exists j; lia]).
    destruct Dl as [m M].
    assert (Da : (nden a | l)) by apply Z.divide_lcm_l. assert (Dt : (nden t | l)) by apply Z.divide_lcm_r.
    destruct Da as [x X]. destruct Dt as [y Y]. unfold good in *.
    assert (l / nden a = x) as -> by (rewrite X; apply Z.div_mul; lia).
    assert (l / nden t = y) as -> by (rewrite Y; apply Z.div_mul; lia).
    destruct (scale_sizes (nnum a) (nden a) A B k l x m) as (a1 & a2 & a3 & a4 & a5 & a6); auto; [lia|].
    destruct (scale_sizes (nnum t) (nden t) T B j l y m) as (t1 & t2 & t3 & t4 & t5 & t6); auto; [lia|].
    assert (A <= A * B) by (rewrite <- (Z.mul_1_r A) at 1; apply Z.mul_le_mono_nonneg_l; lia).
    assert (T * B <= A * B) by (apply Z.mul_le_mono_nonneg_r; lia).
    repeat split; apply Z.abs_lt; lia.
  - exists r. split; auto. split; auto. rewrite R2, Va, Vt. unfold Z.sub. rewrite inject_Z_plus, inject_Z_opp. field. apply inject_nz; lia.
Qed.

(** The base power as a Number. *)
Lemma pow_abs_lt b k : 2 <= b -> 0 <= k -> k < b ^ k.
Proof.
  intros Hb. revert k. apply natlike_ind; [reflexivity|].
  intros k Hk IH. rewrite Z.pow_succ_r by auto. nia.
Qed.

Lemma base_power p dpow b k : 1 <= p -> pow_ok p dpow -> 2 <= b -> b ^ (Z.abs k) < 10 ^ p ->
  exists bp, num_pow p dpow (num_of_Z p b) (num_of_Z p k) = Some bp /\ good bp /\ lowest bp /\
    (val bp == Qpower (inject_Z b) k)%Q /\
    nnum bp = b ^ (Z.max 0 k) /\ nden bp = b ^ (Z.max 0 (- k)).
Proof.
  intros Hp PO Hb S. rewrite !num_of_Z_eq.
  pose proof (pow_abs_lt b (Z.abs k) Hb ltac:(lia)) as PL.
  assert (P1 : forall e, (1 ^ e = 1 \/ e < 0)) by (intros e; destruct (Z_lt_le_dec e 0); [auto|left; apply Z.pow_1_l; auto]).
  assert (V1 : (val (mkNum b 1 None None) == inject_Z b)%Q) by (unfold val; cbn [nnum nden]; field).
  assert (P10 : 1 < 10 ^ p) by (apply Z.lt_le_trans with (10 ^ 1); [lia|apply Z.pow_le_mono_r; lia]).
  assert (Fin : forall r, good r -> lowest r -> (val r == Qpower (inject_Z b) k)%Q ->
     nnum r = b ^ (Z.max 0 k) /\ nden r = b ^ (Z.max 0 (- k))).
  { intros r G L V. destruct (Z_le_gt_dec 0 k) as [C|C].
    - rewrite Z.max_r by lia. rewrite (Z.max_l 0 (- k)) by lia. rewrite Z.pow_0_r.
      apply (lowest_unique r (mkNum (b ^ k) 1 None None)); auto; [reflexivity|apply lowest_1|].
      rewrite V. unfold val; cbn [nnum nden]. rewrite Zpower_Qpower by auto. field.
    - rewrite (Z.max_l 0 k) by lia. rewrite Z.max_r by lia. rewrite Z.pow_0_r.
      assert (0 < b ^ (- k)) by (apply Z.pow_pos_nonneg; lia).
      apply (lowest_unique r (mkNum 1 (b ^ (- k)) None None)); auto.
      + apply gcd1_lowest. apply Z.gcd_1_l.
      + rewrite V. unfold val; cbn [nnum nden]. rewrite Zpower_Qpower by lia. rewrite Qpower_opp.
        unfold Qdiv. rewrite Qinv_involutive, Qmult_1_l. reflexivity. }
  assert (S1 : forall e, 0 <= e -> small p (1 ^ e)) by (intros e He; unfold small; rewrite Z.pow_1_l by auto; exact P10).
  assert (Sk : small p k) by (unfold small; lia).
  destruct (Z_le_gt_dec 0 k) as [C|C].
  - assert (Sb : small p (b ^ k)).
    { unfold small. rewrite Z.abs_eq in S by auto. rewrite Z.abs_eq; auto. apply Z.pow_nonneg; lia. }
    destruct (num_pow_nonneg p dpow (mkNum b 1 None None) (mkNum k 1 None None)) as (r & R1 & R2 & R3 & R4 & _); auto; try reflexivity.
    + left. cbn. lia.
    + cbn [nnum nden] in R2. rewrite V1 in R2. exists r. destruct (Fin r R3 R4 R2). auto 10.
  - assert (Sb : small p (b ^ (- k))).
    { unfold small. replace (Z.abs k) with (- k) in S by lia. rewrite Z.abs_eq; auto. apply Z.pow_nonneg; lia. }
    destruct (num_pow_neg p dpow (mkNum b 1 None None) (mkNum k 1 None None)) as (r & R1 & R2 & R3 & R4 & _); auto; try reflexivity;
      cbn [nnum nden]; try lia.
    + apply S1; lia.
    + cbn [nnum nden] in R2. rewrite V1 in R2. exists r. destruct (Fin r R3 R4 R2). auto 10.
Qed.

Lemma Qpow_sub b e f : 0 < b -> 0 <= e -> 0 <= f ->
  (Qpower (inject_Z b) (e - f) == inject_Z (b ^ e) / inject_Z (b ^ f))%Q.
Proof.
  intros. unfold Z.sub. rewrite Qpower_plus by (apply inject_nz; lia). rewrite Qpower_opp.
  rewrite !Zpower_Qpower by auto. reflexivity.
Qed.

Lemma digit_term p dpow b e f d : 1 <= p -> pow_ok p dpow -> 2 <= b -> 0 <= e -> 0 <= f -> 0 <= d ->
  b ^ (Z.abs (e - f)) < 10 ^ p -> d * b ^ e < 10 ^ p -> d < 10 ^ p ->
  exists bp t, num_pow p dpow (num_of_Z p b) (num_of_Z p (e - f)) = Some bp /\
    good bp /\ lowest bp /\ nnum bp = b ^ (Z.max 0 (e - f)) /\ nden bp = b ^ (Z.max 0 (f - e)) /\
    (val bp == inject_Z (b ^ e) / inject_Z (b ^ f))%Q /\
    num_mul p (num_of_Z p d) bp = Some t /\ good t /\ lowest t /\ ncast t = None /\
    (val t == inject_Z (d * b ^ e) / inject_Z (b ^ f))%Q.
Proof.
  intros Hp PO Hb He Hf Hd S1 S2 S3.
  destruct (base_power p dpow b (e - f) Hp PO Hb S1) as (bp & B1 & B2 & B3 & B4 & B5 & B6).
  rewrite Qpow_sub in B4 by lia. replace (- (e - f)) with (f - e) in B6 by lia.
  assert (X1 : b ^ Z.max 0 (e - f) <= b ^ e) by (apply Z.pow_le_mono_r; lia).
  assert (X2 : b ^ Z.max 0 (f - e) <= b ^ Z.abs (e - f)) by (apply Z.pow_le_mono_r; lia).
  assert (X3 : 0 < b ^ Z.max 0 (e - f)) by (apply Z.pow_pos_nonneg; lia).
  assert (X4 : 0 < b ^ Z.max 0 (f - e)) by (apply Z.pow_pos_nonneg; lia).
  destruct (num_mul_exact p (num_of_Z p d) bp Hp) as (t & T1 & T2 & T3 & T4 & T5).
  - rewrite num_of_Z_eq. reflexivity.
  - auto.
  - rewrite num_of_Z_eq. unfold mul_fits, small. cbn [nnum nden]. rewrite B5, B6. split.
    + rewrite Z.abs_eq by (apply Z.mul_nonneg_nonneg; lia).
      apply Z.le_lt_trans with (d * b ^ e); auto. apply Z.mul_le_mono_nonneg_l; lia.
    + rewrite Z.mul_1_l. lia.
  - exists bp, t. do 7 (split; [assumption|]). do 2 (split; [assumption|]). split.
    + rewrite T5, num_of_Z_eq. reflexivity.
    + rewrite T2, B4, num_of_Z_eq. unfold val. cbn [nnum nden]. rewrite inject_Z_mult. field.
      apply inject_nz. assert (0 < b ^ f) by (apply Z.pow_pos_nonneg; lia). lia.
Qed.

Definition is_dot (c : ascii) : bool := ceq c "."%char.
Definition undot (s : str) : str := filter (fun c => negb (is_dot c)) s.

Lemma b2d_loop_spec p dpow b f v : forall D dec,
  1 <= p -> pow_ok p dpow -> 2 <= b -> 0 <= f ->
  Forall (fun c => is_dot c = true \/ 0 <= digit_val c < b) v ->
  0 <= D -> good dec -> lowest dec -> (val dec == inject_Z D / inject_Z (b ^ f))%Q ->
  let ds := map digit_val (undot v) in
  let M := D + digits_val b ds in
  let n := Z.of_nat (length ds) in
  M * b ^ f < 10 ^ p -> b ^ f < 10 ^ p -> b ^ (Z.max 0 (n - 1 - f)) < 10 ^ p ->
  exists r, b2d_loop p dpow b v (n - 1 - f) dec = Ok r /\ good r /\ lowest r /\ ncast r = ncast dec /\
    (val r == inject_Z M / inject_Z (b ^ f))%Q.
Proof.
  induction v as [|c v IH]; intros D dec Hp PO Hb Hf HV HD G L V ds M n S1 S2 S3.
  - exists dec. cbn. unfold M. cbn. rewrite Z.add_0_r. auto.
  - inversion HV as [|? ? Hc Hv]; subst.
    assert (HB : 0 < b ^ f) by (apply Z.pow_pos_nonneg; lia).
    cbn [b2d_loop]. destruct (ceq c "."%char) eqn:Ed.
    + unfold n, M, ds in *. cbn [undot filter] in *. unfold is_dot in *. rewrite Ed in *. cbn [negb] in *.
      apply IH; auto.
    + destruct Hc as [Hc|Hc]; [unfold is_dot in Hc; congruence|].
      assert (E1 : (digit_val c =? -1) = false) by (apply Z.eqb_neq; lia).
      assert (E2 : (b - 1 <? digit_val c) = false) by (apply Z.ltb_ge; lia).
      rewrite E1, E2. cbn [orb].
      set (d := digit_val c) in *.
      assert (Eds : ds = d :: map digit_val (undot v)).
      { unfold ds. cbn [undot filter]. unfold is_dot. rewrite Ed. reflexivity. }
      set (ds' := map digit_val (undot v)) in *.
      assert (En : n = Z.of_nat (length ds') + 1) by (unfold n; rewrite Eds; cbn [length]; lia).
      assert (EM : M = D + d * b ^ Z.of_nat (length ds') + digits_val b ds').
      { unfold M. rewrite Eds, digits_val_cons. lia. }
      assert (Vds : 0 <= digits_val b ds').
      { apply digits_val_bounds; auto. unfold ds'. apply Forall_forall. intros x Hx. apply in_map_iff in Hx.
        destruct Hx as (y & Y1 & Y2). apply filter_In in Y2. destruct Y2 as [Y2 Y3].
        rewrite Forall_forall in Hv. destruct (Hv y Y2) as [W|W]; [rewrite W in Y3; discriminate|subst; auto]. }
      set (e := Z.of_nat (length ds')) in *.
      assert (HBe : 0 < b ^ e) by (apply Z.pow_pos_nonneg; lia).
      assert (Hdp : 0 <= d * b ^ e) by (apply Z.mul_nonneg_nonneg; lia).
      assert (HM : D + d * b ^ e <= M) by lia.
      assert (HMB : (D + d * b ^ e) * b ^ f < 10 ^ p).
      { apply Z.le_lt_trans with (M * b ^ f); auto. apply Z.mul_le_mono_nonneg_r; lia. }
      assert (HT : d * b ^ e < 10 ^ p).
      { apply Z.le_lt_trans with ((D + d * b ^ e) * b ^ f); auto.
        rewrite <- (Z.mul_1_r (d * b ^ e)) at 1. apply Z.mul_le_mono_nonneg; lia. }
      assert (Hd1 : d < 10 ^ p).
      { apply Z.le_lt_trans with (d * b ^ e); auto. rewrite <- (Z.mul_1_r d) at 1. apply Z.mul_le_mono_nonneg_l; lia. }
      destruct (digit_term p dpow b e f d) as (bp & t & P1 & P2 & P3 & P4 & P5 & P6 & P7 & P8 & P9 & P10 & P11); auto; try lia.
      { destruct (Z_le_gt_dec f e).
        - rewrite Z.abs_eq by lia. rewrite Z.max_r in S3 by lia. replace (e - f) with (n - 1 - f) by lia. auto.
        - apply Z.le_lt_trans with (b ^ f); auto. apply Z.pow_le_mono_r; lia. }
      replace (n - 1 - f) with (e - f) by lia.
      rewrite P1. cbn [py_opt obind]. rewrite P7. cbn [py_opt obind].
      destruct (frac_add p dec t D (d * b ^ e) (b ^ f)) as (r & R1 & R2 & R3 & R4 & R5); auto.
      rewrite R1. cbn [py_opt obind].
      replace (e - f - 1) with (Z.of_nat (length ds') - 1 - f) by lia.
      replace M with ((D + d * b ^ e) + digits_val b ds') in * by lia.
      rewrite <- R5. apply IH; auto; try lia.
      apply Z.le_lt_trans with (b ^ Z.max 0 (n - 1 - f)); auto. apply Z.pow_le_mono_r; lia.
Qed.

(** ** Characters *)
Lemma all_ascii (P : ascii -> bool) : forallb P (map (fun n => ascii_of_nat n) (seq 0 256)) = true -> forall c, P c = true.
Proof.
  intros H c. rewrite forallb_forall in H. apply H. apply in_map_iff. exists (nat_of_ascii c).
  split; [apply ascii_nat_embedding|]. apply in_seq. split; [lia|]. cbn [plus].
  unfold nat_of_ascii. pose proof (N_ascii_bounded c). lia.
Qed.

Lemma char_digit_val c d : char_digit c = Some d -> digit_val (upper_c (lower_c c)) = d /\ digit_val (upper_c c) = d /\ is_dot c = false
  /\ ceq c "-"%char = false /\ is_dot (upper_c c) = false /\ is_dot (lower_c c) = false /\ ceq (lower_c c) "-"%char = false /\ 0 <= d < 36.
Proof.
  intros H.
  pose (P := fun c => match char_digit c with Some d => (digit_val (upper_c (lower_c c)) =? d) && (digit_val (upper_c c) =? d)
     && negb (is_dot c) && negb (ceq c "-"%char) && negb (is_dot (upper_c c)) && negb (is_dot (lower_c c)) && negb (ceq (lower_c c) "-"%char)
     && (0 <=? d) && (d <? 36) | None => true end).
  assert (K : P c = true) by (apply all_ascii; vm_compute; reflexivity).
  unfold P in K. rewrite H in K. repeat rewrite andb_true_iff in K. rewrite !negb_true_iff in K. intuition lia.
Qed.

Lemma ival_digits b ds : ival b ds = digits_val b ds.
Proof. induction ds as [|d ds IH]; [reflexivity|]. cbn [ival]. rewrite IH, digits_val_cons. reflexivity. Qed.

Lemma fval_digits b ds : 2 <= b -> (fval b ds == inject_Z (digits_val b ds) / inject_Z (b ^ Z.of_nat (length ds)))%Q.
Proof.
  intros Hb. induction ds as [|d ds IH]; [reflexivity|]. cbn [fval]. rewrite IH, digits_val_cons. cbn [length].
  rewrite Nat2Z.inj_succ, Z.pow_succ_r by lia. rewrite inject_Z_plus, !inject_Z_mult. field.
  split; apply inject_nz; [lia|]. assert (0 < b ^ Z.of_nat (length ds)) by (apply Z.pow_pos_nonneg; lia). lia.
Qed.

Lemma bvalue_digits b (neg : bool) ip fp : 2 <= b ->
  (bvalue b neg ip fp == (if neg then -1 else 1) * (inject_Z (digits_val b (ip ++ fp)) / inject_Z (b ^ Z.of_nat (length fp))))%Q.
Proof.
  intros Hb. unfold bvalue. rewrite fval_digits, ival_digits by auto. rewrite digits_val_app, inject_Z_plus, inject_Z_mult.
  assert (0 < b ^ Z.of_nat (length fp)) by (apply Z.pow_pos_nonneg; lia). destruct neg; field; apply inject_nz; lia.
Qed.

Lemma spells_up b s ds (g : ascii -> ascii) : spells b s ds -> (forall c d, char_digit c = Some d -> digit_val (g c) = d /\ is_dot (g c) = false) ->
  map digit_val (undot (map g s)) = ds /\ Forall (fun c => is_dot c = true \/ 0 <= digit_val c < b) (map g s).
Proof.
  intros H Hg. induction H as [|c d s ds [H1 H2] H IH]; [split; [reflexivity|constructor]|].
  destruct IH as [IH1 IH2]. destruct (Hg c d H1) as [G1 G2]. split.
  - cbn [map undot filter]. rewrite G2. cbn [negb map]. fold (undot (map g s)). rewrite IH1, G1. reflexivity.
  - cbn [map]. constructor; auto. right. rewrite G1. auto.
Qed.

Lemma undot_app a b : undot (a ++ b) = undot a ++ undot b.
Proof. apply filter_app. Qed.

Lemma sfind_dot_app s t : forallb (fun c => negb (is_dot c)) s = true -> sfind ["."%char] (s ++ "."%char :: t) = Some (length s).
Proof.
  induction s as [|c s IH]; intros H; [reflexivity|]. cbn [forallb] in H. apply andb_prop in H. destruct H as [H1 H2].
  cbn [app sfind prefixb]. unfold is_dot in H1. rewrite andb_true_r.
  assert (ceq "."%char c = false) as ->. { apply negb_true_iff in H1. apply ceq_neq in H1. apply ceq_neq. congruence. }
  rewrite IH by auto. reflexivity.
Qed.
Lemma sfind_dot_none s : forallb (fun c => negb (is_dot c)) s = true -> sfind ["."%char] s = None.
Proof.
  induction s as [|c s IH]; intros H; [reflexivity|]. cbn [forallb] in H. apply andb_prop in H. destruct H as [H1 H2].
  cbn [sfind prefixb]. unfold is_dot in H1. rewrite andb_true_r.
  assert (ceq "."%char c = false) as ->. { apply negb_true_iff in H1. apply ceq_neq in H1. apply ceq_neq. congruence. }
  rewrite IH by auto. reflexivity.
Qed.

Lemma spells_nodot b s ds : spells b s ds -> forallb (fun c => negb (is_dot c)) s = true.
Proof.
  induction 1 as [|c d s ds [H1 H2] H IH]; [reflexivity|]. cbn [forallb]. rewrite IH.
  apply char_digit_val in H1. destruct H1 as (_ & _ & -> & _). reflexivity.
Qed.
Lemma spells_len b s ds : spells b s ds -> length s = length ds.
Proof. induction 1; cbn; congruence. Qed.

(** Sign changes of a small Number are exact. *)
Lemma num_neg_eq p a : 1 <= p -> small p (nnum a) -> num_neg p a = mkNum (- nnum a) (nden a) (ncast a) None.
Proof.
  intros Hp S. unfold num_neg, dneg. rewrite (rnd_Z p (- nnum a)); [rewrite Qfloor_Z; reflexivity|auto|rewrite inject_Z_opp; reflexivity|unfold small in S; lia].
Qed.
Lemma num_abs_eq p a : 1 <= p -> small p (nnum a) -> num_abs p a = mkNum (Z.abs (nnum a)) (nden a) (ncast a) None.
Proof.
  intros Hp S. unfold num_abs. rewrite (rnd_Z p (Z.abs (nnum a))); [rewrite Qfloor_Z; reflexivity|auto|reflexivity|unfold small in S; lia].
Qed.
Lemma lowest_opp a c w : lowest a -> good a -> lowest (mkNum (- nnum a) (nden a) c w).
Proof. intros L G. apply gcd1_lowest. cbn [nnum nden]. rewrite Z.gcd_opp_l. apply lowest_gcd1; auto. Qed.
Lemma val_opp n d c w : (val (mkNum (- n) d c w) == - (inject_Z n / inject_Z d))%Q.
Proof. unfold val. cbn [nnum nden]. rewrite inject_Z_opp. unfold Qdiv. ring. Qed.

Lemma b10_cond b : (b <? 2) || (36 <? b) = false <-> 2 <= b <= 36.
Proof. rewrite orb_false_iff, !Z.ltb_ge. lia. Qed.

(** [base_to_dec] of any well-formed text gives exactly its positional value. *)
Lemma base_to_dec_spec p dpow b (neg : bool) ip fp di df : 1 <= p -> pow_ok p dpow -> 2 <= b <= 36 -> b <> 10 ->
  spells b ip di -> spells b fp df -> ip <> [] ->
  let f := Z.of_nat (length fp) in
  let M := ival b (di ++ df) in
  M * b ^ f < 10 ^ p -> b ^ f < 10 ^ p -> b ^ (Z.of_nat (length ip) - 1) < 10 ^ p ->
  exists r, base_to_dec p dpow (btext neg ip fp) b = Ok r /\ good r /\ lowest r /\ ncast r = None /\ (val r == bvalue b neg di df)%Q.
Proof.
  intros Hp PO Hb H10 SI SF NE f M S1 S2 S3.
  assert (Li := spells_len _ _ _ SI). assert (Lf := spells_len _ _ _ SF).
  unfold base_to_dec.
  destruct (seq_eqb (btext neg ip fp) $"0") eqn:E0.
  { apply seq_eqb_iff in E0. exists (num_of_Z p 0). rewrite num_of_Z_eq.
    assert (neg = false /\ ip = ["0"%char] /\ fp = []) as (-> & -> & ->).
    { unfold btext in E0. destruct neg; [discriminate|]. destruct ip as [|c ip]; [congruence|].
      cbn in E0. injection E0 as -> E0. destruct ip; [|discriminate]. destruct fp; [|discriminate]. auto. }
    split; [reflexivity|]. split; [reflexivity|]. split; [apply lowest_1|]. split; [reflexivity|].
    inversion SF; subst. inversion SI as [|? d ? ds [X1 X2] X3]; subst. inversion X3; subst. cbn in X1. injection X1 as <-. reflexivity. }
  destruct (b =? 10) eqn:E10; [lia|].
  assert ((b <? 2) || (36 <? b) = false) as -> by (apply b10_cond; auto).
  set (body := ip ++ match fp with [] => [] | _ => "."%char :: fp end).
  assert (HB0 : exists c body', body = c :: body' /\ ceq c "-"%char = false).
  { destruct ip as [|c ip']; [congruence|]. exists c. eexists. split; [reflexivity|].
    inversion SI as [|? ? ? ? [X1 X2] X3]; subst. apply char_digit_val in X1. tauto. }
  destruct HB0 as (c & body' & EB & NC).
  assert (Hpow : match sfind ["."%char] body with Some i => Z.of_nat i - 1 | None => Z.of_nat (length body) - 1 end
    = Z.of_nat (length (di ++ df)) - 1 - f).
  { unfold body, f. rewrite (app_length di df). destruct fp as [|c0 fp'].
    - rewrite app_nil_r. rewrite (sfind_dot_none ip) by (eapply spells_nodot; eauto). destruct df; [|discriminate]. cbn [length]. lia.
    - rewrite sfind_dot_app by (eapply spells_nodot; eauto). rewrite Lf. lia. }
  assert (Hup : map digit_val (undot (upper body)) = di ++ df /\ Forall (fun c => is_dot c = true \/ 0 <= digit_val c < b) (upper body)).
  { assert (G : forall c d, char_digit c = Some d -> digit_val (upper_c c) = d /\ is_dot (upper_c c) = false).
    { intros x d X. apply char_digit_val in X. tauto. }
    destruct (spells_up b ip di upper_c SI G) as [A1 A2]. destruct (spells_up b fp df upper_c SF G) as [B1 B2].
    unfold upper, body. rewrite map_app, undot_app, map_app. rewrite A1. split.
    - f_equal. destruct fp as [|c0 fp']; [inversion SF; reflexivity|]. cbn [map undot filter]. exact B1.
    - apply Forall_app. split; auto. destruct fp; [constructor|]. cbn [map]. constructor; auto. }
  destruct Hup as [U1 U2].
  assert (Hloop := b2d_loop_spec p dpow b f (upper body) 0 (num_of_Z p 0)). cbv zeta in Hloop.
  rewrite U1 in Hloop. rewrite <- Hpow in Hloop. rewrite Z.add_0_l in Hloop. fold (ival b (di ++ df)) in Hloop.
  rewrite <- (ival_digits b (di ++ df)) in Hloop. fold M in Hloop.
  destruct Hloop as (r & R1 & R2 & R3 & R4 & R5); auto; try lia.
  { rewrite num_of_Z_eq. reflexivity. }
  { rewrite num_of_Z_eq. apply lowest_1. }
  { rewrite num_of_Z_eq. unfold val. cbn [nnum nden]. field. apply inject_nz.
    assert (0 < b ^ f) by (apply Z.pow_pos_nonneg; lia). lia. }
  { rewrite Hpow. eapply Z.le_lt_trans; [|exact S3]. apply Z.pow_le_mono_r; [lia|]. unfold f. rewrite app_length, Nat2Z.inj_add, Lf, Li.
    destruct ip; [congruence|]. cbn [length] in *. lia. }
  assert (HBP : 0 < b ^ f) by (apply Z.pow_pos_nonneg; lia).
  assert (HM0 : 0 <= M).
  { unfold M. rewrite ival_digits. apply digits_val_bounds; [lia|].
    assert (FI : forall s ds, spells b s ds -> Forall (fun d => 0 <= d < b) ds) by (intros s ds HH; induction HH as [|? ? ? ? [? ?]]; constructor; auto).
    apply Forall_app. split; eauto. }
  assert (Sr : small p (nnum r)).
  { destruct (lowest_scale r M (b ^ f) R2 R3 HBP R5) as (k & K0 & K1 & K2). unfold small.
    assert (0 <= nnum r) by (apply (Z.mul_nonneg_cancel_r _ k K0); lia).
    assert (Z.abs (nnum r) <= nnum r * k) by (rewrite Z.abs_eq by auto; rewrite <- (Z.mul_1_r (nnum r)) at 1; apply Z.mul_le_mono_nonneg_l; lia).
    assert (M <= M * b ^ f) by (rewrite <- (Z.mul_1_r M) at 1; apply Z.mul_le_mono_nonneg_l; lia). lia. }
  assert (VV : (inject_Z M / inject_Z (b ^ f) == inject_Z (digits_val b (di ++ df)) / inject_Z (b ^ Z.of_nat (length df)))%Q).
  { unfold M, f. rewrite ival_digits, Lf. reflexivity. }
  destruct neg.
  - unfold btext. cbn [app]. fold body. cbn [ceq Ascii.eqb Bool.eqb].
    change (ceq "-" "-") with true. cbn iota.
    rewrite R1. cbn [obind]. eexists. split; [reflexivity|]. rewrite num_neg_eq by auto.
    split; [exact R2|]. split; [apply lowest_opp; auto|]. split; [cbn [ncast]; rewrite R4, num_of_Z_eq; reflexivity|].
    rewrite val_opp, bvalue_digits by lia. fold (val r). rewrite R5, VV. ring.
  - unfold btext. cbn [app]. fold body. rewrite EB. rewrite NC. rewrite <- EB. rewrite R1. cbn [obind]. exists r.
    split; [reflexivity|]. split; [exact R2|]. split; [exact R3|]. split; [rewrite R4, num_of_Z_eq; reflexivity|].
    rewrite bvalue_digits by lia. rewrite R5, VV. ring.
Qed.
