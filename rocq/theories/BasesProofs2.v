From Coq Require Import ZArith QArith Qpower Qround Qabs Qreduction Ascii String List Bool Lia Lqa Setoid Znumtheory.
From Verif Require Import Base Dec Num NumSpec Lex Bases BasesSpec DecProofs NumProofs BaseProofs LexProofs NumProofs2 NumProofs3 BasesProofs.
Import ListNotations.
Open Scope Z_scope.

Lemma scale_bounds a A B : good a -> lowest a -> 0 < B -> 0 <= A -> (val a == inject_Z A / inject_Z B)%Q ->
  0 <= nnum a <= A /\ 0 < nden a <= B.
Proof.
  intros G L HB HA V. destruct (lowest_scale a A B G L HB V) as (k & K0 & K1 & K2). unfold good in G.
  assert (0 <= nnum a) by (apply (Z.mul_nonneg_cancel_r _ k K0); lia).
  assert (nnum a * 1 <= nnum a * k) by (apply Z.mul_le_mono_nonneg_l; lia).
  assert (nden a * 1 <= nden a * k) by (apply Z.mul_le_mono_nonneg_l; lia). lia.
Qed.

Lemma floor_frac A B : 0 < B -> Qfloor (inject_Z A / inject_Z B) = A / B.
Proof.
  intros HB. exact (floor_val (mkNum A B None None) HB).
Qed.

Lemma py_digit_ok c : 0 <= c < 36 -> py_digit c = Ok (digit_char c).
Proof. intros. unfold py_digit. assert ((0 <=? c) && (c <? 36) = true) as -> by lia. reflexivity. Qed.

Lemma d2b_step_spec p dpow b e f A v : 1 <= p -> pow_ok p dpow -> 2 <= b <= 36 -> 0 <= e -> 0 <= f ->
  good v -> lowest v -> (val v == inject_Z A / inject_Z (b ^ f))%Q -> 0 <= A < b ^ (e + 1) ->
  A * b ^ f < 10 ^ (p - 1) -> b ^ e < 10 ^ (p - 1) -> b ^ f < 10 ^ (p - 1) ->
  exists v', d2b_step p dpow b v (e - f) = Ok (digit_char (A / b ^ e), v') /\ good v' /\ lowest v' /\ ncast v' = ncast v /\
    (val v' == inject_Z (A mod b ^ e) / inject_Z (b ^ f))%Q.
Proof.
  intros Hp PO Hb He Hf G L V HA S1 S2 S3.
  assert (HBe : 0 < b ^ e) by (apply Z.pow_pos_nonneg; lia). assert (HBf : 0 < b ^ f) by (apply Z.pow_pos_nonneg; lia).
  assert (P : 10 ^ (p - 1) <= 10 ^ p) by (apply Z.pow_le_mono_r; lia).
  assert (Hc : 0 <= A / b ^ e < b).
  { split; [apply Z.div_pos; lia|]. apply Z.div_lt_upper_bound; auto. rewrite Z.pow_add_r, Z.pow_1_r in HA by lia. lia. }
  set (c := A / b ^ e) in *.
  assert (HcA : 0 <= c * b ^ e <= A). { split; [apply Z.mul_nonneg_nonneg; lia|]. unfold c. rewrite Z.mul_comm. apply Z.mul_div_le; auto. }
  assert (HAf : A <= A * b ^ f) by (rewrite <- (Z.mul_1_r A) at 1; apply Z.mul_le_mono_nonneg_l; lia).
  assert (Hcl : c <= c * b ^ e) by (rewrite <- (Z.mul_1_r c) at 1; apply Z.mul_le_mono_nonneg_l; lia).
  destruct (digit_term p dpow b e f c) as (bp & t & P1 & P2 & P3 & P4 & P5 & P6 & P7 & P8 & P9 & P10 & P11); auto; try lia.
  { destruct (Z_le_gt_dec f e).
    - apply Z.le_lt_trans with (b ^ e); [apply Z.pow_le_mono_r; lia|lia].
    - apply Z.le_lt_trans with (b ^ f); [apply Z.pow_le_mono_r; lia|lia]. }
  destruct (scale_bounds v A (b ^ f) G L HBf ltac:(lia) V) as (N1 & N2).
  assert (X1 : 0 < b ^ Z.max 0 (e - f)) by (apply Z.pow_pos_nonneg; lia).
  assert (X2 : 0 < b ^ Z.max 0 (f - e) <= b ^ f) by (split; [apply Z.pow_pos_nonneg; lia|apply Z.pow_le_mono_r; lia]).
  assert (F1 : nnum v * nden bp <= A * b ^ f) by (rewrite P5; apply Z.mul_le_mono_nonneg; lia).
  assert (F1' : 0 <= nnum v * nden bp) by (rewrite P5; apply Z.mul_nonneg_nonneg; lia).
  assert (F2 : 0 <= nden v * nnum bp < 10 ^ (p - 1)).
  { rewrite P4. split; [apply Z.mul_nonneg_nonneg; lia|].
    apply Z.le_lt_trans with (b ^ f * b ^ Z.max 0 (e - f)); [apply Z.mul_le_mono_nonneg_r; lia|].
    rewrite <- Z.pow_add_r by lia. destruct (Z_le_gt_dec f e); [replace (f + Z.max 0 (e - f)) with e by lia|replace (f + Z.max 0 (e - f)) with f by lia]; auto. }
  assert (NB : nnum bp <> 0) by lia.
  assert (DF : div_fits p v bp) by (unfold div_fits, small; split; rewrite Z.abs_eq; lia).
  destruct (num_div_exact p v bp Hp G P2 DF NB) as (q & Q1 & Q2 & Q3 & Q4 & Q5).
  pose proof (num_div_size p v bp q Hp G P2 DF NB Q1) as QS.
  assert (QV : (val q == inject_Z A / inject_Z (b ^ e))%Q).
  { rewrite Q2, V, P6. field. split; apply inject_nz; lia. }
  assert (QI : num_int p q = c).
  { unfold num_int. rewrite to_decimal_val. unfold val. rewrite trunc_rnd; auto; [|rewrite (Z.abs_eq (nnum v * nden bp)) in QS by lia; lia].
    assert (0 <= nnum q) by (apply (scale_bounds q A (b ^ e)); auto; lia).
    unfold good in Q3. rewrite Z.quot_div_nonneg by lia. rewrite <- floor_val by auto. rewrite (Qfloor_comp _ _ QV). apply floor_frac; auto. }
  unfold d2b_step. rewrite P1. cbn [py_opt obind]. rewrite Q1. cbn [py_opt obind]. rewrite QI. rewrite P7. cbn [py_opt obind].
  destruct (frac_sub p v t A (c * b ^ e) (b ^ f)) as (r & R1 & R2 & R3 & R4 & R5); auto; try lia.
  rewrite R1. cbn [py_opt obind]. rewrite py_digit_ok by lia. cbn [obind]. exists r. split; [reflexivity|].
  do 3 (split; [assumption|]). rewrite R2.
  replace (A - c * b ^ e) with (A mod b ^ e); [reflexivity|]. rewrite Z.mod_eq by lia. unfold c. lia.
Qed.

(** Digits of an integer, a fixed number of them. *)
Fixpoint dlist (b : Z) (n : nat) (A : Z) : list Z :=
  match n with
  | O => []
  | S k => A / b ^ Z.of_nat k :: dlist b k (A mod b ^ Z.of_nat k)
  end.
Lemma dlist_len b n : forall A, length (dlist b n A) = n.
Proof. induction n; intros; cbn; auto. Qed.
Lemma dlist_spec b n : 2 <= b -> forall A, 0 <= A < b ^ Z.of_nat n ->
  digits_val b (dlist b n A) = A /\ Forall (fun d => 0 <= d < b) (dlist b n A).
Proof.
  intros Hb. induction n as [|n IH]; intros A HA.
  - cbn in *. split; [unfold digits_val; cbn; lia|constructor].
  - cbn [dlist]. rewrite digits_val_cons, dlist_len.
    assert (HB : 0 < b ^ Z.of_nat n) by (apply Z.pow_pos_nonneg; lia).
    destruct (IH (A mod b ^ Z.of_nat n)) as [I1 I2]; [apply Z.mod_pos_bound; auto|]. split.
    + rewrite I1. rewrite (Z.div_mod A (b ^ Z.of_nat n)) at 3 by lia. lia.
    + constructor; auto. rewrite Nat2Z.inj_succ, Z.pow_succ_r in HA by lia.
      split; [apply Z.div_pos; lia|]. apply Z.div_lt_upper_bound; auto. lia.
Qed.

(** Digits of A / b^f after the point. *)
Fixpoint flist (b : Z) (n : nat) (A : Z) : list Z :=
  match n with
  | O => []
  | S k => if A =? 0 then [] else A / b ^ Z.of_nat k :: flist b k (A mod b ^ Z.of_nat k)
  end.
Lemma flist_spec b n : 2 <= b -> forall A, 0 <= A < b ^ Z.of_nat n ->
  (fval b (flist b n A) == inject_Z A / inject_Z (b ^ Z.of_nat n))%Q /\ Forall (fun d => 0 <= d < b) (flist b n A) /\
  no_trailing_zero (flist b n A) /\ (length (flist b n A) <= n)%nat /\ (flist b n A = [] <-> A = 0).
Proof.
  intros Hb. induction n as [|n IH]; intros A HA.
  - cbn in *. assert (A = 0) by lia. subst. split; [reflexivity|]. split; [constructor|]. split; [left; auto|]. split; auto. tauto.
  - cbn [flist]. assert (HB : 0 < b ^ Z.of_nat n) by (apply Z.pow_pos_nonneg; lia).
    destruct (Z.eqb_spec A 0) as [->|NZ].
    { split. { cbn. unfold Qdiv. rewrite Qmult_0_l. reflexivity. }
      split; [constructor|]. split; [left; auto|]. split; [cbn; lia|tauto]. }
    destruct (IH (A mod b ^ Z.of_nat n)) as (I1 & I2 & I3 & I4 & I5); [apply Z.mod_pos_bound; auto|].
    rewrite Nat2Z.inj_succ, Z.pow_succ_r in HA by lia.
    split; [|split; [|split; [|split]]].
    + cbn [fval]. rewrite I1. rewrite Nat2Z.inj_succ, Z.pow_succ_r by lia.
      rewrite (Z.div_mod A (b ^ Z.of_nat n)) at 3 by lia. rewrite inject_Z_plus, !inject_Z_mult. field. split; apply inject_nz; lia.
    + constructor; auto. split; [apply Z.div_pos; lia|]. apply Z.div_lt_upper_bound; auto. lia.
    + right. destruct I3 as [E|(r & d & E & D)].
      * rewrite E. exists [], (A / b ^ Z.of_nat n). split; auto. apply I5 in E. intro F.
        rewrite (Z.div_mod A (b ^ Z.of_nat n)) in NZ by lia. rewrite E, F in NZ. lia.
      * rewrite E. exists (A / b ^ Z.of_nat n :: r), d. auto.
    + cbn. lia.
    + split; [discriminate|lia].
Qed.

Lemma d2b_int_spec p dpow b f k : forall A v, 1 <= p -> pow_ok p dpow -> 2 <= b <= 36 ->
  good v -> lowest v -> (val v == inject_Z A / inject_Z (b ^ Z.of_nat f))%Q -> 0 <= A < b ^ Z.of_nat (k + f) ->
  A * b ^ Z.of_nat f < 10 ^ (p - 1) -> b ^ Z.of_nat (k + f) <= b * 10 ^ (p - 1) - b  -> b ^ Z.of_nat f < 10 ^ (p - 1) ->
  exists v', d2b_int p dpow b v k = Ok (map digit_char (dlist b k (A / b ^ Z.of_nat f)), v') /\ good v' /\ lowest v' /\ ncast v' = ncast v /\
    (val v' == inject_Z (A mod b ^ Z.of_nat f) / inject_Z (b ^ Z.of_nat f))%Q.
Proof.
  induction k as [|k IH]; intros A v Hp PO Hb G L V HA S1 S2 S3.
  - cbn [d2b_int dlist map]. exists v. cbn [plus] in HA. rewrite Z.mod_small by auto. auto.
  - cbn [d2b_int]. assert (HBf : 0 < b ^ Z.of_nat f) by (apply Z.pow_pos_nonneg; lia).
    replace (Z.of_nat (S k + f)) with (Z.of_nat (k + f) + 1) in * by lia.
    assert (HBk : 0 < b ^ Z.of_nat (k + f)) by (apply Z.pow_pos_nonneg; lia).
    assert (S2' : b ^ Z.of_nat (k + f) < 10 ^ (p - 1)).
    { rewrite Z.pow_add_r, Z.pow_1_r in S2 by lia. apply (Z.mul_lt_mono_pos_r b); lia. }
    destruct (d2b_step_spec p dpow b (Z.of_nat (k + f)) (Z.of_nat f) A v) as (v1 & E1 & G1 & L1 & C1 & V1); auto; try lia.
    replace (Z.of_nat (k + f) - Z.of_nat f) with (Z.of_nat k) in E1 by lia. rewrite E1. cbn [obind fst snd].
    set (A1 := A mod b ^ Z.of_nat (k + f)) in *.
    assert (HA1 : 0 <= A1 < b ^ Z.of_nat (k + f)) by (apply Z.mod_pos_bound; auto).
    assert (A1 <= A) by (apply Z.mod_le; lia).
    destruct (IH A1 v1) as (v2 & E2 & G2 & L2 & C2 & V2); auto.
    { apply Z.le_lt_trans with (A * b ^ Z.of_nat f); auto. apply Z.mul_le_mono_nonneg_r; lia. }
    { apply Z.le_trans with (b ^ (Z.of_nat (k + f) + 1) ); [apply Z.pow_le_mono_r; lia|lia]. }
    rewrite E2. cbn [obind fst snd]. exists v2.
    assert (EP : b ^ Z.of_nat (k + f) = b ^ Z.of_nat f * b ^ Z.of_nat k) by (rewrite <- Z.pow_add_r by lia; f_equal; lia).
    assert (HBk' : 0 < b ^ Z.of_nat k) by (apply Z.pow_pos_nonneg; lia).
    split; [|split; [auto|split; [auto|split; [congruence|]]]].
    + cbn [dlist map]. do 3 f_equal.
      * rewrite EP, <- Z.div_div by lia. reflexivity.
      * f_equal. unfold A1. rewrite EP. rewrite Z.rem_mul_r by lia.
        rewrite (Z.mul_comm (b ^ Z.of_nat f) (_ mod _)), Z.div_add by lia. rewrite Z.div_small by (apply Z.mod_pos_bound; auto). reflexivity.
    + rewrite V2. unfold A1. rewrite EP. rewrite Z.rem_mul_r by lia.
      rewrite (Z.mul_comm (b ^ Z.of_nat f) (_ mod _)), Z_mod_plus_full, Z.mod_mod by lia. reflexivity.
Qed.

Lemma to_decimal_pos p v A B : 1 <= p -> 0 < B -> 0 <= A -> (val v == inject_Z A / inject_Z B)%Q ->
  negb (Qle_bool (to_decimal p v) 0) = negb (A =? 0).
Proof.
  intros Hp HB HA V. rewrite to_decimal_val. rewrite (rnd_eq p _ _ V). f_equal.
  assert (0 < inject_Z B)%Q by (apply inject_pos; auto).
  destruct (Z.eqb_spec A 0) as [->|N].
  - rewrite rnd_0; [reflexivity|]. unfold Qdiv. ring.
  - assert (0 < rnd p (inject_Z A / inject_Z B))%Q.
    { apply rnd_pos; auto. apply Qlt_shift_div_l; auto. rewrite Qmult_0_l. apply inject_pos; lia. }
    destruct (Qle_bool _ 0) eqn:E; auto. apply Qle_bool_iff in E. lra.
Qed.

Lemma d2b_frac_spec p dpow b f left : forall n A v, 1 <= p -> pow_ok p dpow -> 2 <= b <= 36 ->
  (n <= f)%nat -> (n <= left)%nat ->
  good v -> lowest v -> (val v == inject_Z A / inject_Z (b ^ Z.of_nat f))%Q -> 0 <= A < b ^ Z.of_nat n ->
  A * b ^ Z.of_nat f < 10 ^ (p - 1) -> b ^ Z.of_nat f < 10 ^ (p - 1) ->
  d2b_frac p dpow b v (Z.of_nat n - 1 - Z.of_nat f) left =
  Ok ((match flist b n A with [] => [] | _ => if Nat.eqb n f then ["."%char] else [] end) ++ map digit_char (flist b n A)).
Proof.
  induction left as [|l IH]; intros n A v Hp PO Hb Nf Nl G L V HA S1 S2.
  - assert (n = 0)%nat by lia. subst. reflexivity.
  - assert (HBf : 0 < b ^ Z.of_nat f) by (apply Z.pow_pos_nonneg; lia).
    cbn [d2b_frac]. rewrite (to_decimal_pos p v A (b ^ Z.of_nat f)) by (auto; lia).
    destruct (Z.eqb_spec A 0) as [->|NZ]; cbn [negb].
    { destruct n; cbn [flist]; reflexivity. }
    destruct n as [|n]; [cbn in HA; lia|].
    assert (HBn : 0 < b ^ Z.of_nat n) by (apply Z.pow_pos_nonneg; lia).
    destruct (d2b_step_spec p dpow b (Z.of_nat n) (Z.of_nat f) A v) as (v1 & E1 & G1 & L1 & C1 & V1); auto; try lia.
    { apply Z.le_lt_trans with (b ^ Z.of_nat f); auto. apply Z.pow_le_mono_r; lia. }
    replace (Z.of_nat (S n) - 1 - Z.of_nat f) with (Z.of_nat n - Z.of_nat f) by lia.
    rewrite E1. cbn [obind fst snd].
    assert (HA1 : 0 <= A mod b ^ Z.of_nat n < b ^ Z.of_nat n) by (apply Z.mod_pos_bound; auto).
    assert (A mod b ^ Z.of_nat n <= A) by (apply Z.mod_le; lia).
    replace (Z.of_nat n - Z.of_nat f - 1) with (Z.of_nat n - 1 - Z.of_nat f) by lia.
    rewrite (IH n (A mod b ^ Z.of_nat n) v1); auto; try lia.
    2: { apply Z.le_lt_trans with (A * b ^ Z.of_nat f); auto. apply Z.mul_le_mono_nonneg_r; lia. }
    cbn [obind]. assert (Nat.eqb n f = false) as -> by (apply Nat.eqb_neq; lia).
    cbn [flist]. destruct (Z.eqb_spec A 0); [lia|].
    assert (forall l : list Z, match l with [] => [] | _ => @nil ascii end = []) as EE by (destruct l0; reflexivity).
    rewrite EE. cbn [app map].
    destruct (Z.eqb_spec (Z.of_nat n - Z.of_nat f) (-1)), (Nat.eqb_spec (S n) f); try lia; reflexivity.
Qed.

(** The search for the top power. *)
Lemma leb_pow p b k v M f : 1 <= p -> 2 <= b <= 36 -> 0 <= k -> good v -> lowest v -> 0 <= M -> 0 <= f ->
  (val v == inject_Z M / inject_Z (b ^ f))%Q -> M * b ^ f < 10 ^ (p - 1) ->
  num_leb p (num_of_Z p (b ^ k)) v = (b ^ k * b ^ f <=? M).
Proof.
  intros Hp Hb Hk G L HM Hf V S.
  assert (HBf : 0 < b ^ f) by (apply Z.pow_pos_nonneg; lia). assert (HBk : 0 < b ^ k) by (apply Z.pow_pos_nonneg; lia).
  assert (P : 10 ^ (p - 1) <= 10 ^ p) by (apply Z.pow_le_mono_r; lia).
  assert (MS : M <= M * b ^ f) by (rewrite <- (Z.mul_1_r M) at 1; apply Z.mul_le_mono_nonneg_l; lia).
  assert (VB : (val (num_of_Z p (b ^ k)) == inject_Z (b ^ k))%Q) by (rewrite num_of_Z_eq; unfold val; cbn [nnum nden]; field).
  destruct (Z.leb_spec (b ^ k * b ^ f) M) as [C|C].
  - apply num_leb_mono; auto. rewrite V, VB. apply Qle_shift_div_l; [apply inject_pos; auto|].
    rewrite <- inject_Z_mult, <- Zle_Qle. auto.
  - destruct (num_leb p _ v) eqn:E; auto. exfalso. apply num_leb_iff in E.
    rewrite (rnd_eq p _ _ VB) in E.
    assert (RV : (rnd p (val v) < inject_Z (b ^ k))%Q /\ (rnd p (val v) <= inject_Z (10 ^ (p - 1)))%Q).
    { split.
      - rewrite (rnd_eq p _ _ V).
        assert (AM : Z.abs M < 10 ^ (p - 1)) by lia.
        pose proof (floor_rnd p M (b ^ f) Hp HBf AM) as F.
        assert (M / b ^ f < b ^ k) by (apply Z.div_lt_upper_bound; auto; lia).
        pose proof (Qlt_floor (rnd p (inject_Z M / inject_Z (b ^ f)))) as U. rewrite F in U.
        eapply Qlt_le_trans; [exact U|]. rewrite <- Zle_Qle. lia.
      - apply fits_Z_ge; auto; [rewrite Z.abs_eq; [auto|apply Z.pow_nonneg; lia]|].
        rewrite V. apply Qle_shift_div_r; [apply inject_pos; auto|]. rewrite <- inject_Z_mult, <- Zle_Qle.
        assert (10 ^ (p - 1) * 1 <= 10 ^ (p - 1) * b ^ f) by (apply Z.mul_le_mono_nonneg_l; [apply Z.pow_nonneg; lia|lia]). lia. }
    destruct RV as [R1 R2].
    destruct (Z_le_gt_dec (b ^ k) (10 ^ p)).
    + rewrite rnd_int_id in E by (auto; lia). lra.
    + assert (inject_Z (10 ^ p) <= rnd p (inject_Z (b ^ k)))%Q.
      { apply fits_Z_le; auto; [rewrite Z.abs_eq; [lia|apply Z.pow_nonneg; lia]|]. rewrite <- Zle_Qle. lia. }
      assert (inject_Z (10 ^ (p - 1)) < inject_Z (10 ^ p))%Q. { rewrite <- Zlt_Qlt. apply Z.pow_lt_mono_r; lia. }
      lra.
Qed.

Lemma top_power_spec p b v M f fuel : forall k, 1 <= p -> 2 <= b <= 36 -> 0 <= k -> good v -> lowest v -> 0 <= M -> 0 <= f ->
  (val v == inject_Z M / inject_Z (b ^ f))%Q -> M * b ^ f < 10 ^ (p - 1) ->
  M < b ^ (k + Z.of_nat fuel + 1) * b ^ f -> (k = 0 \/ b ^ k * b ^ f <= M) ->
  let P := top_power p b v fuel k in
  0 <= P /\ M < b ^ (P + 1) * b ^ f /\ (P = 0 \/ b ^ P * b ^ f <= M).
Proof.
  induction fuel as [|n IH]; intros k Hp Hb Hk G L HM Hf V SS HF HK P.
  - cbn in P. subst P. replace (k + Z.of_nat 0 + 1) with (k + 1) in HF by lia. auto.
  - subst P. cbn [top_power]. rewrite (leb_pow p b (k + 1) v M f) by (auto; lia).
    destruct (Z.leb_spec (b ^ (k + 1) * b ^ f) M).
    + apply IH; auto; try lia. replace (k + 1 + Z.of_nat n + 1) with (k + Z.of_nat (S n) + 1) by lia. auto.
    + auto.
Qed.

Lemma rstrip_last c s x : ceq x c = false -> rstrip c (s ++ [x]) = s ++ [x].
Proof. intros H. rewrite rstrip_app; cbn; rewrite H; auto; discriminate. Qed.

Lemma existsb_digits ds : Forall (fun d => 0 <= d < 36) ds -> existsb (ceq "."%char) (map digit_char ds) = false.
Proof.
  induction 1 as [|d ds H _ IH]; auto. cbn [map existsb]. rewrite IH, orb_false_r.
  apply ceq_neq. intro E. assert (digit_val "."%char = d) by (rewrite E; apply digit_char_val; auto).
  vm_compute in H0. lia.
Qed.

Lemma pow_log_bound b z : 2 <= b -> 0 < z -> z < b ^ (Z.log2 z + 1).
Proof.
  intros Hb Hz. pose proof (Z.log2_spec z Hz). pose proof (Z.log2_nonneg z).
  apply Z.lt_le_trans with (2 ^ (Z.log2 z + 1)); [rewrite Z.add_1_r; tauto|]. apply Z.pow_le_mono_l; lia.
Qed.

(** [dec_to_base] prints the positional notation of the value, without leading or trailing zeros. *)
Lemma dec_to_base_spec p prec dpow tostr b (neg : bool) M f v : 1 <= p -> pow_ok p dpow -> 2 <= b <= 36 -> b <> 10 ->
  good v -> lowest v -> 0 < M -> Z.of_nat f <= prec ->
  (val v == (if neg then -1 else 1) * (inject_Z M / inject_Z (b ^ Z.of_nat f)))%Q ->
  M * b ^ Z.of_nat f < 10 ^ (p - 1) ->
  exists ip fp, dec_to_base p prec dpow tostr v b = Ok (btext neg (map digit_char ip) (map digit_char fp)) /\
    Forall (fun d => 0 <= d < b) ip /\ Forall (fun d => 0 <= d < b) fp /\
    no_leading_zero ip /\ no_trailing_zero fp /\ (length fp <= f)%nat /\
    ival b ip = M / b ^ Z.of_nat f /\ (fval b fp == inject_Z (M mod b ^ Z.of_nat f) / inject_Z (b ^ Z.of_nat f))%Q.
Proof.
  intros Hp PO Hb H10 G L HM Hprec V S.
  assert (HBf : 0 < b ^ Z.of_nat f) by (apply Z.pow_pos_nonneg; lia). set (B := b ^ Z.of_nat f) in *.
  assert (P : 10 ^ (p - 1) <= 10 ^ p) by (apply Z.pow_le_mono_r; lia).
  assert (MS : M * 1 <= M * B) by (apply Z.mul_le_mono_nonneg_l; lia).
  assert (BS : 1 * B <= M * B) by (apply Z.mul_le_mono_nonneg_r; lia).
  set (w := mkNum (Z.abs (nnum v)) (nden v) (ncast v) None).
  assert (QP : (0 < inject_Z M / inject_Z B)%Q).
  { apply Qlt_shift_div_l; [apply inject_pos; auto|]. rewrite Qmult_0_l. apply inject_pos; auto. }
  assert (Hw : good w /\ lowest w /\ (val w == inject_Z M / inject_Z B)%Q /\ 0 <= nnum w).
  { split; [exact G|]. split; [apply gcd1_lowest; unfold w; cbn [nnum nden]; rewrite Z.gcd_abs_l; apply lowest_gcd1; auto|].
    assert (D : (0 < inject_Z (nden v))%Q) by (apply inject_pos; exact G).
    unfold val in V |- *. unfold w. cbn [nnum nden].
    assert (E : (inject_Z (Z.abs (nnum v)) / inject_Z (nden v) == Qabs (inject_Z (nnum v) / inject_Z (nden v)))%Q).
    { symmetry. apply frac_abs. exact G. }
    split; [|lia]. rewrite E, V. destruct neg.
    - setoid_replace (-1 * (inject_Z M / inject_Z B))%Q with (- (inject_Z M / inject_Z B))%Q by ring. rewrite Qabs_opp. apply Qabs_pos. lra.
    - rewrite Qmult_1_l. apply Qabs_pos. lra. }
  destruct Hw as (Gw & Lw & Vw & Nw).
  destruct (scale_bounds w M B Gw Lw HBf ltac:(lia) Vw) as (N1 & N2).
  assert (Sv : small p (nnum v)). { unfold small. unfold w in N1. cbn [nnum] in N1. lia. }
  assert (DV : (to_decimal p v == (if neg then -1 else 1) * rnd p (inject_Z M / inject_Z B))%Q).
  { rewrite to_decimal_val, (rnd_eq p _ _ V). destruct neg.
    - assert (EQ : (-1 * (inject_Z M / inject_Z B) == - (inject_Z M / inject_Z B))%Q) by ring.
      rewrite (rnd_eq p _ _ EQ). rewrite rnd_opp. ring.
    - assert (EQ : (1 * (inject_Z M / inject_Z B) == (inject_Z M / inject_Z B))%Q) by ring.
      rewrite (rnd_eq p _ _ EQ). ring. }
  pose proof (rnd_pos p _ Hp QP) as RP.
  unfold dec_to_base.
  assert (Qeq_bool (to_decimal p v) 0 = false) as ->.
  { destruct (Qeq_bool _ 0) eqn:E; auto. apply Qeq_bool_iff in E. rewrite DV in E. destruct neg; lra. }
  destruct (b =? 10) eqn:E10; [lia|].
  assert ((b <? 2) || (36 <? b) = false) as -> by (apply b10_cond; auto).
  assert (negb (Qle_bool 0 (to_decimal p v)) = neg) as ->.
  { destruct (Qle_bool 0 (to_decimal p v)) eqn:E.
    - apply Qle_bool_iff in E. rewrite DV in E. destruct neg; auto. lra.
    - destruct neg; auto. assert (0 <= to_decimal p v)%Q by (rewrite DV; lra). apply Qle_bool_iff in H. congruence. }
  rewrite num_abs_eq by auto. fold w.
  set (fuel := Z.to_nat (Z.log2 (nnum w) + 1)).
  assert (Wp : 0 < nnum w).
  { destruct (Z_le_gt_dec (nnum w) 0); [|lia]. assert (nnum w = 0) by lia. unfold val in Vw. rewrite H in Vw.
    unfold Qdiv in Vw at 1. rewrite Qmult_0_l in Vw. lra. }
  destruct (top_power_spec p b w M (Z.of_nat f) fuel 0) as (T1 & T2 & T3); auto; try lia.
  { unfold fuel. pose proof (Z.log2_nonneg (nnum w)). rewrite Z2Nat.id by lia.
    pose proof (pow_log_bound b (nnum w) ltac:(lia) Wp) as PL.
    destruct (lowest_scale w M B Gw Lw HBf Vw) as (k & K0 & K1 & K2). rewrite K2. fold B.
    assert (k <= B). { rewrite K1. assert (1 * k <= nden w * k) by (apply Z.mul_le_mono_nonneg_r; lia). lia. }
    apply Z.le_lt_trans with (nnum w * B); [apply Z.mul_le_mono_nonneg_l; lia|].
    apply Z.mul_lt_mono_pos_r; auto. eapply Z.lt_le_trans; [exact PL|]. apply Z.pow_le_mono_r; lia. }
  set (PW := top_power p b w fuel 0) in *. fold B in T2, T3.
  set (k := Z.to_nat (PW + 1)). assert (Ek : Z.of_nat k = PW + 1) by (unfold k; lia).
  assert (EB : forall j, b ^ Z.of_nat (j + f) = b ^ Z.of_nat j * B).
  { intros. unfold B. rewrite <- Z.pow_add_r by lia. f_equal. lia. }
  assert (SP : b ^ PW * B < 10 ^ (p - 1)).
  { destruct T3 as [->|T3]; [rewrite Z.pow_0_r; lia|lia]. }
  destruct (d2b_int_spec p dpow b f k M w) as (v1 & E1 & G1 & L1 & C1 & V1); auto.
  { rewrite EB, Ek. lia. }
  { rewrite EB, Ek, Z.pow_add_r, Z.pow_1_r by lia. 
    replace (b ^ PW * b * B) with (b * (b ^ PW * B)) by ring. replace (b * 10 ^ (p - 1) - b) with (b * (10 ^ (p - 1) - 1)) by ring.
    apply Z.mul_le_mono_nonneg_l; lia. }
  { fold B. lia. }
  rewrite E1. cbn [obind fst snd]. fold B in V1, E1 |- *.
  assert (Hmod : 0 <= M mod B < B) by (apply Z.mod_pos_bound; auto).
  assert (Hmodle : M mod B <= M) by (apply Z.mod_le; lia).
  pose proof (d2b_frac_spec p dpow b f (Z.to_nat prec) f (M mod B) v1 Hp PO Hb ltac:(lia) ltac:(lia) G1 L1 V1 Hmod) as E2.
  fold B in E2. replace (Z.of_nat f - 1 - Z.of_nat f) with (-1) in E2 by lia.
  rewrite E2; [|apply Z.le_lt_trans with (M * B); auto; apply Z.mul_le_mono_nonneg_r; lia|lia].
  cbn [obind]. rewrite Nat.eqb_refl.
  destruct (flist_spec b f ltac:(lia) (M mod B) Hmod) as (F1 & F2 & F3 & F4 & F5).
  assert (HI : 0 <= M / B < b ^ Z.of_nat k).
  { split; [apply Z.div_pos; lia|]. apply Z.div_lt_upper_bound; auto. rewrite Ek. lia. }
  destruct (dlist_spec b k ltac:(lia) (M / B) HI) as (I1 & I2).
  set (ip := dlist b k (M / B)) in *. set (fp := flist b f (M mod B)) in *.
  exists ip, fp. split.
  - f_equal. unfold btext.
    assert (NS : existsb (ceq "."%char) (if neg then ["-"%char] else []) = false) by (destruct neg; reflexivity).
    assert (NI : existsb (ceq "."%char) (map digit_char ip) = false) by (apply existsb_digits; eapply Forall_digit_36; [|eauto]; lia).
    rewrite !existsb_app, NS, NI. cbn [orb].
    destruct fp as [|d0 fp'] eqn:Efp.
    + reflexivity.
    + cbn [app existsb map]. change (ceq "." ".") with true. cbn [orb].
      destruct F3 as [X|(r & d & X & Y)]; [discriminate|].
      assert (Xm : digit_char d0 :: map digit_char fp' = map digit_char r ++ [digit_char d]).
      { change (digit_char d0 :: map digit_char fp') with (map digit_char (d0 :: fp')). rewrite X, map_app. reflexivity. }
      rewrite Xm. cbn [app].
      assert (HD : 0 <= d < 36). { rewrite X in F2. apply Forall_app in F2. destruct F2 as [_ F2]. inversion F2; subst. lia. }
      assert (AS : forall x y : str, x ++ y ++ "."%char :: map digit_char r ++ [digit_char d] = (x ++ y ++ "."%char :: map digit_char r) ++ [digit_char d]).
      { intros. rewrite <- !app_assoc. reflexivity. }
      rewrite AS. rewrite rstrip_last; auto. apply ceq_neq. intro Z0. apply Y. apply digit_char_0; auto.
  - split; [auto|]. split; [auto|]. split.
    { destruct T3 as [T3|T3].
      - assert (k = 1%nat) by (unfold k; rewrite T3; reflexivity). unfold ip. rewrite H. cbn [dlist]. rewrite Z.pow_0_r, Z.div_1_r.
        destruct (Z.eq_dec (M / B) 0) as [E|E]; [left; rewrite E; reflexivity|right; eauto].
      - right. unfold ip. destruct k as [|k'] eqn:Ek'; [lia|]. cbn [dlist]. eexists; eexists; split; [reflexivity|].
        replace (Z.of_nat k') with PW by lia. assert (0 < b ^ PW) by (apply Z.pow_pos_nonneg; lia).
        assert (b ^ PW <= M / B) by (apply Z.div_le_lower_bound; auto; lia).
        assert (1 <= M / B / b ^ PW) by (apply Z.div_le_lower_bound; auto; lia). lia. }
    split; [auto|]. split; [auto|]. split; [rewrite ival_digits; auto|auto].
Qed.
