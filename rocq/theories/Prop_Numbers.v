(** Properties C01 to C08 and C50: the Number class.  Proofs are in the *Proofs files. *)
From Coq Require Import ZArith QArith Qpower Qround Qabs Ascii String List Bool Lia.
From Verif Require Import Base Dec Num NumSpec Lex LexSpec DecProofs NumProofs NumProofs2 NumProofs3 LexProofs NumProofs4.
Import ListNotations.
Open Scope Z_scope.

(** Sample Numbers: 3/4, 5/6, -7, 2. *)
Definition n34 := mkNum 3 4 None None.
Definition n56 := mkNum 5 6 None None.
Definition nm7 := mkNum (-7) 1 None None.
Definition n2 := mkNum 2 1 None None.
Definition n7 := mkNum 7 1 None None.

(** ** C01 *)
Theorem c01_add_exact : forall p a b, 1 <= p -> good a -> good b -> add_fits p a b ->
  exists r, num_add p a b = Some r /\ (val r == val a + val b)%Q /\ good r /\ lowest r /\ ncast r = ncast a.
Proof. exact num_add_exact. Qed.
Theorem c01_sub_exact : forall p a b, 1 <= p -> good a -> good b -> sub_fits p a b ->
  exists r, num_sub p a b = Some r /\ (val r == val a - val b)%Q /\ good r /\ lowest r /\ ncast r = ncast a.
Proof. exact num_sub_exact. Qed.
Theorem c01_mul_exact : forall p a b, 1 <= p -> good a -> good b -> mul_fits p a b ->
  exists r, num_mul p a b = Some r /\ (val r == val a * val b)%Q /\ good r /\ lowest r /\ ncast r = ncast a.
Proof. exact num_mul_exact. Qed.
Theorem c01_div_exact : forall p a b, 1 <= p -> good a -> good b -> div_fits p a b -> nnum b <> 0 ->
  exists r, num_div p a b = Some r /\ (val r == val a / val b)%Q /\ good r /\ lowest r /\ ncast r = ncast a.
Proof. exact num_div_exact. Qed.
Theorem c01_div_zero_refused : forall p a b, nnum b = 0 -> num_div p a b = None.
Proof. exact num_div_zero. Qed.

(** The fitting conditions follow from a plain bound on the operands: all four operations are exact on
    Numbers whose numerator and denominator have at most [k] digits when [3*k+1 <= p]. *)
Theorem c01_small_operands_exact : forall p k a b, 1 <= p -> 0 <= k -> 3 * k + 1 <= p ->
  good a -> good b -> size_le k a -> size_le k b ->
  (exists r, num_add p a b = Some r /\ (val r == val a + val b)%Q) /\
  (exists r, num_sub p a b = Some r /\ (val r == val a - val b)%Q) /\
  (exists r, num_mul p a b = Some r /\ (val r == val a * val b)%Q) /\
  (nnum b <> 0 -> exists r, num_div p a b = Some r /\ (val r == val a / val b)%Q).
Proof.
  intros p k a b Hp Hk H3 Ga Gb Sa Sb.
  destruct (size_add_sub p k a b Hk Ga Gb Sa Sb H3) as [F1 F2].
  split; [|split; [|split]].
  - destruct (num_add_exact p a b Hp Ga Gb F1) as (r & R1 & R2 & _); eauto.
  - destruct (num_sub_exact p a b Hp Ga Gb F2) as (r & R1 & R2 & _); eauto.
  - destruct (num_mul_exact p a b Hp Ga Gb (size_mul p k a b Hk Ga Gb Sa Sb ltac:(lia))) as (r & R1 & R2 & _); eauto.
  - intros Nb. destruct (num_div_exact p a b Hp Ga Gb (size_div p k a b Hk Ga Gb Sa Sb ltac:(lia)) Nb) as (r & R1 & R2 & _); eauto.
Qed.

Example c01_ex : size_le 33 n34 /\ size_le 33 n56 /\ num_add 100 n34 n56 = Some (mkNum 19 12 None None).
Proof. unfold size_le. repeat split; vm_compute; reflexivity. Qed.
Example c01_ex_sub_div : num_sub 100 n34 n56 = Some (mkNum (-1) 12 None None) /\
  num_mul 100 n34 n56 = Some (mkNum 5 8 None None) /\ num_div 100 n34 n56 = Some (mkNum 9 10 None None).
Proof. vm_compute. auto. Qed.

(** ** C02 *)
Theorem c02_positive_denominator : forall p n, 1 <= p -> produced p n -> good n.
Proof. exact produced_good. Qed.
Theorem c02_constructor_lowest : forall p c a b, 1 <= p -> b <> 0 -> small p a -> small p b ->
  exists r, num_make p c (inject_Z a) (inject_Z b) = Some r /\ (val r == inject_Z a / inject_Z b)%Q /\ good r /\ lowest r.
Proof.
  intros p c a b Hp Hb Sa Sb. destruct (make_exact p c a b _ Hp Hb Sa Sb (Qeq_refl _)) as (r & R1 & R2 & R3 & R4 & _); eauto.
Qed.
Theorem c02_unique : forall a b, good a -> good b -> lowest a -> lowest b -> (val a == val b)%Q ->
  nnum a = nnum b /\ nden a = nden b.
Proof. exact lowest_unique. Qed.
(** Beyond the precision the reduced fraction need not be in lowest terms. *)
Theorem c02_lowest_beyond_precision_refuted : exists a b r,
  num_make 100 None (inject_Z a) (inject_Z b) = Some r /\ ~ lowest r.
Proof.
  exists (7 * (10 ^ 100 + 1)), 14. eexists. split; [vm_compute; reflexivity|].
  intros L. destruct (L 2) as [H|H]; try discriminate; cbn [nnum nden].
  - exists (10 ^ 100 / 2). vm_compute. reflexivity.
  - exists 1. reflexivity.
Qed.
Example c02_ex : produced 100 (mkNum 19 12 None None).
Proof.
  apply (pr_add 100 n34 n56); [apply (pr_make 100 None (inject_Z 6) (inject_Z 8))|apply (pr_make 100 None (inject_Z (-10)) (inject_Z (-12)))|]; vm_compute; reflexivity.
Qed.

(** ** C03 *)
Theorem c03_add_comm : forall p a b, same_value (num_add p a b) (num_add p b a).
Proof. exact num_add_comm. Qed.
Theorem c03_mul_comm : forall p a b, same_value (num_mul p a b) (num_mul p b a).
Proof. exact num_mul_comm. Qed.
Example c03_ex : num_add 2 (mkNum 123 7 None None) (mkNum 45 11 None None) <> None /\
  num_add 2 (mkNum 123 7 None None) (mkNum 45 11 None None) = num_add 2 (mkNum 45 11 None None) (mkNum 123 7 None None).
Proof. vm_compute. split; [discriminate|reflexivity]. Qed.

(** ** C04 *)
Theorem c04_consistent : forall p a b, 1 <= p -> (val a <= val b)%Q -> num_leb p a b = true.
Proof. exact num_leb_mono. Qed.
Theorem c04_lt_sound : forall p a b, 1 <= p -> num_ltb p a b = true -> (val a < val b)%Q.
Proof. exact num_ltb_sound. Qed.
Theorem c04_total : forall p a b, num_leb p a b = true \/ num_leb p b a = true.
Proof. exact num_leb_total. Qed.
Theorem c04_trans : forall p a b c, num_leb p a b = true -> num_leb p b c = true -> num_leb p a c = true.
Proof. exact num_leb_trans. Qed.
Theorem c04_eq_antisym : forall p a b, num_eqb p a b = true <-> num_leb p a b = true /\ num_leb p b a = true.
Proof. exact num_eqb_iff. Qed.
Theorem c04_lt_not_ge : forall p a b, num_ltb p a b = true <-> num_leb p b a = false.
Proof. exact num_ltb_iff. Qed.
(** On Numbers whose components have at most [k] digits, [2*k+1 <= p], the order is exact. *)
Theorem c04_small_exact : forall p k a b, 0 <= k -> 2 * k + 1 <= p -> good a -> good b -> size_le k a -> size_le k b ->
  (num_ltb p a b = true <-> (val a < val b)%Q) /\ (num_eqb p a b = true <-> (val a == val b)%Q).
Proof. exact num_ltb_exact. Qed.
Theorem c04_small_hash : forall p k a b, 0 <= k -> 2 * k + 1 <= p -> good a -> good b -> lowest a -> lowest b ->
  size_le k a -> size_le k b -> num_eqb p a b = true -> num_hash a = num_hash b.
Proof. exact num_hash_eq. Qed.
(** 1/3 and 0.333...3 (100 digits) compare equal, are different rationals and hash differently. *)
Theorem c04_strict_and_hash_refuted : exists a b, good a /\ good b /\ lowest b /\
  num_eqb 100 a b = true /\ ~ (val a == val b)%Q /\ num_hash a <> num_hash b.
Proof.
  exists (mkNum 1 3 None None), (mkNum ((10 ^ 100 - 1) / 3) (10 ^ 100) None None).
  split; [reflexivity|]. split; [reflexivity|].
  split; [apply gcd1_lowest; vm_compute; reflexivity|].
  split; [vm_compute; reflexivity|]. split; [|vm_compute; discriminate].
  vm_compute. discriminate.
Qed.
Example c04_ex : num_ltb 100 n34 n56 = true /\ num_leb 100 n56 n34 = false.
Proof. vm_compute. auto. Qed.

(** ** C05 *)
Theorem c05_floordiv : forall p a b, 1 <= p -> good a -> good b -> nnum b <> 0 ->
  small (p - 1) (nnum a * nden b) -> small p (nden a * nnum b) ->
  exists r, num_floordiv p a b = Some r /\ nden r = 1 /\ nnum r = Qfloor (val a / val b) /\ ncast r = ncast a.
Proof. exact num_floordiv_spec. Qed.
Theorem c05_mod : forall p a b, 1 <= p -> good a -> good b -> nnum b <> 0 -> mod_fits p a b ->
  exists r k, num_mod p a b = Some r /\ (val a == inject_Z k * val b + val r)%Q /\
    (Qabs (val r) < Qabs (val b))%Q /\ (0 <= val r * val a)%Q /\ (Qabs (val r) <= Qabs (val a))%Q /\
    good r /\ lowest r /\ ncast r = ncast a.
Proof. exact num_mod_spec. Qed.
Theorem c05_same_sign_identity : forall p a b, 1 <= p -> good a -> good b -> nnum b <> 0 -> mod_fits p a b ->
  small (p - 1) (nnum a * nden b) -> small p (nden a * nnum b) -> (0 <= val a * val b)%Q ->
  exists f r, num_floordiv p a b = Some f /\ num_mod p a b = Some r /\ (val a == val f * val b + val r)%Q.
Proof. exact num_divmod_same_sign. Qed.
(** -7 \ 2 = -4 and -7 % 2 = -1, so the identity fails for opposite signs. *)
Theorem c05_identity_refuted : exists a b f r, good a /\ good b /\ num_floordiv 100 a b = Some f /\
  num_mod 100 a b = Some r /\ ~ (val a == val f * val b + val r)%Q.
Proof.
  exists nm7, n2, (mkNum (-4) 1 None None), (mkNum (-1) 1 None None).
  split; [reflexivity|]. split; [reflexivity|]. split; [vm_compute; reflexivity|]. split; [vm_compute; reflexivity|].
  vm_compute. discriminate.
Qed.
Theorem c05_floor_ceil_trunc : forall p a, 1 <= p -> good a -> small (p - 1) (nnum a) ->
  nnum (num_floor p a) = nnum a / nden a /\ nnum (num_ceil p a) = - (- nnum a / nden a) /\
  nnum (num_trunc p a) = Z.quot (nnum a) (nden a) /\ num_int p a = Z.quot (nnum a) (nden a).
Proof.
  intros p a Hp Ga S. unfold num_int, num_floor, num_ceil, num_trunc, to_decimal, ddiv. cbn [nnum].
  rewrite floor_rnd, ceil_rnd, trunc_rnd by auto. auto.
Qed.
Example c05_ex : num_floordiv 100 n7 n2 = Some (mkNum 3 1 None None) /\ num_mod 100 n7 n2 = Some (mkNum 1 1 None None)
  /\ mod_fits 100 n7 n2 /\ num_mod 100 n56 n34 = Some (mkNum 1 12 None None).
Proof. unfold mod_fits, small. vm_compute. repeat split. Qed.

(** ** C06.  [dpow] is python's Decimal power, assumed exact when the exact result fits the precision. *)
Theorem c06_pow_nonneg : forall p dpow a b, 1 <= p -> pow_ok p dpow -> good a -> nden b = 1 -> small p (nnum b) ->
  0 <= nnum b -> (nnum a <> 0 \/ 0 < nnum b) -> small p (nnum a ^ nnum b) -> small p (nden a ^ nnum b) ->
  exists r, num_pow p dpow a b = Some r /\ (val r == Qpower (val a) (nnum b))%Q /\ good r /\ lowest r /\ ncast r = ncast a.
Proof. exact num_pow_nonneg. Qed.
Theorem c06_pow_negative : forall p dpow a b, 1 <= p -> pow_ok p dpow -> good a -> nden b = 1 -> small p (nnum b) ->
  nnum b < 0 -> nnum a <> 0 -> small p (nnum a ^ (- nnum b)) -> small p (nden a ^ (- nnum b)) ->
  exists r, num_pow p dpow a b = Some r /\ (val r == Qpower (val a) (nnum b))%Q /\ good r /\ lowest r /\ ncast r = ncast a.
Proof. exact num_pow_neg. Qed.
Theorem c06_zero_to_negative_refused : forall p dpow a b, 1 <= p -> pow_ok p dpow -> good a -> nden b = 1 ->
  small p (nnum b) -> nnum b < 0 -> nnum a = 0 -> num_pow p dpow a b = None.
Proof. exact num_pow_zero_neg. Qed.
Theorem c06_exponents_add : forall p dpow a m n, 1 <= p -> pow_ok p dpow -> good a -> nnum a <> 0 ->
  nden m = 1 -> nden n = 1 -> 0 <= nnum m -> 0 <= nnum n -> small p (nnum m + nnum n) ->
  small p (nnum a ^ (nnum m + nnum n)) -> small p (nden a ^ (nnum m + nnum n)) ->
  forall s, nden s = 1 -> nnum s = nnum m + nnum n ->
  exists x y z w, num_pow p dpow a m = Some x /\ num_pow p dpow a n = Some y /\ num_pow p dpow a s = Some z /\
     num_mul p x y = Some w /\ (val w == val z)%Q.
Proof. exact num_pow_plus. Qed.
Example c06_conforming_power_exists : forall p, pow_ok p dpow_int.
Proof. exact dpow_int_ok. Qed.
Example c06_ex : num_pow 100 dpow_int n34 n2 = Some (mkNum 9 16 None None) /\
  num_pow 100 dpow_int n34 (mkNum (-3) 1 None None) = Some (mkNum 64 27 None None).
Proof. vm_compute. auto. Qed.

(** ** C07 *)
Theorem c07_literal_match : forall l r, lit_ok l -> stops_digits l r -> match_number (lit_text l ++ r) = Some (l, r).
Proof. exact match_number_complete. Qed.
Theorem c07_literal_match_sound : forall s l r, match_number s = Some (l, r) -> s = lit_text l ++ r /\ lit_ok l.
Proof. exact match_number_sound. Qed.
(** Any number of integer digits; at most [p] fractional ones. *)
Theorem c07_literal_exact : forall p l, 1 <= p -> lit_ok l ->
  (match l_frac l with Some f => Z.of_nat (length f) <= p | None => True end) ->
  exists r, number_of_lit p l = Some r /\ (val r == spec_val l)%Q /\ good r /\ lowest r.
Proof. exact number_of_lit_exact. Qed.
Example c07_ex : match_number $"-12.50+3" = Some (mkLit true $"12" (Some $"50"), $"+3") /\
  number_of_lit 100 (mkLit true $"12" (Some $"50")) = Some (mkNum (-25) 2 None None).
Proof. vm_compute. auto. Qed.

(** ** C08 *)
Theorem c08_printed_literal : forall p places a s, 1 <= places -> to_string_plain p places a = Some s ->
  exists l, s = lit_text l /\ lit_ok l /\
    (l_neg l = true <-> (rnd p (val a) < 0)%Q) /\
    (match l_frac l with Some f => Z.of_nat (length f) <= places /\ (exists r x, f = r ++ [x] /\ x <> "0"%char) | None => True end) /\
    (spec_val l == inject_Z (qround_half_up (rnd p (val a) * inject_Z (10 ^ places))) / inject_Z (10 ^ places))%Q.
Proof. exact to_string_lit. Qed.
Theorem c08_printed_error : forall p places a s, 1 <= places -> to_string_plain p places a = Some s ->
  exists l, s = lit_text l /\ lit_ok l /\
    (Qabs (spec_val l - val a) <= (1#2) * p10 (- places) + (1#2) * p10 (1 - p) * Qabs (val a))%Q.
Proof. exact to_string_error. Qed.
Theorem c08_round_trip : forall p places a m, 1 <= p -> 1 <= places -> places <= p ->
  (val a == inject_Z m / inject_Z (10 ^ places))%Q -> Z.abs m < 10 ^ p ->
  exists l, to_string_plain p places a = Some (lit_text l) /\ lit_ok l /\ (spec_val l == val a)%Q /\
    match_number (lit_text l) = Some (l, []) /\
    exists r, number_of_lit p l = Some r /\ (val r == val a)%Q /\ good r /\ lowest r.
Proof. exact to_string_exact. Qed.
Theorem c08_printable : forall p places a m, 1 <= p -> 1 <= places -> Z.abs m < 10 ^ p ->
  (Qabs (val a) <= inject_Z (Z.abs m) / inject_Z (10 ^ places))%Q -> exists s, to_string_plain p places a = Some s.
Proof. exact to_string_total. Qed.
Example c08_ex : to_string_plain 100 30 (mkNum (-25) 2 None None) = Some $"-12.5" /\
  to_string_plain 100 30 (mkNum 2 3 None None) = Some $"0.666666666666666666666666666667".
Proof. vm_compute. auto. Qed.
(** A small negative Number prints as "-0". *)
Theorem c08_negative_zero_refuted : exists a, good a /\ to_string_plain 100 30 a = Some $"-0".
Proof. exists (mkNum (-1) (10 ^ 40) None None). split; [reflexivity|vm_compute; reflexivity]. Qed.
(** A Number of 71 integer digits cannot be printed at all (decimal.InvalidOperation). *)
Theorem c08_large_numbers_refuted : exists a, good a /\ lowest a /\ to_string_plain 100 30 a = None.
Proof.
  exists (mkNum (10 ^ 70) 1 None None). split; [reflexivity|]. split; [|vm_compute; reflexivity].
  apply gcd1_lowest. vm_compute. reflexivity.
Qed.

(** ** C50 *)
Theorem c50_rounding_error : forall p x, (Qabs (rnd p x - x) <= (1#2) * p10 (1 - p) * Qabs x)%Q.
Proof. exact rnd_err_rel. Qed.
Theorem c50_rounding_exact_when_fits : forall p x, 1 <= p -> fits p x -> (rnd p x == x)%Q.
Proof. exact rnd_fits. Qed.
Theorem c50_mul_error : forall p a b, 1 <= p -> good a -> good b ->
  exists r e1 e2 e3 e4, num_mul p a b = Some r /\
    (Qabs e1 <= ulp2 p)%Q /\ (Qabs e2 <= ulp2 p)%Q /\ (Qabs e3 <= ulp2 p)%Q /\ (Qabs e4 <= ulp2 p)%Q /\
    (~ (1 + e2) * (1 + e4) == 0)%Q /\
    (val r == val a * val b * ((1 + e1) * (1 + e3) / ((1 + e2) * (1 + e4))))%Q.
Proof. exact num_mul_rel. Qed.
Theorem c50_div_error : forall p a b, 1 <= p -> good a -> good b -> nnum b <> 0 ->
  exists r e1 e2 e3 e4, num_div p a b = Some r /\
    (Qabs e1 <= ulp2 p)%Q /\ (Qabs e2 <= ulp2 p)%Q /\ (Qabs e3 <= ulp2 p)%Q /\ (Qabs e4 <= ulp2 p)%Q /\
    (~ (1 + e2) * (1 + e4) == 0)%Q /\
    (val r == val a / val b * ((1 + e1) * (1 + e3) / ((1 + e2) * (1 + e4))))%Q.
Proof. exact num_div_rel. Qed.
Example c50_ex : rnd 3 (2 # 3) = (667 # 1000)%Q /\ rnd 3 (123456 # 1) = (123000 # 1)%Q.
Proof. vm_compute. auto. Qed.

Print Assumptions c01_small_operands_exact.
Print Assumptions c02_positive_denominator.
Print Assumptions c02_unique.
Print Assumptions c03_add_comm.
Print Assumptions c03_mul_comm.
Print Assumptions c04_small_exact.
Print Assumptions c04_strict_and_hash_refuted.
Print Assumptions c05_same_sign_identity.
Print Assumptions c06_exponents_add.
Print Assumptions c06_pow_negative.
Print Assumptions c07_literal_exact.
Print Assumptions c07_literal_match.
Print Assumptions c08_round_trip.
Print Assumptions c08_printed_error.
Print Assumptions c08_printable.
Print Assumptions c50_mul_error.
Print Assumptions c50_div_error.
