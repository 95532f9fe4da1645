(** floor, ceil and round to a number of places. *)
From Coq Require Import ZArith QArith Qabs Qround Ascii String List Bool Lia Lqa.
From Verif Require Import Base BaseProofs Dec DecProofs Num NumSpec NumProofs NumProofs2 NumProofs3 NumProofs4 Lex LexProofs Bases BasesProofs Formats Units Install Syntax Pos Call CallSpec CallProofs Loop Parse Exec ExecSpec Std StdSpec StdProofs StdProofs4 StdProofs5 StdProofs6 StdProofs7 StdProofs9 TextSpec TextProofs ArithProofs RoundSpec.
Import ListNotations.
Open Scope Z_scope.

Lemma scaled_size j a x m : good a -> size_le j a -> 0 < m < 10 ^ j -> good x -> lowest x -> (val x == val a * inject_Z m)%Q ->
  Z.abs (nnum x) < 10 ^ (2 * j) /\ nden x < 10 ^ j.
Proof.
  intros Ga [S1 S2] [Hm Sm] Gx Lx V. destruct (lowest_scale x (nnum a * m) (nden a) Gx Lx Ga) as (k & Hk & E1 & E2).
  { rewrite V. unfold val. rewrite inject_Z_mult. field. intros C. unfold good in Ga. pose proof (inject_pos (nden a) Ga). lra. }
  assert (J : 0 <= j) by (destruct (Z.leb_spec 0 j); [lia|]; rewrite Z.pow_neg_r in Sm by lia; lia).
  assert (P : 10 ^ (2 * j) = 10 ^ j * 10 ^ j) by (rewrite <- Z.pow_add_r by lia; f_equal; lia). unfold good in *. rewrite P.
  assert (A : Z.abs (nnum x) * k = Z.abs (nnum a) * m) by (rewrite <- (Z.abs_eq k) at 1 by lia; rewrite <- Z.abs_mul, <- E2, Z.abs_mul, (Z.abs_eq m) by lia; reflexivity).
  split; [|nia]. assert (Z.abs (nnum x) <= Z.abs (nnum a) * m) by nia. nia.
Qed.
Lemma floor_is x : good x -> floor_of (val x) (nnum x / nden x).
Proof.
  intros G. unfold floor_of. split; [apply val_frac; [exact G|lia]|]. apply Qnot_le_lt. intros C. change 1%Q with (inject_Z 1) in C. rewrite <- inject_Z_plus in C.
  apply (val_frac x G) in C. lia.
Qed.
Lemma ceil_is x : good x -> ceil_of (val x) (- (- nnum x / nden x)).
Proof.
  intros G. destruct (floor_is (mkNum (- nnum x) (nden x) None None) G) as [H1 H2]. cbn [nnum nden] in *.
  assert (V : (val (mkNum (- nnum x) (nden x) None None) == - val x)%Q).
  { unfold val. cbn [nnum nden]. rewrite inject_Z_opp. unfold Qdiv. ring. }
  rewrite V in H1, H2. unfold ceil_of. rewrite inject_Z_opp. split; lra.
Qed.
Lemma half_floor x : (0 <= x)%Q -> qround_half_up x = Qfloor (x + (1#2)).
Proof.
  intros H. unfold qround_half_up. rewrite half_up_floor by lia. destruct x as [n d]. cbn [Qnum Qden]. unfold Qle in H. cbn in H.
  assert (N : 0 <= n) by lia. rewrite Z.abs_eq by lia. rewrite <- (qmake_div n d). destruct (Z.sgn_spec n) as [[S ->]|[[S ->]|[S _]]]; [| |lia].
  - ring.
  - subst n. rewrite (Qfloor_comp ((0 # d) + (1 # 2)) (1#2)) by (unfold Qeq; cbn; lia). reflexivity.
Qed.
Lemma half_up_pos x : (0 <= x)%Q -> (inject_Z (qround_half_up x) - (1#2) <= x < inject_Z (qround_half_up x) + (1#2))%Q.
Proof.
  intros H. rewrite (half_floor x H). pose proof (Qfloor_le (x + (1#2))). pose proof (Qlt_floor (x + (1#2))) as F. rewrite inject_Z_plus in F. change (inject_Z 1) with 1%Q in F. split; lra.
Qed.
Lemma half_up_neg x : (x <= 0)%Q -> (inject_Z (qround_half_up x) - (1#2) < x <= inject_Z (qround_half_up x) + (1#2))%Q.
Proof.
  intros H. assert (E : qround_half_up x = - qround_half_up (- x)).
  { unfold qround_half_up. destruct x as [n d]. cbn [Qopp Qnum Qden]. rewrite Z.abs_opp, Z.sgn_opp. ring. }
  rewrite E. destruct (half_up_pos (- x)) as [H1 H2]; [lra|]. rewrite inject_Z_opp. split; lra.
Qed.
Lemma half_up_near x q : (x == q)%Q -> nearest_of q (qround_half_up x).
Proof. intros E. pose proof (half_up_pos x) as P. pose proof (half_up_neg x) as N. generalize dependent (qround_half_up x). intros z P N. rewrite E in P, N. split; assumption. Qed.
Lemma nearest_dec p k x z : 0 <= k -> 2 * k + 1 <= p -> good x -> size_le k x -> Z.abs (2 * z) + 1 < 10 ^ k -> 2 < 10 ^ k ->
  nearest_of (to_decimal p x) z -> nearest_of (val x) z.
Proof.
  intros Hk Hp Gx Sx Sz S2 H.
  assert (Hh : forall h, h = 2 * z + 1 \/ h = 2 * z - 1 -> (inject_Z h / inject_Z 2 <= val x <-> inject_Z h / inject_Z 2 <= to_decimal p x)%Q /\ (val x <= inject_Z h / inject_Z 2 <-> to_decimal p x <= inject_Z h / inject_Z 2)%Q).
  { intros h Eh. set (b := mkNum h 2 None None). assert (Gb : good b) by reflexivity.
    assert (Sb : size_le k b) by (split; cbn [nnum nden b]; lia). assert (V : (val b == inject_Z h / inject_Z 2)%Q) by reflexivity.
    assert (D : (to_decimal p b == inject_Z h / inject_Z 2)%Q).
    { unfold to_decimal, ddiv. cbn [nnum nden b]. apply rnd_fits; [lia|]. exists (h * 5), (-1). assert (10 ^ k * 10 <= 10 ^ p).
      { replace p with ((p - k) + k) by lia. rewrite Z.pow_add_r by lia. rewrite Z.mul_comm. apply Z.mul_le_mono_nonneg_r; [lia|]. change 10 with (10 ^ 1) at 1. apply Z.pow_le_mono_r; lia. }
      split; [lia|]. rewrite inject_Z_mult. change (p10 (-1)) with (1#10)%Q. change (inject_Z 5) with 5%Q. change (inject_Z 2) with 2%Q. field. }
    destruct (num_ltb_exact p k b x Hk Hp Gb Gx Sb Sx) as [L1 _]. destruct (num_ltb_exact p k x b Hk Hp Gx Gb Sx Sb) as [L2 _].
    unfold num_ltb in L1, L2. rewrite negb_true_iff in L1, L2. rewrite <- V. assert (V2 : (to_decimal p b == val b)%Q) by (rewrite D; symmetry; exact V).
    split.
    - assert (X : Qle_bool (to_decimal p b) (to_decimal p x) = true <-> (val b <= val x)%Q).
      { rewrite <- not_false_iff_true, L2. split; [apply Qnot_lt_le|]. intros A B. lra. }
      rewrite Qle_bool_iff, V2 in X. symmetry. exact X.
    - assert (X : Qle_bool (to_decimal p x) (to_decimal p b) = true <-> (val x <= val b)%Q).
      { rewrite <- not_false_iff_true, L1. split; [apply Qnot_lt_le|]. intros A B. lra. }
      rewrite Qle_bool_iff, V2 in X. symmetry. exact X. }
  assert (Sg : ((0 <= val x)%Q -> (0 <= to_decimal p x)%Q) /\ ((val x <= 0)%Q -> (to_decimal p x <= 0)%Q)).
  { unfold to_decimal, ddiv. fold (val x). assert (R0 : rnd p 0 = 0%Q) by (apply rnd_0; reflexivity).
    split; intros Q; [rewrite <- R0 at 1|rewrite <- R0]; apply rnd_mono; try lia; exact Q. }
  destruct (Hh (2 * z + 1) (or_introl eq_refl)) as [A1 A2]. destruct (Hh (2 * z - 1) (or_intror eq_refl)) as [B1 B2].
  assert (EA : (inject_Z (2 * z + 1) / inject_Z 2 == inject_Z z + (1#2))%Q) by (rewrite inject_Z_plus, inject_Z_mult; change (inject_Z 2) with 2%Q; change (inject_Z 1) with 1%Q; field).
  assert (EB : (inject_Z (2 * z - 1) / inject_Z 2 == inject_Z z - (1#2))%Q).
  { unfold Z.sub. rewrite inject_Z_plus, inject_Z_mult. change (inject_Z 2) with 2%Q; change (inject_Z (- (1))) with (-(1))%Q; field. }
  rewrite EA in A1, A2. rewrite EB in B1, B2. destruct H as [H1 H2]. destruct Sg as [S3 S4]. split; intros Q.
  - specialize (H1 (S3 Q)) as [P1 P2]. split; [now apply B1|]. apply Qnot_le_lt. intros C. apply A1 in C. lra.
  - specialize (H2 (S4 Q)) as [P1 P2]. split; [|now apply A2]. apply Qnot_le_lt. intros C. apply B2 in C. lra.
Qed.

(** The three roundings of a scaled number *)
Definition rounds (f : Z -> number -> option number) (kind : Q -> Z -> Prop) : Prop :=
  forall p j x, 0 <= j -> 4 * j + 3 <= p -> good x -> Z.abs (nnum x) < 10 ^ (2 * j) -> nden x < 10 ^ j ->
  exists z y, f p x = Some y /\ kind (val x) z /\ nnum y = z /\ nden y = 1 /\ ncast y = ncast x /\ Z.abs z <= 10 ^ (2 * j).
Lemma val_bound x N : good x -> Z.abs (nnum x) < N -> (Qabs (val x) <= inject_Z N)%Q.
Proof.
  intros G H. unfold good in G. unfold val. apply Qabs_Qle_condition. pose proof (inject_pos (nden x) G) as P.
  split; [apply Qle_shift_div_l|apply Qle_shift_div_r]; try exact P; rewrite <- ?inject_Z_opp, <- inject_Z_mult, <- Zle_Qle; nia.
Qed.
Lemma small_minus p j x : 0 <= j -> 4 * j + 3 <= p -> Z.abs (nnum x) < 10 ^ (2 * j) -> small (p - 1) (nnum x).
Proof. intros Hj Hp H. unfold small. eapply Z.lt_le_trans; [exact H|]. apply Z.pow_le_mono_r; lia. Qed.
Lemma rounds_floor : rounds (fun p x => Some (num_floor p x)) floor_of.
Proof.
  intros p j x Hj Hp G S1 S2. exists (nnum x / nden x), (num_floor p x). split; [reflexivity|]. split; [now apply floor_is|].
  split; [unfold num_floor, to_decimal, ddiv; cbn [nnum]; apply floor_rnd; [lia|exact G|now apply (small_minus p j)]|]. split; [reflexivity|]. split; [reflexivity|].
  unfold good in G. assert (0 < 10 ^ (2 * j)) by (apply Z.pow_pos_nonneg; lia). apply Z.abs_le. split; [apply Z.div_le_lower_bound; [lia|nia]|]. apply Z.div_le_upper_bound; [lia|nia].
Qed.
Lemma rounds_ceil : rounds (fun p x => Some (num_ceil p x)) ceil_of.
Proof.
  intros p j x Hj Hp G S1 S2. exists (- (- nnum x / nden x)), (num_ceil p x). split; [reflexivity|]. split; [now apply ceil_is|].
  split; [unfold num_ceil, to_decimal, ddiv; cbn [nnum]; apply ceil_rnd; [lia|exact G|now apply (small_minus p j)]|]. split; [reflexivity|]. split; [reflexivity|].
  unfold good in G. assert (0 < 10 ^ (2 * j)) by (apply Z.pow_pos_nonneg; lia). rewrite Z.abs_opp. apply Z.abs_le. split; [apply Z.div_le_lower_bound; [lia|nia]|]. apply Z.div_le_upper_bound; [lia|nia].
Qed.
Lemma rounds_nearest : rounds num_round nearest_of.
Proof.
  intros p j x Hj Hp G S1 S2. set (q := to_decimal p x). set (z := qround_half_up (q * inject_Z (10 ^ 0))).
  assert (Q1 : (q * inject_Z (10 ^ 0) == q)%Q) by (change (inject_Z (10 ^ 0)) with 1%Q; ring).
  assert (N : nearest_of q z).
  { apply half_up_near. exact Q1. }
  assert (P0 : 0 < 10 ^ (2 * j)) by (apply Z.pow_pos_nonneg; lia).
  assert (Zb : Z.abs z <= 10 ^ (2 * j)).
  { assert (R : forall y, Z.abs y = 10 ^ (2 * j) -> rnd p (inject_Z y) = inject_Z y) by (intros y Hy; apply rnd_int_id; [lia|]; rewrite Hy; apply Z.pow_le_mono_r; lia).
    pose proof (val_bound x (10 ^ (2 * j)) G S1) as B. apply Qabs_Qle_condition in B as [B1 B2].
    assert (U : (q <= inject_Z (10 ^ (2 * j)))%Q) by (rewrite <- (R (10 ^ (2 * j))) by lia; apply rnd_mono; [lia|exact B2]).
    assert (D : (inject_Z (- 10 ^ (2 * j)) <= q)%Q) by (rewrite <- (R (- 10 ^ (2 * j))) by lia; apply rnd_mono; [lia|]; rewrite inject_Z_opp; exact B1).
    destruct N as [N1 N2]. destruct (Qlt_le_dec q 0) as [C|C].
    - destruct (N2 (Qlt_le_weak _ _ C)) as [M1 M2]. assert (X1 : (inject_Z z < inject_Z 1)%Q) by (change (inject_Z 1) with 1%Q; lra). assert (X2 : (inject_Z (- 10 ^ (2 * j) - 1) < inject_Z z)%Q).
      { unfold Z.sub. rewrite inject_Z_plus. change (inject_Z (- (1))) with (-(1))%Q. lra. }
      rewrite <- Zlt_Qlt in X1, X2. lia.
    - destruct (N1 C) as [M1 M2]. assert (X1 : (inject_Z (-1) < inject_Z z)%Q) by (change (inject_Z (-1)) with (-(1))%Q; lra). assert (X2 : (inject_Z z < inject_Z (10 ^ (2 * j) + 1))%Q).
      { rewrite inject_Z_plus. change (inject_Z 1) with 1%Q. lra. }
      rewrite <- Zlt_Qlt in X1, X2. lia. }
  assert (T : 10 ^ (2 * j + 1) = 10 * 10 ^ (2 * j)) by (rewrite Z.pow_add_r by lia; lia).
  assert (J2 : 10 ^ j <= 10 ^ (2 * j + 1)) by (apply Z.pow_le_mono_r; lia).
  exists z, (mkNum z 1 (ncast x) None). split; [|split; [|split; [reflexivity|split; [reflexivity|split; [reflexivity|exact Zb]]]]].
  - unfold num_round, quantize. fold q. fold z. assert (L : Z.abs z < 10 ^ p) by (eapply Z.le_lt_trans; [exact Zb|apply Z.pow_lt_mono_r; lia]).
    apply Z.ltb_lt in L. rewrite L. change 1%Q with (inject_Z 1). rewrite num_make_Z. cbn [Z.eqb]. unfold num_reduce. cbn [Z.ltb Z.compare]. rewrite Z.gcd_1_r. reflexivity.
  - apply (nearest_dec p (2 * j + 1) x z); try lia; [exact G|split; lia|exact N].
Qed.

Definition respects (kind : Q -> Z -> Prop) : Prop := forall q q' z, (q == q')%Q -> kind q z -> kind q' z.
Lemma respects_floor : respects floor_of. Proof. intros q q' z E. unfold floor_of. now rewrite E. Qed.
Lemma respects_ceil : respects ceil_of. Proof. intros q q' z E. unfold ceil_of. now rewrite E. Qed.
Lemma respects_nearest : respects nearest_of. Proof. intros q q' z E. unfold nearest_of. now rewrite E. Qed.
Lemma rounding_core L f kind j a k u s : rounds f kind -> respects kind -> 0 <= j -> 4 * j + 3 <= l_prec L -> good a -> size_le j a -> 0 <= k + hidden_digits (ncast a) ->
  0 < shown_base (ncast a) ^ (k + hidden_digits (ncast a)) < 10 ^ j ->
  exists z n, kind (val a * inject_Z (shown_base (ncast a) ^ (k + hidden_digits (ncast a))))%Q z /\
    (val n == inject_Z z / inject_Z (shown_base (ncast a) ^ (k + hidden_digits (ncast a))))%Q /\ good n /\ lowest n /\ ncast n = ncast a /\
    (let k' := (k + cast_offset (ncast a))%Z in
    if (k' <? 0)%Z then pyerr
    else
      let m := num_of_Z (l_prec L) (cast_base (ncast a) ^ k') in
      let* x := pym (num_mul (l_prec L) a m) in
      let* y := pym (f (l_prec L) x) in
      let* z := pym (num_div (l_prec L) y m) in
      with_unit u (VNum z)) s = (OOk (mkOR (VNum n) (Some u) None), s).
Proof.
  intros R Rs Hj Hp Ga Sa Hk Hm. change cast_offset with hidden_digits. change cast_base with shown_base.
  set (m := shown_base (ncast a) ^ (k + hidden_digits (ncast a))) in *. set (p := l_prec L) in *. cbv zeta.
  destruct (Z.ltb_spec (k + hidden_digits (ncast a)) 0); [lia|]. rewrite num_of_Z_eq. set (M := mkNum m 1 None None).
  assert (GM : good M) by reflexivity. assert (P1 : 10 ^ 0 <= 10 ^ j) by (apply Z.pow_le_mono_r; lia).
  assert (J1 : 1 < 10 ^ j) by lia.
  assert (SM : size_le j M) by (split; cbn [nnum nden M]; lia).
  assert (VM : (val M == inject_Z m)%Q) by (unfold val; cbn [nnum nden M]; change (inject_Z 1) with 1%Q; field).
  destruct (num_mul_exact p a M) as (x & Ex & Vx & Gx & Lx & Cx); [lia|exact Ga|exact GM|apply (size_mul p j); auto; lia|].
  rewrite VM in Vx. destruct (scaled_size j a x m Ga Sa Hm Gx Lx Vx) as [Sx1 Sx2].
  destruct (R p j x Hj Hp Gx Sx1 Sx2) as (z & y & Ey & Kz & Ny & Dy & Cy & Bz).
  destruct (num_div_exact p y M) as (n & En & Vn & Gn & Ln & Cn); [lia|unfold good; lia|exact GM| |cbn [nnum M]; lia|].
  { unfold div_fits. cbn [nnum nden M]. rewrite Ny, Dy. rewrite !Z.mul_1_r || idtac. split; [|rewrite ?Z.mul_1_l].
    - unfold small. eapply Z.le_lt_trans; [exact Bz|]. apply Z.pow_lt_mono_r; lia.
    - unfold small. rewrite Z.abs_eq by lia. eapply Z.lt_le_trans; [apply Hm|]. apply Z.pow_le_mono_r; lia. }
  exists z, n. assert (K : kind (val a * inject_Z m)%Q z) by (exact (Rs _ _ _ Vx Kz)).
  split; [exact K|]. split; [rewrite Vn, VM; unfold val; rewrite Ny, Dy; change (inject_Z 1) with 1%Q; field; intros C; pose proof (inject_pos m (proj1 Hm)); lra|].
  split; [exact Gn|]. split; [exact Ln|]. split; [now rewrite Cn, Cy, Cx|]. unfold bind, pym. fold m. fold M. rewrite Ex. unfold ret. rewrite Ey, En. reflexivity.
Qed.

(** * Calls of the three functions *)
Definition rounding_def (L : lib) (name : str) f : opdef := no_norm (snd (fdef name 1 2 (all_are tynum) (fn_rounding L f))).
Lemma rounding_prepare1 L name f x a : number_at L x a ->
  prepare (std_env L) (rounding_def L name f) [rval x] [runit x] [rref x] = Ok ([VNum a], [runit x], ncast a, None).
Proof.
  intros Hx. unfold prepare. replace (o_autoin (rounding_def L name f)) with true by reflexivity.
  assert (V : validate (std_env L) (rounding_def L name f) [rval x] [runit x] [rref x] = Ok tt).
  { unfold validate, rounding_def, no_norm, fdef.
    cbn [snd o_min o_max o_units o_vals all_are each_is length Nat.ltb Nat.leb obind out_each indices rs_from rs_to rs_types Nat.min Nat.add Nat.sub seq nth_error].
    rewrite !(type_num_first L x a _ Hx). reflexivity. }
  assert (C : convert_numbers (std_env L) (rounding_def L name f) [rval x] = ([VNum a], ncast a)).
  { unfold number_at in Hx. unfold convert_numbers, rounding_def, no_norm, fdef.
    cbn [snd o_vals all_are each_is fold_left rs_types existsb is_plain_number tynum ty].
    replace (seq_eqb ($"number") s_number) with true by reflexivity; cbn [orb].
    unfold convert_range; cbn [rs_from rs_to length Nat.add Nat.sub seq fold_left]; unfold convert_one; cbn [nth_error]; rewrite !to_number_any, Hx; cbn [fst snd list_set].
    reflexivity. }
  rewrite V, C. cbn [obind fst snd]. reflexivity.
Qed.
Lemma rounding_prepare2 L name f x y a b : number_at L x a -> number_at L y b ->
  prepare (std_env L) (rounding_def L name f) [rval x; rval y] [runit x; runit y] [rref x; rref y] = Ok ([VNum a; VNum b], [runit x; runit y], format_of a b, None).
Proof.
  intros Hx Hy. unfold prepare. replace (o_autoin (rounding_def L name f)) with true by reflexivity.
  assert (V : validate (std_env L) (rounding_def L name f) [rval x; rval y] [runit x; runit y] [rref x; rref y] = Ok tt).
  { unfold validate, rounding_def, no_norm, fdef.
    cbn [snd o_min o_max o_units o_vals all_are each_is length Nat.ltb Nat.leb obind out_each indices rs_from rs_to rs_types Nat.min Nat.add Nat.sub seq nth_error].
    rewrite !(type_num_first L x a _ Hx), !(type_num_first L y b _ Hy). reflexivity. }
  assert (C : convert_numbers (std_env L) (rounding_def L name f) [rval x; rval y] = ([VNum a; VNum b], format_of a b)).
  { unfold number_at in Hx, Hy. unfold convert_numbers, rounding_def, no_norm, fdef.
    cbn [snd o_vals all_are each_is fold_left rs_types existsb is_plain_number tynum ty].
    replace (seq_eqb ($"number") s_number) with true by reflexivity; cbn [orb].
    unfold convert_range; cbn [rs_from rs_to length Nat.add Nat.sub seq fold_left]; unfold convert_one; cbn [nth_error]; rewrite !to_number_any, Hx, Hy; cbn [fst snd list_set].
    unfold format_of, first_some; destruct (ncast a); reflexivity. }
  rewrite V, C. cbn [obind fst snd]. reflexivity.
Qed.
Lemma rounding_call1 L h name f stl x a s : number_at L x a ->
  call (std_env L) h (rounding_def L name f) stl [x] s =
  match fn_rounding L f h [VNum a] [runit x] [rref x] stl s with
  | (OOk o, s') => (OOk (finish (rounding_def L name f) (ncast a) None o), s')
  | (OErr e, s') => if wrapped e then (OErr e, s') else if shows L (rval x) then (OErr (XCalc true (MOp name)), s') else (OPy, s')
  | (OPy, s') => if shows L (rval x) then (OErr (XCalc false (MOp name)), s') else (OPy, s')
  | (OFuel, s') => (OFuel, s')
  end.
Proof.
  intros Hx. destruct (is_num_scalar L x a Hx) as [Lx Ex]. rewrite call_scalars; [|cbn [forallb]; rewrite Lx; reflexivity|reflexivity].
  unfold call_plain. replace (o_excs (rounding_def L name f)) with false by reflexivity. unfold find_exc. cbn [find map]. rewrite Ex.
  rewrite (rounding_prepare1 L name f x a Hx). unfold bind, lift. cbn [fst snd forallb e_tostr std_env]. rewrite andb_true_r.
  replace (o_impl (rounding_def L name f)) with (fn_rounding L f) by reflexivity. replace (o_name (rounding_def L name f)) with name by reflexivity.
  destruct (fn_rounding L f h _ _ _ stl s) as [[o|e| |] s']; reflexivity.
Qed.
Lemma rounding_call2 L h name f stl x y a b s : number_at L x a -> number_at L y b ->
  call (std_env L) h (rounding_def L name f) stl [x; y] s =
  match fn_rounding L f h [VNum a; VNum b] [runit x; runit y] [rref x; rref y] stl s with
  | (OOk o, s') => (OOk (finish (rounding_def L name f) (format_of a b) None o), s')
  | (OErr e, s') => if wrapped e then (OErr e, s') else if shows L (rval x) && shows L (rval y) then (OErr (XCalc true (MOp name)), s') else (OPy, s')
  | (OPy, s') => if shows L (rval x) && shows L (rval y) then (OErr (XCalc false (MOp name)), s') else (OPy, s')
  | (OFuel, s') => (OFuel, s')
  end.
Proof.
  intros Hx Hy. destruct (is_num_scalar L x a Hx) as [Lx Ex]. destruct (is_num_scalar L y b Hy) as [Ly Ey]. rewrite call_scalars; [|cbn [forallb]; rewrite Lx, Ly; reflexivity|reflexivity].
  unfold call_plain. replace (o_excs (rounding_def L name f)) with false by reflexivity. unfold find_exc. cbn [find map]. rewrite Ex, Ey.
  rewrite (rounding_prepare2 L name f x y a b Hx Hy). unfold bind, lift. cbn [fst snd forallb e_tostr std_env]. rewrite andb_true_r.
  replace (o_impl (rounding_def L name f)) with (fn_rounding L f) by reflexivity. replace (o_name (rounding_def L name f)) with name by reflexivity.
  destruct (fn_rounding L f h _ _ _ stl s) as [[o|e| |] s']; reflexivity.
Qed.
Lemma round_whole L h name f kind stl x a s j : rounds f kind -> respects kind -> number_at L x a -> good a -> size_le j a ->
  0 <= j -> 4 * j + 3 <= l_prec L -> shown_base (ncast a) ^ hidden_digits (ncast a) < 10 ^ j ->
  exists n, call (std_env L) h (rounding_def L name f) stl [x] s = (OOk (mkRes (VNum n) (runit x) None), s) /\ rounded kind a 0 n /\ ncast n = ncast a.
Proof.
  intros R Rs Hx Ga Sa Hj Hp Hm.
  assert (O : 0 <= 0 + hidden_digits (ncast a)) by (destruct (ncast a) as [[]|]; cbn; lia).
  assert (B : 0 < shown_base (ncast a) ^ (0 + hidden_digits (ncast a)) < 10 ^ j) by (rewrite Z.add_0_l; split; [destruct (ncast a) as [[]|]; reflexivity|exact Hm]).
  destruct (rounding_core L f kind j a 0 (runit x) s R Rs Hj Hp Ga Sa O B) as (z & n & K & V & G & Lo & C & E).
  exists n. split; [|split; [exists z; cbv zeta; auto|exact C]]. rewrite (rounding_call1 L h name f stl x a s Hx).
  assert (F : fn_rounding L f h [VNum a] [runit x] [rref x] stl s = (OOk (mkOR (VNum n) (Some (runit x)) None), s)).
  { unfold fn_rounding. eapply eq_trans; [|exact E]. reflexivity. }
  rewrite F. unfold finish. cbn [or_val or_unit or_ref]. destruct n as [n1 n2 n3 n4]. cbn [ncast] in *. subst n3. destruct (ncast a) as [c|]; reflexivity.
Qed.
Lemma round_places L h name f kind stl x y a k s j : rounds f kind -> respects kind -> number_at L x a -> integer_at L y k -> good a -> size_le j a ->
  0 <= j -> 4 * j + 3 <= l_prec L -> 0 <= k + hidden_digits (ncast a) -> 0 < shown_base (ncast a) ^ (k + hidden_digits (ncast a)) < 10 ^ j ->
  exists n, call (std_env L) h (rounding_def L name f) stl [x; y] s = (OOk (mkRes (VNum n) (runit x) None), s) /\ rounded kind a k n.
Proof.
  intros R Rs Hx (_ & b & Hb & Nb & Db & Sb) Ga Sa Hj Hp O B.
  destruct (rounding_core L f kind j a k (runit x) s R Rs Hj Hp Ga Sa O B) as (z & n & K & V & G & Lo & C & E).
  assert (F : fn_rounding L f h [VNum a; VNum b] [runit x; runit y] [rref x; rref y] stl s = (OOk (mkOR (VNum n) (Some (runit x)) None), s)).
  { unfold fn_rounding. eapply eq_trans; [|exact E]. cbv zeta. unfold bind at 1. unfold ret at 1.
    rewrite (num_int_Z (l_prec L) b k); [reflexivity|lia| |lia]. unfold val. rewrite Nb, Db. change (inject_Z 1) with 1%Q. field. }
  rewrite (rounding_call2 L h name f stl x y a b s Hx Hb), F. unfold finish. cbn [or_val or_unit or_ref].
  replace (o_autores (rounding_def L name f)) with true by reflexivity. destruct n as [n1 n2 n3 n4]. cbn [ncast] in *. subst n3.
  unfold format_of. destruct (ncast a) as [c|] eqn:Ca; [|destruct (ncast b) as [c|]]; eexists; (split; [reflexivity|]); exists z; rewrite ?Ca; cbv zeta; repeat split; auto; try apply K; try apply V.
Qed.
Lemma round_negative L h name f stl x y a k s : 1 <= l_prec L -> number_at L x a -> integer_at L y k -> k + hidden_digits (ncast a) < 0 ->
  shows L (rval x) = true -> shows L (rval y) = true ->
  call (std_env L) h (rounding_def L name f) stl [x; y] s = (OErr (XCalc false (MOp name)), s).
Proof.
  intros Hp Hx (_ & b & Hb & Nb & Db & Sb) O Sx Sy. rewrite (rounding_call2 L h name f stl x y a b s Hx Hb).
  assert (F : fn_rounding L f h [VNum a; VNum b] [runit x; runit y] [rref x; rref y] stl s = (OPy, s)).
  { unfold fn_rounding. cbv zeta. unfold bind at 1. unfold ret at 1. rewrite (num_int_Z (l_prec L) b k); [|lia| |lia].
    - change cast_offset with hidden_digits. destruct (Z.ltb_spec (k + hidden_digits (ncast a)) 0); [reflexivity|lia].
    - unfold val. rewrite Nb, Db. change (inject_Z 1) with 1%Q. field. }
  now rewrite F, Sx, Sy.
Qed.
Definition rounding_fns : list (str * (Z -> number -> option number) * (Q -> Z -> Prop)) :=
  [($"floor", (fun p x => Some (num_floor p x)), floor_of); ($"ceil", (fun p x => Some (num_ceil p x)), ceil_of); ($"round", num_round, nearest_of)].
Lemma rounding_fn name f kind : In (name, f, kind) rounding_fns -> rounds f kind /\ respects kind /\ forall L, assoc name (g_funcs (std L)) = Some (rounding_def L name f).
Proof.
  intros H. repeat (destruct H as [H|H]; [injection H as <- <- <-|]); [| | |destruct H].
  - split; [apply rounds_floor|]. split; [apply respects_floor|]. reflexivity.
  - split; [apply rounds_ceil|]. split; [apply respects_ceil|]. reflexivity.
  - split; [apply rounds_nearest|]. split; [apply respects_nearest|]. reflexivity.
Qed.
Lemma rounds_with_fn name kind : In (name, kind) rounds_with -> exists f, In (name, f, kind) rounding_fns.
Proof.
  intros H. repeat (destruct H as [H|H]; [injection H as <- <-|]); [| | |destruct H].
  - exists (fun p x => Some (num_floor p x)). now left.
  - exists (fun p x => Some (num_ceil p x)). right. now left.
  - exists num_round. right. right. now left.
Qed.
