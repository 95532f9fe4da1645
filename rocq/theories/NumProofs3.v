From Coq Require Import ZArith QArith Qpower Qround Qabs Qreduction Ascii String List Bool Lia Lqa Setoid Znumtheory.
From Verif Require Import Base Dec Num NumSpec Lex LexSpec DecProofs NumProofs BaseProofs LexProofs NumProofs2.
Import ListNotations.
Open Scope Z_scope.

(** ** floor and remainder together *)
Lemma Qfloor_between x k : (inject_Z k <= x < inject_Z k + 1)%Q -> Qfloor x = k.
Proof.
  intros [H1 H2]. pose proof (Qfloor_le x). pose proof (Qlt_floor x) as F. rewrite inject_Z_plus in F.
  change (inject_Z 1) with 1%Q in F.
  assert (k < Qfloor x + 1) by (rewrite Zlt_Qlt, inject_Z_plus; change (inject_Z 1) with 1%Q; lra).
  assert (Qfloor x < k + 1) by (rewrite Zlt_Qlt, inject_Z_plus; change (inject_Z 1) with 1%Q; lra). lia.
Qed.

Lemma Qabs_cases x : (0 <= x /\ Qabs x == x)%Q \/ (x <= 0 /\ Qabs x == - x)%Q.
Proof.
  destruct (Qlt_le_dec x 0).
  - right. split; [lra|]. apply Qabs_neg. lra.
  - left. split; [lra|]. apply Qabs_pos. lra.
Qed.

Lemma val_nz b : good b -> nnum b <> 0 -> ~ (val b == 0)%Q.
Proof.
  intros Gb Hb. unfold val. intro E. assert (inject_Z (nnum b) == 0)%Q.
  { setoid_replace (inject_Z (nnum b)) with (inject_Z (nnum b) / inject_Z (nden b) * inject_Z (nden b))%Q.
    - rewrite E. ring.
    - field. apply inject_nz. unfold good in Gb. lia. }
  revert H. apply inject_nz; auto.
Qed.

Lemma num_divmod_same_sign p a b : 1 <= p -> good a -> good b -> nnum b <> 0 -> mod_fits p a b ->
  small (p - 1) (nnum a * nden b) -> small p (nden a * nnum b) -> (0 <= val a * val b)%Q ->
  exists f r, num_floordiv p a b = Some f /\ num_mod p a b = Some r /\
    (val a == val f * val b + val r)%Q.
Proof.
  intros Hp Ga Gb Hb F S1 S2 SS.
  destruct (num_floordiv_spec p a b Hp Ga Gb Hb S1 S2) as (f & F1 & F2 & F3 & _).
  destruct (num_mod_spec p a b Hp Ga Gb Hb F) as (r & k & R1 & R2 & R3 & R4 & R5 & _).
  exists f, r. split; auto. split; auto.
  assert (Vf : (val f == inject_Z (Qfloor (val a / val b)))%Q) by (unfold val at 1; rewrite F2, F3; field).
  rewrite Vf. rewrite R2 at 1.
  pose proof (val_nz b Gb Hb) as Bnz.
  assert (Fk : Qfloor (val a / val b) = k); [|rewrite Fk; reflexivity].
  apply Qfloor_between.
  assert (E : (val a / val b == inject_Z k + val r / val b)%Q) by (rewrite R2; field; auto).
  rewrite E.
  assert (Rb : (0 <= val r / val b < 1)%Q); [|lra].
  revert R3 R4 R5 SS Bnz. clear. generalize (val a) (val b) (val r). intros x y z H1 H2 H3 H4 H5.
  assert (S : (0 <= z * y)%Q).
  { destruct (Qeq_dec x 0) as [X0|X0].
    - assert (z == 0)%Q; [|nra]. rewrite X0 in H3. change (Qabs 0) with 0%Q in H3.
      destruct (Qabs_cases z) as [[Z1 Z2]|[Z1 Z2]]; rewrite Z2 in H3; lra.
    - assert (P : (0 <= (z * y) * (x * x))%Q).
      { setoid_replace ((z * y) * (x * x))%Q with ((z * x) * (x * y))%Q by ring. nra. }
      assert (0 < x * x)%Q by (destruct (Qlt_le_dec 0 x); [nra|]; assert (x < 0)%Q by (apply Qle_lteq in q; destruct q; [auto|contradiction]); nra).
      destruct (Qlt_le_dec (z * y) 0); [|auto]. nra. }
  destruct (Qlt_le_dec 0 y) as [P|N].
  - rewrite (Qabs_pos y) in H1 by lra. apply Qabs_Qlt_condition in H1.
    split; [apply Qle_shift_div_l; auto; nra|apply Qlt_shift_div_r; auto; lra].
  - assert (P : (0 < - y)%Q) by (apply Qle_lteq in N; destruct N; [lra|contradiction]).
    rewrite (Qabs_neg y) in H1 by lra. apply Qabs_Qlt_condition in H1.
    assert (E : (z / y == (- z) / (- y))%Q) by (field; auto). rewrite E.
    split; [apply Qle_shift_div_l; auto; nra|apply Qlt_shift_div_r; auto; lra].
Qed.

(** ** powers *)
Definition pow_ok (p : Z) (dpow : Q -> Q -> option Q) : Prop :=
  forall x y b e, (x == inject_Z b)%Q -> (y == inject_Z e)%Q -> 0 <= e -> (b <> 0 \/ 0 < e) -> small p (b ^ e) ->
    exists z, dpow x y = Some z /\ (z == inject_Z (b ^ e))%Q.

Lemma to_decimal_int p b : 1 <= p -> nden b = 1 -> small p (nnum b) -> to_decimal p b = inject_Z (nnum b).
Proof.
  intros Hp D S. unfold to_decimal, ddiv. apply rnd_Z; auto; [rewrite D; field|unfold small in S; lia].
Qed.

Lemma Qpower_frac n d e : 0 < d -> 0 <= e -> (Qpower (inject_Z n / inject_Z d) e == inject_Z (n ^ e) / inject_Z (d ^ e))%Q.
Proof.
  intros Hd He. unfold Qdiv. rewrite Qmult_power, Qinv_power. rewrite (Zpower_Qpower n e He), (Zpower_Qpower d e He). reflexivity.
Qed.

Lemma num_pow_nonneg p dpow a b : 1 <= p -> pow_ok p dpow -> good a -> nden b = 1 -> small p (nnum b) ->
  0 <= nnum b -> (nnum a <> 0 \/ 0 < nnum b) -> small p (nnum a ^ nnum b) -> small p (nden a ^ nnum b) ->
  exists r, num_pow p dpow a b = Some r /\ (val r == Qpower (val a) (nnum b))%Q /\ good r /\ lowest r /\ ncast r = ncast a.
Proof.
  intros Hp PO Ga Db Sb He NZ S1 S2. unfold num_pow. rewrite to_decimal_int by auto. unfold good in *.
  assert (Qle_bool 0 (inject_Z (nnum b)) = true) as ->.
  { apply Qle_bool_iff. change 0%Q with (inject_Z 0). rewrite <- Zle_Qle. auto. }
  cbn [negb].
  destruct (PO (inject_Z (nnum a)) (inject_Z (nnum b)) (nnum a) (nnum b)) as (z1 & E1 & V1); auto; try reflexivity.
  destruct (PO (inject_Z (nden a)) (inject_Z (nnum b)) (nden a) (nnum b)) as (z2 & E2 & V2); auto; try reflexivity; [lia|].
  rewrite E1, E2. rewrite (num_make_eq p (ncast a) _ _ _ _ V1 V2).
  apply make_exact; auto.
  - assert (0 < nden a ^ nnum b) by (apply Z.pow_pos_nonneg; auto). lia.
  - unfold val. rewrite Qpower_frac by auto. reflexivity.
Qed.

Lemma num_pow_neg p dpow a b : 1 <= p -> pow_ok p dpow -> good a -> nden b = 1 -> small p (nnum b) ->
  nnum b < 0 -> nnum a <> 0 -> small p (nnum a ^ (- nnum b)) -> small p (nden a ^ (- nnum b)) ->
  exists r, num_pow p dpow a b = Some r /\ (val r == Qpower (val a) (nnum b))%Q /\ good r /\ lowest r /\ ncast r = ncast a.
Proof.
  intros Hp PO Ga Db Sb He NZ S1 S2. unfold num_pow. rewrite to_decimal_int by auto. unfold good in *.
  assert (Qle_bool 0 (inject_Z (nnum b)) = false) as ->.
  { destruct (Qle_bool 0 _) eqn:E; auto. apply Qle_bool_iff in E. change 0%Q with (inject_Z 0) in E. rewrite <- Zle_Qle in E. lia. }
  cbn [negb].
  assert (DN : (dneg p (inject_Z (nnum b)) == inject_Z (- nnum b))%Q).
  { unfold dneg. rewrite (rnd_Z p (- nnum b)); [reflexivity|auto|rewrite inject_Z_opp; reflexivity|unfold small in Sb; lia]. }
  destruct (PO (inject_Z (nden a)) (dneg p (inject_Z (nnum b))) (nden a) (- nnum b)) as (z1 & E1 & V1); auto; try reflexivity; try lia.
  destruct (PO (inject_Z (nnum a)) (dneg p (inject_Z (nnum b))) (nnum a) (- nnum b)) as (z2 & E2 & V2); auto; try reflexivity; try lia.
  rewrite E1, E2. rewrite (num_make_eq p (ncast a) _ _ _ _ V1 V2).
  apply make_exact; auto.
  - apply Z.pow_nonzero; lia.
  - unfold val. rewrite <- (Z.opp_involutive (nnum b)) at 3. rewrite Qpower_opp, Qpower_frac by lia.
    field. split; apply inject_nz; apply Z.pow_nonzero; lia.
Qed.

Lemma num_pow_zero_neg p dpow a b : 1 <= p -> pow_ok p dpow -> good a -> nden b = 1 -> small p (nnum b) ->
  nnum b < 0 -> nnum a = 0 -> num_pow p dpow a b = None.
Proof.
  intros Hp PO Ga Db Sb He NZ. unfold num_pow. rewrite to_decimal_int by auto.
  assert (Qle_bool 0 (inject_Z (nnum b)) = false) as ->.
  { destruct (Qle_bool 0 _) eqn:E; auto. apply Qle_bool_iff in E. change 0%Q with (inject_Z 0) in E. rewrite <- Zle_Qle in E. lia. }
  cbn [negb].
  assert (DN : (dneg p (inject_Z (nnum b)) == inject_Z (- nnum b))%Q).
  { unfold dneg. rewrite (rnd_Z p (- nnum b)); [reflexivity|auto|rewrite inject_Z_opp; reflexivity|unfold small in Sb; lia]. }
  destruct (PO (inject_Z (nnum a)) (dneg p (inject_Z (nnum b))) (nnum a) (- nnum b)) as (z2 & E2 & V2); [reflexivity|auto|lia|lia| |].
  { unfold small. rewrite NZ, Z.pow_0_l by lia. apply pow10_pos; lia. }
  rewrite E2. clear E2. destruct (dpow _ _); auto. unfold num_make.
  assert (Qeq_bool z2 0 = true) as ->; auto. apply Qeq_bool_iff. rewrite V2, NZ, Z.pow_0_l by lia. reflexivity.
Qed.

(** a conforming power function exists *)
Definition dpow_int (x y : Q) : option Q :=
  let e := Qfloor y in let b := Qfloor x in
  if e <? 0 then None else if (b =? 0) && (e =? 0) then None else Some (inject_Z (b ^ e)).
Lemma dpow_int_ok p : pow_ok p dpow_int.
Proof.
  intros x y b e Ex Ey He NZ S. unfold dpow_int. rewrite (Qfloor_comp _ _ Ex), (Qfloor_comp _ _ Ey), !Qfloor_Z.
  destruct (Z.ltb_spec e 0); [lia|]. destruct (Z.eqb_spec b 0), (Z.eqb_spec e 0); cbn; try lia; eexists; split; reflexivity.
Qed.

(** ** printing *)
Definition lit_of (neg : bool) (ip fp : str) : declit :=
  mkLit neg ip (match rstrip "0"%char fp with [] => None | f => Some f end).

Lemma rstrip_app c x s : rstrip c s <> [] -> rstrip c (x ++ s) = x ++ rstrip c s.
Proof. intros H. induction x as [|a x IH]; cbn; auto. rewrite IH. destruct x; cbn; auto. destruct (rstrip c s); congruence. Qed.

Lemma rstrip_app_nil c x s : rstrip c s = [] -> rstrip c (x ++ s) = rstrip c x.
Proof. intros H. induction x as [|a x IH]; cbn; auto. rewrite IH; auto. Qed.

Lemma existsb_app_r {A} (f : A -> bool) x y : existsb f y = true -> existsb f (x ++ y) = true.
Proof. rewrite existsb_app. intros ->. apply orb_true_r. Qed.

Lemma rev_last {A} (x : list A) a : rev (x ++ [a]) = a :: rev x.
Proof. rewrite rev_app_distr. reflexivity. Qed.

Lemma strip_zeros_lit (neg : bool) ip fp : forallb is_digit fp = true ->
  strip_zeros ((if neg then ["-"%char] else []) ++ ip ++ "."%char :: fp) = lit_text (lit_of neg ip fp).
Proof.
  intros Hf. unfold strip_zeros. rewrite !app_assoc. set (h := (if neg then ["-"%char] else @nil ascii) ++ ip).
  rewrite existsb_app_r by reflexivity.
  assert (Hs : rstrip "0"%char ("."%char :: fp) = "."%char :: rstrip "0"%char fp).
  { cbn. destruct (rstrip _ fp); auto. }
  assert (R : rstrip "0"%char (h ++ "."%char :: fp) = h ++ "."%char :: rstrip "0"%char fp).
  { rewrite rstrip_app; rewrite Hs; auto; discriminate. }
  rewrite R. unfold lit_of, lit_text. cbn [l_neg l_int l_frac].
  destruct (rstrip_spec "0"%char fp) as (n & E & [N|(r & x & N & Nx)]).
  - rewrite N. rewrite rev_last. cbn. rewrite rev_involutive. unfold h. rewrite !app_nil_r. reflexivity.
  - rewrite N. destruct (r ++ [x]) as [|c0 r0] eqn:Er; [destruct r; discriminate|]. rewrite <- Er.
    replace (h ++ "."%char :: r ++ [x]) with ((h ++ "."%char :: r) ++ [x]) by (rewrite <- app_assoc; reflexivity).
    rewrite rev_last.
    assert (Dx : is_digit x = true).
    { rewrite forallb_forall in Hf. apply Hf. rewrite E, N. rewrite in_app_iff. left. rewrite <- ?Er. apply in_or_app; right; left; auto. }
    destruct (ceq x ".") eqn:C; [apply ceq_iff in C; subst x; discriminate|].
    unfold h. rewrite <- !app_assoc. reflexivity.
Qed.

Lemma frac_val_app_zeros f n : (frac_val (f ++ repeat "0"%char n) == frac_val f)%Q.
Proof.
  induction f as [|c f IH]; cbn [app frac_val].
  - induction n as [|n IH]; cbn [repeat frac_val]; [reflexivity|]. rewrite IH. reflexivity.
  - rewrite IH. reflexivity.
Qed.

Lemma frac_val_rstrip f : (frac_val (rstrip "0"%char f) == frac_val f)%Q.
Proof. destruct (rstrip_spec "0"%char f) as (n & E & _). rewrite E at 2. rewrite frac_val_app_zeros. reflexivity. Qed.

Lemma forallb_rstrip c f s : forallb f s = true -> forallb f (rstrip c s) = true.
Proof.
  intros H. destruct (rstrip_spec c s) as (n & E & _). rewrite E in H. rewrite forallb_app in H.
  apply andb_true_iff in H. tauto.
Qed.

Lemma lit_of_ok neg ip fp : ip <> [] -> forallb is_digit ip = true -> forallb is_digit fp = true -> lit_ok (lit_of neg ip fp).
Proof.
  intros H1 H2 H3. unfold lit_of, lit_ok. cbn. split; auto. split; auto.
  pose proof (forallb_rstrip "0"%char is_digit fp H3) as F. destruct (rstrip _ fp) eqn:E; auto. split; auto. discriminate.
Qed.

Lemma lit_of_val (neg : bool) ip fp : (spec_val (lit_of neg ip fp) ==
  (if neg then -1 else 1) * (int_val ip 0 + frac_val fp))%Q.
Proof.
  unfold spec_val, lit_of. cbn [l_neg l_int l_frac].
  assert (E : (frac_val match (match rstrip "0"%char fp with [] => None | f => Some f end) with Some f => f | None => [] end == frac_val fp)%Q).
  { rewrite <- (frac_val_rstrip fp). destruct (rstrip _ fp); reflexivity. }
  destruct neg; cbv zeta; rewrite E; ring.
Qed.

Lemma digits_val_zeros n ds : digits_val 10 (repeat 0 n ++ ds) = digits_val 10 ds.
Proof.
  rewrite digits_val_app. assert (digits_val 10 (repeat 0 n) = 0) as E; [|rewrite E; lia].
  induction n as [|n IH]; [reflexivity|]. cbn [repeat]. rewrite digits_val_cons, IH. lia.
Qed.

Lemma zfill_spec w z : 0 <= z < 10 ^ Z.of_nat w -> (0 < w)%nat ->
  forallb is_digit (zfill w (dec_str z)) = true /\ length (zfill w (dec_str z)) = w /\
  digits_val 10 (map digit_val (zfill w (dec_str z))) = z.
Proof.
  intros [Hz Hw] W. destruct (dec_str_spec z Hz) as (V & D & N).
  assert (L : (length (dec_str z) <= w)%nat).
  { destruct (zdigits_spec 10 z ltac:(lia) Hz) as (V' & F & d & ds & E & Z0 & Z1).
    unfold dec_str. rewrite map_length, E. cbn [length].
    destruct (Z.eq_dec z 0) as [Ez|Nz].
    - destruct (Z0 Ez) as [_ ->]. cbn. lia.
    - rewrite E in V', F. pose proof (digits_length_bound 10 z d ds ltac:(lia) (Z1 ltac:(lia)) E F V') as B.
      assert (Z.of_nat (length ds) < Z.of_nat w); [|lia]. apply (Z.pow_lt_mono_r_iff 10); lia. }
  unfold zfill. split; [|split].
  - rewrite forallb_app, D, andb_true_r. clear. induction (w - length (dec_str z))%nat; auto.
  - rewrite app_length, repeat_length. lia.
  - rewrite map_app. replace (map digit_val (repeat "0"%char (w - length (dec_str z)))) with (repeat 0 (w - length (dec_str z))).
    + rewrite digits_val_zeros. exact V.
    + clear. induction (w - length (dec_str z))%nat; cbn [repeat map]; auto. rewrite <- IHn. reflexivity.
Qed.

(** A printed decimal with coefficient [m] and [places] fractional digits denotes [m / 10^places]. *)
Lemma format_strip (neg : bool) m places : 0 <= m -> 1 <= places ->
  exists l, strip_zeros (format_f neg m places) = lit_text l /\ lit_ok l /\ l_neg l = neg /\
    (spec_val l == (if neg then -1 else 1) * (inject_Z m / inject_Z (10 ^ places)))%Q /\
    (match l_frac l with Some f => Z.of_nat (length f) <= places /\ (exists r x, f = r ++ [x] /\ x <> "0"%char) | None => True end).
Proof.
  intros Hm Hp. unfold format_f. destruct (Z.leb_spec places 0); [lia|].
  pose proof (pow10_pos places ltac:(lia)) as P10.
  set (w := Z.to_nat places). assert (Ew : Z.of_nat w = places) by (unfold w; lia).
  pose proof (Z.mod_pos_bound m (10 ^ places) P10) as MB.
  destruct (zfill_spec w (m mod 10 ^ places)) as (Z1 & Z2 & Z3); [rewrite Ew; auto|lia|].
  assert (Hd : 0 <= m / 10 ^ places) by (apply Z.div_pos; lia).
  destruct (dec_str_spec (m / 10 ^ places) Hd) as (V & D & N).
  exists (lit_of neg (dec_str (m / 10 ^ places)) (zfill w (dec_str (m mod 10 ^ places)))).
  split; [apply strip_zeros_lit; auto|]. split; [apply lit_of_ok; auto|]. split; [reflexivity|]. split.
  - rewrite lit_of_val. change 0%Q with (inject_Z 0). rewrite int_val_digits by auto. rewrite frac_val_digits by auto.
    rewrite Z2, Z3, Ew. unfold str_val, digits_val in V. rewrite V. rewrite (qmake_div (m mod 10 ^ places)), Z2Pos.id by auto.
    assert (E : (inject_Z (m / 10 ^ places) + inject_Z (m mod 10 ^ places) / inject_Z (10 ^ places) == inject_Z m / inject_Z (10 ^ places))%Q).
    { rewrite (Z.div_mod m (10 ^ places)) at 3 by lia. rewrite inject_Z_plus, inject_Z_mult. field. apply inject_nz; lia. }
    rewrite E. reflexivity.
  - unfold lit_of. cbn [l_frac]. destruct (rstrip_spec "0"%char (zfill w (dec_str (m mod 10 ^ places)))) as (n & E & [Nn|(r & x & Nn & Nx)]).
    + rewrite Nn. auto.
    + rewrite Nn. destruct (r ++ [x]) eqn:Er; auto. rewrite <- Er in *. split; [|exists r, x; auto].
      apply (f_equal (@length ascii)) in E. rewrite app_length, Z2, Nn in E. lia.
Qed.

Lemma qround_err x : (Qabs (inject_Z (qround_half_up x) - x) <= 1#2)%Q.
Proof.
  unfold qround_half_up. destruct x as [n d]. cbn [Qnum Qden].
  assert (E : Z.sgn n * half_up (Z.abs n) (Zpos d) = Z.sgn n * half_up (Z.abs n) (Z.pos d)) by auto.
  rewrite half_up_floor by lia.
  assert (A : forall y, (Qabs (inject_Z (Qfloor (y + (1#2))) - y) <= 1#2)%Q).
  { intros y. pose proof (Qfloor_le (y + (1#2))). pose proof (Qlt_floor (y + (1#2))) as F. rewrite inject_Z_plus in F.
    change (inject_Z 1) with 1%Q in F. apply Qabs_Qle_condition. split; lra. }
  specialize (A (inject_Z (Z.abs n) / inject_Z (Zpos d))%Q). set (f := Qfloor _) in *. rewrite inject_Z_mult, qmake_div.
  destruct (Z.sgn_spec n) as [[S ->]|[[S ->]|[S ->]]].
  - rewrite Z.abs_eq in A by lia. setoid_replace (inject_Z 1 * inject_Z f - inject_Z n / inject_Z (Z.pos d))%Q with (inject_Z f - inject_Z n / inject_Z (Z.pos d))%Q; [auto|]. ring.
  - subst n. rewrite Qmult_0_l. cbn. discriminate.
  - rewrite Z.abs_neq in A by lia. rewrite <- Qabs_opp. rewrite inject_Z_opp in A.
    setoid_replace (- (inject_Z (-1) * inject_Z f - inject_Z n / inject_Z (Z.pos d)))%Q with (inject_Z f - - inject_Z n / inject_Z (Z.pos d))%Q; [auto|].
    unfold Qdiv. change (inject_Z (-1)) with (-1)%Q. ring.
Qed.

Lemma qround_exact x m : (x == inject_Z m)%Q -> qround_half_up x = m.
Proof.
  intros E. pose proof (qround_err x) as R. revert R. generalize (qround_half_up x). intros k R. rewrite E in R.
  assert (X : (Qabs (inject_Z k - inject_Z m) == inject_Z (Z.abs (k - m)))%Q).
  { unfold Z.sub. unfold Qminus. rewrite <- inject_Z_opp, <- inject_Z_plus. reflexivity. }
  rewrite X in R. assert (inject_Z (Z.abs (k - m)) < inject_Z 1)%Q by (change (inject_Z 1) with 1%Q; lra).
  rewrite <- Zlt_Qlt in H. lia.
Qed.

Lemma qround_sign x : inject_Z (Z.abs (qround_half_up x)) = inject_Z (qround_half_up x) /\ Qnum x >= 0 \/
   inject_Z (Z.abs (qround_half_up x)) = inject_Z (- qround_half_up x) /\ Qnum x < 0.
Proof.
  assert (half_up (Z.abs (Qnum x)) (Z.pos (Qden x)) >= 0) by (unfold half_up; apply Z.le_ge, Z.div_pos; lia).
  unfold qround_half_up. destruct (Z.sgn_spec (Qnum x)) as [[S ->]|[[S ->]|[S ->]]].
  - left. split; [f_equal|]; lia.
  - left. split; [f_equal|]; lia.
  - right. split; [f_equal|]; lia.
Qed.

Lemma Qnum_scale_sign x k : 0 < k -> (Qnum (x * inject_Z k) < 0 <-> Qnum x < 0).
Proof. intros. destruct x as [n d]. cbn. nia. Qed.

Lemma to_string_lit p places a s : 1 <= places -> to_string_plain p places a = Some s ->
  exists l, s = lit_text l /\ lit_ok l /\
    (l_neg l = true <-> (rnd p (val a) < 0)%Q) /\
    (match l_frac l with Some f => Z.of_nat (length f) <= places /\ (exists r x, f = r ++ [x] /\ x <> "0"%char) | None => True end) /\
    (spec_val l == inject_Z (qround_half_up (rnd p (val a) * inject_Z (10 ^ places))) / inject_Z (10 ^ places))%Q.
Proof.
  intros Hp. unfold to_string_plain. rewrite to_decimal_val. set (d := rnd p (val a)).
  pose proof (pow10_pos places ltac:(lia)) as P10.
  destruct (Qeq_bool d 0) eqn:E0.
  - intros H. apply Qeq_bool_iff in E0. injection H as <-.
    exists (mkLit false ["0"%char] None). split; [vm_compute; reflexivity|].
    split; [repeat split; auto; discriminate|]. split; [split; [discriminate|intros L; lra]|]. split; [exact I|].
    rewrite (qround_exact _ 0); [|rewrite E0; reflexivity]. unfold Qdiv. rewrite Qmult_0_l. reflexivity.
  - unfold quantize. set (m := qround_half_up (d * inject_Z (10 ^ places))).
    destruct (Z.abs m <? 10 ^ p); [|discriminate]. intros H; injection H as <-.
    destruct (format_strip (Qnum d <? 0) (Z.abs m) places (Z.abs_nonneg m) Hp) as (l & L1 & L2 & L3 & L4 & L5).
    exists l. split; auto. split; auto. split; [|split; auto].
    + rewrite L3, Z.ltb_lt. unfold Qlt. cbn. lia.
    + rewrite L4. destruct (qround_sign (d * inject_Z (10 ^ places))) as [[S1 S2]|[S1 S2]]; fold m in S1; rewrite S1.
      * destruct (Z.ltb_spec (Qnum d) 0) as [L|G]; [|ring].
        apply (Qnum_scale_sign d (10 ^ places) P10) in L. lia.
      * apply (Qnum_scale_sign d (10 ^ places) P10) in S2. destruct (Z.ltb_spec (Qnum d) 0); [|lia].
        rewrite inject_Z_opp. unfold Qdiv. ring.
Qed.

Lemma to_string_error p places a s : 1 <= places -> to_string_plain p places a = Some s ->
  exists l, s = lit_text l /\ lit_ok l /\
    (Qabs (spec_val l - val a) <= (1#2) * p10 (- places) + (1#2) * p10 (1 - p) * Qabs (val a))%Q.
Proof.
  intros Hp H. destruct (to_string_lit p places a s Hp H) as (l & L1 & L2 & _ & _ & L5). exists l. split; auto. split; auto.
  set (d := rnd p (val a)) in *. pose proof (rnd_err_rel p (val a)) as R. fold d in R.
  pose proof (qround_err (d * inject_Z (10 ^ places))) as E. set (m := qround_half_up _) in *.
  pose proof (pow10_pos places ltac:(lia)) as P10.
  assert (Pq : (0 < inject_Z (10 ^ places))%Q) by (change 0%Q with (inject_Z 0); rewrite <- Zlt_Qlt; auto).
  assert (E2 : (Qabs (spec_val l - d) <= (1#2) * p10 (- places))%Q).
  { rewrite L5. rewrite p10_opp, (p10_nonneg places) by lia.
    setoid_replace (inject_Z m / inject_Z (10 ^ places) - d)%Q with ((inject_Z m - d * inject_Z (10 ^ places)) * / inject_Z (10 ^ places))%Q by (field; lra).
    rewrite Qabs_Qmult, (Qabs_pos (/ _)) by (apply Qinv_le_0_compat; lra).
    apply Qmult_le_compat_r; auto. apply Qinv_le_0_compat; lra. }
  setoid_replace (spec_val l - val a)%Q with ((spec_val l - d) + (d - val a))%Q by ring.
  eapply Qle_trans; [apply Qabs_triangle|]. lra.
Qed.

(** Numbers printed exactly: at most [places] decimals and at most [p] digits. *)
Lemma to_string_exact p places a m : 1 <= p -> 1 <= places -> places <= p ->
  (val a == inject_Z m / inject_Z (10 ^ places))%Q -> Z.abs m < 10 ^ p ->
  exists l, to_string_plain p places a = Some (lit_text l) /\ lit_ok l /\ (spec_val l == val a)%Q /\
    match_number (lit_text l) = Some (l, []) /\
    exists r, number_of_lit p l = Some r /\ (val r == val a)%Q /\ good r /\ lowest r.
Proof.
  intros Hp Hpl Hpp V S. pose proof (pow10_pos places ltac:(lia)) as P10.
  assert (F : (rnd p (val a) == val a)%Q).
  { apply rnd_fits; auto. exists m, (- places). split; auto. rewrite p10_opp, (p10_nonneg places) by lia. auto. }
  assert (Q : qround_half_up (rnd p (val a) * inject_Z (10 ^ places)) = m).
  { apply qround_exact. rewrite F, V. field. apply inject_nz; lia. }
  assert (T : exists s, to_string_plain p places a = Some s).
  { unfold to_string_plain, quantize. rewrite to_decimal_val, Q. destruct (Qeq_bool _ 0); eauto.
    destruct (Z.ltb_spec (Z.abs m) (10 ^ p)); eauto. lia. }
  destruct T as [s T]. destruct (to_string_lit p places a s Hpl T) as (l & L1 & L2 & _ & L4 & L5).
  exists l. subst s. split; auto. split; auto.
  assert (SV : (spec_val l == val a)%Q) by (rewrite L5, Q, V; reflexivity).
  split; auto. split.
  - pose proof (match_number_complete l [] L2 I) as M. rewrite app_nil_r in M. auto.
  - destruct (number_of_lit_exact p l Hp L2) as (r & R1 & R2 & R3 & R4).
    { destruct (l_frac l); auto. lia. }
    exists r. rewrite R2. auto.
Qed.

Lemma to_string_total p places a m : 1 <= p -> 1 <= places -> Z.abs m < 10 ^ p ->
  (Qabs (val a) <= inject_Z (Z.abs m) / inject_Z (10 ^ places))%Q -> exists s, to_string_plain p places a = Some s.
Proof.
  intros Hp Hpl Hm V. pose proof (pow10_pos places ltac:(lia)) as P10.
  unfold to_string_plain, quantize. rewrite to_decimal_val. destruct (Qeq_bool _ 0); eauto.
  set (d := rnd p (val a)).
  assert (Pq : (0 < inject_Z (10 ^ places))%Q) by (change 0%Q with (inject_Z 0); rewrite <- Zlt_Qlt; auto).
  assert (Fx : forall k, Z.abs k < 10 ^ p -> (rnd p (inject_Z k / inject_Z (10 ^ places)) == inject_Z k / inject_Z (10 ^ places))%Q).
  { intros k Hk. apply rnd_fits; auto. exists k, (- places). split; auto. rewrite p10_opp, (p10_nonneg places) by lia. reflexivity. }
  apply Qabs_Qle_condition in V. destruct V as [V1 V2].
  assert (D2 : (d <= inject_Z (Z.abs m) / inject_Z (10 ^ places))%Q).
  { rewrite <- Fx by lia. apply rnd_mono; auto. }
  assert (D1 : (- (inject_Z (Z.abs m) / inject_Z (10 ^ places)) <= d)%Q).
  { rewrite neg_frac in *. rewrite <- (Fx (- Z.abs m)) by lia. apply rnd_mono; auto. }
  pose proof (qround_err (d * inject_Z (10 ^ places))) as E. set (k := qround_half_up _) in *.
  assert (X2 : (d * inject_Z (10 ^ places) <= inject_Z (Z.abs m))%Q).
  { apply (Qmult_le_compat_r _ _ (inject_Z (10 ^ places))) in D2; [|lra].
    setoid_replace (inject_Z (Z.abs m) / inject_Z (10 ^ places) * inject_Z (10 ^ places))%Q with (inject_Z (Z.abs m)) in D2 by (field; lra). auto. }
  assert (X1 : (- inject_Z (Z.abs m) <= d * inject_Z (10 ^ places))%Q).
  { apply (Qmult_le_compat_r _ _ (inject_Z (10 ^ places))) in D1; [|lra].
    setoid_replace (- (inject_Z (Z.abs m) / inject_Z (10 ^ places)) * inject_Z (10 ^ places))%Q with (- inject_Z (Z.abs m))%Q in D1 by (field; lra). auto. }
  apply Qabs_Qle_condition in E. destruct E as [E1 E2].
  assert (k < Z.abs m + 1) by (rewrite Zlt_Qlt, inject_Z_plus; change (inject_Z 1) with 1%Q; lra).
  assert (- Z.abs m - 1 < k) by (rewrite Zlt_Qlt; unfold Z.sub; rewrite inject_Z_plus, !inject_Z_opp; change (inject_Z 1) with 1%Q; lra).
  destruct (Z.ltb_spec (Z.abs k) (10 ^ p)); eauto. lia.
Qed.
