From Coq Require Import ZArith QArith Qround Qabs Qreduction Ascii String List Bool Lia Lqa Setoid Znumtheory.
From Verif Require Import Base Dec Num NumSpec Lex LexSpec DecProofs NumProofs NumProofs3 BaseProofs LexProofs Bases BasesProofs BasesProofs2 Formats Units Syntax Pos Call Loop Parse Exec Std FormatSpec.
Import ListNotations.
Open Scope Z_scope.

(** ** Rounding to significant digits *)
Lemma qsgn_abs x : (x == qsgn x * Qabs x)%Q.
Proof.
  destruct x as [n d]. unfold qsgn, Qeq, Qabs, inject_Z, Qmult, Qnum, Qden. cbn [Pos.mul].
  pose proof (Z.abs_sgn n). pose proof (Z.sgn_abs n). nia.
Qed.
Lemma qsgn_pm x : ~ (x == 0)%Q -> qsgn x = 1%Q /\ (0 < x)%Q \/ qsgn x = (-1)%Q /\ (x < 0)%Q.
Proof.
  intros H. destruct x as [n d]. unfold qsgn, Qnum, Qlt, Qden. cbn [Qnum Qden].
  assert (n <> 0) by (intro E; apply H; subst; reflexivity).
  destruct n as [|a|a]; [lia|left|right]; split; try reflexivity; lia.
Qed.

Lemma grid_tie e x : (0 <= x)%Q -> (Qabs (grid e x - x) == (1#2) * p10 e -> x <= grid e x)%Q.
Proof.
  intros X. unfold grid. set (y := (x / p10 e)%Q). pose proof (p10_pos e) as P.
  assert (E : (x == y * p10 e)%Q) by (unfold y; field; apply p10_nz).
  pose proof (Qfloor_le (y + (1#2))) as A. pose proof (Qlt_floor (y + (1#2))) as B.
  set (z := Qfloor (y + (1#2))) in *. rewrite inject_Z_plus in B. change (inject_Z 1) with 1%Q in B.
  rewrite E. setoid_replace (inject_Z z * p10 e - y * p10 e)%Q with ((inject_Z z - y) * p10 e)%Q by ring.
  rewrite Qabs_Qmult. rewrite (Qabs_pos (p10 e)) by (apply Qlt_le_weak; auto). intros T.
  assert (T2 : (Qabs (inject_Z z - y) == 1#2)%Q) by (apply (Qmult_inj_r _ _ (p10 e)); [apply p10_nz|exact T]).
  apply Qmult_le_compat_r; [|apply Qlt_le_weak; auto].
  revert T2. apply Qabs_case; intros; lra.
Qed.

Lemma grid_nonneg e x : (0 <= x)%Q -> (0 <= grid e x)%Q.
Proof.
  intros X. assert (G : (grid e 0 == 0)%Q) by (apply (grid_exact e 0 0); ring). rewrite <- G. apply grid_mono; auto.
Qed.

Lemma rnd_significant k d q : 1 <= k -> ~ (d == 0)%Q -> (q == rnd k d)%Q -> significant k d q.
Proof.
  intros Hk Hd Hq. pose proof (expo_spec d Hd) as [E1 E2].
  exists (expo d), (Qfloor (Qabs d / p10 (expo d - k + 1) + (1#2)) * Z.sgn (Qnum d)).
  split; [split; assumption|]. cbv zeta. replace (expo d - (k - 1)) with (expo d - k + 1) by lia.
  change (Qpower 10 (expo d - k + 1)) with (p10 (expo d - k + 1)).
  rewrite (rnd_grid k d Hd) in Hq. set (e := expo d - k + 1) in *.
  pose proof (Qabs_nonneg d) as A. pose proof (grid_nonneg e _ A) as GN. pose proof (grid_err e (Qabs d)) as GE. pose proof (grid_tie e _ A) as GT.
  split. { rewrite Hq. unfold grid, qsgn. rewrite inject_Z_mult. ring. }
  assert (D : (Qabs (q - d) == Qabs (grid e (Qabs d) - Qabs d))%Q).
  { assert (X : (q - d == qsgn d * (grid e (Qabs d) - Qabs d))%Q).
    { rewrite Hq. setoid_replace (qsgn d * (grid e (Qabs d) - Qabs d))%Q with (qsgn d * grid e (Qabs d) - qsgn d * Qabs d)%Q by ring.
      rewrite <- (qsgn_abs d). reflexivity. }
    rewrite X.
    rewrite Qabs_Qmult. destruct (qsgn_pm d Hd) as [[-> _]|[-> _]]; cbn [Qabs Z.abs]; [change (Qabs 1) with 1%Q|change (Qabs (-1)) with 1%Q]; ring. }
  rewrite D. split; [exact GE|]. intros T. specialize (GT T). rewrite Hq, Qabs_Qmult, (Qabs_pos (grid _ _)) by exact GN.
  destruct (qsgn_pm d Hd) as [[-> _]|[-> _]]; [change (Qabs 1) with 1%Q|change (Qabs (-1)) with 1%Q]; lra.
Qed.

(** ** The parts of a number in scientific notation *)
Lemma sci_parts_spec n d neg m e : 0 <= n -> ~ (d == 0)%Q -> sci_parts n d = (neg, m, e) ->
  neg = (Qnum d <? 0) /\ 10 ^ n <= m < 10 ^ (n + 1) /\ (e = expo d \/ e = expo d + 1) /\
  (rnd (n + 1) d == (if neg then -1 else 1) * (inject_Z m * p10 (e - n)))%Q.
Proof.
  intros Hn Hd. unfold sci_parts. fold (expo d). set (k := expo d - n).
  set (m0 := if 0 <=? k then _ else _).
  assert (M : m0 = Qfloor (Qabs d / p10 k + (1#2))).
  { unfold m0. pose proof (Qabs_num d) as EA.
    assert (Hdq : (0 < inject_Z (Zpos (Qden d)))%Q) by (change 0%Q with (inject_Z 0); rewrite <- Zlt_Qlt; lia).
    assert (Ed : ~ (inject_Z (Zpos (Qden d)) == 0)%Q) by (intro E; rewrite E in Hdq; inversion Hdq).
    destruct (Z.leb_spec 0 k).
    - rewrite half_up_floor by (pose proof (pow10_pos k); nia). rewrite inject_Z_mult, <- (p10_nonneg k) by auto.
      apply Qfloor_comp. rewrite EA. pose proof (p10_nz k). field. auto.
    - rewrite half_up_floor by lia. rewrite inject_Z_mult, <- (p10_nonneg (- k)) by lia.
      apply Qfloor_comp. rewrite EA. pose proof (p10_nz k). rewrite p10_opp. field. auto. }
  clearbody m0. pose proof (expo_spec d Hd) as ES.
  pose proof (grid_floor_bounds (n + 1) (expo d) (Qabs d) ltac:(lia) ES) as GB.
  replace (expo d - (n + 1) + 1) with k in GB by (unfold k; lia). rewrite <- M in GB. replace (n + 1 - 1) with n in GB by lia.
  assert (R : (rnd (n + 1) d == (if Qnum d <? 0 then -1 else 1) * (inject_Z m0 * p10 k))%Q).
  { rewrite (rnd_grid (n + 1) d Hd). replace (expo d - (n + 1) + 1) with k by (unfold k; lia).
    unfold grid. rewrite <- M. destruct (qsgn_pm d Hd) as [[-> L]|[-> L]]; unfold Qlt in L; cbn in L;
    destruct (Z.ltb_spec (Qnum d) 0); try lia; reflexivity. }
  assert (T : 10 ^ (n + 1) = 10 * 10 ^ n) by (rewrite Z.pow_add_r by lia; lia). pose proof (pow10_pos n Hn).
  destruct (Z.eqb_spec m0 (10 ^ (n + 1))) as [E|NE]; intros I.
  - injection I as <- <- <-. split; [reflexivity|]. split; [lia|]. split; [right; reflexivity|]. rewrite R, E.
    replace (expo d + 1 - n) with (k + 1) by (unfold k; lia). rewrite p10_succ, T, inject_Z_mult.
    change (inject_Z 10) with 10%Q. ring.
  - injection I as <- <- <-. split; [reflexivity|]. split; [lia|]. split; [left; reflexivity|]. exact R.
Qed.

Lemma dec_str_digits n m : 0 <= n -> 10 ^ n <= m < 10 ^ (n + 1) ->
  exists c r, dec_str m = c :: r /\ is_digit c = true /\ forallb is_digit r = true /\ ceq c "0"%char = false /\
    Z.of_nat (length r) = n /\ digit_val c * 10 ^ n + str_val r = m.
Proof.
  intros Hn Hm. pose proof (pow10_pos n Hn).
  destruct (dec_str_spec m ltac:(lia)) as (V & D & NE).
  destruct (zdigits_spec 10 m ltac:(lia) ltac:(lia)) as (ZV & F & z & zs & E & _ & P).
  assert (Ez : dec_str m = digit_char z :: map digit_char zs) by (unfold dec_str; rewrite E; reflexivity).
  rewrite Ez in *. exists (digit_char z), (map digit_char zs). cbn [forallb] in D. apply andb_true_iff in D as [D1 D2].
  split; [reflexivity|]. split; [exact D1|]. split; [exact D2|].
  rewrite E in F. apply Forall_cons_iff in F as [Fz Fs].
  assert (0 < z) by (apply P; lia).
  split. { apply ceq_neq. intro C. apply digit_char_0 in C; lia. }
  rewrite E in ZV. rewrite digits_val_cons in ZV.
  pose proof (digits_val_bounds 10 zs ltac:(lia) Fs) as B. rewrite map_length.
  pose proof (p10z_pos (length zs)) as PP.
  assert (L : Z.of_nat (length zs) = n).
  { assert (A1 : 10 ^ Z.of_nat (length zs) < 10 ^ (n + 1)) by nia. apply Z.pow_lt_mono_r_iff in A1; [|lia|lia].
    assert (A2 : 10 ^ n < 10 ^ (Z.of_nat (length zs) + 1)) by (rewrite (Z.pow_add_r 10 (Z.of_nat _) 1) by lia; nia).
    apply Z.pow_lt_mono_r_iff in A2; lia. }
  split; [exact L|]. rewrite digit_char_val by lia. unfold str_val. rewrite map_digit_val by (eapply Forall_digit_36; [|eauto]; lia).
  rewrite <- L. exact ZV.
Qed.

Lemma rstrip_lit_of (neg : bool) c r : is_digit c = true -> ceq c "0"%char = false ->
  rstrip "0"%char (lit_text (lit_of neg [c] r)) = lit_text (lit_of neg [c] r).
Proof.
  intros D Z. unfold lit_text, lit_of. cbn [l_neg l_int l_frac].
  destruct (rstrip_spec "0"%char r) as (k & E & [N|(r' & x & N & Nx)]).
  - rewrite N, app_nil_r. apply rstrip_last. exact Z.
  - rewrite N. destruct (r' ++ [x]) as [|c0 r0] eqn:Er; [destruct r'; discriminate|]. rewrite <- Er.
    assert (A : (if neg then ["-"%char] else @nil ascii) ++ [c] ++ "."%char :: r' ++ [x] = ((if neg then ["-"%char] else []) ++ [c] ++ "."%char :: r') ++ [x]).
    { rewrite <- !app_assoc. reflexivity. }
    rewrite A. apply rstrip_last. apply ceq_neq. exact Nx.
Qed.

Lemma lit_of_not_zero (neg : bool) c r : ceq c "0"%char = false -> seq_eqb (lit_text (lit_of neg [c] r)) ($"0") = false.
Proof.
  intros Z. apply not_true_iff_false. intros H. apply seq_eqb_iff in H. unfold lit_text, lit_of in H. cbn [l_neg l_int l_frac] in H.
  destruct neg; cbn [app] in H.
  - assert (Q : "-"%char = "0"%char) by (exact (f_equal (fun s => match s with x :: _ => x | [] => " "%char end) H)). discriminate Q.
  - assert (Q : c = "0"%char) by (exact (f_equal (fun s => match s with x :: _ => x | [] => " "%char end) H)). subst. discriminate Z.
Qed.

Lemma sci_clean_lit (neg : bool) c r : is_digit c = true -> forallb is_digit r = true -> ceq c "0"%char = false ->
  sci_clean ((if neg then ["-"%char] else []) ++ match c :: r with [] => [] | [x] => [x] | x :: y => x :: "."%char :: y end) = lit_text (lit_of neg [c] r).
Proof.
  intros D F Z. destruct r as [|x r].
  - assert (ceq c "."%char = false) as Dot by (apply ceq_neq; intro; subst; discriminate D).
    assert (ceq "."%char c = false) as Dot' by (apply ceq_neq; intro; subst; discriminate D).
    set (t := lit_text (lit_of neg [c] [])).
    assert (T : (if neg then ["-"%char] else []) ++ [c] = t) by (unfold t; destruct neg; reflexivity). rewrite T.
    assert (EX : existsb (ceq "."%char) t = false).
    { rewrite <- T. destruct neg; cbn [app existsb]; rewrite Dot'; reflexivity. }
    assert (RV : rev t = c :: (if neg then ["-"%char] else [])) by (rewrite <- T; destruct neg; reflexivity).
    unfold sci_clean. rewrite EX. rewrite RV, Dot. unfold t. rewrite lit_of_not_zero, rstrip_lit_of by assumption. reflexivity.
  - set (t := (if neg then ["-"%char] else []) ++ c :: "."%char :: x :: r).
    assert (S : strip_zeros t = lit_text (lit_of neg [c] (x :: r))) by (apply (strip_zeros_lit neg [c] (x :: r)); exact F).
    unfold sci_clean. assert (EX : existsb (ceq "."%char) t = true).
    { unfold t. apply existsb_app_r. cbn. apply orb_true_r. }
    rewrite EX. unfold strip_zeros in S. rewrite EX in S.
    assert (B : match rev (rstrip "0"%char t) with c0 :: r0 => if ceq c0 "."%char then rev r0 else rstrip "0"%char t | [] => rstrip "0"%char t end = lit_text (lit_of neg [c] (x :: r))).
    { destruct (rev (rstrip "0"%char t)) eqn:R; [|exact S].
      exfalso. unfold lit_text, lit_of in S. cbn [l_neg l_int] in S. destruct neg; discriminate S. }
    cbv zeta. rewrite B. rewrite lit_of_not_zero, rstrip_lit_of by assumption. reflexivity.
Qed.

Lemma lit_of_frac neg ip fp : match l_frac (lit_of neg ip fp) with Some f => Z.of_nat (length f) <= Z.of_nat (length fp) | None => True end.
Proof.
  unfold lit_of. cbn [l_frac]. destruct (rstrip_spec "0"%char fp) as (k & E & _). destruct (rstrip "0"%char fp) as [|x y] eqn:R; [exact I|].
  rewrite E. rewrite app_length. lia.
Qed.

(** The text of a non-zero number in scientific notation *)
Lemma dec_to_exp_text F n v : 0 <= n -> ~ (to_decimal (f_prec F) v == 0)%Q ->
  exists l (eneg : bool) es e, dec_to_exp F n v = lit_text l ++ f_sym F ++ lit_text (mkLit eneg es None) /\
    lit_ok l /\ lit_ok (mkLit eneg es None) /\
    (match l_frac l with Some f => Z.of_nat (length f) <= n | None => True end) /\
    (spec_val (mkLit eneg es None) == inject_Z e)%Q /\
    (e = expo (to_decimal (f_prec F) v) \/ e = expo (to_decimal (f_prec F) v) + 1) /\
    (exists M, Z.abs M < 10 ^ (n + 1) /\ (spec_val l == inject_Z M * p10 (- n))%Q) /\
    (spec_val l * p10 e == rnd (n + 1) (to_decimal (f_prec F) v))%Q.
Proof.
  intros Hn Hd. unfold dec_to_exp. set (d := to_decimal (f_prec F) v) in *.
  destruct (Qeq_bool d 0) eqn:E0; [apply Qeq_bool_iff in E0; contradiction|].
  destruct (sci_parts n d) as [[neg m] e] eqn:SP.
  destruct (sci_parts_spec n d neg m e Hn Hd SP) as (_ & Hm & He & R).
  destruct (dec_str_digits n m Hn Hm) as (c & r & ED & Dc & Dr & Zc & L & V).
  destruct (dec_str_spec (Z.abs e) (Z.abs_nonneg e)) as (EV & EDg & ENE).
  pose proof (pow10_pos n Hn) as P10.
  exists (lit_of neg [c] r), (e <? 0), (dec_str (Z.abs e)), e.
  split. { unfold sci_mantissa. rewrite ED. rewrite sci_clean_lit by assumption. assert (X : sci_exponent e = lit_text (mkLit (e <? 0) (dec_str (Z.abs e)) None)) by (unfold sci_exponent, lit_text; cbn [l_neg l_int l_frac]; rewrite app_nil_r; reflexivity). rewrite X. reflexivity. }
  split. { apply lit_of_ok; [discriminate| |exact Dr]. cbn [forallb]. rewrite Dc. reflexivity. }
  split. { unfold lit_ok. cbn [l_int l_frac]. auto. }
  split. { pose proof (lit_of_frac neg [c] r) as LF. rewrite L in LF. exact LF. }
  split.
  { assert (IV : (int_val (dec_str (Z.abs e)) 0 == inject_Z (Z.abs e))%Q).
    { pose proof (int_val_digits (dec_str (Z.abs e)) 0 EDg) as X. change (fold_left _ (map digit_val (dec_str (Z.abs e))) 0) with (str_val (dec_str (Z.abs e))) in X.
      rewrite EV in X. exact X. }
    unfold spec_val. cbn [l_neg l_int l_frac frac_val]. cbv zeta.
    destruct (Z.ltb_spec e 0).
    - rewrite IV, Z.abs_neq by lia. rewrite inject_Z_opp. ring.
    - rewrite IV, Z.abs_eq by lia. ring. }
  split; [exact He|].
  assert (SV : (spec_val (lit_of neg [c] r) == (if neg then -1 else 1) * (inject_Z m * p10 (- n)))%Q).
  { rewrite lit_of_val. rewrite frac_val_digits by exact Dr. fold (str_val r). rewrite L, (qmake_div (str_val r)), Z2Pos.id by exact P10.
    cbn [int_val]. destruct (digit_val_digit c Dc) as [DV _]. rewrite <- DV. rewrite <- V, inject_Z_plus, inject_Z_mult.
    rewrite p10_opp, (p10_nonneg n Hn). assert (~ inject_Z (10 ^ n) == 0)%Q by (apply inject_nz; lia).
    destruct neg; field; assumption. }
  split.
  { exists (if neg then - m else m). split; [destruct neg; lia|]. rewrite SV. destruct neg; [rewrite inject_Z_opp|]; ring. }
  rewrite SV, R. unfold Z.sub. rewrite p10_plus. ring.
Qed.

(** ** Reading it back *)
Lemma prefixb_app s t : prefixb s (s ++ t) = true.
Proof. induction s as [|c s IH]; cbn; auto. rewrite IH. assert (ceq c c = true) as -> by (apply ceq_iff; reflexivity). reflexivity. Qed.

Lemma opt_minus_lit (neg : bool) ds r : forallb is_digit ds = true -> ds <> [] ->
  opt_minus ((if neg then ["-"%char] else []) ++ ds ++ r) = (if neg then ["-"%char] else [], ds ++ r).
Proof.
  intros D N. destruct neg; [reflexivity|]. destruct ds as [|d ds]; [congruence|]. cbn [app opt_minus].
  cbn [forallb] in D. apply andb_true_iff in D as [D _]. destruct (ceq d "-"%char) eqn:C; [apply ceq_iff in C; subst; discriminate D|reflexivity].
Qed.

Lemma symbol_stops l sym r : symbol_ok sym -> stops_digits l (sym ++ r).
Proof. destruct sym as [|c sym]; [intros []|]. intros [D P]. cbn. split; [exact D|]. intros _ E. contradiction. Qed.

Lemma match_exp_text sym l (eneg : bool) es : symbol_ok sym -> lit_ok l -> lit_ok (mkLit eneg es None) ->
  match_exp sym (lit_text l ++ sym ++ lit_text (mkLit eneg es None)) = Some (l, mkLit eneg es None, []).
Proof.
  intros SO L1 L2. unfold match_exp. rewrite match_number_complete by (auto using symbol_stops).
  unfold lower at 2. rewrite map_app. fold (lower sym). rewrite prefixb_app. rewrite skipn_app, skipn_all, Nat.sub_diag. cbn [app skipn].
  unfold lit_text. cbn [l_neg l_int l_frac]. destruct L2 as (N & D & _). cbn [l_int] in N, D.
  rewrite opt_minus_lit by assumption. rewrite (span_exact is_digit es []) by (auto; exact I).
  destruct es as [|d es]; [congruence|]. destruct eneg; reflexivity.
Qed.

Lemma text_number_exp F l (eneg : bool) es : symbol_ok (f_sym F) -> lit_ok l -> lit_ok (mkLit eneg es None) ->
  text_number F (lit_text l ++ f_sym F ++ lit_text (mkLit eneg es None)) = exp_value F l (mkLit eneg es None).
Proof.
  intros SO L1 L2. unfold text_number. rewrite match_number_complete by (auto using symbol_stops).
  assert (N : is_nil (f_sym F ++ lit_text (mkLit eneg es None)) || seq_eqb (f_sym F ++ lit_text (mkLit eneg es None)) [newline] = false).
  { destruct (f_sym F) as [|c s]; [destruct SO|]. cbn [app is_nil orb].
    apply not_true_iff_false. intros H. apply seq_eqb_iff in H.
    assert (Q : length (c :: s ++ lit_text (mkLit eneg es None)) = 1%nat) by (rewrite H; reflexivity).
    cbn [length] in Q. rewrite app_length in Q. destruct L2 as (E & _). cbn [l_int] in E. unfold lit_text in Q. cbn [l_neg l_int l_frac] in Q.
    rewrite !app_length in Q. destruct es; [congruence|]. cbn [length] in Q. lia. }
  rewrite N, match_exp_text by assumption. reflexivity.
Qed.

Lemma pow_ten p dpow e k : 1 <= p -> pow_ok p dpow -> Z.abs e < p -> good k -> lowest k -> (val k == inject_Z e)%Q ->
  exists t, num_pow p dpow (num_of_Z p 10) k = Some t /\ (val t == p10 e)%Q /\ good t /\ lowest t /\
    Z.abs (nnum t) <= 10 ^ Z.max 0 e /\ nden t <= 10 ^ Z.max 0 (- e).
Proof.
  intros Hp PO He G L V. rewrite num_of_Z_eq.
  destruct (lowest_unique k (mkNum e 1 None None)) as [K1 K2]; auto; [reflexivity|apply lowest_1|rewrite V; unfold val; cbn [nnum nden]; field|].
  cbn [nnum nden] in K1, K2.
  assert (SE : small p (nnum k)).
  { rewrite K1. unfold small. assert (Z.abs e < 10 ^ Z.abs e) by (apply Z.pow_gt_lin_r; lia). 
    assert (10 ^ Z.abs e <= 10 ^ p) by (apply Z.pow_le_mono_r; lia). lia. }
  assert (S1 : forall z, Z.abs z < p -> 0 <= z -> small p (10 ^ z)).
  { intros z Hz H0. unfold small. pose proof (pow10_pos z H0). rewrite Z.abs_eq by lia. apply Z.pow_lt_mono_r; lia. }
  assert (S2 : forall z, 0 <= z -> small p (1 ^ z)).
  { intros z H0. unfold small. rewrite Z.pow_1_l by lia. cbn. apply Z.pow_gt_1; lia. }
  assert (VT : (val (mkNum 10 1 None None) == 10#1)%Q) by reflexivity.
  assert (T : exists t, num_pow p dpow (mkNum 10 1 None None) k = Some t /\ (val t == p10 e)%Q /\ good t /\ lowest t).
  { destruct (Z.leb_spec 0 e).
    - destruct (num_pow_nonneg p dpow (mkNum 10 1 None None) k) as (t & T1 & T2 & T3 & T4 & _); auto; try reflexivity; cbn [nnum nden]; try lia; try (rewrite K1; apply S1; lia); try (rewrite K1; apply S2; lia).
      exists t. repeat split; auto. rewrite T2, VT, K1. reflexivity.
    - destruct (num_pow_neg p dpow (mkNum 10 1 None None) k) as (t & T1 & T2 & T3 & T4 & _); auto; try reflexivity; cbn [nnum nden]; try lia; try (rewrite K1; apply S1; lia); try (rewrite K1; apply S2; lia).
      exists t. repeat split; auto. rewrite T2, VT, K1. reflexivity. }
  destruct T as (t & T1 & T2 & T3 & T4). exists t. repeat split; auto.
  - destruct (lowest_scale t (10 ^ Z.max 0 e) (10 ^ Z.max 0 (- e)) T3 T4) as (q & Q0 & Q1 & Q2).
    { apply pow10_pos; lia. }
    { rewrite T2. destruct (Z.leb_spec 0 e).
      - rewrite Z.max_r, Z.max_l by lia. rewrite p10_nonneg by lia. change (inject_Z (10 ^ 0)) with 1%Q. field.
      - rewrite Z.max_l, Z.max_r by lia. rewrite <- (p10_nonneg (- e)) by lia. rewrite p10_opp. change (inject_Z (10 ^ 0)) with 1%Q. field. apply p10_nz. }
    rewrite Q2. nia.
  - destruct (lowest_scale t (10 ^ Z.max 0 e) (10 ^ Z.max 0 (- e)) T3 T4) as (q & Q0 & Q1 & Q2).
    { apply pow10_pos; lia. }
    { rewrite T2. destruct (Z.leb_spec 0 e).
      - rewrite Z.max_r, Z.max_l by lia. rewrite p10_nonneg by lia. change (inject_Z (10 ^ 0)) with 1%Q. field.
      - rewrite Z.max_l, Z.max_r by lia. rewrite <- (p10_nonneg (- e)) by lia. rewrite p10_opp. change (inject_Z (10 ^ 0)) with 1%Q. field. apply p10_nz. }
    unfold good in T3. rewrite Q1. nia.
Qed.

Lemma exp_value_exact F n l el e M : let p := f_prec F in 1 <= p -> 0 <= n -> pow_ok p (f_pow F) -> lit_ok l -> lit_ok el -> l_frac el = None ->
  (match l_frac l with Some f => Z.of_nat (length f) <= n | None => True end) -> n <= p ->
  (spec_val el == inject_Z e)%Q -> Z.abs M < 10 ^ (n + 1) -> (spec_val l == inject_Z M * p10 (- n))%Q -> n + 1 + Z.abs e <= p ->
  exists r, exp_value F l el = Ok r /\ (val r == spec_val l * p10 e)%Q /\ good r /\ lowest r /\ ncast r = Some CExp.
Proof.
  intros p Hp Hn PO L1 L2 NF LF Hnp SE HM SM B. unfold exp_value. fold p.
  destruct (number_of_lit_exact p l Hp L1) as (a & A1 & A2 & A3 & A4). { destruct (l_frac l); auto. lia. }
  destruct (number_of_lit_exact p el Hp L2) as (k & K1 & K2 & K3 & K4). { rewrite NF. exact I. }
  rewrite A1. cbn [py_opt obind]. rewrite K1. cbn [py_opt obind].
  destruct (pow_ten p (f_pow F) e k) as (t & T1 & T2 & T3 & T4 & T5 & T6); auto; try lia.
  { rewrite K2. exact SE. }
  rewrite T1. cbn [py_opt obind].
  destruct (lowest_scale a M (10 ^ n) A3 A4) as (q & Q0 & Q1 & Q2).
  { apply pow10_pos; lia. }
  { rewrite A2, SM, p10_opp, (p10_nonneg n) by lia. reflexivity. }
  unfold good in A3, T3.
  assert (P : 10 ^ (n + 1) * 10 ^ Z.max 0 e <= 10 ^ p) by (rewrite <- Z.pow_add_r by lia; apply Z.pow_le_mono_r; lia).
  assert (P2 : 10 ^ n * 10 ^ Z.max 0 (- e) < 10 ^ p) by (rewrite <- Z.pow_add_r by lia; apply Z.pow_lt_mono_r; lia).
  assert (Pe : 0 < 10 ^ Z.max 0 e) by (apply pow10_pos; lia).
  assert (Pn : 0 < 10 ^ n) by (apply pow10_pos; lia).
  assert (MF : mul_fits p a t).
  { split; unfold small.
    - rewrite Z.abs_mul. assert (Z.abs (nnum a) <= Z.abs M) by (rewrite Q2, Z.abs_mul; nia).
      apply Z.le_lt_trans with (Z.abs M * 10 ^ Z.max 0 e); [|nia].
      apply Z.mul_le_mono_nonneg; lia.
    - rewrite Z.abs_eq by nia. apply Z.le_lt_trans with (10 ^ n * 10 ^ Z.max 0 (- e)); [|exact P2].
      apply Z.mul_le_mono_nonneg; try lia. rewrite Q1. nia. }
  destruct (num_mul_exact p a t Hp A3 T3 MF) as (r & R1 & R2 & R3 & R4 & _). rewrite R1. cbn [py_opt obind].
  eexists. split; [reflexivity|]. split. { unfold val. cbn [with_cast num_copy set_width nnum nden]. fold (val r). rewrite R2, A2, T2. reflexivity. }
  split; [exact R3|]. split; [exact R4|]. reflexivity.
Qed.

(** Every number of moderate size, written with [n + 1] digits in scientific notation, reads back as the number rounded
    to so many digits. *)
Lemma sci_reads F n v : let p := f_prec F in 0 <= n -> n + 1 <= p -> pow_ok p (f_pow F) -> symbol_ok (f_sym F) ->
  (p10 (n + 1 - p) <= Qabs (rnd p (val v)) /\ Qabs (rnd p (val v)) < p10 (p - n - 1))%Q ->
  exists r, text_number F (dec_to_exp F n v) = Ok r /\ parse_exp F (dec_to_exp F n v) = Ok (Some r) /\
    (val r == rnd (n + 1) (rnd p (val v)))%Q /\ good r /\ lowest r /\ ncast r = Some CExp.
Proof.
  intros p Hn Hnp PO SO [B1 B2].
  assert (NZ : ~ (rnd p (val v) == 0)%Q).
  { intro E. rewrite E in B1. pose proof (p10_pos (n + 1 - p)). change (Qabs 0) with 0%Q in B1. lra. }
  destruct (dec_to_exp_text F n v Hn) as (l & eneg & es & e & T & L1 & L2 & LF & SE & He & (M & HM & SM) & R).
  { fold p. rewrite to_decimal_val. exact NZ. }
  fold p in He, R. rewrite to_decimal_val in He, R. set (d := rnd p (val v)) in *.
  destruct (expo_spec d NZ) as [E1 E2].
  assert (X1 : n + 1 - p < expo d + 1) by (apply p10_lt_inv; eapply Qle_lt_trans; eauto).
  assert (X2 : expo d < p - n - 1) by (apply p10_lt_inv; eapply Qle_lt_trans; eauto).
  destruct (exp_value_exact F n l (mkLit eneg es None) e M) as (r & R1 & R2 & R3 & R4 & R5); auto; fold p; try lia.
  exists r. rewrite T. rewrite text_number_exp by assumption. unfold parse_exp. rewrite match_exp_text by assumption. rewrite R1. cbn [obind].
  repeat split; auto. rewrite R2, R. reflexivity.
Qed.
