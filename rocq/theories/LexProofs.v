From Coq Require Import ZArith QArith Qround Qabs Qreduction Ascii String List Bool Lia Lqa Setoid Znumtheory.
From Verif Require Import Base Dec Num NumSpec Lex LexSpec DecProofs NumProofs BaseProofs.
Import ListNotations.
Open Scope Z_scope.

Lemma span_app f s : fst (span f s) ++ snd (span f s) = s.
Proof. induction s as [|c s IH]; cbn; auto. destruct (f c); auto. destruct (span f s); cbn in *. rewrite IH; auto. Qed.

Lemma span_all f s : forallb f (fst (span f s)) = true.
Proof. induction s as [|c s IH]; cbn; auto. destruct (f c) eqn:E; auto. destruct (span f s); cbn in *. rewrite E, IH; auto. Qed.

Lemma span_stop f s : match snd (span f s) with [] => True | c :: _ => f c = false end.
Proof. induction s as [|c s IH]; cbn; auto. destruct (f c) eqn:E; auto. destruct (span f s); cbn in *; auto. Qed.

Lemma span_exact f a b : forallb f a = true -> match b with [] => True | c :: _ => f c = false end ->
  span f (a ++ b) = (a, b).
Proof.
  induction a as [|c a IH]; cbn; intros Ha Hb.
  - destruct b; cbn; auto. rewrite Hb; auto.
  - apply andb_true_iff in Ha as [-> Ha]. rewrite IH; auto.
Qed.

Lemma int_val_digits s acc : forallb is_digit s = true ->
  (int_val s (inject_Z acc) == inject_Z (fold_left (fun a d => a * 10 + d)%Z (map digit_val s) acc))%Q.
Proof.
  revert acc; induction s as [|c s IH]; intros acc H; cbn [int_val fold_left map]; [reflexivity|].
  cbn in H. apply andb_true_iff in H as [Hc Hs]. rewrite <- IH by auto.
  destruct (digit_val_digit c Hc) as [E _]. rewrite E.
  assert (forall s x y, (x == y)%Q -> (int_val s x == int_val s y)%Q) as M.
  { clear. induction s; cbn; intros; auto. apply IHs. rewrite H. reflexivity. }
  apply M. rewrite inject_Z_plus, inject_Z_mult. reflexivity.
Qed.

Lemma p10z_pos n : 0 < 10 ^ Z.of_nat n.
Proof. apply Z.pow_pos_nonneg; lia. Qed.

Lemma frac_val_digits s : forallb is_digit s = true ->
  (frac_val s == digits_val 10 (map digit_val s) # Z.to_pos (10 ^ Z.of_nat (length s)))%Q.
Proof.
  induction s as [|c s IH]; intros H.
  - reflexivity.
  - cbn in H. apply andb_true_iff in H as [Hc Hs].
    cbn [frac_val map length]. rewrite IH by auto. destruct (digit_val_digit c Hc) as [E _]. rewrite <- E.
    rewrite digits_val_cons, map_length.
    pose proof (p10z_pos (length s)). pose proof (p10z_pos (S (length s))).
    rewrite !qmake_div, !Z2Pos.id by auto.
    rewrite Nat2Z.inj_succ, Z.pow_succ_r by lia. rewrite inject_Z_plus, !inject_Z_mult.
    change (inject_Z 10) with 10%Q. field. apply inject_nz. lia.
Qed.

Lemma decimal_of_lit_spec l : lit_ok l -> (decimal_of_lit l == spec_val l)%Q.
Proof.
  intros (H1 & H2 & H3). unfold decimal_of_lit, spec_val.
  set (fr := match l_frac l with Some f => f | None => [] end).
  assert (Hfr : forallb is_digit fr = true) by (unfold fr; destruct (l_frac l); [apply H3|reflexivity]).
  assert (E : (Qmake (digits_val 10 (map digit_val (l_int l ++ fr))) (Z.to_pos (10 ^ Z.of_nat (length fr)))
    == int_val (l_int l) 0 + frac_val fr)%Q).
  { rewrite map_app, digits_val_app, map_length. change 0%Q with (inject_Z 0).
    rewrite int_val_digits, frac_val_digits by auto. pose proof (p10z_pos (length fr)).
    rewrite !qmake_div, !Z2Pos.id by auto. rewrite inject_Z_plus, inject_Z_mult. fold (digits_val 10 (map digit_val (l_int l))).
    field. apply inject_nz. lia. }
  destruct (l_neg l); [|auto]. rewrite <- E. rewrite !qmake_div, inject_Z_opp. unfold Qdiv; ring.
Qed.

Lemma match_number_sound s l r : match_number s = Some (l, r) -> s = lit_text l ++ r /\ lit_ok l.
Proof.
  unfold match_number, opt_minus.
  assert (G : forall s1 ip fp r, match_digits is_digit s1 = Some (ip, fp, r) ->
    s1 = ip ++ match fp with Some f => "."%char :: f | None => [] end ++ r /\
    ip <> [] /\ forallb is_digit ip = true /\ match fp with Some f => f <> [] /\ forallb is_digit f = true | None => True end).
  { clear. intros s1 ip fp r. unfold match_digits.
    pose proof (span_app is_digit s1) as A. pose proof (span_all is_digit s1) as B.
    destruct (span is_digit s1) as [ip' r']. cbn in A, B. destruct ip' as [|d ip']; [discriminate|].
    destruct r' as [|c r'].
    - intros H; inversion H; subst. split; [cbn; rewrite ?app_nil_r; reflexivity|]. repeat split; auto; discriminate.
    - destruct (ceq c ".") eqn:C.
      + apply ceq_iff in C; subst c.
        pose proof (span_app is_digit r') as A2. pose proof (span_all is_digit r') as B2.
        destruct (span is_digit r') as [fp' r2]. cbn in A2, B2. destruct fp' as [|e fp'].
        * intros H; inversion H; subst. split; [cbn; rewrite ?app_nil_r; reflexivity|]. repeat split; auto; discriminate.
        * intros H; inversion H; subst. split; [|repeat split; auto; discriminate].
          cbn; reflexivity.
      + intros H; inversion H; subst. split; [cbn; rewrite ?app_nil_r; reflexivity|]. repeat split; auto; discriminate. }
  destruct s as [|c s].
  - cbn. discriminate.
  - destruct (ceq c "-") eqn:C.
    + apply ceq_iff in C; subst c. destruct (match_digits is_digit s) as [[[ip fp] r']|] eqn:M; [|discriminate].
      intros H; inversion H; subst. apply G in M as (E & H1 & H2 & H3).
      split; [|split; [|split]; auto]. unfold lit_text. cbn. rewrite E, <- app_assoc. reflexivity.
    + destruct (match_digits is_digit (c :: s)) as [[[ip fp] r']|] eqn:M; [|discriminate].
      intros H; inversion H; subst. apply G in M as (E & H1 & H2 & H3).
      split; [|split; [|split]; auto]. unfold lit_text. cbn [seq_eqb negb l_neg l_int l_frac].
      rewrite E, !app_nil_l, <- app_assoc. reflexivity.
Qed.

Lemma match_number_complete l r : lit_ok l -> stops_digits l r -> match_number (lit_text l ++ r) = Some (l, r).
Proof.
  intros (H1 & H2 & H3) Hs. destruct l as [ng ip fp]. cbn [l_int l_frac l_neg] in *.
  assert (G : match_digits is_digit (ip ++ match fp with Some f => "."%char :: f | None => [] end ++ r) = Some (ip, fp, r)).
  { unfold match_digits. destruct ip as [|d ip]; [congruence|].
    destruct fp as [f|].
    - destruct H3 as [F1 F2].
      rewrite (span_exact is_digit (d :: ip) (("."%char :: f) ++ r)) by (auto; reflexivity).
      cbn [app]. replace (ceq "." ".") with true by reflexivity.
      rewrite (span_exact is_digit f r) by (auto; destruct r; auto; cbn in Hs; tauto).
      destruct f; [congruence|auto].
    - cbn [app]. change (d :: ip ++ r) with ((d :: ip) ++ r).
      rewrite (span_exact is_digit (d :: ip) r) by (auto; destruct r; auto; cbn in Hs; tauto).
      destruct r as [|c r]; auto. destruct (ceq c ".") eqn:C; auto. apply ceq_iff in C; subst c.
        cbn in Hs. destruct Hs as [_ Hs]. specialize (Hs eq_refl eq_refl).
        destruct r as [|e r]; cbn; auto. rewrite Hs; auto. }
  unfold match_number, opt_minus, lit_text. cbn [l_int l_frac l_neg].
  rewrite <- !app_assoc. destruct ng.
  - cbn [app]. change (ceq "-" "-") with true. cbn iota. rewrite G. reflexivity.
  - rewrite app_nil_l. destruct ip as [|d ip]; [congruence|].
    cbn [app]. destruct (ceq d "-") eqn:C.
    + apply ceq_iff in C; subst d. discriminate.
    + cbn [app] in G. rewrite G. reflexivity.
Qed.

(** ** Number(text) is exact *)
Lemma ratio_props x : let '(a, b) := ratio x in (inject_Z a / inject_Z b == x)%Q /\ 0 < b /\ Z.gcd a b = 1.
Proof.
  unfold ratio. split; [|split; [lia|]].
  - rewrite <- qmake_div. destruct (Qred x) eqn:E. cbn. rewrite <- E. apply Qred_correct.
  - unfold Qred. destruct x as [n d]. pose proof (Z.ggcd_gcd n (Zpos d)) as G.
    pose proof (Z.ggcd_correct_divisors n (Zpos d)) as D.
    destruct (Z.ggcd n (Zpos d)) as [g [aa bb]]. cbn in *. destruct D as [D1 D2].
    assert (0 < g) by (rewrite G; apply gcd_pos; lia).
    assert (0 < bb) by nia. rewrite Z2Pos.id by auto.
    assert (Z.gcd (g * aa) (g * bb) = g * Z.gcd aa bb) by (rewrite Z.gcd_mul_mono_l, (Z.abs_eq g) by lia; reflexivity).
    rewrite <- D1, <- D2 in H1. rewrite <- G in H1. nia.
Qed.

Lemma num_make_exact_Q p c x : 1 <= p -> (Zpos (Qden (Qred x)) <= 10 ^ p) ->
  exists r, num_make p c x 1 = Some r /\ (val r == x)%Q /\ good r /\ lowest r /\ ncast r = c.
Proof.
  intros Hp Hb. unfold num_make. change (Qeq_bool 1 0) with false. cbn iota.
  pose proof (ratio_props x) as R. unfold ratio in *. set (a := Qnum (Qred x)) in *. set (b := Z.pos (Qden (Qred x))) in *.
  destruct R as (R1 & R2 & R3).
  assert (Red : forall num den, 0 < den -> Z.gcd num den = 1 -> num_reduce p c num den = mkNum num den c None).
  { intros num den Hd G. unfold num_reduce. destruct (Z.ltb_spec den 0); [lia|]. rewrite G. reflexivity. }
  destruct (q_is_int x) eqn:I.
  - change (q_is_int 1) with true. cbn iota. rewrite Red; [|reflexivity|apply Z.gcd_1_r].
    eexists. split; [reflexivity|]. unfold val, good. cbn [nnum nden ncast].
    split; [|split; [reflexivity|split; [apply gcd1_lowest; apply Z.gcd_1_r|reflexivity]]].
    change (Qfloor 1) with 1. apply q_is_int_true in I. rewrite I at 2. field.
  - unfold dmul. rewrite (rnd_Z p b); [|auto|rewrite Qmult_1_l; reflexivity|lia].
    rewrite q_is_int_Z, !Qfloor_Z. rewrite Red by auto.
    eexists. split; [reflexivity|]. unfold val, good. cbn [nnum nden ncast].
    repeat split; auto. apply gcd1_lowest; auto.
Qed.

Lemma Qred_den_divide n d : 0 < d -> (Z.pos (Qden (Qred (Qmake n (Z.to_pos d)))) | d).
Proof.
  intros Hd. unfold Qred. pose proof (Z.ggcd_correct_divisors n (Zpos (Z.to_pos d))) as D.
  pose proof (Z.ggcd_gcd n (Zpos (Z.to_pos d))) as G.
  destruct (Z.ggcd n (Zpos (Z.to_pos d))) as [g [aa bb]]. cbn in *. destruct D as [D1 D2].
  rewrite Z2Pos.id in D2 by auto.
  assert (0 < g) by (rewrite G; apply gcd_pos; lia).
  assert (0 < bb) by nia. rewrite Z2Pos.id by auto. exists g. lia.
Qed.

Lemma number_of_lit_exact p l : 1 <= p -> lit_ok l ->
  (match l_frac l with Some f => Z.of_nat (length f) <= p | None => True end) ->
  exists r, number_of_lit p l = Some r /\ (val r == spec_val l)%Q /\ good r /\ lowest r.
Proof.
  intros Hp Hl Hf. unfold number_of_lit.
  destruct (num_make_exact_Q p None (decimal_of_lit l) Hp) as (r & R1 & R2 & R3 & R4 & _).
  - unfold decimal_of_lit. set (fr := match l_frac l with Some f => f | None => [] end).
    pose proof (p10z_pos (length fr)).
    match goal with |- context [Qmake ?n _] => pose proof (Qred_den_divide n (10 ^ Z.of_nat (length fr)) H) as D end.
    apply Z.divide_pos_le in D; auto.
    assert (10 ^ Z.of_nat (length fr) <= 10 ^ p); [|lia].
    apply Z.pow_le_mono_r; [lia|]. unfold fr. destruct (l_frac l); cbn; lia.
  - exists r. split; [auto|split; [rewrite R2; apply decimal_of_lit_spec; auto|auto]].
Qed.
