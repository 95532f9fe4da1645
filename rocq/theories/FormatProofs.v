(** Texts in every number format are read as numbers of that format. *)
From Coq Require Import ZArith QArith Qround Qabs Qreduction Ascii String List Bool Lia Lqa Setoid Znumtheory.
From Verif Require Import Base Dec Num NumSpec Lex LexSpec DecProofs NumProofs NumProofs3 BaseProofs LexProofs Bases BasesProofs BasesProofs2 BasesProofs4 Formats Units Syntax Pos Call Loop Parse Exec Std FormatSpec SciProofs.
Import ListNotations.
Open Scope Z_scope.

(** A letter that follows the digits and starts neither an exponent nor a fraction *)
Definition parted (F : fmt) (y : ascii) : Prop :=
  is_digit y = false /\ y <> "."%char /\ y <> "%"%char /\ match f_sym F with c :: _ => lower_c c <> lower_c y | [] => False end.

Definition others (F : fmt) (s : str) : out number :=
  match match_bin s, match_oct s, match_hex s, match_arb s with
  | Some (t, []), _, _, _ => parse_bin (f_prec F) (f_pow F) t
  | _, Some (t, []), _, _ => parse_oct (f_prec F) (f_pow F) t
  | _, _, Some (t, []), _ => parse_hex (f_prec F) (f_pow F) t
  | _, _, _, Some (t, []) => do r <- parse_arb (f_prec F) (f_pow F) t; match r with Some n => Ok n | None => Calc end
  | _, _, _, _ => Calc
  end.
Lemma text_number_other F (neg : bool) ds y r : forallb is_digit ds = true -> ds <> [] -> parted F y -> r <> [] ->
  text_number F ((if neg then ["-"%char] else []) ++ ds ++ y :: r) = others F ((if neg then ["-"%char] else []) ++ ds ++ y :: r).
Proof.
  intros D N (Y1 & Y2 & Y3 & Y4) R.
  assert (T : (if neg then ["-"%char] else []) ++ ds ++ y :: r = lit_text (mkLit neg ds None) ++ y :: r).
  { unfold lit_text. cbn [l_neg l_int l_frac]. rewrite app_nil_r, <- app_assoc. reflexivity. }
  rewrite T. assert (M : match_number (lit_text (mkLit neg ds None) ++ y :: r) = Some (mkLit neg ds None, y :: r)).
  { apply match_number_complete; [repeat split; auto|]. cbn. split; [exact Y1|]. intros _ E. contradiction. }
  unfold text_number, match_exp, match_pct. rewrite M.
  assert (is_nil (y :: r) || seq_eqb (y :: r) [newline] = false) as ->.
  { cbn [is_nil orb]. apply not_true_iff_false. intros H. apply seq_eqb_iff in H. destruct r; [congruence|discriminate H]. }
  assert (prefixb (lower (f_sym F)) (lower (y :: r)) = false) as ->.
  { destruct (f_sym F) as [|c s]; [destruct Y4|]. cbn [lower map prefixb]. apply ceq_neq in Y4. rewrite Y4. reflexivity. }
  assert (ceq y "%"%char = false) as -> by (apply ceq_neq; exact Y3). reflexivity.
Qed.

Lemma lower_zero a : lower_c a = "0"%char -> a = "0"%char.
Proof. destruct a as [b0 b1 b2 b3 b4 b5 b6 b7]. destruct b0, b1, b2, b3, b4, b5, b6, b7; vm_compute; congruence. Qed.
Lemma opt_minus_split s sg s1 : opt_minus s = (sg, s1) -> exists neg : bool, sg = (if neg then ["-"%char] else []) /\ s = sg ++ s1.
Proof.
  unfold opt_minus. destruct s as [|c s]; [intros H; injection H as <- <-; exists false; auto|].
  destruct (ceq c "-"%char) eqn:C; intros H; injection H as <- <-; [exists true; apply ceq_iff in C; subst; auto|exists false; auto].
Qed.
Lemma prefixed_shape x cls T t : match_prefixed ["0"%char; x] cls T = Some (T, t) ->
  exists (neg : bool) y r, T = (if neg then ["-"%char] else []) ++ ["0"%char] ++ y :: r /\ lower_c y = x /\ r <> [].
Proof.
  unfold match_prefixed. destruct (opt_minus T) as [sg s1] eqn:O. destruct (opt_minus_split T sg s1 O) as (neg & -> & ->). cbn [length].
  destruct s1 as [|a [|y r]]; cbn [firstn lower map prefixb skipn].
  - discriminate.
  - destruct (ceq "0" (lower_c a)); discriminate.
  - destruct (ceq "0" (lower_c a)) eqn:A; [|discriminate]. destruct (ceq x (lower_c y)) eqn:B; [|discriminate]. cbn [andb].
    apply ceq_iff in A, B. symmetry in A. apply lower_zero in A. subst a x. intros H. exists neg, y, r. split; [reflexivity|]. split; [reflexivity|].
    intros ->. cbn in H. discriminate.
Qed.

Lemma prefixed_not x cls (neg : bool) a y r : lower_c y <> x \/ a <> "0"%char -> a <> "-"%char ->
  match_prefixed ["0"%char; x] cls ((if neg then ["-"%char] else []) ++ a :: y :: r) = None.
Proof.
  intros H A. unfold match_prefixed.
  assert (O : opt_minus ((if neg then ["-"%char] else []) ++ a :: y :: r) = (if neg then ["-"%char] else [], a :: y :: r)).
  { destruct neg; [reflexivity|]. cbn [app opt_minus]. destruct (ceq a "-"%char) eqn:C; [apply ceq_iff in C; contradiction|reflexivity]. }
  rewrite O. cbn [length firstn lower map prefixb].
  destruct (ceq "0" (lower_c a)) eqn:E1; [|reflexivity]. destruct (ceq x (lower_c y)) eqn:E2; [|reflexivity].
  apply ceq_iff in E1, E2. symmetry in E1. apply lower_zero in E1. destruct H; congruence.
Qed.

Lemma bases_differ y : lower_c y = "b"%char \/ lower_c y = "o"%char \/ lower_c y = "x"%char \/ lower_c y = "z"%char ->
  is_digit y = false /\ y <> "."%char /\ y <> "%"%char.
Proof.
  destruct y as [b0 b1 b2 b3 b4 b5 b6 b7]. destruct b0, b1, b2, b3, b4, b5, b6, b7; vm_compute; intros H; repeat split; try discriminate;
  destruct H as [H|[H|[H|H]]]; discriminate H.
Qed.

Lemma parted_base F y : symbol_apart (f_sym F) -> In (lower_c y) ["b"%char; "o"%char; "x"%char; "z"%char] -> parted F y.
Proof.
  intros S H. destruct (bases_differ y) as (A & B & C). { cbn in H. intuition. }
  repeat split; auto. unfold symbol_apart in S. destruct (f_sym F) as [|c s]; [exact S|]. destruct S as [S _]. intros E. rewrite E in S. contradiction.
Qed.

Lemma text_number_bin F T : symbol_apart (f_sym F) -> match_bin T = Some (T, []) -> text_number F T = parse_bin (f_prec F) (f_pow F) T.
Proof.
  intros S M. destruct (prefixed_shape _ _ _ _ M) as (neg & y & r & E & Y & R).
  rewrite E at 1. rewrite text_number_other; auto; [|discriminate|apply parted_base; auto; rewrite Y; cbn; auto].
  rewrite <- E. unfold others. rewrite M. reflexivity.
Qed.
Lemma text_number_oct F T : symbol_apart (f_sym F) -> match_oct T = Some (T, []) -> text_number F T = parse_oct (f_prec F) (f_pow F) T.
Proof.
  intros S M. destruct (prefixed_shape _ _ _ _ M) as (neg & y & r & E & Y & R).
  rewrite E at 1. rewrite text_number_other; auto; [|discriminate|apply parted_base; auto; rewrite Y; cbn; auto].
  rewrite <- E. unfold others. assert (match_bin T = None) as ->. { rewrite E. apply prefixed_not; [left; rewrite Y|]; discriminate. } rewrite M. reflexivity.
Qed.
Lemma text_number_hex F T : symbol_apart (f_sym F) -> match_hex T = Some (T, []) -> text_number F T = parse_hex (f_prec F) (f_pow F) T.
Proof.
  intros S M. destruct (prefixed_shape _ _ _ _ M) as (neg & y & r & E & Y & R).
  rewrite E at 1. rewrite text_number_other; auto; [|discriminate|apply parted_base; auto; rewrite Y; cbn; auto].
  rewrite <- E. unfold others. assert (match_bin T = None) as ->. { rewrite E. apply prefixed_not; [left; rewrite Y|]; discriminate. }
  assert (match_oct T = None) as ->. { rewrite E. apply prefixed_not; [left; rewrite Y|]; discriminate. } rewrite M. reflexivity.
Qed.

Lemma arb_shape T t : match_arb T = Some (T, t) ->
  exists (neg : bool) bs y r, T = (if neg then ["-"%char] else []) ++ bs ++ y :: r /\ forallb is_digit bs = true /\ bs <> [] /\ lower_c y = "z"%char /\ r <> [].
Proof.
  unfold match_arb. destruct (opt_minus T) as [sg s1] eqn:O. destruct (opt_minus_split T sg s1 O) as (neg & -> & ->).
  destruct (span is_digit s1) as [bs s2] eqn:Sp. pose proof (span_app is_digit s1) as A. pose proof (span_all is_digit s1) as B. rewrite Sp in A, B. cbn [fst snd] in A, B.
  destruct bs as [|b bs]; [discriminate|]. destruct s2 as [|z s3]; [discriminate|]. destruct (ceq (lower_c z) "z"%char) eqn:Z; [|discriminate].
  intros H. exists neg, (b :: bs), z, s3. rewrite <- A. apply ceq_iff in Z. repeat split; auto; [discriminate|]. intros ->. cbn in H. discriminate.
Qed.
Lemma text_number_arb F T : symbol_apart (f_sym F) -> match_arb T = Some (T, []) ->
  text_number F T = (do r <- parse_arb (f_prec F) (f_pow F) T; match r with Some n => Ok n | None => Calc end).
Proof.
  intros S M. destruct (arb_shape _ _ M) as (neg & bs & y & r & E & D & N & Y & R).
  rewrite E at 1. rewrite text_number_other; auto; [|apply parted_base; auto; rewrite Y; cbn; auto].
  rewrite <- E. unfold others.
  assert (X : forall x cls, In x ["b"%char; "o"%char; "x"%char] -> match_prefixed ["0"%char; x] cls T = None).
  { intros x cls Hx. rewrite E. destruct bs as [|b bs]; [congruence|]. cbn [forallb] in D. apply andb_true_iff in D as [D1 D2].
    assert (b <> "-"%char) by (intros ->; discriminate D1).
    destruct bs as [|b2 bs]; cbn [app].
    - apply prefixed_not; auto. left. rewrite Y. cbn in Hx. intuition; subst; discriminate.
    - apply prefixed_not; auto. left. cbn [forallb] in D2. apply andb_true_iff in D2 as [D2 _]. intros L.
      assert (Z : is_digit b2 = false) by (apply bases_differ; rewrite L; cbn in Hx; intuition). congruence. }
  assert (match_bin T = None) as -> by (apply X; cbn; auto). assert (match_oct T = None) as -> by (apply X; cbn; auto).
  assert (match_hex T = None) as -> by (apply X; cbn; auto). rewrite M. reflexivity.
Qed.

(** ** Percentages *)
Lemma text_number_pct F l : lit_ok l -> (match f_sym F with c :: _ => c <> "%"%char | [] => False end) -> text_number F (lit_text l ++ $"%") = pct_value F l.
Proof.
  intros L S. change ($"%") with ["%"%char]. unfold text_number, match_exp, match_pct.
  rewrite match_number_complete; [|exact L|cbn; split; [reflexivity|discriminate]].
  change (is_nil ["%"%char] || seq_eqb ["%"%char] [newline]) with false. cbn iota.
  assert (prefixb (lower (f_sym F)) (lower ["%"%char]) = false) as ->.
  { destruct (f_sym F) as [|c s]; [destruct S|]. cbn [lower map prefixb]. destruct (ceq (lower_c c) (lower_c "%")) eqn:E; [|reflexivity].
    exfalso. apply S. apply ceq_iff in E. revert E. destruct c as [b0 b1 b2 b3 b4 b5 b6 b7]. destruct b0, b1, b2, b3, b4, b5, b6, b7; vm_compute; congruence. }
  reflexivity.
Qed.

Lemma pct_round_trip F v m : let p := f_prec F in let k := f_places F in 1 <= k -> k + 2 < p -> good v -> lowest v ->
  (match f_sym F with c :: _ => c <> "%"%char | [] => False end) ->
  (val v == inject_Z m / inject_Z (10 ^ (k + 2)))%Q -> Z.abs m * 100 < 10 ^ p ->
  exists T r, pct_to_string F v = Ok T /\ text_number F T = Ok r /\ nnum r = nnum v /\ nden r = nden v /\ ncast r = Some CPct.
Proof.
  intros p k Hk Hp G L S V B. assert (1 <= p) by lia. pose proof (pow10_pos k ltac:(lia)) as Pk. pose proof (pow10_pos (k + 2) ltac:(lia)) as Pk2.
  assert (T2 : 10 ^ (k + 2) = 10 ^ k * 100) by (rewrite Z.pow_add_r by lia; reflexivity).
  destruct (lowest_scale v m (10 ^ (k + 2)) G L Pk2 V) as (q & Q0 & Q1 & Q2). unfold good in G.
  assert (LT : 10 ^ (k + 2) < 10 ^ p) by (apply Z.pow_lt_mono_r; lia).
  unfold pct_to_string. fold p. fold k. rewrite num_of_Z_eq.
  destruct (num_mul_exact p v (mkNum 100 1 None None)) as (a & A1 & A2 & A3 & A4 & _); auto.
  { reflexivity. }
  { split; unfold small; cbn [nnum nden].
    - rewrite Z.abs_mul. rewrite Q2, Z.abs_mul in B. nia.
    - rewrite Z.mul_1_r, Z.abs_eq by lia. nia. }
  rewrite A1. cbn [py_opt obind].
  assert (VA : (val a == inject_Z m / inject_Z (10 ^ k))%Q).
  { rewrite A2, V, T2, inject_Z_mult. unfold val. cbn [nnum nden]. change (inject_Z 100) with 100%Q. field. apply inject_nz; lia. }
  destruct (to_string_exact p k a m) as (l & S1 & S2 & S3 & S4 & (r & R1 & R2 & R3 & R4)); auto; try lia.
  rewrite S1. cbn [py_opt obind]. exists (lit_text l ++ $"%").
  rewrite text_number_pct by assumption. unfold pct_value. fold p. rewrite R1. cbn [py_opt obind]. rewrite num_of_Z_eq.
  destruct (lowest_scale r m (10 ^ k) R3 R4 Pk) as (j & J0 & J1 & J2). { rewrite R2. exact VA. }
  unfold good in R3.
  destruct (num_div_exact p r (mkNum 100 1 None None)) as (w & W1 & W2 & W3 & W4 & _); auto.
  { reflexivity. }
  { split; unfold small; cbn [nnum nden].
    - rewrite Z.mul_1_r. rewrite J2, Z.abs_mul in B. nia.
    - rewrite Z.abs_eq by lia. nia. }
  { discriminate. }
  rewrite W1. cbn [py_opt obind]. eexists. split; [reflexivity|]. split; [reflexivity|]. cbn [with_cast num_copy set_width nnum nden ncast].
  destruct (lowest_unique w v) as [U1 U2]; auto.
  rewrite W2, R2, A2. unfold val. cbn [nnum nden]. change (inject_Z 100) with 100%Q. field. apply inject_nz. lia.
Qed.
