(** Proofs for C63: what is read as a date is written as one. *)
From Coq Require Import ZArith Ascii String List Bool Lia.
From Verif Require Import Base BaseProofs Dates DateSpec DateProofs DateProofs2 DateProofs3 DateTextSpec.
Import ListNotations.
Open Scope Z_scope.

Lemma digit_for_iff c n : digit_for c n <-> any c = true /\ n = dval c.
Proof.
  unfold digit_for, any, dig, dval, code, nat_of_ascii. rewrite andb_true_iff, !Z.leb_le, N_nat_Z. lia.
Qed.
Lemma numeral_iff s n : numeral s n <-> forallb any s = true /\ n = digits_val 10 (map dval s).
Proof.
  split.
  - induction 1 as [|s n c d N [IH1 IH2] D]; [split; reflexivity|]. apply digit_for_iff in D as [D ->]. rewrite forallb_app, IH1. cbn [forallb]. rewrite D. split; [reflexivity|].
    rewrite map_app. unfold digits_val in *. rewrite fold_left_app. cbn [map fold_left]. rewrite <- IH2. lia.
  - revert n. induction s as [|c s IH] using rev_ind; intros n [A ->]; [exact NumNone|]. rewrite forallb_app in A. apply andb_true_iff in A as [A B]. cbn [forallb] in B. rewrite andb_true_r in B.
    replace (digits_val 10 (map dval (s ++ [c]))) with (10 * digits_val 10 (map dval s) + dval c) by (rewrite map_app; unfold digits_val; rewrite fold_left_app; cbn [map fold_left]; lia).
    constructor; [apply IH; auto|]. apply digit_for_iff. auto.
Qed.

Lemma pair_parts {A B} (a a' : A) (b b' : B) : (a, b) = (a', b') -> a = a' /\ b = b'.
Proof. intros H. now inversion H. Qed.
(** * What is read is written so *)
Lemma dig_any a b c : 0 <= a -> b <= 9 -> dig a b c = true -> any c = true.
Proof. unfold any, dig. rewrite !andb_true_iff, !Z.leb_le. lia. Qed.
Lemma one_text a b s z r : 0 <= a -> b <= 9 -> In (z, r) (one (dig a b) s) -> exists x, s = x ++ r /\ digits_from 1 1 x z.
Proof.
  intros A B. unfold one. destruct s as [|c s]; [intros []|]. destruct (dig a b c) eqn:E; [|intros []]. intros [H|[]]. apply pair_parts in H as [<- <-]. exists [c]. split; [reflexivity|].
  split; [|cbn; lia]. apply numeral_iff. cbn [forallb map]. rewrite (dig_any a b c A B E). split; reflexivity.
Qed.
Lemma two_text a b a' b' s z r : 0 <= a -> b <= 9 -> 0 <= a' -> b' <= 9 -> In (z, r) (two (dig a b) (dig a' b') s) -> exists x, s = x ++ r /\ digits_from 2 2 x z.
Proof.
  intros A B A' B'. unfold two. destruct s as [|c [|d s]]; try (intros []; fail). destruct (dig a b c) eqn:E; [|intros []]. destruct (dig a' b' d) eqn:F; [|intros []].
  intros [H|[]]. apply pair_parts in H as [<- <-]. exists [c; d]. split; [reflexivity|]. split; [|cbn; lia]. apply numeral_iff. cbn [forallb map].
  rewrite (dig_any a b c A B E), (dig_any a' b' d A' B' F). split; [reflexivity|]. unfold digits_val. cbn [fold_left]. lia.
Qed.
Lemma from_wider lo hi lo' hi' x z : (lo' <= lo)%nat -> (hi <= hi')%nat -> digits_from lo hi x z -> digits_from lo' hi' x z.
Proof. intros A B [N L]. split; [exact N|lia]. Qed.
Ltac wider := match goal with H : exists x, _ = x ++ _ /\ digits_from _ _ x _ |- _ => destruct H as (x & E & D); exists x; split; [exact E|refine (from_wider _ _ _ _ _ _ _ _ D); lia] end.
Ltac field_text := unfold any, is; intros H; split_in; ((apply two_text in H; [wider|lia..])||(apply one_text in H; [wider|lia..])).
Lemma month_text s z r : In (z, r) (m_month s) -> exists x, s = x ++ r /\ digits_from 1 2 x z.
Proof. unfold m_month. field_text. Qed.
Lemma hour_text s z r : In (z, r) (m_hour s) -> exists x, s = x ++ r /\ digits_from 1 2 x z.
Proof. unfold m_hour. field_text. Qed.
Lemma minute_text s z r : In (z, r) (m_minute s) -> exists x, s = x ++ r /\ digits_from 1 2 x z.
Proof. unfold m_minute. field_text. Qed.
Lemma second_text s z r : In (z, r) (m_second s) -> exists x, s = x ++ r /\ digits_from 1 2 x z.
Proof. unfold m_second. field_text. Qed.
Lemma day_field_text s z r : In (z, r) (m_day s) -> exists x, s = x ++ r /\ (digits_from 1 2 x z \/ exists x', x = " "%char :: x' /\ digits_from 1 1 x' z).
Proof.
  unfold m_day. intros H. apply in_app_iff in H as [H|H]; [|apply in_app_iff in H as [H|H]; [|apply in_app_iff in H as [H|H]; [|apply in_app_iff in H as [H|H]]]].
  1-3: unfold any, is in H; apply two_text in H as (x & E & D); [|lia..]; exists x; split; [exact E|left; refine (from_wider _ _ _ _ _ _ _ _ D); lia].
  - apply one_text in H as (x & E & D); [|lia..]; exists x; split; [exact E|left; refine (from_wider _ _ _ _ _ _ _ _ D); lia].
  - destruct s as [|c s]; [destruct H|]. destruct (ceq c " ") eqn:E; [|destruct H]. apply Ascii.eqb_eq in E. subst c. apply one_text in H as (x & -> & D); [|lia..].
    exists (" "%char :: x). split; [reflexivity|]. right. exists x. auto.
Qed.
Lemma year_text s z r : In (z, r) (m_year s) -> exists x, s = x ++ r /\ digits_from 4 4 x z.
Proof.
  unfold m_year. destruct s as [|a [|b [|c [|d s]]]]; try (intros []; fail).
  destruct (any a) eqn:A; [|intros []]. destruct (any b) eqn:B; [|intros []]. destruct (any c) eqn:C; [|intros []]. destruct (any d) eqn:D; [|intros []].
  intros [H|[]]. apply pair_parts in H as [<- <-]. exists [a; b; c; d]. split; [reflexivity|]. split; [|cbn; lia]. apply numeral_iff. cbn [forallb map]. rewrite A, B, C, D. split; [reflexivity|].
  unfold digits_val. cbn [fold_left]. lia.
Qed.
Lemma fraction_text n : forall acc s z r, In (z, r) (m_fraction n acc s) ->
  exists x, s = x ++ r /\ forallb any x = true /\ (1 <= length x <= n)%nat /\ z = acc + digits_val 10 (map dval x) * 10 ^ (Z.of_nat n - Z.of_nat (length x)).
Proof.
  induction n as [|n IH]; intros acc s z r; cbn [m_fraction]; [intros []|]. destruct s as [|c s]; [intros []|].
  destruct (any c) eqn:E; [|intros []]. rewrite in_app_iff. intros [H|[H|[]]].
  - apply IH in H as (x & -> & A & L & ->). exists (c :: x). split; [reflexivity|]. cbn [forallb length map]. rewrite E, A. split; [reflexivity|]. split; [lia|].
    rewrite digits_val_cons, map_length. replace (Z.of_nat (S n) - Z.of_nat (S (length x))) with (Z.of_nat n - Z.of_nat (length x)) by lia.
    replace (Z.of_nat n) with (Z.of_nat (length x) + (Z.of_nat n - Z.of_nat (length x))) at 1 by lia. rewrite Z.pow_add_r by lia. ring.
  - apply pair_parts in H as [<- <-]. exists [c]. split; [reflexivity|]. cbn [forallb length map]. rewrite E. split; [reflexivity|]. split; [lia|].
    replace (Z.of_nat (S n) - Z.of_nat 1) with (Z.of_nat n) by lia. unfold digits_val. cbn [fold_left]. ring.
Qed.
Lemma micro_written s z r : In (z, r) (m_micro s) -> exists x, s = x ++ r /\ part_written z ("."%char :: x).
Proof.
  unfold m_micro. intros H. apply fraction_text in H as (x & -> & A & L & ->). exists x. split; [reflexivity|].
  exists x, (digits_val 10 (map dval x)). split; [reflexivity|]. split; [split; [apply numeral_iff; auto|lia]|]. change (Z.of_nat 6) with 6. lia.
Qed.
Lemma lit_i_text c s r : In r (lit_i c s) -> exists x, s = x :: r /\ lower_c x = lower_c c.
Proof. unfold lit_i. destruct s as [|x s]; [intros []|]. destruct (ceq _ _) eqn:E; [|intros []]. intros [->|[]]. apply Ascii.eqb_eq in E. eauto. Qed.
Lemma lit_text c s r : In r (lit c s) -> s = c :: r.
Proof. unfold lit. destruct s as [|x s]; [intros []|]. destruct (ceq _ _) eqn:E; [|intros []]. intros [->|[]]. apply Ascii.eqb_eq in E. now subst x. Qed.
Lemma lower_self c x : In c ["-"; ":"; "."]%char -> lower_c x = lower_c c -> x = c.
Proof. intros I E. destruct I as [<-|[<-|[<-|[]]]]; each_char x; vm_compute in E |- *; congruence. Qed.
Lemma lower_T x : lower_c x = lower_c "T" -> In x ["T"; "t"]%char.
Proof. intros E. each_char x; vm_compute in E |- *; try discriminate E; auto. Qed.

(** * Tokens *)
Lemma tok_lit c f s f' r : In (f', r) (m_tok (TLit c) f s) -> f' = f /\ exists x, s = x :: r /\ lower_c x = lower_c c.
Proof.
  destruct f. cbn [m_tok]. intros I. apply in_map_iff in I as (q & E & I). injection E as <- <-. split; [reflexivity|]. now apply lit_i_text.
Qed.
Lemma tok_field t m g f s f' r : is_field t m g -> In (f', r) (m_tok t f s) -> exists z, In (z, r) (m s) /\ f' = g z f.
Proof. intros F. rewrite F. intros I. apply in_map_iff in I as ([z q] & E & I). injection E as <- <-. eauto. Qed.
Lemma matches_cons t ts f s f' r : In (f', r) (matches (t :: ts) f s) -> exists g q, In (g, q) (m_tok t f s) /\ In (f', r) (matches ts g q).
Proof. cbn [matches]. intros I. apply in_flat_map in I as ([g q] & I1 & I2). eauto. Qed.
Lemma matches_app ts : forall ts' f s f' r, In (f', r) (matches (ts ++ ts') f s) -> exists g q, In (g, q) (matches ts f s) /\ In (f', r) (matches ts' g q).
Proof.
  induction ts as [|t ts IH]; intros ts' f s f' r I; [exists f, s; split; [now left|exact I]|]. cbn [app] in I. apply matches_cons in I as (g & q & I1 & I2).
  apply IH in I2 as (g' & q' & I2 & I3). exists g', q'. split; [|exact I3]. cbn [matches]. apply in_flat_map. exists (g, q). auto.
Qed.
Lemma matches_nil f s f' r : In (f', r) (matches [] f s) -> f' = f /\ s = r.
Proof. intros [I|[]]. injection I as <- <-. auto. Qed.
Tactic Notation "next_field" constr(L) constr(F) ident(x) ident(D) := match goal with I : In _ (matches (_ :: _) _ _) |- _ => apply matches_cons in I as (? & ? & ?I & I); match goal with J : In _ (m_tok _ _ _) |- _ => apply (tok_field _ _ _ _ _ _ _ F) in J as (? & J & ->); apply L in J as (x & -> & D) end end.
Tactic Notation "next_lit" ident(c) := match goal with I : In _ (matches (TLit _ :: _) _ _) |- _ => apply matches_cons in I as (? & ? & ?I & I); match goal with J : In _ (m_tok _ _ _) |- _ => apply tok_lit in J as (-> & c & -> & J) end end.

Lemma date_tokens f s f' r : In (f', r) (matches f_date f s) ->
  exists x, s = x ++ r /\ day_written (fy f', fm f', fd f') x /\ fH f' = fH f /\ fM f' = fM f /\ fS f' = fS f /\ fu f' = fu f /\ fz f' = fz f.
Proof.
  unfold f_date. intros I. next_field year_text fld_y a Da. next_lit c1. next_field month_text fld_m b Db. next_lit c2. next_field day_field_text fld_d c Dc. apply matches_nil in I as [-> ->].
  repeat match goal with H : lower_c _ = lower_c _ |- _ => apply lower_self in H; [subst|cbn; tauto] end.
  exists (a ++ "-"%char :: b ++ "-"%char :: c). split; [rewrite <- !app_assoc; cbn [app]; rewrite <- !app_assoc; reflexivity|].
  cbn [g_y g_m g_d fy fm fd fH fM fS fu fz]. split; [|auto 10]. exists a, b, c. auto.
Qed.
Lemma time_tokens f s f' r : In (f', r) (matches f_time f s) ->
  exists x, s = x ++ r /\ (fS f' < 60 -> clock_written (fH f') (fM f') (fS f') x) /\ (fy f' = fy f /\ fm f' = fm f /\ fd f' = fd f /\ fu f' = fu f /\ fz f' = fz f).
Proof.
  unfold f_time. intros I. next_lit t.
  apply matches_cons in I as (? & ? & J & I). apply (tok_field _ _ _ _ _ _ _ fld_H) in J as (h & J & ->). pose proof (hour_in _ _ _ J) as Bh. apply hour_text in J as (xh & -> & Dh). next_lit c1.
  apply matches_cons in I as (? & ? & J & I). apply (tok_field _ _ _ _ _ _ _ fld_M) in J as (m & J & ->). pose proof (minute_in _ _ _ J) as Bm. apply minute_text in J as (xm & -> & Dm). next_lit c2.
  next_field second_text fld_S xs Ds. apply matches_nil in I as [-> ->].
  repeat match goal with H : lower_c _ = lower_c ":" |- _ => apply lower_self in H; [subst|cbn; tauto] end.
  match goal with H : lower_c _ = lower_c "T" |- _ => apply lower_T in H end.
  exists (t :: xh ++ ":"%char :: xm ++ ":"%char :: xs). split; [cbn [app]; rewrite <- !app_assoc; cbn [app]; rewrite <- !app_assoc; reflexivity|].
  cbn [g_H g_M g_S fy fm fd fH fM fS fu fz]. split; [|auto 10]. intros B. unfold clock_written. split; [lia|]. split; [lia|]. split; [exact B|].
  exists t, xh, xm, xs. auto.
Qed.
Lemma micro_tokens f s f' r : In (f', r) (matches f_hires f s) ->
  exists x, s = x ++ r /\ part_written (fu f') x /\ (fy f' = fy f /\ fm f' = fm f /\ fd f' = fd f /\ fH f' = fH f /\ fM f' = fM f /\ fS f' = fS f /\ fz f' = fz f).
Proof.
  unfold f_hires. intros I. next_lit c1. apply matches_cons in I as (? & ? & J & I). apply (tok_field _ _ _ _ _ _ _ fld_u) in J as (u & J & ->). apply matches_nil in I as [-> ->].
  apply micro_written in J as (x & -> & J). match goal with H : lower_c _ = lower_c _ |- _ => apply lower_self in H; [subst|cbn; tauto] end.
  exists ("."%char :: x). split; [reflexivity|]. split; [exact J|auto 10].
Qed.
Lemma colon_text s b r : In (b, r) (m_colon s) -> s = colon_if b ++ r.
Proof.
  unfold m_colon. intros I. apply in_app_iff in I as [I|[I|[]]].
  - apply in_map_iff in I as (q & E & I). injection E as <- <-. now apply lit_text in I.
  - injection I as <- <-. reflexivity.
Qed.
Lemma zone_seconds_text s c us r : In (c, us, r) (m_zone_seconds s) ->
  match c with
  | None => us = 0 /\ s = r
  | Some b => exists x p u t, s = colon_if b ++ x ++ p ++ r /\ digits_from 2 2 x t /\ t < 60 /\ ((p = [] /\ u = 0) \/ part_written u p) /\ us = t * 1000000 + u
  end.
Proof.
  unfold m_zone_seconds. intros I. apply in_app_iff in I as [I|[I|[]]]; [|injection I as <- <- <-; auto].
  apply in_flat_map in I as ([b q] & I1 & I). cbn [fst snd] in I. apply colon_text in I1 as ->. apply in_flat_map in I as ([t q'] & I1 & I). cbn [fst snd] in I.
  pose proof (two_in _ _ _ _ _ _ _ I1) as B. apply two_text in I1 as (x & -> & D); [|lia..]. apply in_app_iff in I as [I|[I|[]]].
  - apply in_map_iff in I as ([u q] & E & I). injection E as <- <- <-. cbn [fst snd]. apply in_flat_map in I as (w & I1 & I). apply lit_text in I1 as ->. apply micro_written in I as (y & -> & P).
    exists x, ("."%char :: y), u, t. split; [reflexivity|]. split; [exact D|]. split; [lia|]. split; [right; exact P|]. unfold us_second. lia.
  - injection I as <- <- <-. exists x, [], 0, t. split; [reflexivity|]. split; [exact D|]. split; [lia|]. split; [auto|]. unfold us_second. lia.
Qed.
Lemma zone_text_of s o : In (Some o, []) (m_zone s) -> offset_written o s.
Proof.
  unfold m_zone. destruct s as [|a s]; [intros []|]. destruct (ceq a "+" || ceq a "-") eqn:S.
  - intros I. right. apply in_flat_map in I as ([h q] & I1 & I). cbn [fst snd] in I. unfold any in I1. apply two_text in I1 as (xh & -> & Dh); [|lia..].
    apply in_flat_map in I as ([b q'] & I1 & I). cbn [fst snd] in I. apply colon_text in I1 as ->. apply in_flat_map in I as ([m q] & I1 & I). cbn [fst snd] in I.
    pose proof (two_in _ _ _ _ _ _ _ I1) as B. apply two_text in I1 as (xm & -> & Dm); [|lia..]. apply in_map_iff in I as ([[c us] rest] & E & I).
    apply zone_seconds_text in I. destruct (match c with Some b' => Bool.eqb b' b | None => true end) eqn:C; [|discriminate E]. injection E as <- ->.
    assert (G : exists sg, In (a, sg) [("+"%char, 1); ("-"%char, -1)] /\ forall x, (if ceq a "-" then - x else x) = sg * x).
    { apply orb_true_iff in S as [S|S]; apply Ascii.eqb_eq in S; subst a; [exists 1|exists (-1)]; (split; [cbn; tauto|]); intros x; [change (ceq "+" "-") with false|change (ceq "-" "-") with true]; cbv iota; lia. }
    destruct G as (sg & G & Gx). exists (a, sg), xh, b, xm, q, h, m, us. cbn [fst snd]. split; [reflexivity|]. split; [exact G|]. split; [exact Dh|]. split; [exact Dm|]. split; [lia|].
    split; [rewrite Gx; f_equal; unfold us_hour, us_minute; lia|]. destruct c as [b'|].
    + apply Bool.eqb_prop in C as ->. right. destruct I as (x & p & u & t & -> & D & T & P & ->). exists x, t, p, u. rewrite app_nil_r. auto.
    + left. destruct I as [-> ->]. auto.
  - destruct (ceq a "Z") eqn:Z; [|intros []]. apply Ascii.eqb_eq in Z. subst a. intros [I|[]]. injection I as <- ->. left. auto.
Qed.
Lemma zone_tokens f s f' : In (f', []) (matches [TZone] f s) ->
  (forall o, fz f' = Some (Some o) -> offset_written o s) /\ fz f' <> None /\ (fy f' = fy f /\ fm f' = fm f /\ fd f' = fd f /\ fH f' = fH f /\ fM f' = fM f /\ fS f' = fS f /\ fu f' = fu f).
Proof.
  intros I. apply matches_cons in I as (g & q & J & I). apply matches_nil in I as [-> ->]. destruct f as [y m d H M sc u z]. cbn [m_tok] in J. apply in_map_iff in J as ([o r] & E & J).
  injection E as <- ->. cbn [fst snd fz fy fm fd fH fM fS fu]. split; [|split; [discriminate|auto 10]]. intros o' X. injection X as ->. apply zone_text_of, J.
Qed.
Lemma make_parts f d : make_date f = Some d ->
  fS f < 60 /\ day_of d = (fy f, fm f, fd f) /\ dmicro d = ((fH f * 60 + fM f) * 60 + fS f) * 1000000 + fu f /\ fz f = option_map Some (doffset d).
Proof.
  unfold make_date. destruct (_ && _) eqn:E; [|discriminate]. rewrite !andb_true_iff, !Z.leb_le in E. destruct E as (_ & E6).
  intros X. split; [lia|]. assert (U : fH f * us_hour + fM f * us_minute + fS f * us_second + fu f = ((fH f * 60 + fM f) * 60 + fS f) * 1000000 + fu f) by (unfold us_hour, us_minute, us_second; lia).
  destruct (fz f) as [[o|]|]; [destruct (Z.abs o <? us_day); [|discriminate]|discriminate|]; injection X as <-; cbn [dmicro doffset option_map]; rewrite U; auto.
Qed.
Lemma format_written time hires zone s d : (hires = true -> time = true) -> strptime (date_format time hires zone) s = Some d -> date_written d s.
Proof.
  intros HT. unfold strptime. destruct (matches _ no_fields s) as [|[f [|c r]] l] eqn:E; try discriminate. intros X. apply make_parts in X as (S & DY & U & Z).
  assert (I : In (f, []) (matches (date_format time hires zone) no_fields s)) by (rewrite E; now left). clear E l. unfold date_format in I.
  apply matches_app in I as (f1 & r1 & I1 & I). apply date_tokens in I1 as (x & -> & D & HH & HM & HS & HU & HZ). cbn [no_fields fH fM fS fu fz] in *.
  apply matches_app in I as (f2 & r2 & I2 & I). apply matches_app in I as (f3 & r3 & I3 & I4).
  assert (Z4 : exists z, r3 = z /\ match doffset d with Some o => offset_written o z | None => z = [] end /\ (fz f3 = None -> fz f = None -> True) /\
     (fz f3 = None -> fy f = fy f3 /\ fm f = fm f3 /\ fd f = fd f3 /\ fH f = fH f3 /\ fM f = fM f3 /\ fS f = fS f3 /\ fu f = fu f3)).
  { assert (Z3 : fz f3 = None).
    { destruct time; [apply time_tokens in I2 as (? & _ & _ & _ & _ & _ & _ & Z2)|apply matches_nil in I2 as [-> _]; assert (Z2 := HZ)].
      - rewrite HZ in Z2. destruct hires; [apply micro_tokens in I3 as (? & _ & _ & _ & _ & _ & _ & _ & _ & Z3); now rewrite Z3|apply matches_nil in I3 as [-> _]; exact Z2].
      - destruct hires; [discriminate (HT eq_refl)|apply matches_nil in I3 as [-> _]; exact Z2]. }
    exists r3. split; [reflexivity|]. destruct zone.
    - apply zone_tokens in I4 as (A & B & C). split; [|tauto]. destruct (doffset d) as [o|]; cbn [option_map] in Z; [auto|contradiction].
    - apply matches_nil in I4 as [-> ->]. rewrite Z3 in Z. destruct (doffset d); [discriminate Z|]. auto 10. }
  destruct Z4 as (z & -> & Hz & _ & Hf).
  assert (Z3 : fz f3 = None).
  { destruct time; [apply time_tokens in I2 as (? & _ & _ & _ & _ & _ & _ & Z2)|apply matches_nil in I2 as [-> _]; assert (Z2 := HZ)].
    - rewrite HZ in Z2. destruct hires; [apply micro_tokens in I3 as (? & _ & _ & _ & _ & _ & _ & _ & _ & Z3); now rewrite Z3|apply matches_nil in I3 as [-> _]; exact Z2].
    - destruct hires; [discriminate (HT eq_refl)|apply matches_nil in I3 as [-> _]; exact Z2]. }
  specialize (Hf Z3). destruct Hf as (F1 & F2 & F3 & F4 & F5 & F6 & F7).
  destruct time.
  - apply time_tokens in I2 as (c & -> & C & T1 & T2 & T3 & T4 & T5). destruct hires.
    + apply micro_tokens in I3 as (p & -> & P & P1 & P2 & P3 & P4 & P5 & P6 & P7). exists x, (c ++ p), z. rewrite <- app_assoc. split; [reflexivity|]. split.
      { rewrite DY. rewrite F1, F2, F3, P1, P2, P3, T1, T2, T3. exact D. }
      split; [|exact Hz]. right. exists c, p, (fH f2), (fM f2), (fS f2), (fu f3). split; [reflexivity|]. split; [apply C; congruence|]. split; [auto|]. rewrite U. congruence.
    + apply matches_nil in I3 as [-> ->]. exists x, (c ++ []), z. rewrite app_nil_r. split; [reflexivity|]. split.
      { rewrite DY. rewrite F1, F2, F3, T1, T2, T3. exact D. }
      split; [|exact Hz]. right. exists c, [], (fH f2), (fM f2), (fS f2), 0. rewrite app_nil_r. split; [reflexivity|]. split; [apply C; congruence|]. split; [auto|]. rewrite U, F7, T4, HU. congruence.
  - destruct hires; [discriminate (HT eq_refl)|]. apply matches_nil in I2 as [-> ->]. apply matches_nil in I3 as [-> ->]. exists x, [], z. split; [reflexivity|]. split.
    { rewrite DY. rewrite F1, F2, F3. exact D. }
    split; [|exact Hz]. left. split; [reflexivity|]. rewrite U, F4, F5, F6, F7, HH, HM, HS, HU. reflexivity.
Qed.
Theorem read_written s d : string_to_date s = Some d -> date_written d s.
Proof.
  unfold string_to_date. assert (A : Forall (fun f => exists time hires zone, f = date_format time hires zone /\ (hires = true -> time = true)) attempts).
  { repeat apply Forall_cons; try apply Forall_nil; eexists _, _, _; (split; [reflexivity|]); auto; discriminate. }
  revert A. generalize attempts. intros l A. induction A as [|f l (time & hires & zone & -> & HT) A IH]; cbn [try_formats]; [discriminate|].
  destruct (strptime _ s) as [x|] eqn:E; [|exact IH]. intros X. injection X as <-. exact (format_written _ _ _ _ _ HT E).
Qed.
