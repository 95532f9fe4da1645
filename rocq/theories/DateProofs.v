(** The calendar of the model is the Gregorian calendar. *)
From Coq Require Import ZArith List Bool Lia.
From Verif Require Import Base Dates DateSpec.
Import ListNotations.
Open Scope Z_scope.
Ltac Zify.zify_post_hook ::= Z.div_mod_to_equations.

Lemma mod_div k y : 0 < k -> (y mod k =? 0) = true <-> (k | y).
Proof. intros. rewrite Z.eqb_eq. rewrite Z.mod_divide by lia. tauto. Qed.
Lemma leap_iff y : leap y = true <-> leap_year y.
Proof.
  unfold leap, leap_year. rewrite andb_true_iff, orb_true_iff, negb_true_iff.
  rewrite <- (mod_div 4 y), <- (mod_div 400 y) by lia.
  rewrite <- (mod_div 100 y) by lia. destruct (y mod 100 =? 0); intuition congruence.
Qed.
Lemma leap_false y : leap y = false <-> ~ leap_year y.
Proof. rewrite <- leap_iff. destruct (leap y); intuition congruence. Qed.

Ltac months m := let H := fresh in assert (H : m = 1 \/ m = 2 \/ m = 3 \/ m = 4 \/ m = 5 \/ m = 6 \/ m = 7 \/ m = 8 \/ m = 9 \/ m = 10 \/ m = 11 \/ m = 12) by lia;
  destruct H as [->|[->|[->|[->|[->|[->|[->|[->|[->|[->|[->| ->]]]]]]]]]]].
Lemma last_day_range y m n : last_day y m n -> 1 <= m <= 12.
Proof. destruct 1; cbn [In] in *; lia. Qed.
Lemma last_day_iff y m n : last_day y m n <-> 1 <= m <= 12 /\ n = month_length y m.
Proof.
  split.
  - intros H. split; [exact (last_day_range _ _ _ H)|]. destruct H as [m H|m H|H|H]; cbn [In] in H.
    + repeat (destruct H as [<-|H]; [reflexivity|]); destruct H.
    + repeat (destruct H as [<-|H]; [reflexivity|]); destruct H.
    + apply leap_iff in H. unfold month_length, month_lengths. rewrite H. reflexivity.
    + apply leap_false in H. unfold month_length, month_lengths. rewrite H. reflexivity.
  - intros [H ->]. months m; try (apply LD31; cbn; tauto); try (apply LD30; cbn; tauto).
    unfold month_length, month_lengths. destruct (leap y) eqn:E; cbn.
    + apply LDFeb, leap_iff, E.
    + apply LDFeb', leap_false, E.
Qed.
Definition ok_day (y m d : Z) : Prop := 1 <= y /\ 1 <= m <= 12 /\ 1 <= d <= month_length y m.
Lemma is_day_iff y m d : is_day (y, m, d) <-> ok_day y m d.
Proof.
  unfold is_day, ok_day. split.
  - intros (A & B & n & L & D). apply last_day_iff in L as [L ->]. lia.
  - intros (A & B & D). split; [lia|split; [lia|]]. exists (month_length y m). rewrite last_day_iff. lia.
Qed.

(** ** Ordinals *)
Definition lp (y : Z) : Z := if leap y then 1 else 0.
Lemma div_step4 y : y / 4 = (y - 1) / 4 + (if y mod 4 =? 0 then 1 else 0).
Proof. destruct (Z.eqb_spec (y mod 4) 0); lia. Qed.
Lemma div_step100 y : y / 100 = (y - 1) / 100 + (if y mod 100 =? 0 then 1 else 0).
Proof. destruct (Z.eqb_spec (y mod 100) 0); lia. Qed.
Lemma div_step400 y : y / 400 = (y - 1) / 400 + (if y mod 400 =? 0 then 1 else 0).
Proof. destruct (Z.eqb_spec (y mod 400) 0); lia. Qed.
Lemma length_bounds y m : 1 <= m <= 12 -> 28 <= month_length y m <= 31.
Proof.
  intros H. unfold month_length, month_lengths. months m; destruct (leap y);
    match goal with |- context [Z.to_nat ?a] => let k := eval vm_compute in (Z.to_nat a) in change (Z.to_nat a) with k end; cbn [nth]; lia.
Qed.
Lemma year_step y : days_before_year (y + 1) = days_before_year y + 365 + lp y.
Proof.
  unfold days_before_year. cbv zeta. replace (y + 1 - 1) with y by lia.
  rewrite (div_step4 y), (div_step100 y), (div_step400 y). unfold lp, leap.
  assert ((y mod 400 =? 0) = true -> (y mod 100 =? 0) = true).
  { rewrite !Z.eqb_eq. lia. }
  assert ((y mod 100 =? 0) = true -> (y mod 4 =? 0) = true).
  { rewrite !Z.eqb_eq. lia. }
  destruct (y mod 4 =? 0), (y mod 100 =? 0), (y mod 400 =? 0); cbn [andb orb negb]; intuition (try discriminate; try lia).
Qed.
Lemma year_mono a b : a <= b -> days_before_year a <= days_before_year b.
Proof.
  intros H. replace b with (a + Z.of_nat (Z.to_nat (b - a))) by lia. generalize (Z.to_nat (b - a)). clear.
  induction n as [|n IH]; [replace (a + Z.of_nat 0) with a by lia; lia|].
  replace (a + Z.of_nat (S n)) with (a + Z.of_nat n + 1) by lia. rewrite year_step. unfold lp. destruct (leap _); lia.
Qed.
Lemma month_step y m : 1 <= m < 12 -> days_before_month y (m + 1) = days_before_month y m + month_length y m.
Proof.
  intros. months m; try lia; unfold days_before_month, month_length, month_lengths; destruct (leap y); reflexivity.
Qed.
Lemma year_days y : days_before_month y 12 + month_length y 12 = 365 + lp y.
Proof. unfold days_before_month, month_length, month_lengths, lp. destruct (leap y); reflexivity. Qed.
Lemma month_mono y a b : 1 <= a -> a <= b -> b <= 12 -> days_before_month y a <= days_before_month y b.
Proof.
  intros A H B. replace b with (a + Z.of_nat (Z.to_nat (b - a))) in * by lia. revert B. generalize (Z.to_nat (b - a)). clear H b.
  induction n as [|n IH]; intros B; [replace (a + Z.of_nat 0) with a by lia; lia|].
  replace (a + Z.of_nat (S n)) with (a + Z.of_nat n + 1) in * by lia. rewrite month_step by lia.
  pose proof (length_bounds y (a + Z.of_nat n) ltac:(lia)). lia.
Qed.
Lemma month_first y : days_before_month y 1 = 0.
Proof. reflexivity. Qed.
Lemma in_year y m d : ok_day y m d -> 1 <= days_before_month y m + d <= 365 + lp y.
Proof.
  intros (Y & M & D). pose proof (month_mono y 1 m). rewrite month_first in *.
  destruct (Z.eq_dec m 12) as [->|N].
  - pose proof (year_days y). lia.
  - pose proof (month_step y m ltac:(lia)). pose proof (month_mono y (m + 1) 12). pose proof (year_days y).
    assert (month_length y 12 = 31) by reflexivity. lia.
Qed.
Lemma ordinal_inj y m d y' m' d' : ok_day y m d -> ok_day y' m' d' -> ordinal y m d = ordinal y' m' d' -> (y, m, d) = (y', m', d').
Proof.
  unfold ordinal. intros A B E. pose proof (in_year _ _ _ A) as IA. pose proof (in_year _ _ _ B) as IB.
  assert (y = y') as <-.
  { destruct (Z.lt_trichotomy y y') as [L|[L|L]]; [|exact L|].
    - pose proof (year_mono (y + 1) y' ltac:(lia)). rewrite year_step in *. lia.
    - pose proof (year_mono (y' + 1) y ltac:(lia)). rewrite year_step in *. lia. }
  destruct A as (A1 & A2 & A3), B as (B1 & B2 & B3).
  assert (m = m') as <-.
  { destruct (Z.lt_trichotomy m m') as [L|[L|L]]; [|exact L|].
    - pose proof (month_mono y (m + 1) m' ltac:(lia) ltac:(lia) ltac:(lia)). rewrite month_step in * by lia. lia.
    - pose proof (month_mono y (m' + 1) m ltac:(lia) ltac:(lia) ltac:(lia)). rewrite month_step in * by lia. lia. }
  assert (d = d') as <- by lia. reflexivity.
Qed.
Lemma ordinal_pos y m d : ok_day y m d -> 1 <= ordinal y m d.
Proof.
  intros A. pose proof (in_year _ _ _ A). unfold ordinal. pose proof (year_mono 1 y). destruct A.
  assert (days_before_year 1 = 0) by reflexivity. lia.
Qed.
Lemma ordinal_max y m d : ok_day y m d -> (y <= 9999 <-> ordinal y m d <= max_ordinal).
Proof.
  intros A. pose proof (in_year _ _ _ A). unfold ordinal, max_ordinal.
  assert (days_before_year 10000 = 3652059) by reflexivity. split; intros.
  - pose proof (year_mono (y + 1) 10000 ltac:(lia)). rewrite year_step in *. lia.
  - destruct (Z_le_gt_dec y 9999); [assumption|]. pose proof (year_mono 10000 y). lia.
Qed.

(** ** From ordinals to days *)
Lemma month_day_spec y n : 0 <= n < 365 + lp y ->
  let '(m, d) := month_day n 1 (month_lengths y) in 1 <= m <= 12 /\ 1 <= d <= month_length y m /\ days_before_month y m + d = n + 1.
Proof.
  unfold lp, month_length, days_before_month, month_lengths. intros H.
  destruct (leap y); cbn [month_day];
    repeat match goal with |- context [?a <? ?b] => destruct (Z.ltb_spec a b) end;
    split; try lia; match goal with |- context [Z.to_nat (?a - 1)] => let k := eval vm_compute in (Z.to_nat (a - 1)) in change (Z.to_nat (a - 1)) with k end;
    cbn [nth firstn fold_right]; lia.
Qed.
Lemma from_ordinal_spec o : 1 <= o -> let '(y, m, d) := from_ordinal o in ok_day y m d /\ ordinal y m d = o.
Proof.
  intros O. unfold from_ordinal. cbv zeta. remember (o - 1) as n eqn:En.
  remember (n / 146097) as a eqn:Ea. remember (n mod 146097) as ra eqn:Era.
  remember (ra / 36524) as b eqn:Eb. remember (ra mod 36524) as rb eqn:Erb.
  remember (rb / 1461) as c eqn:Ec. remember (rb mod 1461) as rc eqn:Erc.
  remember (rc / 365) as e eqn:Ee. remember (rc mod 365) as r eqn:Er.
  assert (Ha : n = 146097 * a + ra /\ 0 <= ra < 146097 /\ 0 <= a) by lia.
  assert (Hb : ra = 36524 * b + rb /\ 0 <= rb < 36524 /\ 0 <= b <= 4) by lia.
  assert (Hc : rb = 1461 * c + rc /\ 0 <= rc < 1461 /\ 0 <= c <= 24) by lia.
  assert (He : rc = 365 * e + r /\ 0 <= r < 365 /\ 0 <= e <= 4) by lia.
  clear Ea Era Eb Erb Ec Erc Ee Er.
  assert (Q : days_before_year (a * 400 + b * 100 + c * 4 + e + 1) =
              (a * 400 + b * 100 + c * 4 + e) * 365 + (a * 400 + b * 100 + c * 4 + e) / 4
              - (a * 400 + b * 100 + c * 4 + e) / 100 + (a * 400 + b * 100 + c * 4 + e) / 400).
  { unfold days_before_year. cbv zeta. replace (a * 400 + b * 100 + c * 4 + e + 1 - 1) with (a * 400 + b * 100 + c * 4 + e) by lia. reflexivity. }
  destruct (Z.eqb_spec e 4) as [->|Ne]; [|destruct (Z.eqb_spec b 4) as [->|Nb]]; cbn [orb].
  - assert (r = 0) by lia. assert (b <= 3) by lia.
    replace (a * 400 + b * 100 + c * 4 + 4 + 1 - 1) with (a * 400 + b * 100 + c * 4 + 3 + 1) by lia.
    set (p := a * 400 + b * 100 + c * 4 + 3) in *.
    assert (L : leap (p + 1) = true).
    { apply leap_iff. split.
      - apply Z.mod_divide; unfold p; lia.
      - destruct (Z.eq_dec c 24) as [->|]; [right|left].
        + assert (b = 3) as -> by lia. exists (a + 1). unfold p. lia.
        + intros D. apply Z.mod_divide in D; [|lia]. unfold p in D. lia. }
    split.
    + unfold ok_day. unfold p at 1. assert (month_length (p + 1) 12 = 31) by reflexivity. lia.
    + unfold ordinal. pose proof (year_days (p + 1)) as YD. unfold lp in YD. rewrite L in YD.
      assert (month_length (p + 1) 12 = 31) by reflexivity.
      assert (days_before_year (p + 1) = p * 365 + p / 4 - p / 100 + p / 400).
      { unfold days_before_year. cbv zeta. replace (p + 1 - 1) with p by lia. reflexivity. }
      assert (p / 4 = a * 100 + b * 25 + c) by (unfold p; lia).
      assert (p / 100 = a * 4 + b) by (unfold p; lia).
      assert (p / 400 = a) by (unfold p; lia). unfold p in *. lia.
  - assert (c = 0 /\ e = 0 /\ r = 0) as (-> & -> & ->) by lia.
    replace (a * 400 + 4 * 100 + 0 * 4 + 0 + 1 - 1) with (a * 400 + 399 + 1) by lia.
    set (p := a * 400 + 399) in *.
    assert (L : leap (p + 1) = true).
    { apply leap_iff. split; [exists (100 * a + 100)|right; exists (a + 1)]; unfold p; lia. }
    split.
    + unfold ok_day. unfold p at 1. assert (month_length (p + 1) 12 = 31) by reflexivity. lia.
    + unfold ordinal. pose proof (year_days (p + 1)) as YD. unfold lp in YD. rewrite L in YD.
      assert (month_length (p + 1) 12 = 31) by reflexivity.
      assert (days_before_year (p + 1) = p * 365 + p / 4 - p / 100 + p / 400).
      { unfold days_before_year. cbv zeta. replace (p + 1 - 1) with p by lia. reflexivity. }
      assert (p / 4 = a * 100 + 99) by (unfold p; lia).
      assert (p / 100 = a * 4 + 3) by (unfold p; lia).
      assert (p / 400 = a) by (unfold p; lia). unfold p in *. lia.
  - assert (E3 : e <= 3) by lia. assert (B3 : b <= 3) by lia.
    set (p := a * 400 + b * 100 + c * 4 + e) in *.
    assert (R : 0 <= r < 365 + lp (p + 1)) by (unfold lp; destruct (leap (p + 1)); lia).
    pose proof (month_day_spec (p + 1) r R) as MD. destruct (month_day r 1 (month_lengths (p + 1))) as [m d].
    destruct MD as (M1 & M2 & M3). split.
    + unfold ok_day. unfold p at 1. lia.
    + unfold ordinal.
      assert (p / 4 = a * 100 + b * 25 + c) by (unfold p; lia).
      assert (p / 100 = a * 4 + b) by (unfold p; lia).
      assert (p / 400 = a) by (unfold p; lia). unfold p in *. lia.
Qed.
Lemma from_ordinal_ordinal y m d : ok_day y m d -> from_ordinal (ordinal y m d) = (y, m, d).
Proof.
  intros A. pose proof (from_ordinal_spec _ (ordinal_pos _ _ _ A)) as S. destruct (from_ordinal (ordinal y m d)) as [[y' m'] d'].
  destruct S as [B E]. symmetry. apply ordinal_inj; auto.
Qed.

(** ** Days one after the other *)
Definition ord (x : day) : Z := let '(y, m, d) := x in ordinal y m d.
Lemma next_day_ord a b : is_day a -> next_day a b -> is_day b /\ ord b = ord a + 1.
Proof.
  intros A N. destruct N as [y m d n L D|y m n L M|y n L]; apply is_day_iff in A; apply last_day_iff in L as [L ->]; destruct A as (A1 & A2 & A3); unfold ord, ordinal.
  - split; [apply is_day_iff; unfold ok_day|]; lia.
  - split; [apply is_day_iff; unfold ok_day|].
    + pose proof (length_bounds y (m + 1) ltac:(lia)). lia.
    + rewrite month_step by lia. lia.
  - split; [apply is_day_iff; unfold ok_day|].
    + assert (month_length (y + 1) 1 = 31) by reflexivity. lia.
    + rewrite year_step, month_first. pose proof (year_days y). lia.
Qed.
Lemma next_day_exists a : is_day a -> exists b, next_day a b.
Proof.
  destruct a as [[y m] d]. intros A. apply is_day_iff in A as (A1 & A2 & A3).
  assert (L : last_day y m (month_length y m)) by (apply last_day_iff; lia).
  destruct (Z.eq_dec d (month_length y m)) as [->|N].
  - destruct (Z.eq_dec m 12) as [->|N]; eexists; [eapply NYear, L|eapply NMonth; [exact L|lia]].
  - eexists. eapply NDay; [exact L|lia].
Qed.
Lemma days_later_ord n a b : is_day a -> days_later n a b -> is_day b /\ ord b = ord a + Z.of_nat n.
Proof.
  intros A. induction 1 as [a|n a b c H IH N]; [split; [exact A|lia]|].
  destruct (IH A) as [B E]. destruct (next_day_ord b c B N) as [C F]. split; [exact C|lia].
Qed.
Lemma days_later_exists n a : is_day a -> exists b, days_later n a b.
Proof.
  intros A. induction n as [|n [b H]]; [exists a; constructor|].
  destruct (next_day_exists b) as [c N]; [eapply days_later_ord; eauto|]. exists c. econstructor; eauto.
Qed.
Lemma ord_inj a b : is_day a -> is_day b -> ord a = ord b -> a = b.
Proof. destruct a as [[y m] d], b as [[y' m'] d']. rewrite !is_day_iff. apply ordinal_inj. Qed.
Lemma days_later_iff n a b : is_day a -> is_day b -> (days_later n a b <-> ord b = ord a + Z.of_nat n).
Proof.
  intros A B. split; [intros H; eapply days_later_ord; eauto|]. intros E.
  destruct (days_later_exists n a A) as [c H]. destruct (days_later_ord n a c A H) as [C F].
  assert (c = b) as <- by (apply ord_inj; auto; lia). exact H.
Qed.
Lemma days_apart_iff a b n : is_day a -> is_day b -> (days_apart a b n <-> ord b = ord a + n).
Proof.
  intros A B. unfold days_apart. split.
  - intros [(k & -> & H)|(k & -> & H)]; apply days_later_iff in H; auto; lia.
  - intros E. destruct (Z_le_gt_dec 0 n).
    + left. exists (Z.to_nat n). split; [lia|]. apply days_later_iff; auto; lia.
    + right. exists (Z.to_nat (- n)). split; [lia|]. apply days_later_iff; auto; lia.
Qed.
Lemma apart_iff a b t : is_day (day_of a) -> is_day (day_of b) ->
  (apart a b t <-> t = (ord (day_of b) - ord (day_of a)) * us_day + dmicro b - dmicro a).
Proof.
  intros A B. unfold apart. change day_micros with us_day. split.
  - intros (n & H & ->). apply days_apart_iff in H; auto. replace n with (ord (day_of b) - ord (day_of a)) by lia. reflexivity.
  - intros ->. exists (ord (day_of b) - ord (day_of a)). split; [apply days_apart_iff; auto; lia|reflexivity].
Qed.
Lemma time_between_iff a b t : is_day (day_of a) -> is_day (day_of b) ->
  (time_between a b t <-> is_aware a = is_aware b /\ t = micros_of b - micros_of a).
Proof.
  intros A B. unfold time_between, is_aware, micros_of. change (ordinal (dyear a) (dmonth a) (dday a)) with (ord (day_of a)).
  change (ordinal (dyear b) (dmonth b) (dday b)) with (ord (day_of b)).
  destruct (doffset a), (doffset b); rewrite ?(apart_iff a b) by assumption; intuition (try discriminate; try lia).
Qed.

(** ** Adding a time to a date *)
Theorem add_micros_spec d t d' : is_date d -> (add_micros d t = Some d' <-> is_date d' /\ apart d d' t /\ doffset d' = doffset d).
Proof.
  intros (A & Y & T & O). unfold add_micros. cbv zeta. change (ordinal (dyear d) (dmonth d) (dday d)) with (ord (day_of d)).
  remember (ord (day_of d) * us_day + dmicro d + t) as n eqn:En.
  assert (DM : n = us_day * (n / us_day) + n mod us_day) by (apply Z.div_mod; discriminate).
  assert (MB : 0 <= n mod us_day < us_day) by (apply Z.mod_pos_bound; reflexivity).
  split.
  - destruct (Z.leb_spec 1 (n / us_day)) as [L|]; [|discriminate]. destruct (Z.leb_spec (n / us_day) max_ordinal) as [U|]; [|discriminate]. cbn [andb].
    pose proof (from_ordinal_spec _ L) as F. destruct (from_ordinal (n / us_day)) as [[y m] dd]. destruct F as [F E].
    intros [= <-]. assert (D' : is_day (y, m, dd)) by (apply is_day_iff; exact F).
    split; [|split; [|reflexivity]].
    + split; [exact D'|]. cbn [dyear dmicro doffset]. split; [|split; [exact MB|exact O]]. apply (ordinal_max y m dd F). rewrite E. exact U.
    + apply apart_iff; [exact A|exact D'|]. cbn [day_of dyear dmonth dday dmicro ord]. rewrite E. clear - DM En. generalize dependent (n mod us_day). generalize dependent (n / us_day). intros. change (ordinal (dyear d) (dmonth d) (dday d)) with (ord (day_of d)). unfold us_day in *. lia.
  - intros ((A' & Y' & T' & O') & P & Q). apply apart_iff in P; auto. change day_micros with us_day in *.
    assert (N : n = us_day * ord (day_of d') + dmicro d') by (rewrite En; unfold us_day in *; lia).
    assert (E1 : n / us_day = ord (day_of d')) by (symmetry; eapply Z.div_unique; [left; exact T'|exact N]).
    assert (E2 : n mod us_day = dmicro d') by (symmetry; eapply Z.mod_unique; [left; exact T'|exact N]).
    rewrite E1, E2. destruct d' as [y m dd us o]. cbn [day_of dyear dmonth dday dmicro doffset] in *. apply is_day_iff in A'.
    change (ord (day_of (mkDate y m dd us o))) with (ordinal y m dd). pose proof (ordinal_pos _ _ _ A'). pose proof (proj1 (ordinal_max _ _ _ A') Y').
    rewrite (proj2 (Z.leb_le _ _)) by assumption. rewrite (proj2 (Z.leb_le _ _)) by assumption. cbn [andb].
    rewrite from_ordinal_ordinal by assumption. rewrite <- Q. reflexivity.
Qed.
