(** Proofs about dates written for people: C63. *)
From Coq Require Import ZArith Ascii String List Bool Lia.
From Verif Require Import Base BaseProofs Dates DateSpec DateProofs DateProofs2 HumanSpec.
Import ListNotations.
Open Scope Z_scope.

Lemma digit_of_val c : is_digit c = true -> digit_of c = digit_val c /\ 0 <= digit_of c < 10.
Proof. intros H. destruct (digit_val_digit c H) as [E R]. unfold digit_of. change (Z.of_N (N_of_ascii c)) with (code c). lia. Qed.
Lemma number_str_acc s : forall a, forallb is_digit s = true -> fold_left (fun a c => 10 * a + digit_of c) s a = fold_left (fun a d => a * 10 + d) (map digit_val s) a.
Proof.
  induction s as [|c s IH]; intros a H; [reflexivity|]. cbn [forallb] in H. apply andb_true_iff in H as [H1 H2]. cbn [fold_left map].
  destruct (digit_of_val c H1) as [-> _]. rewrite IH by exact H2. f_equal. lia.
Qed.
Lemma decimal_str s n : forallb is_digit s = true -> s <> [] -> digits_val 10 (map digit_val s) = n -> decimal s n.
Proof.
  intros F N E. split; [|split; [exact N|]].
  - apply Forall_forall. intros c I. rewrite forallb_forall in F. now apply digit_of_val, F.
  - unfold number_of. rewrite number_str_acc by exact F. exact E.
Qed.
Lemma fill_wide w z : (0 < w)%nat -> 0 <= z < 10 ^ Z.of_nat w -> wide w (fill w z) z.
Proof.
  intros W H. destruct (NumProofs3.zfill_spec w z H W) as (A & B & C). split; [|exact B]. apply decimal_str; [exact A| |exact C].
  intros E. unfold fill in *. rewrite E in B. cbn in B. lia.
Qed.
Lemma fill2 z : 0 <= z < 100 -> wide 2 (fill 2 z) z.
Proof. intros. now apply fill_wide; [lia|]. Qed.
Lemma fill6 z : 0 <= z < 1000000 -> wide 6 (fill 6 z) z.
Proof. intros. now apply fill_wide; [lia|]. Qed.
Lemma weekday_ok y m d : is_day (y, m, d) -> weekday (y, m, d) (name_at weekday_names ((ordinal y m d + 6) mod 7)).
Proof.
  intros D. set (j := ordinal y m d - 730120).
  exists (j / 7), (Z.to_nat (j mod 7)). split.
  - apply days_apart_iff; [apply is_day_iff; vm_compute; intuition discriminate|exact D|]. cbn [ord]. change (ordinal 2000 1 1) with 730120.
    pose proof (Z.mod_pos_bound j 7). rewrite Z2Nat.id by lia. rewrite <- Z.div_mod by lia. unfold j. lia.
  - replace (ordinal y m d) with (j + 730120) by (unfold j; lia). pose proof (Z.mod_pos_bound j 7 ltac:(lia)) as B.
    replace ((j + 730120 + 6) mod 7) with ((j mod 7 + 5) mod 7).
    2:{ rewrite Zplus_mod_idemp_l. replace (j + 730120 + 6) with (j + 5 + 104303 * 7) by lia. now rewrite Z_mod_plus_full. }
    generalize (j mod 7) B. intros r Hr. assert (C : r = 0 \/ r = 1 \/ r = 2 \/ r = 3 \/ r = 4 \/ r = 5 \/ r = 6) by lia.
    destruct C as [-> |[-> |[-> |[-> |[-> |[-> | ->]]]]]]; reflexivity.
Qed.
Lemma month_ok m : 1 <= m <= 12 -> month_called m (name_at month_names (m - 1)).
Proof.
  intros H. exists (Z.to_nat (m - 1)). split; [lia|]. assert (C : m = 1 \/ m = 2 \/ m = 3 \/ m = 4 \/ m = 5 \/ m = 6 \/ m = 7 \/ m = 8 \/ m = 9 \/ m = 10 \/ m = 11 \/ m = 12) by lia.
  destruct C as [-> |[-> |[-> |[-> |[-> |[-> |[-> |[-> |[-> |[-> |[-> | ->]]]]]]]]]]]; reflexivity.
Qed.
Lemma clock_ok t : 0 <= t < day_micros -> clock t (t / us_hour) (t / us_minute mod 60) (t / us_second mod 60) (t mod us_second) /\ 0 <= t / us_hour < 24.
Proof.
  intros H. unfold clock, day_micros, us_hour, us_minute, us_second in *. lia.
Qed.
Lemma time_ok d : 0 <= dmicro d < day_micros ->
  time_shown (dmicro d) (flat_map (tok_text d) ((if has_time d then lits " at " ++ [THour; TLit ":"; TMinute; TLit ":"; TSecond] else []) ++ (if has_micro d then f_hires else []))).
Proof.
  intros H. destruct (clock_ok _ H) as [C R]. unfold time_shown, has_time, has_micro. destruct (Z.eqb_spec (dmicro d) 0) as [E|E]; cbn [negb].
  - left. split; [exact E|]. rewrite E. reflexivity.
  - right. split; [exact E|]. pose proof C as (C1 & C2 & C3 & C4).
    exists (dmicro d / us_hour), (dmicro d / us_minute mod 60), (dmicro d / us_second mod 60), (dmicro d mod us_second).
    exists (fill 2 (dmicro d / us_hour)), (fill 2 (dmicro d / us_minute mod 60)), (fill 2 (dmicro d / us_second mod 60)),
      (if dmicro d mod us_second =? 0 then [] else $"." ++ fill 6 (dmicro d mod us_second)).
    split; [exact C|]. split; [apply fill2; lia|]. split; [apply fill2; lia|]. split; [apply fill2; lia|]. split.
    + destruct (dmicro d mod us_second =? 0); cbn [negb]; unfold f_hires; cbn [lits map list_ascii_of_string flat_map app tok_text]; rewrite ?app_nil_r, <- ?app_assoc; reflexivity.
    + destruct (Z.eqb_spec (dmicro d mod us_second) 0) as [F|F]; [left; auto|right]. split; [exact F|]. eexists. split; [apply fill6; lia|reflexivity].
Qed.
Lemma offset_ok d : (match doffset d with Some o => - day_micros < o < day_micros | None => True end) ->
  offset_shown (doffset d) (flat_map (tok_text d) (if is_aware d then lits " (" ++ [TZone] ++ lits ")" else [])).
Proof.
  unfold is_aware. destruct (doffset d) as [o|] eqn:Eo; intros H; cbn [offset_shown]; [|reflexivity].
  assert (A : 0 <= Z.abs o < day_micros) by lia. destruct (clock_ok _ A) as [C R]. pose proof C as (C1 & C2 & C3 & C4). set (a := Z.abs o) in *.
  exists (a / us_hour), (a / us_minute mod 60), (a / us_second mod 60), (a mod us_second), (if o <? 0 then $"-" else $"+"),
    (fill 2 (a / us_hour)), (fill 2 (a / us_minute mod 60)).
  exists (if a mod us_minute =? 0 then [] else fill 2 (a / us_second mod 60) ++ (if a mod us_second =? 0 then [] else "."%char :: fill 6 (a mod us_second))).
  split; [exact C|]. split; [apply fill2; lia|]. split; [apply fill2; lia|]. split; [destruct (Z.ltb_spec o 0); [left|right]; auto|]. split.
  - cbn [lits map list_ascii_of_string flat_map app tok_text]. rewrite Eo. unfold zone_text. cbv zeta. fold a.
    destruct (o <? 0); cbn [app]; rewrite <- !app_assoc; reflexivity.
  - destruct (Z.eqb_spec (a mod us_minute) 0) as [M|M].
    + left. unfold us_minute, us_second in *. split; [lia|]. split; [lia|reflexivity].
    + right. split; [unfold us_minute, us_second in *; lia|]. eexists. eexists. split; [|split; [reflexivity|]]; [apply fill2; lia|].
      destruct (Z.eqb_spec (a mod us_second) 0) as [F|F]; [left; auto|right]. split; [exact F|]. eexists. split; [apply fill6; lia|reflexivity].
Qed.
Lemma human_ok d : is_date d -> for_people d (strftime (human_format (has_time d) (has_micro d) (is_aware d)) d).
Proof.
  intros (D & Y & T & O). pose proof D as D'. unfold day_of in D'. apply is_day_iff in D' as (Y1 & M & Dd). pose proof (length_bounds (dyear d) (dmonth d) M) as L.
  exists (name_at weekday_names ((ordinal (dyear d) (dmonth d) (dday d) + 6) mod 7)), (fill 2 (dday d)), (name_at month_names (dmonth d - 1)), (dec_str (dyear d)).
  eexists. eexists. split; [now apply weekday_ok|]. split; [apply fill2; lia|]. split; [now apply month_ok|].
  split; [destruct (dec_str_spec (dyear d) ltac:(lia)) as (A & B & C); now apply decimal_str|].
  split; [apply (time_ok d T)|]. split; [apply (offset_ok d O)|].
  unfold strftime, human_format. rewrite !flat_map_app. cbn [lits map list_ascii_of_string flat_map app tok_text]. rewrite ?app_nil_r, <- ?app_assoc. cbn [app]. rewrite <- ?app_assoc. reflexivity.
Qed.
