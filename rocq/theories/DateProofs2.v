(** Reading the text of a date gives the date back. *)
From Coq Require Import ZArith Ascii String List Bool Lia.
From Verif Require Import Base BaseProofs Dates DateSpec DateProofs.
From Verif Require NumProofs3.
Import ListNotations.
Open Scope Z_scope.

(** Equal parts make equal lists of readings *)
Lemma head_eq {A} (a b : A) l : a = b -> a :: l = b :: l.
Proof. now intros ->. Qed.
Lemma fst_eq {A B} (a b : A) (c : B) : a = b -> (a, c) = (b, c).
Proof. now intros ->. Qed.
Lemma snd_eq {A B} (a b : A) (c : B) : a = b -> (c, a) = (c, b).
Proof. now intros ->. Qed.

(** ** Digits *)
Lemma any_digit c : any c = is_digit c.
Proof. reflexivity. Qed.
Lemma dval_digit c : any c = true -> dval c = digit_val c /\ 0 <= dval c <= 9.
Proof. intros H. destruct (digit_val_digit c H) as [E B]. unfold dval. lia. Qed.
Definition rejects (t : dtok) : Prop := forall f c r, any c = true -> m_tok t f (c :: r) = [].
Ltac each_char c := destruct c as [b0 b1 b2 b3 b4 b5 b6 b7]; destruct b0, b1, b2, b3, b4, b5, b6, b7.
Lemma rejects_lit x : any x = false -> rejects (TLit x).
Proof.
  intros X [y m d H M sc u z] c r C. cbn [m_tok lit_i]. destruct (ceq (lower_c c) (lower_c x)) eqn:E; [|reflexivity].
  exfalso. apply Ascii.eqb_eq in E. assert (L : lower_c c = c) by (each_char c; vm_compute in C |- *; congruence).
  rewrite L in E. subst c. assert (lower_c x = x) as K; [|rewrite K in C; congruence].
  clear - C. each_char x; vm_compute in C |- *; congruence.
Qed.
Lemma rejects_zone : rejects TZone.
Proof.
  intros [y m d H M sc u z] c r C. cbn [m_tok]. unfold m_zone.
  assert (ceq c "+" = false /\ ceq c "-" = false /\ ceq c "Z" = false) as (-> & -> & ->) by (each_char c; vm_compute in C |- *; repeat split; congruence).
  reflexivity.
Qed.

(** [reads m s z r]: the first way to read [s] is [z], leaving [r], and all others leave a digit first *)
Definition leaves_digit {A} (p : A * str) : Prop := exists c r, any c = true /\ snd p = c :: r.
Definition reads {A} (m : str -> list (A * str)) (s : str) (z : A) (r : str) : Prop :=
  exists alts, m s = (z, r) :: alts /\ Forall leaves_digit alts.
Ltac read_now := eexists; split; [reflexivity|repeat (apply Forall_cons || apply Forall_nil); refine (ex_intro _ _ (ex_intro _ _ (conj _ eq_refl))); reflexivity].
Lemma upto n (P : Z -> Prop) : Forall P (map Z.of_nat (seq 0 n)) -> forall z, 0 <= z < Z.of_nat n -> P z.
Proof.
  intros F z H. rewrite Forall_forall in F. apply F. apply in_map_iff. exists (Z.to_nat z). split; [lia|]. apply in_seq. lia.
Qed.
Lemma reads_month z r : 1 <= z <= 12 -> reads m_month (fill 2 z ++ r) z r.
Proof.
  intros H. assert (K : 0 <= z < Z.of_nat 13) by lia. revert H. apply (upto 13 (fun z => 1 <= z <= 12 -> reads m_month (fill 2 z ++ r) z r)); [|exact K]. clear.
  cbn [map seq]; repeat (apply Forall_cons || apply Forall_nil); intros B; try lia; read_now.
Qed.
Lemma reads_day z r : 1 <= z <= 31 -> reads m_day (fill 2 z ++ r) z r.
Proof.
  intros H. assert (K : 0 <= z < Z.of_nat 32) by lia. revert H. apply (upto 32 (fun z => 1 <= z <= 31 -> reads m_day (fill 2 z ++ r) z r)); [|exact K]. clear.
  cbn [map seq]; repeat (apply Forall_cons || apply Forall_nil); intros B; try lia; read_now.
Qed.
Lemma reads_hour z r : 0 <= z < 24 -> reads m_hour (fill 2 z ++ r) z r.
Proof.
  intros H. assert (K : 0 <= z < Z.of_nat 24) by lia. revert H. apply (upto 24 (fun z => 0 <= z < 24 -> reads m_hour (fill 2 z ++ r) z r)); [|exact K]. clear.
  cbn [map seq]; repeat (apply Forall_cons || apply Forall_nil); intros B; try lia; read_now.
Qed.
Lemma reads_minute z r : 0 <= z < 60 -> reads m_minute (fill 2 z ++ r) z r.
Proof.
  intros H. assert (K : 0 <= z < Z.of_nat 60) by lia. revert H. apply (upto 60 (fun z => 0 <= z < 60 -> reads m_minute (fill 2 z ++ r) z r)); [|exact K]. clear.
  cbn [map seq]; repeat (apply Forall_cons || apply Forall_nil); intros B; try lia; read_now.
Qed.
Lemma reads_second z r : 0 <= z < 60 -> reads m_second (fill 2 z ++ r) z r.
Proof.
  intros H. assert (K : 0 <= z < Z.of_nat 60) by lia. revert H. apply (upto 60 (fun z => 0 <= z < 60 -> reads m_second (fill 2 z ++ r) z r)); [|exact K]. clear.
  cbn [map seq]; repeat (apply Forall_cons || apply Forall_nil); intros B; try lia; read_now.
Qed.
Lemma two_hour z r : 0 <= z < 24 -> two any any (fill 2 z ++ r) = [(z, r)].
Proof.
  intros H. assert (K : 0 <= z < Z.of_nat 24) by lia. revert H. apply (upto 24 (fun z => 0 <= z < 24 -> two any any (fill 2 z ++ r) = [(z, r)])); [|exact K]. clear.
  cbn [map seq]; repeat (apply Forall_cons || apply Forall_nil); intros B; try reflexivity; lia.
Qed.
Lemma two_minute z r : 0 <= z < 60 -> two (dig 0 5) any (fill 2 z ++ r) = [(z, r)].
Proof.
  intros H. assert (K : 0 <= z < Z.of_nat 60) by lia. revert H. apply (upto 60 (fun z => 0 <= z < 60 -> two (dig 0 5) any (fill 2 z ++ r) = [(z, r)])); [|exact K]. clear.
  cbn [map seq]; repeat (apply Forall_cons || apply Forall_nil); intros B; try reflexivity; lia.
Qed.
(** A text of [w] digits *)
Lemma fill_spec w z : (0 < w)%nat -> 0 <= z < 10 ^ Z.of_nat w ->
  forallb any (fill w z) = true /\ length (fill w z) = w /\ digits_val 10 (map dval (fill w z)) = z.
Proof.
  intros W H. destruct (NumProofs3.zfill_spec w z H W) as (A & B & C). unfold fill. split; [exact A|]. split; [exact B|].
  rewrite <- C at 2. f_equal. apply map_ext_in. intros c I. apply dval_digit. rewrite forallb_forall in A. apply A, I.
Qed.
Lemma fill_head w z : (0 < w)%nat -> 0 <= z < 10 ^ Z.of_nat w -> exists c r, fill w z = c :: r /\ any c = true.
Proof.
  intros W H. destruct (fill_spec w z W H) as (A & B & _). destruct (fill w z) as [|c r]; [cbn in B; lia|].
  exists c, r. split; [reflexivity|]. cbn in A. apply andb_true_iff in A. tauto.
Qed.
Lemma reads_year z r : 0 <= z < 10000 -> m_year (fill 4 z ++ r) = [(z, r)].
Proof.
  intros H. destruct (fill_spec 4 z ltac:(lia) H) as (A & B & C). remember (fill 4 z) as l eqn:E. clear E.
  destruct l as [|a [|b [|c [|d [|? ?]]]]]; try discriminate. cbn [forallb] in A. rewrite !andb_true_iff in A. destruct A as (A1 & A2 & A3 & A4 & _).
  cbn [app m_year]. rewrite A1, A2, A3, A4. cbn [andb]. apply head_eq, fst_eq. rewrite <- C. unfold digits_val; cbn [map fold_left]. lia.
Qed.
Lemma fraction_reads l : forall acc r, forallb any l = true -> l <> [] ->
  reads (m_fraction (length l) acc) (l ++ r) (acc + digits_val 10 (map dval l)) r.
Proof.
  induction l as [|a l IH]; intros acc r D N; [congruence|]. cbn [forallb] in D. apply andb_true_iff in D as [D1 D2].
  unfold reads. cbn [length app m_fraction map]. rewrite D1. rewrite digits_val_cons, map_length.
  destruct l as [|b l].
  - cbn [length app m_fraction map]. exists []. split; [|constructor].
    match goal with |- [(?a, _)] = [(?b, _)] => replace a with b by (cbn; lia) end. reflexivity.
  - destruct (IH (acc + dval a * 10 ^ Z.of_nat (length (b :: l))) r D2) as (alts & E & F); [discriminate|].
    rewrite E. cbn [app]. eexists. split; [match goal with |- (?a, _) :: _ = (?b, _) :: _ => replace a with b by lia end; reflexivity|]. apply Forall_app. split; [exact F|]. constructor; [|constructor].
    exists b, (l ++ r). cbn [forallb] in D2. apply andb_true_iff in D2. split; [tauto|reflexivity].
Qed.
Lemma reads_micro z r : 0 <= z < 1000000 -> reads m_micro (fill 6 z ++ r) z r.
Proof.
  intros H. destruct (fill_spec 6 z ltac:(lia) H) as (A & B & C). unfold m_micro, reads.
  destruct (fraction_reads (fill 6 z) 0 r A) as (alts & E & F); [intros N; rewrite N in B; discriminate|].
  rewrite B in E. rewrite C in E. exists alts. split; [exact E|exact F].
Qed.

(** ** Offsets *)
Lemma digit_no_colon c r : any c = true -> lit ":" (c :: r) = [] /\ lit "." (c :: r) = [].
Proof. intros C. cbn [lit]. assert (ceq c ":" = false /\ ceq c "." = false) as [-> ->] by (each_char c; vm_compute in C |- *; split; congruence). auto. Qed.
Lemma colon_fill z r : 0 <= z < 100 -> m_colon (fill 2 z ++ r) = [(false, fill 2 z ++ r)].
Proof.
  intros H. destruct (fill_head 2 z ltac:(lia) H) as (c & t & E & D). rewrite E. cbn [app]. unfold m_colon.
  destruct (digit_no_colon c (t ++ r) D) as [-> _]. reflexivity.
Qed.
Lemma clock_parts a : a / us_minute = 60 * (a / us_hour) + a / us_minute mod 60.
Proof.
  replace (a / us_hour) with (a / us_minute / 60).
  - apply Z.div_mod. discriminate.
  - rewrite Z.div_div by (discriminate || reflexivity). reflexivity.
Qed.
Lemma hour_parts a : a / us_hour * us_hour + a / us_minute mod 60 * us_minute + a mod us_minute = a.
Proof.
  pose proof (clock_parts a) as H. pose proof (Z.div_mod a us_minute ltac:(discriminate)) as M.
  change us_hour with (60 * us_minute) at 2.
  transitivity ((60 * (a / us_hour) + a / us_minute mod 60) * us_minute + a mod us_minute); [ring|].
  rewrite <- H. rewrite M at 3. ring.
Qed.
Lemma second_parts a : a / us_second mod 60 * us_second + a mod us_second = a mod us_minute.
Proof.
  change us_minute with (us_second * 60). rewrite Z.rem_mul_r by (discriminate || reflexivity). ring.
Qed.
Lemma zone_reads o : - us_day < o < us_day -> exists alts, m_zone (zone_text (Some o)) = (Some o, []) :: alts.
Proof.
  intros B. unfold zone_text. remember (Z.abs o) as a eqn:Ea.
  assert (A : 0 <= a < us_day) by lia. unfold us_day in A.
  assert (HH : 0 <= a / us_hour < 24) by (unfold us_hour; lia).
  assert (MM : 0 <= a / us_minute mod 60 < 60) by (apply Z.mod_pos_bound; lia).
  assert (SS : 0 <= a / us_second mod 60 < 60) by (apply Z.mod_pos_bound; lia).
  assert (UU : 0 <= a mod us_second < 1000000) by (apply Z.mod_pos_bound; reflexivity).
  set (rest := if a mod us_minute =? 0 then [] else fill 2 (a / us_second mod 60) ++ (if a mod us_second =? 0 then [] else "."%char :: fill 6 (a mod us_second))).
  assert (Z : exists c us alts, m_zone_seconds rest = (c, us, []) :: alts /\ us = a mod us_minute /\ (c = None \/ c = Some false)).
  { unfold rest. destruct (Z.eqb_spec (a mod us_minute) 0) as [E|E].
    - exists None, 0, []. split; [reflexivity|split; [symmetry; exact E|auto]].
    - exists (Some false), (a mod us_minute). unfold m_zone_seconds. rewrite colon_fill by lia. cbn [flat_map fst snd app].
      rewrite two_minute by lia. cbn [flat_map fst snd app]. rewrite app_nil_r.
      destruct (Z.eqb_spec (a mod us_second) 0) as [E2|E2].
      + cbn [lit flat_map map app]. eexists. split; [|split; auto]. apply head_eq, fst_eq, snd_eq. unfold us_minute, us_second in *. lia.
      + cbn [lit flat_map map app]. replace (ceq "." ".") with true by reflexivity. cbn [flat_map]. rewrite app_nil_r.
        destruct (reads_micro (a mod us_second) [] UU) as (alts & F & _). rewrite app_nil_r in F. rewrite F. cbn [map fst snd app].
        eexists. split; [|split; auto]. apply head_eq, fst_eq, snd_eq. unfold us_minute, us_second in *. lia. }
  destruct Z as (c & us & alts & ZE & ZU & ZC).
  assert (S : forall sg, (ceq sg "+" || ceq sg "-" = true)%char ->
    exists alts', m_zone (sg :: fill 2 (a / us_hour) ++ fill 2 (a / us_minute mod 60) ++ rest) =
                  (Some (if ceq sg "-" then - a else a), []) :: alts').
  { intros sg SG. unfold m_zone. rewrite SG. rewrite two_hour by lia. cbn [flat_map fst snd app]. rewrite colon_fill by lia.
    cbn [flat_map fst snd app]. rewrite two_minute by lia. cbn [flat_map fst snd app]. rewrite ZE. cbn [map fst snd app].
    replace (match c with Some b => Bool.eqb b false | None => true end) with true by (destruct ZC as [-> | ->]; reflexivity).
    eexists. rewrite ZU. assert (R : a / us_hour * us_hour + a / us_minute mod 60 * us_minute + a mod us_minute = a) by apply hour_parts.
    rewrite R. reflexivity. }
  destruct (Z.ltb_spec o 0) as [L|L].
  - destruct (S "-"%char eq_refl) as [alts' E]. exists alts'. rewrite E. replace (ceq "-" "-") with true by reflexivity. apply head_eq, fst_eq. f_equal. clear - Ea L. lia.
  - destruct (S "+"%char eq_refl) as [alts' E]. exists alts'. rewrite E. replace (ceq "+" "-") with false by reflexivity. apply head_eq, fst_eq. f_equal. clear - Ea L. lia.
Qed.

(** ** Formats *)
Definition setter := Z -> fields -> fields.
Definition is_field (t : dtok) (m : str -> list (Z * str)) (g : setter) : Prop :=
  forall f s, m_tok t f s = map (fun p => (g (fst p) f, snd p)) (m s).
Definition g_y : setter := fun v f => mkF v (fm f) (fd f) (fH f) (fM f) (fS f) (fu f) (fz f).
Definition g_m : setter := fun v f => mkF (fy f) v (fd f) (fH f) (fM f) (fS f) (fu f) (fz f).
Definition g_d : setter := fun v f => mkF (fy f) (fm f) v (fH f) (fM f) (fS f) (fu f) (fz f).
Definition g_H : setter := fun v f => mkF (fy f) (fm f) (fd f) v (fM f) (fS f) (fu f) (fz f).
Definition g_M : setter := fun v f => mkF (fy f) (fm f) (fd f) (fH f) v (fS f) (fu f) (fz f).
Definition g_S : setter := fun v f => mkF (fy f) (fm f) (fd f) (fH f) (fM f) v (fu f) (fz f).
Definition g_u : setter := fun v f => mkF (fy f) (fm f) (fd f) (fH f) (fM f) (fS f) v (fz f).
Lemma fld_y : is_field TYear m_year g_y. Proof. intros [] s; reflexivity. Qed.
Lemma fld_m : is_field TMonth m_month g_m. Proof. intros [] s; reflexivity. Qed.
Lemma fld_d : is_field TDay m_day g_d. Proof. intros [] s; reflexivity. Qed.
Lemma fld_H : is_field THour m_hour g_H. Proof. intros [] s; reflexivity. Qed.
Lemma fld_M : is_field TMinute m_minute g_M. Proof. intros [] s; reflexivity. Qed.
Lemma fld_S : is_field TSecond m_second g_S. Proof. intros [] s; reflexivity. Qed.
Lemma fld_u : is_field TMicro m_micro g_u. Proof. intros [] s; reflexivity. Qed.

Lemma field_mid t m g t' ts f s z r : is_field t m g -> reads m s z r -> rejects t' -> matches (t :: t' :: ts) f s = matches (t' :: ts) (g z f) r.
Proof.
  intros I (alts & E & F) R. cbn [matches]. rewrite I, E. cbn [map flat_map fst snd].
  match goal with |- ?a ++ ?b = ?c => enough (b = []) as -> by apply app_nil_r end.
  clear E. induction F as [|p alts (c & r' & C & S) F IH]; [reflexivity|]. cbn [map flat_map fst snd]. rewrite S, R by assumption. exact IH.
Qed.
Lemma field_end t m g f s z r : is_field t m g -> reads m s z r -> hd_error (matches [t] f s) = Some (g z f, r).
Proof. intros I (alts & E & F). cbn [matches]. rewrite I, E. reflexivity. Qed.
Lemma year_step_tok ts f z r : 0 <= z < 10000 -> matches (TYear :: ts) f (fill 4 z ++ r) = matches ts (g_y z f) r.
Proof. intros H. cbn [matches]. rewrite fld_y, reads_year by assumption. cbn [map flat_map fst snd]. apply app_nil_r. Qed.
Lemma lit_step c ts f r : matches (TLit c :: ts) f (c :: r) = matches ts f r.
Proof.
  cbn [matches]. destruct f. cbn [m_tok lit_i]. replace (ceq (lower_c c) (lower_c c)) with true by (symmetry; apply Ascii.eqb_refl).
  cbn [map flat_map fst snd]. apply app_nil_r.
Qed.
Lemma lit_none c ts f : matches (TLit c :: ts) f [] = [].
Proof. destruct f; reflexivity. Qed.
Lemma lit_other c x ts f r : ceq (lower_c x) (lower_c c) = false -> matches (TLit c :: ts) f (x :: r) = [].
Proof. intros H. cbn [matches]. destruct f. cbn [m_tok lit_i]. rewrite H. reflexivity. Qed.

Definition day_text (d : date) : str := fill 4 (dyear d) ++ "-"%char :: fill 2 (dmonth d) ++ "-"%char :: fill 2 (dday d).
Definition time_text (d : date) : str :=
  "T"%char :: fill 2 (dmicro d / us_hour) ++ ":"%char :: fill 2 (dmicro d / us_minute mod 60) ++ ":"%char :: fill 2 (dmicro d / us_second mod 60).
Definition micro_text (d : date) : str := "."%char :: fill 6 (dmicro d mod us_second).
Definition with_day (d : date) (f : fields) : fields := g_d (dday d) (g_m (dmonth d) (g_y (dyear d) f)).
Definition with_time (d : date) (f : fields) : fields :=
  g_S (dmicro d / us_second mod 60) (g_M (dmicro d / us_minute mod 60) (g_H (dmicro d / us_hour) f)).
Definition with_micro (d : date) (f : fields) : fields := g_u (dmicro d mod us_second) f.

Lemma date_bounds d : is_date d -> 0 <= dyear d < 10000 /\ 1 <= dmonth d <= 12 /\ 1 <= dday d <= 31.
Proof.
  intros (A & Y & _). destruct d as [y m dd us o]. unfold day_of in A. cbn [dyear dmonth dday] in *. apply is_day_iff in A as (A & B & C). pose proof (length_bounds y m B). lia.
Qed.
Lemma time_bounds d : is_date d -> 0 <= dmicro d / us_hour < 24 /\ 0 <= dmicro d / us_minute mod 60 < 60 /\ 0 <= dmicro d / us_second mod 60 < 60 /\ 0 <= dmicro d mod us_second < 1000000.
Proof.
  intros (_ & _ & T & _). unfold day_micros in T. cbn in T. unfold us_hour, us_minute, us_second. repeat split; try (apply Z.mod_pos_bound; lia); lia.
Qed.
Lemma rej_dash : rejects (TLit "-"). Proof. apply rejects_lit. reflexivity. Qed.
Lemma rej_colon : rejects (TLit ":"). Proof. apply rejects_lit. reflexivity. Qed.
Lemma rej_dot : rejects (TLit "."). Proof. apply rejects_lit. reflexivity. Qed.
Lemma rej_T : rejects (TLit "T"). Proof. apply rejects_lit. reflexivity. Qed.
Lemma match_day d t ts f r : is_date d -> rejects t -> matches (f_date ++ t :: ts) f (day_text d ++ r) = matches (t :: ts) (with_day d f) r.
Proof.
  intros D R. destruct (date_bounds d D) as (Y & M & DD). unfold f_date, day_text. rewrite <- !app_assoc. cbn [app].
  rewrite year_step_tok by assumption. rewrite lit_step. rewrite <- !app_assoc. cbn [app].
  rewrite (field_mid TMonth m_month g_m _ _ _ _ (dmonth d) _ fld_m (reads_month _ _ M) rej_dash). rewrite lit_step.
  exact (field_mid TDay m_day g_d _ _ _ _ (dday d) _ fld_d (reads_day _ _ DD) R).
Qed.
Lemma match_day_end d f : is_date d -> hd_error (matches f_date f (day_text d)) = Some (with_day d f, []).
Proof.
  intros D. destruct (date_bounds d D) as (Y & M & DD). unfold f_date, day_text.
  rewrite year_step_tok by assumption. rewrite lit_step.
  rewrite (field_mid TMonth m_month g_m _ _ _ _ (dmonth d) _ fld_m (reads_month _ _ M) rej_dash). rewrite lit_step.
  rewrite <- (app_nil_r (fill 2 (dday d))). apply (field_end TDay m_day g_d); [exact fld_d|apply reads_day, DD].
Qed.
Lemma match_time d t ts f r : is_date d -> rejects t -> matches (f_time ++ t :: ts) f (time_text d ++ r) = matches (t :: ts) (with_time d f) r.
Proof.
  intros D R. destruct (time_bounds d D) as (H & M & S & _). unfold f_time, time_text. cbn [app]. rewrite lit_step. rewrite <- !app_assoc. cbn [app].
  rewrite (field_mid THour m_hour g_H _ _ _ _ (dmicro d / us_hour) _ fld_H (reads_hour _ _ H) rej_colon). rewrite lit_step.
  rewrite <- !app_assoc. cbn [app].
  rewrite (field_mid TMinute m_minute g_M _ _ _ _ (dmicro d / us_minute mod 60) _ fld_M (reads_minute _ _ M) rej_colon). rewrite lit_step.
  exact (field_mid TSecond m_second g_S _ _ _ _ (dmicro d / us_second mod 60) _ fld_S (reads_second _ _ S) R).
Qed.
Lemma match_time_end d f : is_date d -> hd_error (matches f_time f (time_text d)) = Some (with_time d f, []).
Proof.
  intros D. destruct (time_bounds d D) as (H & M & S & _). unfold f_time, time_text. rewrite lit_step.
  rewrite (field_mid THour m_hour g_H _ _ _ _ (dmicro d / us_hour) _ fld_H (reads_hour _ _ H) rej_colon). rewrite lit_step.
  rewrite (field_mid TMinute m_minute g_M _ _ _ _ (dmicro d / us_minute mod 60) _ fld_M (reads_minute _ _ M) rej_colon). rewrite lit_step.
  rewrite <- (app_nil_r (fill 2 (dmicro d / us_second mod 60))). apply (field_end TSecond m_second g_S); [exact fld_S|apply reads_second, S].
Qed.
Lemma match_micro d t ts f r : is_date d -> rejects t -> matches (f_hires ++ t :: ts) f (micro_text d ++ r) = matches (t :: ts) (with_micro d f) r.
Proof.
  intros D R. destruct (time_bounds d D) as (_ & _ & _ & U). unfold f_hires, micro_text. cbn [app]. rewrite lit_step.
  exact (field_mid TMicro m_micro g_u _ _ _ _ (dmicro d mod us_second) _ fld_u (reads_micro _ _ U) R).
Qed.
Lemma match_micro_end d f : is_date d -> hd_error (matches f_hires f (micro_text d)) = Some (with_micro d f, []).
Proof.
  intros D. destruct (time_bounds d D) as (_ & _ & _ & U). unfold f_hires, micro_text. rewrite lit_step.
  rewrite <- (app_nil_r (fill 6 _)). apply (field_end TMicro m_micro g_u); [exact fld_u|apply reads_micro, U].
Qed.
Lemma match_zone_end o f : - us_day < o < us_day ->
  hd_error (matches [TZone] f (zone_text (Some o))) = Some (mkF (fy f) (fm f) (fd f) (fH f) (fM f) (fS f) (fu f) (Some (Some o)), []).
Proof. intros B. destruct (zone_reads o B) as [alts E]. destruct f as [y m d H M sc u z]. cbn [matches m_tok]. rewrite E. reflexivity. Qed.
Lemma zone_none f ts : matches (TZone :: ts) f [] = [].
Proof. destruct f; reflexivity. Qed.
Lemma zone_other f ts x r : ceq x "+" || ceq x "-" || ceq x "Z" = false -> matches (TZone :: ts) f (x :: r) = [].
Proof.
  intros H. apply orb_false_iff in H as [H1 H2]. destruct f. cbn [matches m_tok]. unfold m_zone. rewrite H1, H2. reflexivity.
Qed.
Lemma zone_sign o : exists c r, zone_text (Some o) = c :: r /\ (c = "+" \/ c = "-")%char.
Proof. unfold zone_text. eexists _, _. split; [reflexivity|]. destruct (o <? 0); auto. Qed.

(** ** The text of a date *)
Definition plain_text (d : date) : str :=
  day_text d ++ (if has_time d then time_text d else []) ++ (if has_micro d then micro_text d else []) ++ zone_text (doffset d).
Lemma fill_length w z : (0 < w)%nat -> 0 <= z < 10 ^ Z.of_nat w -> length (fill w z) = w.
Proof. intros. now apply fill_spec. Qed.
Lemma has_micro_time d : is_date d -> has_micro d = true -> has_time d = true.
Proof.
  intros _. unfold has_micro, has_time. destruct (Z.eqb_spec (dmicro d) 0) as [->|]; [discriminate|reflexivity].
Qed.
Lemma zfill_app w y r : zfill (w + length r) (dec_str y ++ r) = zfill w (dec_str y) ++ r.
Proof. unfold zfill. rewrite app_length. rewrite <- app_assoc. do 2 f_equal. lia. Qed.
Lemma dec_long y : 1000 <= y < 10000 -> length (dec_str y) = 4%nat.
Proof.
  intros H. destruct (zdigits_spec 10 y ltac:(lia) ltac:(lia)) as (V & F & d & ds & E & _ & P).
  pose proof V as V'. pose proof F as F'. rewrite E in V', F'. pose proof (digits_length_bound 10 y d ds ltac:(lia) (P ltac:(lia)) E F' V') as B.
  unfold dec_str. rewrite map_length, E. cbn [length]. f_equal.
  destruct (length ds) as [|[|[|[|n]]]]; try reflexivity; try (cbn in B; lia).
  exfalso. replace (10 ^ Z.of_nat (S (S (S (S n))))) with (10000 * 10 ^ Z.of_nat n) in B.
  - pose proof (Z.pow_pos_nonneg 10 (Z.of_nat n)). lia.
  - replace (Z.of_nat (S (S (S (S n))))) with (4 + Z.of_nat n) by lia. rewrite Z.pow_add_r by lia. reflexivity.
Qed.
Lemma zone_length o : - us_day < o < us_day -> (60000000 | o) -> length (zone_text (Some o)) = 5%nat.
Proof.
  intros B [k K]. unfold zone_text. assert (Z.abs o mod us_minute = 0) as E.
  { unfold us_minute. rewrite K. rewrite Z.abs_mul. apply Z.mod_mul. discriminate. }
  rewrite E. cbn [Z.eqb length app]. rewrite !app_length, !fill_length; try lia; try reflexivity.
  unfold us_hour, us_day in *. change (10 ^ Z.of_nat 2) with 100. clear E. lia.
Qed.
Lemma text_eq d : is_date d -> padded d -> date_to_string d = plain_text d.
Proof.
  intros D P. destruct (date_bounds d D) as (Y & M & DD). destruct (time_bounds d D) as (TH & TM & TS & TU).
  assert (ZL : match doffset d with Some o => - us_day < o < us_day | None => True end) by apply D.
  unfold date_to_string, plain_text.
  set (rest := ("-"%char :: fill 2 (dmonth d) ++ "-"%char :: fill 2 (dday d)) ++ (if has_time d then time_text d else []) ++
               (if has_micro d then micro_text d else []) ++ zone_text (doffset d)).
  assert (E : strftime (date_format (has_time d) (has_micro d) (is_aware d)) d = dec_str (dyear d) ++ rest).
  { unfold strftime, date_format, rest. rewrite !flat_map_app.
    assert (E1 : flat_map (tok_text d) f_date = dec_str (dyear d) ++ "-"%char :: fill 2 (dmonth d) ++ "-"%char :: fill 2 (dday d)).
    { unfold f_date. cbn [flat_map tok_text app]. rewrite !app_nil_r. reflexivity. }
    rewrite E1. rewrite <- !app_assoc. do 2 f_equal.
    f_equal; [destruct (has_time d); [|reflexivity]|f_equal; [destruct (has_micro d); [|reflexivity]|unfold is_aware; destruct (doffset d) eqn:EO; [|reflexivity]]].
    - unfold f_time, time_text. cbn [flat_map tok_text app]. rewrite !app_nil_r. reflexivity.
    - unfold f_hires, micro_text. cbn [flat_map tok_text app]. rewrite app_nil_r. reflexivity.
    - cbn [flat_map tok_text]. rewrite EO. apply app_nil_r. }
  assert (F : plain_text d = fill 4 (dyear d) ++ rest).
  { unfold plain_text, day_text, rest. rewrite <- !app_assoc. reflexivity. }
  fold (plain_text d). rewrite E, F.
  assert (LT : length (time_text d) = 9%nat).
  { unfold time_text. cbn [length]. rewrite !app_length. cbn [length]. rewrite !app_length. cbn [length]. rewrite !fill_length; try lia; change (10 ^ Z.of_nat 2) with 100; lia. }
  assert (LM : length (micro_text d) = 7%nat).
  { unfold micro_text. cbn [length]. rewrite fill_length; try lia; change (10 ^ Z.of_nat 6) with 1000000; lia. }
  assert (LR : length rest = (6 + (if has_time d then 9 else 0) + (if has_micro d then 7 else 0) + length (zone_text (doffset d)))%nat).
  { unfold rest. rewrite !app_length. cbn [length]. rewrite !app_length. cbn [length]. rewrite !fill_length by (try lia; change (10 ^ Z.of_nat 2) with 100; lia).
    clear - LT LM. destruct (has_time d), (has_micro d); rewrite ?LT, ?LM; cbn [length]; lia. }
  pose proof (has_micro_time d D) as HT.
  unfold is_aware, date_padding. destruct P as [P|P].
  - unfold zfill, fill, zfill. rewrite app_length, dec_long by lia.
    match goal with |- repeat _ ?n ++ _ = _ => replace n with 0%nat end; [reflexivity|].
    destruct (doffset d) as [o|].
    + assert (5 <= length (zone_text (Some o)))%nat.
      { unfold zone_text. cbn [length]. clear - ZL. rewrite !app_length. rewrite !fill_length; try lia.
        unfold us_hour, us_day in *. change (10 ^ Z.of_nat 2) with 100. clear - ZL. lia. }
      clear - LR H HT. destruct (has_time d), (has_micro d); try (specialize (HT eq_refl); discriminate); lia.
    + cbn [zone_text length] in LR. clear - LR HT. destruct (has_time d), (has_micro d); try (specialize (HT eq_refl); discriminate); lia.
  - unfold fill. rewrite <- zfill_app. f_equal. rewrite LR.
    destruct (doffset d) as [o|].
    + rewrite zone_length by assumption. destruct (has_time d), (has_micro d); try (specialize (HT eq_refl); discriminate); reflexivity.
    + cbn [zone_text length]. destruct (has_time d), (has_micro d); try (specialize (HT eq_refl); discriminate); reflexivity.
Qed.

(** ** Reading it *)
Lemma strptime_hd ts s : strptime ts s = match hd_error (matches ts no_fields s) with Some (f, []) => make_date f | _ => None end.
Proof. unfold strptime. destruct (matches ts no_fields s) as [|[f []] l]; reflexivity. Qed.
Lemma strptime_none ts s : matches ts no_fields s = [] -> strptime ts s = None.
Proof. intros E. unfold strptime. rewrite E. reflexivity. Qed.
Definition all_fields (d : date) : fields :=
  mkF (dyear d) (dmonth d) (dday d) (dmicro d / us_hour) (dmicro d / us_minute mod 60) (dmicro d / us_second mod 60) (dmicro d mod us_second)
      (option_map Some (doffset d)).
Lemma make_all d : is_date d -> make_date (all_fields d) = Some d.
Proof.
  intros D. destruct (date_bounds d D) as (Y & M & DD). destruct (time_bounds d D) as (TH & TM & TS & TU). destruct D as (A & Y9 & T & O).
  destruct d as [y m dd us o]. unfold day_of in A. cbn [dyear dmonth dday dmicro doffset] in *. apply is_day_iff in A as (A1 & A2 & A3).
  unfold make_date, all_fields. cbn [fy fm fd fH fM fS fu fz dyear dmonth dday dmicro doffset].
  rewrite !(proj2 (Z.leb_le _ _)) by lia. cbn [andb].
  assert (R : us / us_hour * us_hour + us / us_minute mod 60 * us_minute + us / us_second mod 60 * us_second + us mod us_second = us)
    by (rewrite <- Z.add_assoc, second_parts; apply hour_parts).
  rewrite R. destruct o as [o|]; cbn [option_map]; [|reflexivity].
  rewrite (proj2 (Z.ltb_lt _ _)); [reflexivity|]. change day_micros with us_day in O. clear - O. lia.
Qed.
Lemma no_time d : has_time d = false -> dmicro d = 0.
Proof. unfold has_time. intros H. apply negb_false_iff, Z.eqb_eq in H. exact H. Qed.
Lemma no_micro d : has_micro d = false -> dmicro d mod us_second = 0.
Proof. unfold has_micro. intros H. apply negb_false_iff, Z.eqb_eq in H. exact H. Qed.
Theorem read_text d : is_date d -> string_to_date (plain_text d) = Some d.
Proof.
  intros D. unfold string_to_date, attempts, plain_text.
  assert (ZO : match doffset d with Some o => - us_day < o < us_day | None => True end) by apply D.
  pose proof (has_micro_time d D) as HT.
  change (date_format true true true) with (f_date ++ TLit "T" :: tl f_time ++ f_hires ++ [TZone]).
  change (date_format true false true) with (f_date ++ TLit "T" :: tl f_time ++ [TZone]).
  change (date_format false false true) with (f_date ++ [TZone]).
  change (date_format true true false) with (f_date ++ TLit "T" :: tl f_time ++ f_hires).
  change (date_format true false false) with (f_date ++ TLit "T" :: tl f_time).
  change (date_format false false false) with f_date.
  set (F := with_day d no_fields).
  cbn [try_formats].
  destruct (doffset d) as [o|] eqn:EO.
  - destruct (zone_sign o) as (sg & zr & ZE & SG).
    destruct (has_time d) eqn:ET; [destruct (has_micro d) eqn:EM|destruct (has_micro d) eqn:EM; [specialize (HT eq_refl); discriminate|]].
    + rewrite strptime_hd. rewrite (match_day d (TLit "T")) by (assumption || exact rej_T).
      change (TLit "T" :: tl f_time ++ f_hires ++ [TZone]) with (f_time ++ TLit "." :: TMicro :: [TZone]).
      rewrite (match_time d) by (assumption || exact rej_dot). change (TLit "." :: TMicro :: [TZone]) with (f_hires ++ TZone :: []).
      rewrite match_micro by (assumption || exact rejects_zone). rewrite match_zone_end by assumption.
      cbv beta iota. match goal with |- context [make_date ?x] => replace x with (all_fields d) by (unfold all_fields; rewrite EO; reflexivity) end. rewrite (make_all d D). reflexivity.
    + rewrite strptime_none.
      2:{ rewrite (match_day d (TLit "T")) by (assumption || exact rej_T).
          change (TLit "T" :: tl f_time ++ f_hires ++ [TZone]) with (f_time ++ TLit "." :: TMicro :: [TZone]).
          rewrite (match_time d) by (assumption || exact rej_dot). cbn [app]. rewrite ZE. apply lit_other. destruct SG as [-> | ->]; reflexivity. }
      rewrite strptime_hd. rewrite (match_day d (TLit "T")) by (assumption || exact rej_T).
      change (TLit "T" :: tl f_time ++ [TZone]) with (f_time ++ TZone :: []).
      rewrite (match_time d) by (assumption || exact rejects_zone). cbn [app]. rewrite match_zone_end by assumption.
      cbv beta iota. match goal with |- context [make_date ?x] => replace x with (all_fields d) by (unfold all_fields; rewrite EO, (no_micro d EM); reflexivity) end. rewrite (make_all d D). reflexivity.
    + cbn [app]. rewrite strptime_none.
      2:{ rewrite (match_day d (TLit "T")) by (assumption || exact rej_T). rewrite ZE. apply lit_other. destruct SG as [-> | ->]; reflexivity. }
      rewrite strptime_none.
      2:{ rewrite (match_day d (TLit "T")) by (assumption || exact rej_T). rewrite ZE. apply lit_other. destruct SG as [-> | ->]; reflexivity. }
      rewrite strptime_hd. rewrite (match_day d TZone) by (assumption || exact rejects_zone). rewrite match_zone_end by assumption.
      cbv beta iota. match goal with |- context [make_date ?x] => replace x with (all_fields d) by (unfold all_fields; rewrite EO, (no_time d ET); reflexivity) end. rewrite (make_all d D). reflexivity.
  - cbn [zone_text]. rewrite app_nil_r.
    destruct (has_time d) eqn:ET; [destruct (has_micro d) eqn:EM|destruct (has_micro d) eqn:EM; [specialize (HT eq_refl); discriminate|]].
    + rewrite strptime_none.
      2:{ rewrite (match_day d (TLit "T")) by (assumption || exact rej_T).
          change (TLit "T" :: tl f_time ++ f_hires ++ [TZone]) with (f_time ++ TLit "." :: TMicro :: [TZone]).
          rewrite (match_time d) by (assumption || exact rej_dot). change (TLit "." :: TMicro :: [TZone]) with (f_hires ++ TZone :: []).
          rewrite <- (app_nil_r (micro_text d)). rewrite match_micro by (assumption || exact rejects_zone). apply zone_none. }
      rewrite strptime_none.
      2:{ rewrite (match_day d (TLit "T")) by (assumption || exact rej_T).
          change (TLit "T" :: tl f_time ++ [TZone]) with (f_time ++ TZone :: []).
          rewrite (match_time d) by (assumption || exact rejects_zone). apply zone_other. reflexivity. }
      rewrite strptime_none.
      2:{ rewrite (match_day d TZone) by (assumption || exact rejects_zone). apply zone_other. reflexivity. }
      rewrite strptime_hd. rewrite (match_day d (TLit "T")) by (assumption || exact rej_T).
      change (TLit "T" :: tl f_time ++ f_hires) with (f_time ++ TLit "." :: [TMicro]).
      rewrite (match_time d) by (assumption || exact rej_dot). change (TLit "." :: [TMicro]) with f_hires.
      rewrite match_micro_end by assumption.
      cbv beta iota. match goal with |- context [make_date ?x] => replace x with (all_fields d) by (unfold all_fields; rewrite EO; reflexivity) end. rewrite (make_all d D). reflexivity.
    + cbn [app]. rewrite app_nil_r. rewrite strptime_none.
      2:{ rewrite (match_day d (TLit "T")) by (assumption || exact rej_T).
          change (TLit "T" :: tl f_time ++ f_hires ++ [TZone]) with (f_time ++ TLit "." :: TMicro :: [TZone]).
          rewrite <- (app_nil_r (time_text d)). rewrite (match_time d) by (assumption || exact rej_dot). apply lit_none. }
      rewrite strptime_none.
      2:{ rewrite (match_day d (TLit "T")) by (assumption || exact rej_T).
          change (TLit "T" :: tl f_time ++ [TZone]) with (f_time ++ TZone :: []).
          rewrite <- (app_nil_r (time_text d)). rewrite (match_time d) by (assumption || exact rejects_zone). apply zone_none. }
      rewrite strptime_none.
      2:{ rewrite (match_day d TZone) by (assumption || exact rejects_zone). apply zone_other. reflexivity. }
      rewrite strptime_none.
      2:{ rewrite (match_day d (TLit "T")) by (assumption || exact rej_T).
          change (TLit "T" :: tl f_time ++ f_hires) with (f_time ++ TLit "." :: [TMicro]).
          rewrite <- (app_nil_r (time_text d)). rewrite (match_time d) by (assumption || exact rej_dot). apply lit_none. }
      rewrite strptime_hd. rewrite (match_day d (TLit "T")) by (assumption || exact rej_T).
      change (TLit "T" :: tl f_time) with f_time. rewrite match_time_end by assumption.
      cbv beta iota. match goal with |- context [make_date ?x] => replace x with (all_fields d) by (unfold all_fields; rewrite EO, (no_micro d EM); reflexivity) end. rewrite (make_all d D). reflexivity.
    + cbn [app]. rewrite app_nil_r.
      rewrite strptime_none by (rewrite <- (app_nil_r (day_text d)); rewrite (match_day d (TLit "T")) by (assumption || exact rej_T); apply lit_none).
      rewrite strptime_none by (rewrite <- (app_nil_r (day_text d)); rewrite (match_day d (TLit "T")) by (assumption || exact rej_T); apply lit_none).
      rewrite strptime_none by (rewrite <- (app_nil_r (day_text d)); rewrite (match_day d TZone) by (assumption || exact rejects_zone); apply zone_none).
      rewrite strptime_none by (rewrite <- (app_nil_r (day_text d)); rewrite (match_day d (TLit "T")) by (assumption || exact rej_T); apply lit_none).
      rewrite strptime_none by (rewrite <- (app_nil_r (day_text d)); rewrite (match_day d (TLit "T")) by (assumption || exact rej_T); apply lit_none).
      rewrite strptime_hd. rewrite match_day_end by assumption.
      cbv beta iota. match goal with |- context [make_date ?x] => replace x with (all_fields d) by (unfold all_fields; rewrite EO, (no_time d ET); reflexivity) end. rewrite (make_all d D). reflexivity.
Qed.
Theorem read_back d : is_date d -> padded d -> string_to_date (date_to_string d) = Some d.
Proof. intros D P. rewrite text_eq by assumption. apply read_text, D. Qed.
