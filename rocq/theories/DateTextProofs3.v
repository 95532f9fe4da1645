(** Proofs for C63: what is written as a date is read as it, continued. *)
From Coq Require Import ZArith Ascii String List Bool Lia.
From Verif Require Import Base BaseProofs Dates DateSpec DateProofs DateProofs2 DateProofs3 DateTextSpec DateTextProofs DateTextProofs2.
Import ListNotations.
Open Scope Z_scope.

(** * Offsets *)
Lemma two_now (p q : ascii -> bool) a b r : p a = true -> q b = true -> two p q (a :: b :: r) = [(10 * dval a + dval b, r)].
Proof. intros A B. cbn [two]. now rewrite A, B. Qed.
Lemma tens a b : any a = true -> any b = true -> 10 * dval a + dval b < 60 -> dig 0 5 a = true.
Proof. intros A B L. apply dval_digit in B. unfold any, dig, dval in *. rewrite !andb_true_iff, !Z.leb_le in *. lia. Qed.
Lemma colon_reads cl a r : any a = true -> exists alts, m_colon (colon_if cl ++ a :: r) = (cl, a :: r) :: alts /\ (alts = [] \/ exists b, alts = [(false, ":"%char :: b)]).
Proof.
  intros A. unfold m_colon. destruct cl; cbn [colon_if app].
  - exists [(false, ":"%char :: a :: r)]. split; [reflexivity|]. right. eauto.
  - destruct (digit_no_colon a r A) as [-> _]. exists []. auto.
Qed.
Lemma zone_seconds_reads rest cl us :
  (rest = [] /\ us = 0) \/ (exists c x p u, rest = colon_if cl ++ c ++ p /\ digits_from 2 2 c x /\ x < 60 /\ ((p = [] /\ u = 0) \/ part_written u p) /\ us = x * 1000000 + u) ->
  exists c alts, m_zone_seconds rest = (c, us, []) :: alts /\ match c with Some b => Bool.eqb b cl | None => true end = true.
Proof.
  intros [[-> ->]|(xc & x & p & u & -> & D & L & P & ->)]; [exists None, []; auto|]. apply digits_2 in D as (a & b & -> & A & B & ->). exists (Some cl).
  unfold m_zone_seconds. cbn [app]. destruct (colon_reads cl a (b :: p) A) as (alts & -> & _). cbn [flat_map fst snd]. rewrite two_now by (assumption || exact (tens a b A B L)). cbn [flat_map fst snd].
  destruct P as [[-> ->]|P].
  - cbn [lit flat_map map app]. eexists. split; [apply head_eq, fst_eq, snd_eq; unfold us_second; lia|]. apply eqb_reflx.
  - destruct (part_reads u p [] P I) as (y & -> & alts' & E & _). rewrite app_nil_r in E. cbn [lit]. replace (ceq "." ".") with true by reflexivity. cbn [flat_map]. rewrite E. cbn [map fst snd app].
    eexists. split; [apply head_eq, fst_eq, snd_eq; unfold us_second; lia|]. apply eqb_reflx.
Qed.
Lemma offset_reads o s : offset_written o s -> exists alts, m_zone s = (Some o, []) :: alts.
Proof.
  intros [[-> ->]|(sg & xh & cl & xm & rest & h & m & us & -> & S & Dh & Dm & L & -> & R)]; [exists []; reflexivity|].
  apply digits_2 in Dh as (a & b & -> & A & B & ->). apply digits_2 in Dm as (a' & b' & -> & A' & B' & ->).
  destruct (zone_seconds_reads rest cl us R) as (c & alts & E & C).
  assert (G : ceq (fst sg) "+" || ceq (fst sg) "-" = true /\ forall x, (if ceq (fst sg) "-" then - x else x) = snd sg * x).
  { destruct S as [<-|[<-|[]]]; (split; [reflexivity|]); intros x; cbn [fst snd]; [change (ceq "+" "-") with false|change (ceq "-" "-") with true]; cbv iota; lia. }
  destruct G as [G1 G2]. cbn [app]. unfold m_zone. rewrite G1. rewrite two_now by assumption. cbn [flat_map fst snd].
  destruct (colon_reads cl a' (b' :: rest) A') as (alts' & -> & _). cbn [flat_map fst snd]. rewrite two_now by (assumption || exact (tens a' b' A' B' L)). cbn [flat_map fst snd].
  rewrite E. cbn [map fst snd app]. rewrite C. rewrite G2. eexists. apply head_eq, fst_eq. f_equal. f_equal. unfold us_hour, us_minute. lia.
Qed.
Lemma offset_start o s : offset_written o s -> exists c r, s = c :: r /\ In c ["+"; "-"; "Z"]%char.
Proof.
  intros [[-> _]|(sg & xh & cl & xm & rest & h & m & us & -> & S & _)]; [exists "Z"%char, []; split; [reflexivity|cbn; tauto]|].
  eexists _, _. split; [reflexivity|]. destruct S as [<-|[<-|[]]]; cbn; tauto.
Qed.

(** * Tokens *)
Lemma year_step x z ts f r : digits_from 4 4 x z -> matches (TYear :: ts) f (x ++ r) = matches ts (g_y z f) r.
Proof. intros H. cbn [matches]. rewrite fld_y, (year_reads x z r H). cbn [map flat_map fst snd]. apply app_nil_r. Qed.
Definition of_day (x : day) (f : fields) : fields := let '(y, m, d) := x in g_d d (g_m m (g_y y f)).
Definition of_clock (h m s : Z) (f : fields) : fields := g_S s (g_M m (g_H h f)).
Definition day_fits (x : day) : Prop := let '(y, m, d) := x in 1 <= m <= 12 /\ 1 <= d <= 31.
Lemma soft_dash r : soft ("-"%char :: r). Proof. reflexivity. Qed.
Lemma soft_colon r : soft (":"%char :: r). Proof. reflexivity. Qed.
Lemma day_step d x t ts f r : day_fits d -> day_written d x -> rejects t -> soft r -> matches (f_date ++ t :: ts) f (x ++ r) = matches (t :: ts) (of_day d f) r.
Proof.
  destruct d as [[y m] d]. intros (M & DD) (a & b & c & -> & A & B & C) R F. unfold f_date. cbn [app]. rewrite <- !app_assoc. cbn [app]. rewrite <- !app_assoc. cbn [app].
  rewrite (year_step a y) by assumption. rewrite lit_step.
  rewrite (field_mid TMonth m_month g_m _ _ _ _ m _ fld_m (month_reads b m _ B M (soft_dash _)) rej_dash). rewrite lit_step.
  exact (field_mid TDay m_day g_d _ _ _ _ d _ fld_d (day_field_reads c d r C DD F) R).
Qed.
Lemma day_end d x f : day_fits d -> day_written d x -> hd_error (matches f_date f x) = Some (of_day d f, []).
Proof.
  destruct d as [[y m] d]. intros (M & DD) (a & b & c & -> & A & B & C). unfold f_date.
  rewrite (year_step a y) by assumption. rewrite lit_step.
  rewrite (field_mid TMonth m_month g_m _ _ _ _ m _ fld_m (month_reads b m _ B M (soft_dash _)) rej_dash). rewrite lit_step.
  rewrite <- (app_nil_r c). apply (field_end TDay m_day g_d); [exact fld_d|exact (day_field_reads c d [] C DD I)].
Qed.
Lemma t_step c ts f r : In c ["T"; "t"]%char -> matches (TLit "T" :: ts) f (c :: r) = matches ts f r.
Proof. intros [<-|[<-|[]]]; cbn [matches]; destruct f; cbn [m_tok lit_i]; [replace (ceq (lower_c "T") (lower_c "T")) with true by reflexivity|replace (ceq (lower_c "t") (lower_c "T")) with true by reflexivity]; cbn [map flat_map fst snd]; apply app_nil_r. Qed.
Lemma numeral_nonneg s n : numeral s n -> 0 <= n.
Proof. induction 1 as [|s n c d N IH [D _]]; lia. Qed.
Lemma clock_step h m s x t ts f r : clock_written h m s x -> rejects t -> soft r -> matches (f_time ++ t :: ts) f (x ++ r) = matches (t :: ts) (of_clock h m s f) r.
Proof.
  intros (H & M & S & c & a & b & e & T & -> & A & B & E) R F. unfold f_time. cbn [app]. rewrite t_step by exact T. rewrite <- !app_assoc. cbn [app]. rewrite <- !app_assoc. cbn [app].
  pose proof (numeral_nonneg _ _ (proj1 A)). pose proof (numeral_nonneg _ _ (proj1 B)). pose proof (numeral_nonneg _ _ (proj1 E)).
  rewrite (field_mid THour m_hour g_H _ _ _ _ h _ fld_H (hour_reads a h _ A ltac:(lia) (soft_colon _)) rej_colon). rewrite lit_step.
  rewrite (field_mid TMinute m_minute g_M _ _ _ _ m _ fld_M (minute_reads b m _ B ltac:(lia) (soft_colon _)) rej_colon). rewrite lit_step.
  exact (field_mid TSecond m_second g_S _ _ _ _ s _ fld_S (second_reads e s r E ltac:(lia) F) R).
Qed.
Lemma clock_end h m s x f : clock_written h m s x -> hd_error (matches f_time f x) = Some (of_clock h m s f, []).
Proof.
  intros (H & M & S & c & a & b & e & T & -> & A & B & E). unfold f_time. rewrite t_step by exact T.
  pose proof (numeral_nonneg _ _ (proj1 A)). pose proof (numeral_nonneg _ _ (proj1 B)). pose proof (numeral_nonneg _ _ (proj1 E)).
  rewrite (field_mid THour m_hour g_H _ _ _ _ h _ fld_H (hour_reads a h _ A ltac:(lia) (soft_colon _)) rej_colon). rewrite lit_step.
  rewrite (field_mid TMinute m_minute g_M _ _ _ _ m _ fld_M (minute_reads b m _ B ltac:(lia) (soft_colon _)) rej_colon). rewrite lit_step.
  rewrite <- (app_nil_r e). apply (field_end TSecond m_second g_S); [exact fld_S|exact (second_reads e s [] E ltac:(lia) I)].
Qed.
Lemma part_step u p t ts f r : part_written u p -> rejects t -> soft r -> matches (f_hires ++ t :: ts) f (p ++ r) = matches (t :: ts) (g_u u f) r.
Proof.
  intros P R F. destruct (part_reads u p r P F) as (x & -> & E). unfold f_hires. cbn [app]. rewrite lit_step. exact (field_mid TMicro m_micro g_u _ _ _ _ u _ fld_u E R).
Qed.
Lemma part_end u p f : part_written u p -> hd_error (matches f_hires f p) = Some (g_u u f, []).
Proof.
  intros P. destruct (part_reads u p [] P I) as (x & -> & E). rewrite app_nil_r in E. unfold f_hires. rewrite lit_step. exact (field_end TMicro m_micro g_u _ _ _ _ fld_u E).
Qed.
Definition g_z (o : Z) (f : fields) : fields := mkF (fy f) (fm f) (fd f) (fH f) (fM f) (fS f) (fu f) (Some (Some o)).
Lemma offset_end o z f : offset_written o z -> hd_error (matches [TZone] f z) = Some (g_z o f, []).
Proof. intros O. destruct (offset_reads o z O) as [alts E]. destruct f as [y m d H M sc u w]. cbn [matches m_tok]. rewrite E. reflexivity. Qed.
Lemma make_from d f : is_date d -> (fy f, fm f, fd f) = day_of d -> 0 <= fH f < 24 -> 0 <= fM f < 60 -> 0 <= fS f < 60 ->
  dmicro d = ((fH f * 60 + fM f) * 60 + fS f) * 1000000 + fu f -> fz f = option_map Some (doffset d) -> make_date f = Some d.
Proof.
  intros D E H M S U Z. destruct D as (A & Y9 & T & O). destruct d as [y m dd us o]. unfold day_of in *. cbn [dyear dmonth dday dmicro doffset] in *. injection E as Ey Em Ed. apply is_day_iff in A as (A1 & A2 & A3).
  unfold make_date. rewrite Ey, Em, Ed, Z.
  replace ((1 <=? y) && (1 <=? m) && (m <=? 12) && (1 <=? dd) && (dd <=? month_length y m) && (fS f <=? 59)) with true
    by (symmetry; rewrite !andb_true_iff, !Z.leb_le; lia).
  replace (fH f * us_hour + fM f * us_minute + fS f * us_second + fu f) with us by (rewrite U; unfold us_hour, us_minute, us_second; lia).
  destruct o as [o|]; cbn [option_map]; [|reflexivity]. destruct (Z.ltb_spec (Z.abs o) us_day) as [L|L]; [reflexivity|]. change us_day with day_micros in L. lia.
Qed.

(** * The whole text *)
Lemma soft_offset o z : offset_written o z -> soft z.
Proof. intros O. destruct (offset_start o z O) as (c & r & -> & S). destruct S as [<-|[<-|[<-|[]]]]; reflexivity. Qed.
Lemma soft_part u p r : part_written u p -> soft (p ++ r).
Proof. intros (a & n & -> & _). reflexivity. Qed.
Lemma soft_clock h m s c r : clock_written h m s c -> soft (c ++ r).
Proof. intros (_ & _ & _ & t & a & b & e & T & -> & _). destruct T as [<-|[<-|[]]]; reflexivity. Qed.
Lemma offset_no_lit x ts f o z : In x ["T"; "."]%char -> offset_written o z -> matches (TLit x :: ts) f z = [].
Proof. intros X O. destruct (offset_start o z O) as (c & r & -> & S). apply lit_other. destruct X as [<-|[<-|[]]], S as [<-|[<-|[<-|[]]]]; reflexivity. Qed.
Lemma clock_no_zone h m s c r ts f : clock_written h m s c -> matches (TZone :: ts) f (c ++ r) = [].
Proof. intros (_ & _ & _ & t & a & b & e & T & -> & _). cbn [app]. apply zone_other. destruct T as [<-|[<-|[]]]; reflexivity. Qed.
Lemma part_no_zone u p r ts f : part_written u p -> matches (TZone :: ts) f (p ++ r) = [].
Proof. intros (a & n & -> & _). cbn [app]. apply zone_other. reflexivity. Qed.
Lemma clock_bounds h m s c : clock_written h m s c -> 0 <= h < 24 /\ 0 <= m < 60 /\ 0 <= s < 60.
Proof.
  intros (H & M & S & t & a & b & e & _ & _ & A & B & E). pose proof (numeral_nonneg _ _ (proj1 A)). pose proof (numeral_nonneg _ _ (proj1 B)). pose proof (numeral_nonneg _ _ (proj1 E)). lia.
Qed.
Lemma T_in : In "T"%char ["T"; "."]%char. Proof. cbn; tauto. Qed.
Lemma dot_in : In "."%char ["T"; "."]%char. Proof. cbn; tauto. Qed.
Theorem written_read s d : is_date d -> date_written d s -> string_to_date s = Some d.
Proof.
  intros D (x & t & z & -> & X & T & Z). destruct (date_bounds d D) as (_ & BM & BD). assert (DF : day_fits (day_of d)) by (unfold day_fits, day_of; auto).
  unfold string_to_date, attempts.
  change (date_format true true true) with (f_date ++ TLit "T" :: tl f_time ++ f_hires ++ [TZone]).
  change (date_format true false true) with (f_date ++ TLit "T" :: tl f_time ++ [TZone]).
  change (date_format false false true) with (f_date ++ [TZone]).
  change (date_format true true false) with (f_date ++ TLit "T" :: tl f_time ++ f_hires).
  change (date_format true false false) with (f_date ++ TLit "T" :: tl f_time).
  change (date_format false false false) with f_date.
  cbn [try_formats].
  assert (DT : forall ts r, soft r -> matches (f_date ++ TLit "T" :: ts) no_fields (x ++ r) = matches (TLit "T" :: ts) (of_day (day_of d) no_fields) r) by (intros ts r F; apply day_step; auto; exact rej_T).
  assert (DZ : forall r, soft r -> matches (f_date ++ [TZone]) no_fields (x ++ r) = matches [TZone] (of_day (day_of d) no_fields) r) by (intros r F; apply day_step; auto; exact rejects_zone).
  set (F := of_day (day_of d) no_fields) in *.
  assert (FD : (fy F, fm F, fd F) = day_of d) by reflexivity.
  destruct T as [[-> U]|(c & p & h & m & sec & u & -> & C & P & U)].
  - cbn [app]. destruct (doffset d) as [o|] eqn:EO.
    + pose proof (soft_offset o z Z) as SZ.
      rewrite strptime_none by (rewrite DT by exact SZ; exact (offset_no_lit _ _ _ o z T_in Z)).
      rewrite strptime_none by (rewrite DT by exact SZ; exact (offset_no_lit _ _ _ o z T_in Z)).
      rewrite strptime_hd, DZ by exact SZ. rewrite (offset_end o z F Z). cbv beta iota. rewrite (make_from d); [reflexivity|exact D|exact FD|cbn; lia|cbn; lia|cbn; lia|rewrite U; reflexivity|rewrite EO; reflexivity].
    + subst z.
      rewrite strptime_none by (rewrite DT by exact I; apply lit_none). rewrite strptime_none by (rewrite DT by exact I; apply lit_none).
      rewrite strptime_none by (rewrite DZ by exact I; apply zone_none). rewrite strptime_none by (rewrite DT by exact I; apply lit_none). rewrite strptime_none by (rewrite DT by exact I; apply lit_none).
      rewrite strptime_hd, app_nil_r, (day_end (day_of d) x no_fields DF X). fold F. cbv beta iota. rewrite (make_from d); [reflexivity|exact D|exact FD|cbn; lia|cbn; lia|cbn; lia|rewrite U; reflexivity|rewrite EO; reflexivity].
  - pose proof (clock_bounds h m sec c C) as (BH & BMi & BS).
    change (TLit "T" :: tl f_time ++ f_hires ++ [TZone]) with (f_time ++ f_hires ++ [TZone]) in *. rewrite <- app_assoc.
    assert (SC : forall r, soft (c ++ r)) by (intros r; exact (soft_clock h m sec c r C)).
    assert (CT : forall t ts r, rejects t -> soft r -> matches (TLit "T" :: tl f_time ++ t :: ts) F (c ++ r) = matches (t :: ts) (of_clock h m sec F) r).
    { intros t ts r R S. change (TLit "T" :: tl f_time ++ t :: ts) with (f_time ++ t :: ts). apply clock_step; auto. }
    set (G := of_clock h m sec F) in *.
    change (f_time ++ f_hires ++ [TZone]) with (TLit "T" :: tl f_time ++ TLit "." :: TMicro :: [TZone]). change (tl f_time ++ f_hires) with (tl f_time ++ TLit "." :: [TMicro]).
    assert (FG : (fy G, fm G, fd G) = day_of d) by reflexivity.
    destruct (doffset d) as [o|] eqn:EO.
    + pose proof (soft_offset o z Z) as SZ. destruct P as [[-> ->]|P].
      * cbn [app]. rewrite strptime_none by (rewrite DT, CT by (auto; exact rej_dot); exact (offset_no_lit _ _ _ o z dot_in Z)).
        rewrite strptime_hd, DT, CT by (auto; exact rejects_zone). rewrite (offset_end o z G Z). cbv beta iota.
        rewrite (make_from d); [reflexivity|exact D|exact FG|exact BH|exact BMi|exact BS|rewrite U; reflexivity|rewrite EO; reflexivity].
      * rewrite strptime_hd, DT, CT by (try exact rej_dot; auto; exact (soft_part u p z P)). change (TLit "." :: TMicro :: [TZone]) with (f_hires ++ [TZone]).
        rewrite (part_step u p TZone [] G z P rejects_zone SZ). rewrite (offset_end o z _ Z). cbv beta iota.
        rewrite (make_from d); [reflexivity|exact D|exact FG|exact BH|exact BMi|exact BS|rewrite U; reflexivity|rewrite EO; reflexivity].
    + subst z. destruct P as [[-> ->]|P].
      * cbn [app]. rewrite strptime_none by (rewrite DT, CT by (auto; try exact I; exact rej_dot); apply lit_none).
        rewrite strptime_none by (rewrite DT, CT by (auto; try exact I; exact rejects_zone); apply zone_none).
        rewrite strptime_none by (rewrite DZ by auto; exact (clock_no_zone h m sec c [] _ _ C)).
        rewrite strptime_none by (rewrite DT, CT by (auto; try exact I; exact rej_dot); apply lit_none).
        rewrite strptime_hd, DT by auto. change (TLit "T" :: tl f_time) with f_time. rewrite app_nil_r, (clock_end h m sec c F C). fold G. cbv beta iota.
        rewrite (make_from d); [reflexivity|exact D|exact FG|exact BH|exact BMi|exact BS|rewrite U; reflexivity|rewrite EO; reflexivity].
      * assert (SP : soft (p ++ [])) by exact (soft_part u p [] P).
        rewrite strptime_none.
        2:{ rewrite DT, CT by (auto; exact rej_dot). change (TLit "." :: TMicro :: [TZone]) with (f_hires ++ [TZone]). rewrite (part_step u p TZone [] G [] P rejects_zone I). apply zone_none. }
        rewrite strptime_none by (rewrite DT, CT by (auto; exact rejects_zone); exact (part_no_zone u p [] _ _ P)).
        rewrite strptime_none by (rewrite DZ by auto; exact (clock_no_zone h m sec c (p ++ []) _ _ C)).
        rewrite strptime_hd, DT, CT by (auto; exact rej_dot). change (TLit "." :: [TMicro]) with f_hires. rewrite app_nil_r, (part_end u p G P). cbv beta iota.
        rewrite (make_from d); [reflexivity|exact D|exact FG|exact BH|exact BMi|exact BS|rewrite U; reflexivity|rewrite EO; reflexivity].
Qed.
