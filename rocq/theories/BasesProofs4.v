From Coq Require Import ZArith QArith Qpower Qround Qabs Qreduction Ascii String List Bool Lia Lqa Setoid Znumtheory.
From Verif Require Import Base Dec Num NumSpec Lex Bases BasesSpec DecProofs NumProofs BaseProofs LexProofs NumProofs2 NumProofs3 BasesProofs BasesProofs2 BasesProofs3.
Import ListNotations.
Open Scope Z_scope.

Lemma rest_ok_ends cls fp rest : rest_ok cls rest -> ends_number cls fp rest.
Proof. destruct rest as [|c r]; cbn; auto. intros [H1 H2]. split; auto. intros _ E. congruence. Qed.

Lemma rt_text p prec dpow tostr b v m f w : 1 <= p -> pow_ok p dpow -> 2 <= b <= 36 -> b <> 10 ->
  good v -> lowest v -> Z.of_nat f <= prec ->
  (val v == inject_Z m / inject_Z (b ^ Z.of_nat f))%Q -> Z.abs m * b ^ Z.of_nat f < 10 ^ (p - 1) ->
  (match w with Some x => b ^ (x - 1) < 10 ^ p | None => True end) ->
  exists (neg : bool) ip fp di df s, dec_to_base p prec dpow tostr v b = Ok s /\
    match w with Some x => force_width s x | None => s end = btext neg ip fp /\
    spells b ip di /\ spells b fp df /\ ip <> [] /\ (bvalue b neg di df == val v)%Q /\
    ival b (di ++ df) * b ^ Z.of_nat (length fp) < 10 ^ p /\ b ^ Z.of_nat (length fp) < 10 ^ p /\ b ^ (Z.of_nat (length ip) - 1) < 10 ^ p /\
    (forall x, w = Some x -> x <= Z.of_nat (length ip)).
Proof.
  intros Hp PO Hb H10 G L Hf V S HW.
  assert (HB : 0 < b ^ Z.of_nat f) by (apply Z.pow_pos_nonneg; lia).
  assert (P1 : 1 < 10 ^ p) by (apply Z.lt_le_trans with (10 ^ 1); [lia|apply Z.pow_le_mono_r; lia]).
  assert (base : exists (neg : bool) ip fp, dec_to_base p prec dpow tostr v b = Ok (btext neg (map digit_char ip) (map digit_char fp)) /\
    Forall (fun d => 0 <= d < b) ip /\ Forall (fun d => 0 <= d < b) fp /\ ip <> [] /\ (bvalue b neg ip fp == val v)%Q /\
    ival b (ip ++ fp) * b ^ Z.of_nat (length fp) < 10 ^ p /\ b ^ Z.of_nat (length fp) < 10 ^ p /\ b ^ (Z.of_nat (length ip) - 1) < 10 ^ p).
  { destruct (Z.eq_dec m 0) as [->|NM].
    - assert (Z0 : (val v == 0)%Q) by (rewrite V; unfold Qdiv; ring).
      exists false, [0], []. rewrite dec_to_base_zero by auto. split; [reflexivity|]. split; [constructor; [lia|constructor]|].
      split; [constructor|]. split; [discriminate|]. split; [rewrite Z0; reflexivity|]. cbn. lia.
    - destruct (dec_to_base_spec p prec dpow tostr b (m <? 0) (Z.abs m) f v) as (ip & fp & E & FI & FF & NL & NT & LF & VI & VF); auto; try lia.
      { rewrite V. destruct (Z.ltb_spec m 0).
        - rewrite Z.abs_neq, inject_Z_opp by lia. unfold Qdiv. ring.
        - rewrite Z.abs_eq by lia. ring. }
      destruct (printed_sizes b p ip fp (Z.abs m) f) as (S1 & S2 & S3); auto; try lia.
      exists (m <? 0), ip, fp. do 3 (split; [assumption|]). split; [apply no_leading_ne; auto|]. split; [|auto].
      rewrite (bvalue_printed b (m <? 0) ip fp (Z.abs m) f) by (auto; lia). rewrite V. destruct (Z.ltb_spec m 0).
      + rewrite Z.abs_neq, inject_Z_opp by lia. unfold Qdiv. ring.
      + rewrite Z.abs_eq by lia. ring. }
  destruct base as (neg & di & df & E & FI & FF & NE & BV & S1 & S2 & S3).
  assert (SI := digit_char_spells b di ltac:(lia) FI). assert (SF := digit_char_spells b df ltac:(lia) FF).
  assert (NE' : map digit_char di <> []) by (rewrite map_dc_nil; auto).
  destruct w as [x|].
  - destruct (spells_zfill b (Z.to_nat x) _ _ ltac:(lia) SI) as (n & Z1 & Z2). rewrite map_length in Z2.
    exists neg, (zfill (Z.to_nat x) (map digit_char di)), (map digit_char df), (repeat 0 n ++ di), df, (btext neg (map digit_char di) (map digit_char df)).
    split; [auto|]. split; [apply (force_width_text neg _ _ b di); auto|]. split; [auto|]. split; [auto|].
    split. { intro X. apply (f_equal (@length ascii)) in X. rewrite Z2 in X. destruct di; [congruence|]. cbn in X. lia. }
    split. { rewrite <- BV. rewrite !bvalue_digits by lia. rewrite <- app_assoc, digits_val_pad. reflexivity. }
    rewrite map_length. split; [rewrite <- app_assoc, ival_digits, digits_val_pad, <- ival_digits; auto|].
    split; [auto|]. split.
    + rewrite Z2. destruct (Z_le_gt_dec (Z.of_nat (length di)) x).
      * replace (Z.of_nat (Nat.max (Z.to_nat x) (length di))) with x by (destruct di; [congruence|cbn [length] in *; lia]). auto.
      * replace (Z.of_nat (Nat.max (Z.to_nat x) (length di))) with (Z.of_nat (length di)) by lia. auto.
    + intros y [= <-]. lia.
  - exists neg, (map digit_char di), (map digit_char df), di, df, (btext neg (map digit_char di) (map digit_char df)).
    split; [auto|]. split; [auto|]. do 4 (split; [assumption|]). rewrite !map_length. do 3 (split; [assumption|]). discriminate.
Qed.

Lemma cls_dot cls b : cls_ok cls b = true -> cls "."%char = false.
Proof. intros H. rewrite (cls_ok_spec _ _ H). reflexivity. Qed.
Lemma spells_cls cls b s ds : cls_ok cls b = true -> spells b s ds -> forallb cls s = true.
Proof. intros H. apply spells_class. intros c d E D. rewrite (cls_ok_spec _ _ H), E. lia. Qed.

Lemma lower_zero c : lower_c c = "0"%char -> c = "0"%char.
Proof.
  intros H. apply ceq_iff. pose (P := fun c => implb (ceq (lower_c c) "0"%char) (ceq c "0"%char)).
  assert (K : P c = true) by (apply all_ascii; vm_compute; reflexivity). unfold P in K. rewrite H in K. exact K.
Qed.

(** Literals with a two-character prefix. *)
Lemma prefixed_round_trip p prec dpow b v m f w x cls dz rest : 1 <= p -> pow_ok p dpow -> 2 <= b <= 36 -> b <> 10 ->
  lower_c x = x -> char_digit x = Some dz -> b <= dz -> cls_ok cls b = true ->
  good v -> lowest v -> Z.of_nat f <= prec ->
  (val v == inject_Z m / inject_Z (b ^ Z.of_nat f))%Q -> Z.abs m * b ^ Z.of_nat f < 10 ^ (p - 1) ->
  (match w with Some y => b ^ (y - 1) < 10 ^ p | None => True end) -> rest_ok cls rest ->
  exists s T r, dec_to_base p prec dpow (fun _ => Py) v b = Ok s /\
    add_prefix (match w with Some y => force_width s y | None => s end) ["0"%char; x] = T /\
    match_prefixed ["0"%char; x] cls (T ++ rest) = Some (T, rest) /\
    base_to_dec p dpow (remove_prefix T ["0"%char; x]) b = Ok r /\ nnum r = nnum v /\ nden r = nden v /\
    (forall y, w = Some y -> y <= get_width T ["0"%char; x]).
Proof.
  intros Hp PO Hb H10 HX HD HDZ HC G L Hf V S HW HR.
  destruct (rt_text p prec dpow (fun _ => Py) b v m f w Hp PO Hb H10 G L Hf V S HW) as (neg & ip & fp & di & df & s & E1 & E2 & SI & SF & NE & BV & S1 & S2 & S3 & W).
  assert (LP : lower ["0"%char; x] = ["0"%char; x]) by (cbn; rewrite HX; reflexivity).
  destruct (parse_prefixed p dpow b neg ["0"%char; x] ["0"%char; x] ip fp di df "0"%char [x] x dz) as (r & R1 & R2 & R3 & R4 & R5); auto.
  { right; left; auto. }
  exists s, (ptext neg ["0"%char; x] ip fp), r. split; [auto|]. split; [rewrite E2; apply (add_prefix_text neg _ ip fp b di); auto|].
  split.
  { apply (match_prefixed_complete cls neg _ _ ip fp rest "0"%char [x]); auto; try reflexivity.
    - exact lower_zero.
    - eapply cls_dot; eauto.
    - eapply spells_cls; eauto.
    - eapply spells_cls; eauto.
    - apply rest_ok_ends; auto. }
  split; [auto|].
  destruct (lowest_unique r v) as [N1 N2]; auto; [rewrite R5; auto|]. split; [auto|]. split; [auto|].
  intros y Ey. unfold get_width. rewrite (remove_prefix_text neg ["0"%char; x] ["0"%char; x] ip fp x "0"%char [x]); auto; [|right; left; auto|].
  - rewrite (split_text neg (lower ip) (lower fp) b di); [unfold lower; rewrite map_length; auto|apply spells_lower; auto|destruct ip; [congruence|discriminate]].
  - eapply btext_notin; eauto; apply spells_lower; eauto.
Qed.

(** Arbitrary-base literals. *)
Lemma span_dec_str n s : 0 <= n -> (match s with [] => True | c :: _ => is_digit c = false end) -> span is_digit (dec_str n ++ s) = (dec_str n, s).
Proof. intros Hn Hs. apply span_exact; auto. apply dec_str_spec; auto. Qed.

Lemma dec_str_head n : 0 <= n -> exists h t, dec_str n = h :: t /\ ceq h "-"%char = false.
Proof.
  intros Hn. destruct (dec_str_spec n Hn) as (_ & H & N). destruct (dec_str n) as [|h t] eqn:E; [congruence|].
  exists h, t. split; auto. cbn in H. apply andb_prop in H. destruct H as [H _]. apply ceq_neq. intros ->. discriminate H.
Qed.

Lemma lower_digits s : forallb is_digit s = true -> lower s = s.
Proof.
  induction s as [|c s IH]; cbn [forallb lower map]; auto. intros H. apply andb_prop in H. destruct H as [H1 H2].
  f_equal; [|apply IH; auto]. unfold lower_c. unfold is_digit in H1. unfold is_upper. destruct ((65 <=? code c) && (code c <=? 90)) eqn:E; auto. lia.
Qed.

Lemma arb_prefix_head b : 0 <= b -> exists h t, dec_str b ++ ["z"%char] = h :: t /\ ceq h "-"%char = false.
Proof. intros H. destruct (dec_str_head b H) as (h & t & E & C). rewrite E. exists h, (t ++ ["z"%char]). auto. Qed.

Lemma match_arb_complete b (neg : bool) z ip fp rest : 0 <= b -> lower_c z = "z"%char -> ip <> [] ->
  forallb is_alnum ip = true -> forallb is_alnum fp = true -> ends_number is_alnum fp rest ->
  match_arb (ptext neg (dec_str b ++ [z]) ip fp ++ rest) = Some (ptext neg (dec_str b ++ [z]) ip fp, rest).
Proof.
  intros Hb HZ NE HI HF HR. destruct (dec_str_head b Hb) as (h & t & E & C).
  assert (HZD : is_digit z = false).
  { pose (P := fun z => implb (ceq (lower_c z) "z"%char) (negb (is_digit z))).
    assert (K : P z = true) by (apply all_ascii; vm_compute; reflexivity). unfold P in K. rewrite HZ in K. change (ceq "z" "z") with true in K.
    cbn in K. destruct (is_digit z); auto; discriminate. }
  set (body := ip ++ match fp with [] => [] | _ => "."%char :: fp end).
  assert (OM : opt_minus (ptext neg (dec_str b ++ [z]) ip fp ++ rest) = ((if neg then ["-"%char] else []), dec_str b ++ z :: body ++ rest)).
  { unfold ptext, btext. fold body. cbn [app]. rewrite <- !app_assoc. cbn [app].
    destruct neg; cbn [app opt_minus]; [reflexivity|]. rewrite E. cbn [app opt_minus]. rewrite C. reflexivity. }
  unfold match_arb. rewrite OM. rewrite span_dec_str by auto.
  destruct (dec_str b) as [|h' t'] eqn:E'; [discriminate|].
  rewrite HZ. change (ceq "z" "z") with true. cbn iota.
  unfold body. rewrite <- app_assoc. rewrite match_digits_complete; auto.
  unfold ptext, btext. cbn [app]. rewrite <- !app_assoc. destruct fp; reflexivity.
Qed.

Lemma parse_arb_text p dpow b (neg : bool) z ip fp di df : 1 <= p -> pow_ok p dpow -> 2 <= b <= 35 -> b <> 10 -> lower_c z = "z"%char ->
  spells b ip di -> spells b fp df -> ip <> [] ->
  ival b (di ++ df) * b ^ Z.of_nat (length fp) < 10 ^ p -> b ^ Z.of_nat (length fp) < 10 ^ p -> b ^ (Z.of_nat (length ip) - 1) < 10 ^ p ->
  exists r, parse_arb p dpow (ptext neg (dec_str b ++ [z]) ip fp) = Ok (Some r) /\ good r /\ lowest r /\ ncast r = Some (CArb b) /\ (val r == bvalue b neg di df)%Q.
Proof.
  intros Hp PO Hb H10 HZ SI SF NE S1 S2 S3.
  destruct (dec_str_spec b ltac:(lia)) as (DV & DD & _).
  destruct (dec_str_head b ltac:(lia)) as (h & t & E & C).
  destruct (arb_prefix_head b ltac:(lia)) as (h2 & t2 & E2 & C2).
  destruct (parse_prefixed p dpow b neg (dec_str b ++ ["z"%char]) (dec_str b ++ [z]) ip fp di df h2 t2 "z"%char 35) as (r & R1 & R2 & R3 & R4 & R5); auto; try lia.
  { rewrite lower_app, lower_digits by auto. cbn. rewrite HZ. reflexivity. }
  { apply in_or_app. right. left. reflexivity. }
  assert (HZD : is_digit z = false).
  { pose (P := fun z => implb (ceq (lower_c z) "z"%char) (negb (is_digit z))).
    assert (K : P z = true) by (apply all_ascii; vm_compute; reflexivity). unfold P in K. rewrite HZ in K. change (ceq "z" "z") with true in K.
    cbn in K. destruct (is_digit z); auto; discriminate. }
  assert (OM : opt_minus (ptext neg (dec_str b ++ [z]) ip fp) = ((if neg then ["-"%char] else []), dec_str b ++ z :: btext false ip fp)).
  { unfold ptext. rewrite <- !app_assoc. cbn [app].
    destruct neg; cbn [app opt_minus]; [reflexivity|]. rewrite E. cbn [app opt_minus]. rewrite C. reflexivity. }
  unfold parse_arb. rewrite OM. rewrite span_dec_str by (auto; lia).
  change (digits_val 10 (map digit_val (dec_str b))) with (str_val (dec_str b)). rewrite DV, R1.
  exists (with_cast r (Some (CArb b))). split; [reflexivity|]. split; [exact R2|]. split; [exact R3|]. split; [reflexivity|exact R5].
Qed.

Lemma arb_round_trip p prec dpow tostr b v m f rest : 1 <= p -> pow_ok p dpow -> 2 <= b <= 35 -> b <> 10 ->
  good v -> lowest v -> Z.of_nat f <= prec ->
  (val v == inject_Z m / inject_Z (b ^ Z.of_nat f))%Q -> Z.abs m * b ^ Z.of_nat f < 10 ^ (p - 1) -> rest_ok is_alnum rest ->
  exists T r, arb_to_string p prec dpow tostr v b = Ok T /\ match_arb (T ++ rest) = Some (T, rest) /\
    parse_arb p dpow T = Ok (Some r) /\ nnum r = nnum v /\ nden r = nden v /\ ncast r = Some (CArb b).
Proof.
  intros Hp PO Hb H10 G L Hf V S HR.
  destruct (rt_text p prec dpow tostr b v m f None Hp PO ltac:(lia) H10 G L Hf V S I) as (neg & ip & fp & di & df & s & E1 & E2 & SI & SF & NE & BV & S1 & S2 & S3 & W).
  cbn in E2. subst s.
  destruct (parse_arb_text p dpow b neg "z"%char ip fp di df) as (r & R1 & R2 & R3 & R4 & R5); auto.
  exists (ptext neg (dec_str b ++ ["z"%char]) ip fp), r. split.
  { unfold arb_to_string. rewrite E1. cbn [obind]. f_equal. apply (add_prefix_text neg _ ip fp b di); auto. }
  assert (AL : forall s ds, spells b s ds -> forallb is_alnum s = true).
  { intros s ds HS. eapply (spells_class is_alnum b); eauto. intros c d X1 X2.
    pose (P := fun c => match char_digit c with Some _ => is_alnum c | None => true end).
    assert (K : P c = true) by (apply all_ascii; vm_compute; reflexivity). unfold P in K. rewrite X1 in K. exact K. }
  split. { apply match_arb_complete; eauto; try lia. apply rest_ok_ends; auto. }
  split; [auto|]. destruct (lowest_unique r v) as [N1 N2]; auto. rewrite R5. auto.
Qed.
