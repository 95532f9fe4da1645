From Coq Require Import ZArith QArith Qpower Qround Qabs Qreduction Ascii String List Bool Lia Lqa Setoid Znumtheory.
From Verif Require Import Base Dec Num NumSpec Lex Bases BasesSpec DecProofs NumProofs BaseProofs LexProofs NumProofs2 NumProofs3 BasesProofs BasesProofs2.
Import ListNotations.
Open Scope Z_scope.

Lemma match_digits_complete cls ip fp rest : ip <> [] -> forallb cls ip = true -> forallb cls fp = true -> cls "."%char = false ->
  ends_number cls fp rest ->
  match_digits cls (ip ++ match fp with [] => [] | _ => "."%char :: fp end ++ rest) =
  Some (ip, match fp with [] => None | _ => Some fp end, rest).
Proof.
  intros NE HI HF HD HR. unfold match_digits. rewrite span_exact; auto.
  - destruct ip; [congruence|]. destruct fp as [|c fp].
    + cbn [app]. destruct rest as [|c r]; auto. destruct HR as [H1 H2]. destruct (ceq c "."%char) eqn:E; auto.
      apply ceq_iff in E. specialize (H2 eq_refl E). destruct r as [|d r]; [reflexivity|]. cbn [span]. rewrite H2. reflexivity.
    + cbn [app]. change (ceq "." ".") with true. cbn iota. change (c :: fp ++ rest) with ((c :: fp) ++ rest).
      rewrite span_exact; auto. destruct rest; auto. apply HR.
  - destruct fp; cbn [app]; auto. destruct rest; auto. apply HR.
Qed.

Lemma remove_all_absent pre s z : In z pre -> ~ In z s -> remove_all pre s 0 = s.
Proof.
  intros Hz. induction s as [|c s IH]; intros N; auto. cbn [remove_all].
  destruct (prefixb pre (c :: s)) eqn:E.
  - apply prefixb_iff in E. destruct E as [t E]. exfalso. apply N. rewrite E. apply in_or_app. auto.
  - rewrite IH; auto. intro. apply N. right. auto.
Qed.
Lemma remove_all_skip pre x s : remove_all pre (x ++ s) (length x) = remove_all pre s 0.
Proof. induction x; cbn; auto. Qed.
Lemma remove_all_pre pre s : pre <> [] -> remove_all pre (pre ++ s) 0 = remove_all pre s 0.
Proof.
  intros N. destruct pre as [|c pre]; [congruence|]. cbn [app remove_all].
  change (c :: pre ++ s) with ((c :: pre) ++ s). rewrite prefixb_app. cbn [length].
  replace (S (length pre) - 1)%nat with (length pre) by lia. apply remove_all_skip.
Qed.

Lemma lower_app a b : lower (a ++ b) = lower a ++ lower b.
Proof. apply map_app. Qed.

Lemma lower_btext neg ip fp : lower (btext neg ip fp) = btext neg (lower ip) (lower fp).
Proof. unfold btext. rewrite !lower_app. destruct neg, fp; reflexivity. Qed.

Lemma remove_prefix_text (neg : bool) pre pre' ip fp z h t : pre = h :: t -> ceq h "-"%char = false -> lower pre' = pre -> In z pre ->
  ~ In z (btext false (lower ip) (lower fp)) ->
  remove_prefix (ptext neg pre' ip fp) pre = btext neg (lower ip) (lower fp).
Proof.
  intros EP HH LP HZ HN. unfold remove_prefix, ptext. rewrite !lower_app, LP, lower_btext.
  assert (E : remove_all pre (pre ++ btext false (lower ip) (lower fp)) 0 = btext false (lower ip) (lower fp)).
  { rewrite remove_all_pre by (rewrite EP; discriminate). eapply remove_all_absent; eauto. }
  destruct neg; [|exact E].
  change (lower ["-"%char]) with ["-"%char]. cbn [app remove_all].
  assert (prefixb pre ("-"%char :: pre ++ btext false (lower ip) (lower fp)) = false) as ->.
  { rewrite EP. cbn [prefixb]. rewrite HH. reflexivity. }
  rewrite E. reflexivity.
Qed.

Lemma spells_lower b s ds : spells b s ds -> spells b (lower s) ds.
Proof.
  induction 1 as [|c d s ds [H1 H2] H IH]; [constructor|]. cbn [lower map]. constructor; auto. split; auto.
  pose (P := fun c => match char_digit c with Some d => match char_digit (lower_c c) with Some d' => d =? d' | None => false end | None => true end).
  assert (K : P c = true) by (apply all_ascii; vm_compute; reflexivity).
  unfold P in K. rewrite H1 in K. destruct (char_digit (lower_c c)); [|discriminate]. apply Z.eqb_eq in K. congruence.
Qed.

Lemma spells_notin b s ds z dz : char_digit z = Some dz -> b <= dz -> spells b s ds -> ~ In z s.
Proof.
  intros Hz Hb. induction 1 as [|c d s ds [H1 H2] H IH]; cbn; [tauto|]. intros [->|I]; [|tauto]. rewrite Hz in H1. injection H1 as ->. lia.
Qed.

Lemma btext_notin b ip fp di df z dz : char_digit z = Some dz -> b <= dz -> spells b ip di -> spells b fp df -> ~ In z (btext false ip fp).
Proof.
  intros Hz Hb SI SF. unfold btext. cbn [app]. rewrite in_app_iff. intros [I|I].
  - exact (spells_notin b ip di z dz Hz Hb SI I).
  - destruct fp as [|c fp]; [destruct I|]. destruct I as [<-|I]; [discriminate Hz|]. apply (spells_notin b (c :: fp) df z dz Hz Hb SF). exact I.
Qed.

Lemma digit_char_spells b ds : b <= 36 -> Forall (fun d => 0 <= d < b) ds -> spells b (map digit_char ds) ds.
Proof.
  intros Hb. induction 1 as [|d ds H _ IH]; [constructor|]. cbn [map]. constructor; auto. split; auto.
  assert (forallb (fun k => match char_digit (digit_char (Z.of_nat k)) with Some d => d =? Z.of_nat k | None => false end) (seq 0 36) = true) as K by (vm_compute; reflexivity).
  rewrite forallb_forall in K. specialize (K (Z.to_nat d)). rewrite Z2Nat.id in K by lia.
  assert (In (Z.to_nat d) (seq 0 36)) as I by (apply in_seq; lia). specialize (K I).
  destruct (char_digit (digit_char d)); [|discriminate]. apply Z.eqb_eq in K. congruence.
Qed.

Lemma spells_class (cls : ascii -> bool) b s ds : (forall c d, char_digit c = Some d -> 0 <= d < b -> cls c = true) -> spells b s ds -> forallb cls s = true.
Proof. intros HC. induction 1 as [|c d s ds [H1 H2] H IH]; [reflexivity|]. cbn. rewrite IH. rewrite (HC c d); auto. Qed.

Definition cls_ok (cls : ascii -> bool) (b : Z) : bool :=
  forallb (fun c => Bool.eqb (cls c) (match char_digit c with Some d => d <? b | None => false end)) (map ascii_of_nat (seq 0 256)).
Lemma cls_ok_spec cls b : cls_ok cls b = true -> forall c, cls c = match char_digit c with Some d => d <? b | None => false end.
Proof.
  intros H c. apply eqb_prop.
  apply (all_ascii (fun c => Bool.eqb (cls c) (match char_digit c with Some d => d <? b | None => false end))). exact H.
Qed.
Lemma cls_spells cls b s : cls_ok cls b = true -> forallb cls s = true -> exists ds, spells b s ds.
Proof.
  intros HC. pose proof (cls_ok_spec _ _ HC) as HC'. induction s as [|c s IH]; intros H; [exists []; constructor|].
  cbn in H. apply andb_prop in H. destruct H as [H1 H2]. destruct (IH H2) as [ds D]. rewrite HC' in H1.
  destruct (char_digit c) as [d|] eqn:E; [|discriminate]. exists (d :: ds). constructor; auto. split; auto.
  apply char_digit_val in E. lia.
Qed.

(** The prefixed matcher accepts exactly sign, prefix in any case, digits. *)
Lemma match_prefixed_complete cls (neg : bool) pre pre' ip fp rest h t : pre = h :: t -> ceq h "-"%char = false -> lower_c h = h -> lower pre' = pre ->
  (forall c, lower_c c = h -> c = h) ->
  cls "."%char = false -> ip <> [] -> forallb cls ip = true -> forallb cls fp = true -> ends_number cls fp rest ->
  match_prefixed pre cls (ptext neg pre' ip fp ++ rest) = Some (ptext neg pre' ip fp, rest).
Proof.
  intros EP HH HL LP HI HD NE HIp HFp HR.
  assert (Len : length pre' = length pre) by (rewrite <- LP; unfold lower; rewrite map_length; reflexivity).
  assert (Hpre' : exists t', pre' = h :: t').
  { destruct pre' as [|c t']; [rewrite EP in LP; discriminate|]. exists t'. rewrite EP in LP. injection LP as L1 L2. rewrite (HI c L1). reflexivity. }
  destruct Hpre' as [t' Et'].
  assert (core : let body := ip ++ match fp with [] => [] | _ => "."%char :: fp end in
    (if prefixb pre (lower (firstn (length pre) (pre' ++ body ++ rest))) then
      match match_digits cls (skipn (length pre) (pre' ++ body ++ rest)) with
      | Some (ip, fp, r) => Some ((if neg then ["-"%char] else []) ++ firstn (length pre) (pre' ++ body ++ rest) ++ ip ++ match fp with Some f => "."%char :: f | None => [] end, r)
      | None => None end else None) = Some (ptext neg pre' ip fp, rest)).
  { cbv zeta. rewrite <- Len. rewrite firstn_app, firstn_all, Nat.sub_diag. cbn [firstn]. rewrite app_nil_r, LP.
    assert (prefixb pre pre = true) as -> by (rewrite <- (app_nil_r pre) at 2; apply prefixb_app).
    rewrite skipn_app, skipn_all, Nat.sub_diag. cbn [skipn app]. rewrite <- app_assoc.
    rewrite match_digits_complete by auto. unfold ptext, btext. destruct fp; reflexivity. }
  cbv zeta in core. unfold match_prefixed, ptext, btext in *. cbn [app] in *. destruct neg.
  - cbn [app opt_minus]. change (ceq "-" "-") with true. cbn iota. rewrite <- !app_assoc in *. exact core.
  - cbn [app]. rewrite <- !app_assoc in *. rewrite Et' in *. cbn [app opt_minus] in *. rewrite HH. exact core.
Qed.

(** Sizes of a printed text. *)
Lemma printed_sizes b p ip fp M f : 2 <= b -> 0 < M -> (length fp <= f)%nat -> no_leading_zero ip ->
  Forall (fun d => 0 <= d < b) ip -> Forall (fun d => 0 <= d < b) fp ->
  ival b ip = M / b ^ Z.of_nat f -> (fval b fp == inject_Z (M mod b ^ Z.of_nat f) / inject_Z (b ^ Z.of_nat f))%Q ->
  M * b ^ Z.of_nat f < 10 ^ (p - 1) -> 1 <= p ->
  ival b (ip ++ fp) * b ^ Z.of_nat (length fp) < 10 ^ p /\ b ^ Z.of_nat (length fp) < 10 ^ p /\ b ^ (Z.of_nat (length ip) - 1) < 10 ^ p.
Proof.
  intros Hb HM HL NL FI FF VI VF S Hp.
  assert (P : 10 ^ (p - 1) <= 10 ^ p) by (apply Z.pow_le_mono_r; lia).
  set (B := b ^ Z.of_nat f) in *. assert (HB : 0 < B) by (apply Z.pow_pos_nonneg; lia).
  set (g := b ^ Z.of_nat (length fp)).
  assert (Hg : 0 < g <= B). { split; [apply Z.pow_pos_nonneg; lia|]. apply Z.pow_le_mono_r; lia. }
  assert (E : digits_val b (ip ++ fp) * B = M * g).
  { rewrite digits_val_app. rewrite ival_digits in VI. rewrite VI. fold g. rewrite fval_digits in VF by auto. fold g in VF.
    assert (E2 : digits_val b fp * B = (M mod B) * g).
    { apply inject_eq. rewrite !inject_Z_mult.
      setoid_replace (inject_Z (digits_val b fp)) with (inject_Z (digits_val b fp) / inject_Z g * inject_Z g)%Q by (field; apply inject_nz; lia).
      rewrite VF. field. apply inject_nz; lia. }
    rewrite Z.mul_add_distr_r, E2. rewrite (Z.div_mod M B) at 3 by lia. ring. }
  rewrite ival_digits.
  assert (D0 : 0 <= digits_val b (ip ++ fp)) by (apply digits_val_bounds; auto; apply Forall_app; auto).
  assert (DM : digits_val b (ip ++ fp) <= M).
  { apply (Z.mul_le_mono_pos_r _ _ B); auto. rewrite E. apply Z.mul_le_mono_nonneg_l; lia. }
  assert (M * 1 <= M * B) by (apply Z.mul_le_mono_nonneg_l; lia).
  assert (1 * B <= M * B) by (apply Z.mul_le_mono_nonneg_r; lia).
  split; [|split].
  - apply Z.le_lt_trans with (M * B); [|lia]. apply Z.mul_le_mono_nonneg; lia.
  - lia.
  - destruct NL as [->|(d & r & -> & ND)]; [cbn; lia|]. cbn [length]. rewrite Nat2Z.inj_succ.
    replace (Z.succ (Z.of_nat (length r)) - 1) with (Z.of_nat (length r)) by lia.
    rewrite ival_digits, digits_val_cons in VI. inversion FI as [|? ? H1 H2]; subst.
    assert (0 <= digits_val b r) by (apply digits_val_bounds; auto).
    assert (0 < b ^ Z.of_nat (length r)) by (apply Z.pow_pos_nonneg; lia).
    assert (1 * b ^ Z.of_nat (length r) <= d * b ^ Z.of_nat (length r)) by (apply Z.mul_le_mono_nonneg_r; lia).
    assert (M / B <= M) by (apply Z.div_le_upper_bound; lia). lia.
Qed.

Lemma bvalue_printed b (neg : bool) ip fp M f : 2 <= b ->
  ival b ip = M / b ^ Z.of_nat f -> (fval b fp == inject_Z (M mod b ^ Z.of_nat f) / inject_Z (b ^ Z.of_nat f))%Q ->
  (bvalue b neg ip fp == (if neg then -1 else 1) * (inject_Z M / inject_Z (b ^ Z.of_nat f)))%Q.
Proof.
  intros Hb VI VF. unfold bvalue. assert (HB : 0 < b ^ Z.of_nat f) by (apply Z.pow_pos_nonneg; lia).
  rewrite VF, VI. rewrite (Z.div_mod M (b ^ Z.of_nat f)) at 3 by lia. rewrite inject_Z_plus, inject_Z_mult.
  destruct neg; field; apply inject_nz; lia.
Qed.

Lemma map_dc_nil ds : map digit_char ds = [] <-> ds = [].
Proof. destruct ds; cbn; split; congruence. Qed.

Lemma no_leading_ne ds : no_leading_zero ds -> ds <> [].
Proof. intros [->|(d & r & -> & _)]; discriminate. Qed.

(** Printing then parsing, any base but ten. *)
Lemma round_trip_nz p prec dpow tostr b (neg : bool) M f v : 1 <= p -> pow_ok p dpow -> 2 <= b <= 36 -> b <> 10 ->
  good v -> lowest v -> 0 < M -> Z.of_nat f <= prec ->
  (val v == (if neg then -1 else 1) * (inject_Z M / inject_Z (b ^ Z.of_nat f)))%Q ->
  M * b ^ Z.of_nat f < 10 ^ (p - 1) ->
  exists ip fp r, dec_to_base p prec dpow tostr v b = Ok (btext neg (map digit_char ip) (map digit_char fp)) /\
    Forall (fun d => 0 <= d < b) ip /\ Forall (fun d => 0 <= d < b) fp /\ no_leading_zero ip /\ no_trailing_zero fp /\
    (bvalue b neg ip fp == val v)%Q /\
    base_to_dec p dpow (btext neg (map digit_char ip) (map digit_char fp)) b = Ok r /\ nnum r = nnum v /\ nden r = nden v.
Proof.
  intros Hp PO Hb H10 G L HM Hprec V S.
  destruct (dec_to_base_spec p prec dpow tostr b neg M f v) as (ip & fp & E & FI & FF & NL & NT & LF & VI & VF); auto.
  destruct (printed_sizes b p ip fp M f) as (S1 & S2 & S3); auto; try lia.
  destruct (base_to_dec_spec p dpow b neg (map digit_char ip) (map digit_char fp) ip fp) as (r & R1 & R2 & R3 & R4 & R5);
    rewrite ?map_length; auto.
  { apply digit_char_spells; auto; lia. } { apply digit_char_spells; auto; lia. }
  { rewrite map_dc_nil. apply no_leading_ne; auto. }
  exists ip, fp, r. do 5 (split; [assumption|]).
  assert (BV : (bvalue b neg ip fp == val v)%Q) by (rewrite V; apply bvalue_printed; auto; lia).
  split; auto. split; auto. apply lowest_unique; auto. rewrite R5, BV. reflexivity.
Qed.

Lemma dec_to_base_zero p prec dpow tostr v b : 1 <= p -> (val v == 0)%Q -> dec_to_base p prec dpow tostr v b = Ok $"0".
Proof.
  intros Hp V. unfold dec_to_base. rewrite to_decimal_val, (rnd_eq p _ _ V), rnd_0 by reflexivity. reflexivity.
Qed.

Lemma val0_lowest v : good v -> lowest v -> (val v == 0)%Q -> nnum v = 0 /\ nden v = 1.
Proof. intros G L V. apply (lowest_unique v (mkNum 0 1 None None)); auto; [reflexivity|apply lowest_1]. Qed.

(** Base ten prints through the number itself. *)
Definition plain_str (p prec : Z) (v : number) : out str := py_opt (to_string_plain p prec v).

Lemma dec_to_base_10 p prec dpow tostr v : 1 <= p -> ~ (val v == 0)%Q -> ncast v <> Some (CArb 10) ->
  dec_to_base p prec dpow tostr v 10 = tostr v.
Proof.
  intros Hp V C. unfold dec_to_base. rewrite to_decimal_val.
  destruct (Qeq_bool (rnd p (val v)) 0) eqn:E. { apply Qeq_bool_iff in E. exfalso. revert E. apply rnd_nz; auto. }
  cbn. destruct (ncast v) as [[| | | | | |[|q|q]]|]; auto. do 4 (destruct q as [q|q|]; auto). congruence.
Qed.

Lemma round_trip_10 p prec dpow v m : 1 <= p -> 1 <= prec <= p -> good v -> lowest v -> ncast v <> Some (CArb 10) ->
  (val v == inject_Z m / inject_Z (10 ^ prec))%Q -> Z.abs m < 10 ^ p ->
  exists s r, dec_to_base p prec dpow (plain_str p prec) v 10 = Ok s /\ base_to_dec p dpow s 10 = Ok r /\ nnum r = nnum v /\ nden r = nden v.
Proof.
  intros Hp Hpr G L C V S. destruct (Qeq_dec (val v) 0) as [Z0|NZ].
  - exists $"0", (num_of_Z p 0). rewrite dec_to_base_zero by auto. rewrite num_of_Z_eq. destruct (val0_lowest v G L Z0) as [-> ->].
    split; [reflexivity|]. split; [unfold base_to_dec; rewrite seq_eqb_refl, num_of_Z_eq; reflexivity|auto].
  - destruct (to_string_exact p prec v m) as (l & L1 & L2 & L3 & L4 & r & R1 & R2 & R3 & R4); auto; try lia.
    exists (lit_text l), r. rewrite dec_to_base_10 by auto. split; [unfold plain_str; rewrite L1; reflexivity|].
    split; [|apply lowest_unique; auto].
    unfold base_to_dec. destruct (seq_eqb (lit_text l) $"0") eqn:E0.
    + exfalso. apply seq_eqb_iff in E0. rewrite E0 in L4. vm_compute in L4. injection L4 as <-. apply NZ. rewrite <- L3. reflexivity.
    + rewrite Z.eqb_refl. unfold number_of_text. rewrite L4, R1. reflexivity.
Qed.

(** All bases: a Number m / b^f. *)
Lemma round_trip p prec dpow b v m f : 1 <= p -> 1 <= prec <= p -> pow_ok p dpow -> 2 <= b <= 36 ->
  good v -> lowest v -> ncast v <> Some (CArb 10) -> Z.of_nat f <= prec ->
  (val v == inject_Z m / inject_Z (b ^ Z.of_nat f))%Q -> Z.abs m * b ^ Z.of_nat f < 10 ^ (p - 1) -> (b = 10 -> Z.abs m * 10 ^ prec < 10 ^ p) ->
  exists s r, dec_to_base p prec dpow (plain_str p prec) v b = Ok s /\ base_to_dec p dpow s b = Ok r /\ nnum r = nnum v /\ nden r = nden v.
Proof.
  intros Hp Hpr PO Hb G L C Hf V S S10.
  assert (HB : 0 < b ^ Z.of_nat f) by (apply Z.pow_pos_nonneg; lia).
  destruct (Z.eq_dec b 10) as [->|H10].
  { apply (round_trip_10 p prec dpow v (m * 10 ^ (prec - Z.of_nat f))); auto.
    - rewrite V. replace prec with ((prec - Z.of_nat f) + Z.of_nat f) at 2 by lia. rewrite Z.pow_add_r, !inject_Z_mult by lia.
      assert (0 < 10 ^ (prec - Z.of_nat f)) by (apply Z.pow_pos_nonneg; lia). field. split; apply inject_nz; lia.
    - rewrite Z.abs_mul, (Z.abs_eq (10 ^ _)) by (apply Z.pow_nonneg; lia). apply Z.le_lt_trans with (Z.abs m * 10 ^ prec); auto.
      apply Z.mul_le_mono_nonneg_l; [lia|]. apply Z.pow_le_mono_r; lia. }
  destruct (Z.eq_dec m 0) as [->|NM].
  { assert (Z0 : (val v == 0)%Q) by (rewrite V; unfold Qdiv; ring).
    exists $"0", (num_of_Z p 0). rewrite dec_to_base_zero by auto. rewrite num_of_Z_eq. destruct (val0_lowest v G L Z0) as [-> ->].
    split; [reflexivity|]. split; [unfold base_to_dec; rewrite seq_eqb_refl, num_of_Z_eq; reflexivity|auto]. }
  destruct (round_trip_nz p prec dpow (plain_str p prec) b (m <? 0) (Z.abs m) f v) as (ip & fp & r & R1 & _ & _ & _ & _ & _ & R2 & R3 & R4); auto; try lia.
  { rewrite V. destruct (Z.ltb_spec m 0).
    - rewrite Z.abs_neq, inject_Z_opp by lia. unfold Qdiv. ring.
    - rewrite Z.abs_eq by lia. ring. }
  eexists; exists r. split; [exact R1|]. split; [exact R2|]. auto.
Qed.

(** ** Prefixed literals *)
Lemma parse_prefixed p dpow b (neg : bool) pre pre' ip fp di df h t z dz : 1 <= p -> pow_ok p dpow -> 2 <= b <= 36 -> b <> 10 ->
  pre = h :: t -> ceq h "-"%char = false -> lower pre' = pre -> In z pre -> char_digit z = Some dz -> b <= dz ->
  spells b ip di -> spells b fp df -> ip <> [] ->
  ival b (di ++ df) * b ^ Z.of_nat (length fp) < 10 ^ p -> b ^ Z.of_nat (length fp) < 10 ^ p -> b ^ (Z.of_nat (length ip) - 1) < 10 ^ p ->
  exists r, base_to_dec p dpow (remove_prefix (ptext neg pre' ip fp) pre) b = Ok r /\ good r /\ lowest r /\ ncast r = None /\ (val r == bvalue b neg di df)%Q.
Proof.
  intros Hp PO Hb H10 EP HH LP HZ Hz Hdz SI SF NE S1 S2 S3.
  rewrite (remove_prefix_text neg pre pre' ip fp z h t); auto.
  2: { eapply btext_notin; eauto; apply spells_lower; eauto. }
  apply base_to_dec_spec; auto; try (apply spells_lower; auto).
  - destruct ip; [congruence|discriminate].
  - unfold lower. rewrite map_length. auto.
  - unfold lower. rewrite map_length. auto.
  - unfold lower. rewrite map_length. auto.
Qed.

Lemma add_prefix_text (neg : bool) pre ip fp b di : spells b ip di -> ip <> [] -> add_prefix (btext neg ip fp) pre = ptext neg pre ip fp.
Proof.
  intros SI NE. unfold ptext. destruct neg.
  - unfold btext, add_prefix. cbn [app]. change (ceq "-" "-") with true. reflexivity.
  - cbn [app]. destruct ip as [|c ip]; [congruence|]. unfold btext at 1. cbn [app add_prefix].
    inversion SI as [|? ? ? ? [X1 _] _]; subst. apply char_digit_val in X1. destruct X1 as (_ & _ & _ & -> & _). reflexivity.
Qed.

Lemma split_text (neg : bool) ip fp b di : spells b ip di -> ip <> [] ->
  split_number (btext neg ip fp) = ((if neg then ["-"%char] else []), ip, match fp with [] => [] | _ => "."%char :: fp end).
Proof.
  intros SI NE. unfold split_number.
  assert (OM : opt_minus (btext neg ip fp) = ((if neg then ["-"%char] else []), btext false ip fp)).
  { unfold btext. destruct neg; cbn [app opt_minus]; [reflexivity|]. destruct ip as [|c ip]; [congruence|]. cbn [app opt_minus].
    inversion SI as [|? ? ? ? [X1 _] _]; subst. apply char_digit_val in X1. destruct X1 as (_ & _ & _ & -> & _). reflexivity. }
  rewrite OM. unfold btext. cbn [app]. destruct fp as [|c fp].
  - rewrite app_nil_r. rewrite (sfind_dot_none ip) by (eapply spells_nodot; eauto). reflexivity.
  - rewrite sfind_dot_app by (eapply spells_nodot; eauto).
    rewrite firstn_app, firstn_all, Nat.sub_diag. cbn [firstn]. rewrite app_nil_r.
    rewrite skipn_app, skipn_all, Nat.sub_diag. reflexivity.
Qed.

Lemma force_width_text (neg : bool) ip fp b di w : spells b ip di -> ip <> [] ->
  force_width (btext neg ip fp) w = btext neg (zfill (Z.to_nat w) ip) fp.
Proof. intros SI NE. unfold force_width. rewrite (split_text neg ip fp b di) by auto. reflexivity. Qed.

Lemma spells_zfill b w ip di : 2 <= b -> spells b ip di -> exists n, spells b (zfill w ip) (repeat 0 n ++ di) /\ length (zfill w ip) = Nat.max w (length ip).
Proof.
  intros Hb SI. exists (w - length ip)%nat. unfold zfill. split.
  - apply Forall2_app; auto. induction (w - length ip)%nat; cbn; constructor; auto. split; [reflexivity|lia].
  - rewrite app_length, repeat_length. lia.
Qed.

Lemma digits_val_pad b n ds : digits_val b (repeat 0 n ++ ds) = digits_val b ds.
Proof. induction n as [|n IH]; cbn [repeat app]; [reflexivity|]. rewrite digits_val_cons, IH. lia. Qed.
