(** Properties C09 and C10: numbers in other bases.  Proofs are in the BasesProofs files. *)
From Coq Require Import ZArith QArith Qround Ascii String List Bool Lia.
From Verif Require Import Base Dec Num NumSpec Lex Bases BasesSpec NumProofs NumProofs3 BasesProofs BasesProofs2 BasesProofs3 BasesProofs4.
Import ListNotations.
Open Scope Z_scope.

(** ** C09
    [pow_ok p dpow] says the decimal power is exact on integers whenever the result has at most [p] digits.
    [plain_str] is the decimal format. *)

(** Printing in any base and reading the text back gives the same numerator and denominator. *)
Theorem c09_round_trip : forall p prec dpow b v m f, 1 <= p -> 1 <= prec <= p -> pow_ok p dpow -> 2 <= b <= 36 ->
  good v -> lowest v -> ncast v <> Some (CArb 10) -> Z.of_nat f <= prec ->
  (val v == inject_Z m / inject_Z (b ^ Z.of_nat f))%Q ->
  Z.abs m * b ^ Z.of_nat f < 10 ^ (p - 1) -> (b = 10 -> Z.abs m * 10 ^ prec < 10 ^ p) ->
  exists s r, dec_to_base p prec dpow (plain_str p prec) v b = Ok s /\ base_to_dec p dpow s b = Ok r /\ nnum r = nnum v /\ nden r = nden v.
Proof. exact round_trip. Qed.
(** Integers are the case f = 0. *)
Theorem c09_round_trip_integers : forall p prec dpow b n, 1 <= p -> 1 <= prec <= p -> pow_ok p dpow -> 2 <= b <= 36 ->
  Z.abs n < 10 ^ (p - 1) -> (b = 10 -> Z.abs n * 10 ^ prec < 10 ^ p) ->
  exists s r, dec_to_base p prec dpow (plain_str p prec) (num_of_Z p n) b = Ok s /\ base_to_dec p dpow s b = Ok r /\ nnum r = n /\ nden r = 1.
Proof.
  intros p prec dpow b n Hp Hpr PO Hb S S10. rewrite num_of_Z_eq.
  apply (round_trip p prec dpow b (mkNum n 1 None None) n 0); auto.
  - reflexivity.
  - apply lowest_1.
  - discriminate.
  - cbn. lia.
  - unfold val. cbn. unfold Qdiv. reflexivity.
  - cbn. lia.
Qed.
Example c09_ex : dec_to_base 100 30 dpow_int (plain_str 100 30) (mkNum (-3735928559) 16 None None) 16 = Ok $"-DEADBEE.F" /\
  base_to_dec 100 dpow_int $"-DEADBEE.F" 16 = Ok (mkNum (-3735928559) 16 None None) /\
  dec_to_base 100 30 dpow_int (plain_str 100 30) (mkNum 46655 1 None None) 36 = Ok $"ZZZ" /\ pow_ok 100 dpow_int.
Proof. split; [vm_compute; reflexivity|]. split; [vm_compute; reflexivity|]. split; [vm_compute; reflexivity|apply dpow_int_ok]. Qed.

(** The digits printed: positional notation of the value, digits below the base, no superfluous zeros. *)
Theorem c09_printed_canonical : forall p prec dpow tostr b (neg : bool) M f v, 1 <= p -> pow_ok p dpow -> 2 <= b <= 36 -> b <> 10 ->
  good v -> lowest v -> 0 < M -> Z.of_nat f <= prec ->
  (val v == (if neg then -1 else 1) * (inject_Z M / inject_Z (b ^ Z.of_nat f)))%Q ->
  M * b ^ Z.of_nat f < 10 ^ (p - 1) ->
  exists ip fp, dec_to_base p prec dpow tostr v b = Ok (btext neg (map digit_char ip) (map digit_char fp)) /\
    spells b (map digit_char ip) ip /\ spells b (map digit_char fp) fp /\ no_leading_zero ip /\ no_trailing_zero fp /\
    (bvalue b neg ip fp == val v)%Q.
Proof.
  intros p prec dpow tostr b neg M f v Hp PO Hb H10 G L HM Hf V S.
  destruct (round_trip_nz p prec dpow tostr b neg M f v) as (ip & fp & r & R1 & R2 & R3 & R4 & R5 & R6 & _); auto.
  exists ip, fp. split; [auto|]. split; [apply digit_char_spells; auto; lia|]. split; [apply digit_char_spells; auto; lia|auto].
Qed.
Theorem c09_zero_printed : forall p prec dpow tostr v b, 1 <= p -> (val v == 0)%Q -> dec_to_base p prec dpow tostr v b = Ok $"0".
Proof. exact dec_to_base_zero. Qed.
(** Reading: every text of digits, either case, with or without leading and trailing zeros. *)
Theorem c09_read_value : forall p dpow b (neg : bool) ip fp di df, 1 <= p -> pow_ok p dpow -> 2 <= b <= 36 -> b <> 10 ->
  spells b ip di -> spells b fp df -> ip <> [] ->
  ival b (di ++ df) * b ^ Z.of_nat (length fp) < 10 ^ p -> b ^ Z.of_nat (length fp) < 10 ^ p -> b ^ (Z.of_nat (length ip) - 1) < 10 ^ p ->
  exists r, base_to_dec p dpow (btext neg ip fp) b = Ok r /\ good r /\ lowest r /\ ncast r = None /\ (val r == bvalue b neg di df)%Q.
Proof. exact base_to_dec_spec. Qed.
Example c09_read_ex : spells 16 $"0fF" [0;15;15] /\ spells 16 $"80" [8;0] /\ base_to_dec 100 dpow_int $"-0fF.80" 16 = Ok (mkNum (-511) 2 None None) /\
  (bvalue 16 true [0;15;15]%Z [8;0]%Z == -511 # 2)%Q.
Proof. repeat split; try (vm_compute; reflexivity); repeat constructor; vm_compute; congruence. Qed.
(** Bases outside 2..36 are refused with a calculator error, in both directions. *)
Theorem c09_base_range : forall p prec dpow tostr v t b, b < 2 \/ 36 < b -> ~ (rnd p (val v) == 0)%Q -> t <> $"0" ->
  dec_to_base p prec dpow tostr v b = Calc /\ base_to_dec p dpow t b = Calc.
Proof.
  intros p prec dpow tostr v t b Hb NZ NT. unfold dec_to_base, base_to_dec.
  assert (b =? 10 = false) as -> by lia. assert ((b <? 2) || (36 <? b) = true) as -> by lia.
  rewrite to_decimal_val. split.
  - destruct (Qeq_bool _ 0) eqn:E; auto. apply Qeq_bool_iff in E. contradiction.
  - destruct (seq_eqb t $"0") eqn:E; auto. apply BaseProofs.seq_eqb_iff in E. contradiction.
Qed.

(** The literals: print with the format, match with the parser's expression, parse. *)
Theorem c09_hex_round_trip : forall p prec dpow v m f rest, 1 <= p -> pow_ok p dpow -> good v -> lowest v -> Z.of_nat f <= prec ->
  (val v == inject_Z m / inject_Z (16 ^ Z.of_nat f))%Q -> Z.abs m * 16 ^ Z.of_nat f < 10 ^ (p - 1) -> rest_ok is_hex rest ->
  exists T r, hex_to_string p prec dpow v = Ok T /\ match_hex (T ++ rest) = Some (T, rest) /\ parse_hex p dpow T = Ok r /\
    nnum r = nnum v /\ nden r = nden v /\ ncast r = Some CHex.
Proof.
  intros p prec dpow v m f rest Hp PO G L Hf V S HR.
  destruct (prefixed_round_trip p prec dpow 16 v m f None "x"%char is_hex 33 rest Hp PO ltac:(lia) ltac:(lia) eq_refl eq_refl ltac:(lia) ltac:(vm_compute; reflexivity) G L Hf V S I HR) as (s & T & r & E1 & E2 & E3 & E4 & E5 & E6 & _).
  cbn iota in E2. exists T. eexists. unfold hex_to_string, parse_hex, match_hex. change hex_pre with ["0"%char; "x"%char]. rewrite E1. cbn [obind]. rewrite E2, E3, E4. cbn [obind].
  split; [reflexivity|]. split; [reflexivity|]. split; [reflexivity|]. auto.
Qed.
Theorem c09_oct_round_trip : forall p prec dpow v m f rest, 1 <= p -> pow_ok p dpow -> good v -> lowest v -> Z.of_nat f <= prec ->
  (val v == inject_Z m / inject_Z (8 ^ Z.of_nat f))%Q -> Z.abs m * 8 ^ Z.of_nat f < 10 ^ (p - 1) -> rest_ok is_oct rest ->
  exists T r, oct_to_string p prec dpow v = Ok T /\ match_oct (T ++ rest) = Some (T, rest) /\ parse_oct p dpow T = Ok r /\
    nnum r = nnum v /\ nden r = nden v /\ ncast r = Some COct.
Proof.
  intros p prec dpow v m f rest Hp PO G L Hf V S HR.
  destruct (prefixed_round_trip p prec dpow 8 v m f None "o"%char is_oct 24 rest Hp PO ltac:(lia) ltac:(lia) eq_refl eq_refl ltac:(lia) ltac:(vm_compute; reflexivity) G L Hf V S I HR) as (s & T & r & E1 & E2 & E3 & E4 & E5 & E6 & _).
  cbn iota in E2. exists T. eexists. unfold oct_to_string, parse_oct, match_oct. change oct_pre with ["0"%char; "o"%char]. rewrite E1. cbn [obind]. rewrite E2, E3, E4. cbn [obind].
  split; [reflexivity|]. split; [reflexivity|]. split; [reflexivity|]. auto.
Qed.
(** A binary number remembers the width of the literal: printing pads to it, and reading keeps at least that width. *)
Theorem c09_bin_round_trip : forall p prec dpow v m f rest, 1 <= p -> pow_ok p dpow -> good v -> lowest v -> Z.of_nat f <= prec ->
  (val v == inject_Z m / inject_Z (2 ^ Z.of_nat f))%Q -> Z.abs m * 2 ^ Z.of_nat f < 10 ^ (p - 1) ->
  (match nwidth v with Some w => 2 ^ (w - 1) < 10 ^ p | None => True end) -> rest_ok is_bin rest ->
  exists T r w', bin_to_string p prec dpow v = Ok T /\ match_bin (T ++ rest) = Some (T, rest) /\ parse_bin p dpow T = Ok r /\
    nnum r = nnum v /\ nden r = nden v /\ ncast r = Some CBin /\ nwidth r = Some w' /\ (forall w, nwidth v = Some w -> w <= w').
Proof.
  intros p prec dpow v m f rest Hp PO G L Hf V S HW HR.
  destruct (prefixed_round_trip p prec dpow 2 v m f (nwidth v) "b"%char is_bin 11 rest Hp PO ltac:(lia) ltac:(lia) eq_refl eq_refl ltac:(lia) ltac:(vm_compute; reflexivity) G L Hf V S HW HR) as (s & T & r & E1 & E2 & E3 & E4 & E5 & E6 & E7).
  exists T. eexists. eexists. unfold bin_to_string, parse_bin, match_bin. change bin_pre with ["0"%char; "b"%char]. rewrite E1. cbn [obind]. rewrite E2, E3, E4. cbn [obind].
  split; [reflexivity|]. split; [reflexivity|]. split; [reflexivity|]. split; [exact E5|]. split; [exact E6|]. split; [reflexivity|]. split; [reflexivity|exact E7].
Qed.
Theorem c09_arb_round_trip : forall p prec dpow tostr b v m f rest, 1 <= p -> pow_ok p dpow -> 2 <= b <= 35 -> b <> 10 ->
  good v -> lowest v -> Z.of_nat f <= prec ->
  (val v == inject_Z m / inject_Z (b ^ Z.of_nat f))%Q -> Z.abs m * b ^ Z.of_nat f < 10 ^ (p - 1) -> rest_ok is_alnum rest ->
  exists T r, arb_to_string p prec dpow tostr v b = Ok T /\ match_arb (T ++ rest) = Some (T, rest) /\
    parse_arb p dpow T = Ok (Some r) /\ nnum r = nnum v /\ nden r = nden v /\ ncast r = Some (CArb b).
Proof. exact arb_round_trip. Qed.
Example c09_lit_ex :
  hex_to_string 100 30 dpow_int (mkNum 511 2 (Some CHex) None) = Ok $"0xFF.8" /\
  match_hex $"0xFF.8+1" = Some ($"0xFF.8", $"+1") /\ parse_hex 100 dpow_int $"0XfF.8" = Ok (mkNum 511 2 (Some CHex) None) /\
  bin_to_string 100 30 dpow_int (mkNum (-5) 1 (Some CBin) (Some 8)) = Ok $"-0b00000101" /\
  parse_bin 100 dpow_int $"-0b00000101" = Ok (mkNum (-5) 1 (Some CBin) (Some 8)) /\
  arb_to_string 100 30 dpow_int (fun _ => Py) (mkNum 35 1 None None) 20 = Ok $"20z1F" /\
  parse_arb 100 dpow_int $"20z1f" = Ok (Some (mkNum 35 1 (Some (CArb 20)) None)).
Proof. vm_compute. auto 10. Qed.

(** Without the bound on fractional digits the printed text can be malformed: 1 + 2^-40 printed in binary
    with 30 places is "1." and the literal made of it is not read back whole. *)
Theorem c09_trailing_point_refuted : exists v, good v /\ lowest v /\
  bin_to_string 100 30 dpow_int v = Ok $"0b1." /\ match_bin $"0b1." = Some ($"0b1", $".").
Proof.
  exists (mkNum (2 ^ 40 + 1) (2 ^ 40) None None). split; [reflexivity|]. split; [apply gcd1_lowest; vm_compute; reflexivity|].
  split; vm_compute; reflexivity.
Qed.
(** A number written in arbitrary base 10 cannot be printed: its format calls itself without end. *)
Theorem c09_arbitrary_base_ten_refuted : forall tostr, exists v, parse_arb 100 dpow_int $"10z5" = Ok (Some v) /\ (val v == 5)%Q /\
  arb_to_string 100 30 dpow_int tostr v 10 = Py.
Proof. intros. exists (mkNum 5 1 (Some (CArb 10)) None). split; [vm_compute; reflexivity|]. split; reflexivity. Qed.

(** ** C10 *)
(** Only the leading prefix goes, whatever the digits: any base up to 16, prefix in either case. *)
Theorem c10_prefix_stripped : forall b x dz pre' (neg : bool) ip fp di df,
  In (b, x, dz) [(2, "b"%char, 11); (8, "o"%char, 24); (16, "x"%char, 33)] -> lower pre' = ["0"%char; x] ->
  spells b ip di -> spells b fp df ->
  remove_prefix (ptext neg pre' ip fp) ["0"%char; x] = btext neg (lower ip) (lower fp).
Proof.
  intros b x dz pre' neg ip fp di df HI LP SI SF.
  assert (HX : char_digit x = Some dz /\ b <= dz).
  { cbn in HI. destruct HI as [E|[E|[E|[]]]]; injection E as <- <- <-; split; try (vm_compute; reflexivity); lia. }
  destruct HX as [HX HB]. apply (remove_prefix_text neg _ pre' ip fp x "0"%char [x]); auto; [right; left; auto|].
  eapply btext_notin; eauto; apply spells_lower; eauto.
Qed.
(** So a literal denotes the value of its digits. *)
Theorem c10_hex_literal_value : forall p dpow (neg : bool) pre' ip fp di df, 1 <= p -> pow_ok p dpow -> lower pre' = $"0x" ->
  spells 16 ip di -> spells 16 fp df -> ip <> [] ->
  ival 16 (di ++ df) * 16 ^ Z.of_nat (length fp) < 10 ^ p -> 16 ^ Z.of_nat (length fp) < 10 ^ p -> 16 ^ (Z.of_nat (length ip) - 1) < 10 ^ p ->
  exists r, parse_hex p dpow (ptext neg pre' ip fp) = Ok r /\ (val r == bvalue 16 neg di df)%Q.
Proof.
  intros p dpow neg pre' ip fp di df Hp PO LP SI SF NE S1 S2 S3.
  destruct (parse_prefixed p dpow 16 neg hex_pre pre' ip fp di df "0"%char ["x"%char] "x"%char 33) as (r & R1 & R2 & R3 & R4 & R5); auto; try lia; [right; left; auto|].
  unfold parse_hex. rewrite R1. eexists. split; [reflexivity|]. exact R5.
Qed.
Theorem c10_oct_literal_value : forall p dpow (neg : bool) pre' ip fp di df, 1 <= p -> pow_ok p dpow -> lower pre' = $"0o" ->
  spells 8 ip di -> spells 8 fp df -> ip <> [] ->
  ival 8 (di ++ df) * 8 ^ Z.of_nat (length fp) < 10 ^ p -> 8 ^ Z.of_nat (length fp) < 10 ^ p -> 8 ^ (Z.of_nat (length ip) - 1) < 10 ^ p ->
  exists r, parse_oct p dpow (ptext neg pre' ip fp) = Ok r /\ (val r == bvalue 8 neg di df)%Q.
Proof.
  intros p dpow neg pre' ip fp di df Hp PO LP SI SF NE S1 S2 S3.
  destruct (parse_prefixed p dpow 8 neg oct_pre pre' ip fp di df "0"%char ["o"%char] "o"%char 24) as (r & R1 & R2 & R3 & R4 & R5); auto; try lia; [right; left; auto|].
  unfold parse_oct. rewrite R1. eexists. split; [reflexivity|]. exact R5.
Qed.
Theorem c10_bin_literal_value : forall p dpow (neg : bool) pre' ip fp di df, 1 <= p -> pow_ok p dpow -> lower pre' = $"0b" ->
  spells 2 ip di -> spells 2 fp df -> ip <> [] ->
  ival 2 (di ++ df) * 2 ^ Z.of_nat (length fp) < 10 ^ p -> 2 ^ Z.of_nat (length fp) < 10 ^ p -> 2 ^ (Z.of_nat (length ip) - 1) < 10 ^ p ->
  exists r, parse_bin p dpow (ptext neg pre' ip fp) = Ok r /\ (val r == bvalue 2 neg di df)%Q /\ nwidth r = Some (Z.of_nat (length ip)).
Proof.
  intros p dpow neg pre' ip fp di df Hp PO LP SI SF NE S1 S2 S3.
  destruct (parse_prefixed p dpow 2 neg bin_pre pre' ip fp di df "0"%char ["b"%char] "b"%char 11) as (r & R1 & R2 & R3 & R4 & R5); auto; try lia; [right; left; auto|].
  unfold parse_bin. rewrite R1. eexists. split; [reflexivity|]. split; [exact R5|].
  cbn [nwidth set_width]. unfold get_width.
  rewrite (remove_prefix_text neg bin_pre pre' ip fp "b"%char "0"%char ["b"%char]); auto; [|right; left; auto|].
  - rewrite (split_text neg (lower ip) (lower fp) 2 di); [unfold lower; rewrite map_length; auto|apply spells_lower; auto|destruct ip; [congruence|discriminate]].
  - apply (btext_notin 2 (lower ip) (lower fp) di df "b"%char 11); try lia; try reflexivity; apply spells_lower; auto.
Qed.
Theorem c10_arb_literal_value : forall p dpow b (neg : bool) z ip fp di df, 1 <= p -> pow_ok p dpow -> 2 <= b <= 35 -> b <> 10 -> lower_c z = "z"%char ->
  spells b ip di -> spells b fp df -> ip <> [] ->
  ival b (di ++ df) * b ^ Z.of_nat (length fp) < 10 ^ p -> b ^ Z.of_nat (length fp) < 10 ^ p -> b ^ (Z.of_nat (length ip) - 1) < 10 ^ p ->
  exists r, parse_arb p dpow (ptext neg (dec_str b ++ [z]) ip fp) = Ok (Some r) /\ good r /\ lowest r /\ ncast r = Some (CArb b) /\ (val r == bvalue b neg di df)%Q.
Proof. exact parse_arb_text. Qed.
(** Base 36 is the exception: the digits of 36z136z1 contain the text "36z". *)
Theorem c10_base36_refuted : exists ip di r, spells 36 ip di /\ parse_arb 100 dpow_int (ptext false $"36z" ip []) = Ok (Some r) /\
  ~ (val r == bvalue 36 false di [])%Q.
Proof.
  exists $"136z1", [1;3;6;35;1]. eexists. split; [repeat constructor; vm_compute; congruence|].
  split; [vm_compute; reflexivity|]. vm_compute. discriminate.
Qed.
Example c10_ex : remove_prefix $"-0X0B1" hex_pre = $"-0b1" /\ parse_hex 100 dpow_int $"-0X0B1" = Ok (mkNum (-177) 1 (Some CHex) None) /\
  parse_arb 100 dpow_int $"-20Z1f.a" = Ok (Some (mkNum (-71) 2 (Some (CArb 20)) None)).
Proof. vm_compute. auto. Qed.

Print Assumptions c09_round_trip.
Print Assumptions c09_round_trip_integers.
Print Assumptions c09_printed_canonical.
Print Assumptions c09_zero_printed.
Print Assumptions c09_read_value.
Print Assumptions c09_base_range.
Print Assumptions c09_hex_round_trip.
Print Assumptions c09_oct_round_trip.
Print Assumptions c09_bin_round_trip.
Print Assumptions c09_arb_round_trip.
Print Assumptions c09_trailing_point_refuted.
Print Assumptions c09_arbitrary_base_ten_refuted.
Print Assumptions c10_prefix_stripped.
Print Assumptions c10_hex_literal_value.
Print Assumptions c10_oct_literal_value.
Print Assumptions c10_bin_literal_value.
Print Assumptions c10_arb_literal_value.
Print Assumptions c10_base36_refuted.
