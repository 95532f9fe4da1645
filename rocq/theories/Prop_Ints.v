(** C45, C46: functions of integers and bitwise operators. *)
From Coq Require Import ZArith QArith Ascii String List Bool Lia.
From Verif Require Import Base BaseProofs Dec Num NumSpec NumProofs2 NumProofs3 Lex Bases Formats Units Install Syntax Pos Call CallSpec Loop LoopSpec Parse Exec ExecSpec Std StdSpec StdRun StdProofs StdProofs4 StdProofs9 StdProofs10.
Import ListNotations.
Open Scope nat_scope.

(** * C45 *)
(** The format of the result is that of the first argument that has one; the unit is that of the first argument. *)
Theorem c45_gcd : forall L h stl x y a b i j s, (1 <= l_prec L)%Z -> rval x = VNum a -> rval y = VNum b ->
  whole (l_prec L) a i -> whole (l_prec L) b j ->
  exists d g, assoc ($"gcd") (g_funcs (std L)) = Some d /\
    call (std_env L) h d stl [x; y] s = (OOk (mkRes (VNum (mkNum g 1 (format_of a b) None)) (runit x) None), s) /\
    (0 <= g)%Z /\ (g | i)%Z /\ (g | j)%Z /\ (forall c, (c | i)%Z -> (c | j)%Z -> (c | g)%Z).
Proof.
  intros L h stl x y a b i j s Hp Hx Hy Ha Hb. eexists. exists (Z.gcd i j). split; [apply find_gcd|]. split; [now apply ints_call|].
  split; [apply Z.gcd_nonneg|]. split; [apply Z.gcd_divide_l|]. split; [apply Z.gcd_divide_r|]. intros c. apply Z.gcd_greatest.
Qed.
Print Assumptions c45_gcd.
Theorem c45_lcm : forall L h stl x y a b i j s, (1 <= l_prec L)%Z -> rval x = VNum a -> rval y = VNum b ->
  whole (l_prec L) a i -> whole (l_prec L) b j ->
  exists d m, assoc ($"lcm") (g_funcs (std L)) = Some d /\
    call (std_env L) h d stl [x; y] s = (OOk (mkRes (VNum (mkNum m 1 (format_of a b) None)) (runit x) None), s) /\
    (0 <= m)%Z /\ (i | m)%Z /\ (j | m)%Z /\ (forall c, (i | c)%Z -> (j | c)%Z -> (m | c)%Z).
Proof.
  intros L h stl x y a b i j s Hp Hx Hy Ha Hb. eexists. exists (Z.lcm i j). split; [apply find_lcm|]. split; [now apply ints_call|].
  split; [apply Z.lcm_nonneg|]. split; [apply Z.divide_lcm_l|]. split; [apply Z.divide_lcm_r|]. intros c. apply Z.lcm_least.
Qed.
Print Assumptions c45_lcm.
(** The product of the integers from 1 *)
Theorem c45_fact : forall L h stl x a i s, (1 <= l_prec L)%Z -> rval x = VNum a -> whole (l_prec L) a i -> (0 <= i)%Z ->
  exists d, assoc ($"fact") (g_funcs (std L)) = Some d /\
    call (std_env L) h d stl [x] s =
    (OOk (mkRes (VNum (mkNum (fold_right Z.mul 1%Z (map Z.of_nat (seq 1 (Z.to_nat i)))) 1 (ncast a) None)) (runit x) None), s).
Proof. intros L h stl x a i s Hp Hx Ha Hi. eexists. split; [apply find_fact|]. rewrite <- factorial_spec. now apply fact_call. Qed.
Print Assumptions c45_fact.
(** Arguments that are no integers are refused ([mod_fits] by one: numerator times denominator within the precision). *)
Theorem c45_refused : forall L h stl x y a b nm s, In nm [$"gcd"; $"lcm"] -> (1 <= l_prec L)%Z -> rval x = VNum a -> rval y = VNum b -> good a -> good b ->
  mod_fits (l_prec L) a one_num -> mod_fits (l_prec L) b one_num ->
  (~ exists i, (val a == inject_Z i)%Q) \/ (~ exists i, (val b == inject_Z i)%Q) ->
  exists d o, assoc nm (g_funcs (std L)) = Some d /\ call (std_env L) h d stl [x; y] s = (o, s) /\ forall r, o <> OOk r.
Proof.
  intros L h stl x y a b nm s Hn Hp Hx Hy Ga Gb Fa Fb H. destruct Hn as [<-|[<-|[]]].
  - destruct (ints_refused L h ($"gcd") Z.gcd stl x y a b s Hp Hx Hy Ga Gb Fa Fb H) as (o & H1 & H2). eexists. exists o. split; [apply find_gcd|auto].
  - destruct (ints_refused L h ($"lcm") Z.lcm stl x y a b s Hp Hx Hy Ga Gb Fa Fb H) as (o & H1 & H2). eexists. exists o. split; [apply find_lcm|auto].
Qed.
Print Assumptions c45_refused.
Theorem c45_fact_refused : forall L h stl x a s, (1 <= l_prec L)%Z -> rval x = VNum a -> good a -> mod_fits (l_prec L) a one_num ->
  (~ exists i, (0 <= i)%Z /\ (val a == inject_Z i)%Q) ->
  exists d o, assoc ($"fact") (g_funcs (std L)) = Some d /\ call (std_env L) h d stl [x] s = (o, s) /\ forall r, o <> OOk r.
Proof.
  intros L h stl x a s Hp Hx Ga Fa H. destruct (fact_refused L h stl x a s Hp Hx Ga Fa H) as (o & H1 & H2). eexists. exists o. split; [apply find_fact|auto].
Qed.
Print Assumptions c45_fact_refused.
Example c45_ex : answer "gcd(12, 18)" = "6"%string /\ answer "gcd(0x0c, -18)" = "0x6"%string /\ answer "gcd(0, 0)" = "0"%string
  /\ answer "lcm(4, 6)" = "12"%string /\ answer "fact(5)" = "120"%string /\ answer "fact(0)" = "1"%string
  /\ answer "gcd(1/2, 3)" = "execute error"%string /\ answer "fact(-1)" = "execute error"%string.
Proof. vm_compute. repeat split. Qed.
Example c45_hyp_ex : whole 100 (mkNum (-18) 1 None None) (-18) /\ mod_fits 100 (mkNum 1 2 None None) one_num /\
  ~ (exists i, val (mkNum 1 2 None None) == inject_Z i)%Q.
Proof.
  split; [split; [reflexivity|split; reflexivity]|]. split; [vm_compute; auto|]. intros [i H]. unfold Qeq, val in H. cbn in H. lia.
Qed.

(** * C46 *)
(** Every bit of the result (two's complement, so without end for negative numbers); the width it is shown with in binary
    is the greater of the two, for a number that has none the number of its digits as shown. *)
Theorem c46_bits : forall L stl sym f x y a b i j s, In (sym, f) [($"&", andb); ($"|", orb); ($"^^", xorb)] ->
  (1 <= l_prec L)%Z -> rval x = VNum a -> rval y = VNum b -> whole (l_prec L) a i -> whole (l_prec L) b j ->
  shows L (VNum a) = true -> shows L (VNum b) = true ->
  exists r w, callop (std L) stl sym [x; y] s = (OOk (mkRes (VNum (mkNum r 1 (format_of a b) (Some w))) None None), s) /\
    (forall k, (0 <= k)%Z -> Z.testbit r k = f (Z.testbit i k) (Z.testbit j k)) /\
    (forall v u, nwidth a = Some v -> nwidth b = Some u -> (0 <= v)%Z -> w = Z.max v u).
Proof.
  intros L stl sym f x y a b i j s Hs Hp Hx Hy Ha Hb Sa Sb. destruct (width_shown L a Sa) as [wa Wa]. destruct (width_shown L b Sb) as [wb Wb].
  assert (T : forall v u, nwidth a = Some v -> nwidth b = Some u -> (0 <= v)%Z -> Z.max (Z.max 0 wa) wb = Z.max v u).
  { intros v u Hv Hu H0. rewrite (width_known L a v Hv) in Wa. rewrite (width_known L b u Hu) in Wb. injection Wa as <-. injection Wb as <-. lia. }
  destruct Hs as [H|[H|[H|[]]]]; injection H as <- <-.
  - exists (Z.land i j), (Z.max (Z.max 0 wa) wb). split; [apply (bits_call L stl ($"&") Z.land x y a b wa wb i j s); auto; now left|]. split; [|exact T].
    intros k _. apply Z.land_spec.
  - exists (Z.lor i j), (Z.max (Z.max 0 wa) wb). split; [apply (bits_call L stl ($"|") Z.lor x y a b wa wb i j s); auto; right; now left|]. split; [|exact T].
    intros k _. apply Z.lor_spec.
  - exists (Z.lxor i j), (Z.max (Z.max 0 wa) wb). split; [apply (bits_call L stl ($"^^") Z.lxor x y a b wa wb i j s); auto; right; right; now left|]. split; [|exact T].
    intros k _. apply Z.lxor_spec.
Qed.
Print Assumptions c46_bits.
(** Shifts multiply by a power of two, and divide by one rounding down. *)
Theorem c46_shift : forall L stl sym f x y a b i j s, In (sym, f) [($"<<", fun i j => i * 2 ^ j)%Z; ($">>", fun i j => i / 2 ^ j)%Z] ->
  (1 <= l_prec L)%Z -> rval x = VNum a -> rval y = VNum b -> whole (l_prec L) a i -> whole (l_prec L) b j -> (0 <= j)%Z ->
  shows L (VNum a) = true -> shows L (VNum b) = true ->
  exists w, callop (std L) stl sym [x; y] s = (OOk (mkRes (VNum (mkNum (f i j) 1 (format_of a b) (Some w))) None None), s).
Proof.
  intros L stl sym f x y a b i j s Hs Hp Hx Hy Ha Hb Hj Sa Sb. destruct (width_shown L a Sa) as [wa Wa]. destruct (width_shown L b Sb) as [wb Wb].
  destruct Hs as [H|[H|[]]]; injection H as <- <-.
  - rewrite <- Z.shiftl_mul_pow2 by exact Hj. eexists. apply (shift_call L stl ($"<<") Z.shiftl x y a b wa wb i j s); auto. now left.
  - rewrite <- Z.shiftr_div_pow2 by exact Hj. eexists. apply (shift_call L stl ($">>") Z.shiftr x y a b wa wb i j s); auto. right. now left.
Qed.
Print Assumptions c46_shift.
Theorem c46_shift_refused : forall L stl sym x y a b s, In sym [$"<<"; $">>"] ->
  (1 <= l_prec L)%Z -> rval x = VNum a -> rval y = VNum b -> good b -> mod_fits (l_prec L) b one_num ->
  (~ exists j, (0 <= j)%Z /\ (val b == inject_Z j)%Q) ->
  exists o, callop (std L) stl sym [x; y] s = (o, s) /\ forall r, o <> OOk r.
Proof.
  intros L stl sym x y a b s Hs Hp Hx Hy Gb Fb H. destruct Hs as [<-|[<-|[]]].
  - apply (shift_refused L stl ($"<<") Z.shiftl x y a b s); auto. now left.
  - apply (shift_refused L stl ($">>") Z.shiftr x y a b s); auto. right. now left.
Qed.
Print Assumptions c46_shift_refused.
(** Complement of a number with a width that holds it: the bits below the width are flipped, whatever the format. *)
Theorem c46_not : forall L stl x n w i s, (1 <= l_prec L)%Z -> rval x = VNum n -> whole (l_prec L) n i -> nwidth n = Some w ->
  (0 <= w)%Z -> (0 <= i < 2 ^ w)%Z -> shows L (VNum (mkNum (2 ^ w - 1 - i) 1 (ncast n) None)) = true ->
  exists r v, callop (std L) stl ($"~") [x] s = (OOk (mkRes (VNum (mkNum r 1 (ncast n) (Some v))) None None), s) /\
    (0 <= r < 2 ^ w)%Z /\ (w <= v)%Z /\ (forall k, (0 <= k < w)%Z -> Z.testbit r k = negb (Z.testbit i k)).
Proof.
  intros L stl x n w i s Hp Hx Hn Hw W0 Hi Hs. destruct (width_shown L _ Hs) as [v Hv].
  exists (2 ^ w - 1 - i)%Z, (Z.max w v). split; [apply (bit_not_call L stl x n w v i s); auto|]. split; [lia|]. split; [lia|].
  intros k Hk. rewrite <- (complement w i W0 Hi). replace (2 ^ w - 1)%Z with (Z.ones w) by (rewrite Z.ones_equiv; lia).
  rewrite Z.land_spec, Z.lnot_spec, Z.ones_spec_low by lia. apply andb_true_r.
Qed.
Print Assumptions c46_not.
(** Binary numbers: twice gives back the number with its width. *)
Theorem c46_not_twice : forall L stl n w i u r s, (1 <= l_prec L)%Z -> (0 <= f_places (l_fmt L))%Z -> pow_ok (l_prec L) (f_pow (l_fmt L)) ->
  n = mkNum i 1 (Some CBin) (Some w) -> (1 <= w)%Z -> (0 <= i < 2 ^ w)%Z -> (2 ^ w < 10 ^ (l_prec L - 1))%Z ->
  exists x, callop (std L) stl ($"~") [mkRes (VNum n) u r] s = (OOk x, s) /\
    callop (std L) stl ($"~") [x] s = (OOk (mkRes (VNum n) None None), s).
Proof.
  intros L stl n w i u r s H1 H2 H3 H4 H5 H6 H7. destruct (bit_not_twice L stl n w i u r s H1 H2 H3 H4 H5 H6 H7) as (x & E1 & _ & E2). eauto.
Qed.
Print Assumptions c46_not_twice.
(** False for a decimal number: 5 has no width, its complement takes the width 1 of its one decimal digit. *)
Theorem c46_not_decimal_refuted : exists x y z n m, callop (std demo) false ($"~") [x] start = (OOk y, start) /\
  callop (std demo) false ($"~") [y] start = (OOk z, start) /\ rval x = VNum n /\ rval z = VNum m /\ ~ (val m == val n)%Q.
Proof.
  exists (mkRes (VNum (mkNum 5 1 None None)) None None), (mkRes (VNum (mkNum 2 1 None (Some 1%Z))) None None), (mkRes (VNum (mkNum 1 1 None (Some 1%Z))) None None).
  eexists. eexists. split; [vm_compute; reflexivity|]. split; [vm_compute; reflexivity|]. split; [reflexivity|]. split; [reflexivity|]. vm_compute. discriminate.
Qed.
Print Assumptions c46_not_decimal_refuted.
(** And for a binary number shifted beyond the width it keeps. *)
Theorem c46_not_shifted_refuted : exists x y z n m, callop (std demo) false ($"<<") [mkRes (VNum (mkNum 1 1 (Some CBin) (Some 1%Z))) None None; mkRes (VNum (mkNum 4 1 None None)) None None] start = (OOk x, start) /\
  callop (std demo) false ($"~") [x] start = (OOk y, start) /\
  callop (std demo) false ($"~") [y] start = (OOk z, start) /\ rval x = VNum n /\ rval z = VNum m /\ ~ (val m == val n)%Q.
Proof.
  exists (mkRes (VNum (mkNum 16 1 (Some CBin) (Some 1%Z))) None None), (mkRes (VNum (mkNum 1 1 (Some CBin) (Some 1%Z))) None None), (mkRes (VNum (mkNum 0 1 (Some CBin) (Some 1%Z))) None None).
  eexists. eexists. split; [vm_compute; reflexivity|]. split; [vm_compute; reflexivity|]. split; [vm_compute; reflexivity|]. split; [reflexivity|]. split; [reflexivity|]. vm_compute. discriminate.
Qed.
Print Assumptions c46_not_shifted_refuted.
Example c46_ex : answer "0b1100 & 0b1010" = "0b1000"%string /\ answer "0b1100 | 0b1010" = "0b1110"%string /\ answer "0b1100 ^^ 0b1010" = "0b0110"%string
  /\ answer "5 << 3" = "40"%string /\ answer "-5 >> 1" = "-3"%string /\ answer "1 << -1" = "execute error"%string
  /\ answer "~0b0101" = "0b1010"%string /\ answer "~~0b0101" = "0b0101"%string /\ answer "~~5" = "1"%string.
Proof. vm_compute. repeat split. Qed.
Example c46_hyp_ex : whole 100 (mkNum 5 1 (Some CBin) (Some 4%Z)) 5 /\ shows demo (VNum (mkNum (2 ^ 4 - 1 - 5) 1 (Some CBin) None)) = true /\
  (2 ^ 4 < 10 ^ (l_prec demo - 1))%Z /\ shows demo (VNum (mkNum (-5) 1 None None)) = true.
Proof. split; [split; [reflexivity|split; reflexivity]|]. vm_compute. repeat split. Qed.
Example c46_pow_ex : pow_ok (l_prec demo) (f_pow (l_fmt demo)).
Proof.
  intros x y b e Hx Hy He Hb Hs. cbn [f_pow l_fmt demo]. unfold demo_pow. assert (I : q_is_int y = true).
  { unfold q_is_int. rewrite Qeq_bool_iff, Hy. rewrite Qround.Qfloor_Z. reflexivity. }
  rewrite I. now apply (dpow_int_ok 100 x y b e).
Qed.
