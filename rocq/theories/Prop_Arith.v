(** C55: the arithmetic operators and the comparisons of numbers, on operands of any format. *)
From Coq Require Import ZArith QArith Qround Ascii String List Bool Lia Lqa.
From Verif Require Import Base Dec Num NumSpec NumProofs NumProofs2 NumProofs3 NumProofs4 Lex Bases BasesProofs Formats Units Install Syntax Pos Call CallSpec Loop Parse Exec Std StdSpec StdRun StdProofs9 TextSpec TextProofs ArithSpec ArithProofs.
Import ListNotations.
Open Scope Z_scope.

(** Operands of at most [k] digits over and under the line, with three times as many and one more to work with: [+], [-], [*]
    and [/] are the exact result, in lowest terms, in the format of the first operand that has one. *)
Theorem c55_exact : forall L stl sym f x y a b k s, In (sym, f) exact_ops -> number_at L x a -> number_at L y b -> runit x = None -> runit y = None ->
  good a -> good b -> size_le k a -> size_le k b -> 0 <= k -> 3 * k + 1 <= l_prec L -> (sym = $"/" -> nnum b <> 0) ->
  exists n, callop (std L) stl sym [x; y] s = (OOk (mkRes (VNum n) None None), s) /\ (val n == f (val a) (val b))%Q /\ good n /\ lowest n /\ ncast n = format_of a b.
Proof.
  intros L stl sym f x y a b k s H Hx Hy Ux Uy Ga Gb Sa Sb Hk Hp Nz. set (p := l_prec L) in *.
  assert (P1 : 1 <= p) by lia. destruct (size_add_sub p k a b Hk Ga Gb Sa Sb Hp) as [Fa Fs].
  repeat (destruct H as [H|H]; [injection H as <- <-|]); [| | | |destruct H].
  - destruct (num_add_exact p a b P1 Ga Gb Fa) as (n & E & V & G & Lo & C). exists (with_cast n (format_of a b)).
    split; [apply (plain2_call L stl _ num_add x y a b n s); auto|]. repeat split; auto.
  - destruct (num_sub_exact p a b P1 Ga Gb Fs) as (n & E & V & G & Lo & C). exists (with_cast n (format_of a b)).
    split; [apply (plain2_call L stl _ num_sub x y a b n s); auto|]. repeat split; auto.
  - destruct (num_mul_exact p a b P1 Ga Gb) as (n & E & V & G & Lo & C); [apply (size_mul p k); auto; lia|]. exists (with_cast n (format_of a b)).
    split; [apply (scale_call L stl _ 1 num_mul x y a b n s); auto|]. repeat split; auto.
  - destruct (num_div_exact p a b P1 Ga Gb) as (n & E & V & G & Lo & C); [apply (size_div p k); auto; lia|now apply Nz|]. exists (with_cast n (format_of a b)).
    split; [apply (scale_call L stl _ (-1) num_div x y a b n s); auto|]. repeat split; auto.
Qed.
Print Assumptions c55_exact.
Example c55_exact_ex : answer "0.1 + '0.2' - 0.3" = "0"%string /\ answer "1 / 3 * 3" = "1"%string /\ answer "0x10 + '1'" = "0x11"%string /\ answer "1 + 0x10" = "0x11"%string /\ answer "50% * 8" = "400%"%string.
Proof. vm_compute. repeat split; reflexivity. Qed.

(** The integer division is the greatest integer below the quotient, [%] the remainder with the sign of the first operand. *)
Theorem c55_int_divide : forall L stl x y a b k s, number_at L x a -> number_at L y b -> runit x = None -> runit y = None ->
  good a -> good b -> size_le k a -> size_le k b -> 0 <= k -> 2 * k + 1 <= l_prec L -> nnum b <> 0 ->
  exists n, callop (std L) stl ($"\") [x; y] s = (OOk (mkRes (VNum n) None None), s) /\ nden n = 1 /\ nnum n = Qfloor (val a / val b) /\ ncast n = format_of a b.
Proof.
  intros L stl x y a b k s Hx Hy Ux Uy Ga Gb Sa Sb Hk Hp Nz. set (p := l_prec L) in *. assert (P1 : 1 <= p) by lia.
  destruct (num_div_exact p a b P1 Ga Gb) as (n & E & V & G & Lo & C); [apply (size_div p k); auto; lia|exact Nz|].
  destruct (num_floordiv_spec p a b P1 Ga Gb Nz) as (r & R1 & R2 & R3 & R4).
  - destruct (size_div (p - 1) k a b Hk Ga Gb Sa Sb) as [S1 _]; [lia|exact S1].
  - destruct (size_div p k a b Hk Ga Gb Sa Sb) as [_ S2]; [lia|exact S2].
  - unfold num_floordiv in R1. rewrite E in R1. injection R1 as R1. exists (with_cast (num_floor p n) (format_of a b)).
    split; [now apply (idiv_call L stl x y a b n s)|]. rewrite R1. repeat split; auto.
Qed.
Print Assumptions c55_int_divide.
Theorem c55_mod : forall L stl x y a b k s, number_at L x a -> number_at L y b ->
  good a -> good b -> size_le k a -> size_le k b -> 0 <= k -> 3 * k + 1 <= l_prec L -> nnum b <> 0 ->
  exists n i, callop (std L) stl ($"%") [x; y] s = (OOk (mkRes (VNum n) None None), s) /\ (val a == inject_Z i * val b + val n)%Q /\
    (Qabs.Qabs (val n) < Qabs.Qabs (val b))%Q /\ (0 <= val n * val a)%Q /\ ncast n = format_of a b.
Proof.
  intros L stl x y a b k s Hx Hy Ga Gb Sa Sb Hk Hp Nz. set (p := l_prec L) in *. assert (P1 : 1 <= p) by lia.
  destruct (size_add_sub p k a b Hk Ga Gb Sa Sb Hp) as [(F1 & F2 & F3 & _) _].
  destruct (num_mod_spec p a b P1 Ga Gb Nz) as (n & i & E & V & A1 & A2 & _ & G & Lo & C); [repeat split; assumption|].
  exists (with_cast n (format_of a b)), i. split; [apply (plain2_call L stl _ num_mod x y a b n s); auto|]. repeat split; auto.
Qed.
Print Assumptions c55_mod.
Example c55_int_ex : answer "7 \ 2" = "3"%string /\ answer "-7 \ '2'" = "-4"%string /\ answer "7 % 2" = "1"%string /\ answer "'-7' % 2" = "-1"%string /\ answer "7.5 % 2" = "1.5"%string.
Proof. vm_compute. repeat split; reflexivity. Qed.
(** so that [a \ b * b + a % b] is not always [a] *)
Theorem c55_div_mod_refuted : answer "a = -7; b = 2; (a \ b) * b + a % b == a" = "False"%string.
Proof. vm_compute. reflexivity. Qed.
Print Assumptions c55_div_mod_refuted.

(** Division by zero is an error, for all three. *)
Theorem c55_by_zero : forall L stl sym x y a b s, In sym [$"/"; $"%"; $"\"] -> number_at L x a -> number_at L y b -> runit x = None -> runit y = None ->
  nnum b = 0 -> shows L (rval x) = true -> shows L (rval y) = true -> shows L (VNum a) = true -> shows L (VNum b) = true ->
  exists e, callop (std L) stl sym [x; y] s = (OErr e, s).
Proof.
  intros L stl sym x y a b s Hs Hx Hy Ux Uy Z Sx Sy Sa Sb. apply (refused_call L stl sym x y a b s); auto.
  - intros _. now apply mod_zero.
  - intros _. apply num_div_zero. exact Z.
Qed.
Print Assumptions c55_by_zero.

(** [^] with a whole exponent: the exact power, when its two parts fit. *)
Theorem c55_power : forall L stl x y a b s, number_at L x a -> number_at L y b -> runit x = None -> runit y = None ->
  1 <= l_prec L -> pow_ok (l_prec L) (f_pow (l_fmt L)) -> good a -> nden b = 1 -> Z.abs (nnum b) < 10 ^ l_prec L -> (nnum a <> 0 \/ 0 < nnum b) ->
  Z.abs (nnum a ^ Z.abs (nnum b)) < 10 ^ l_prec L -> nden a ^ Z.abs (nnum b) < 10 ^ l_prec L ->
  exists n, callop (std L) stl ($"^") [x; y] s = (OOk (mkRes (VNum n) None None), s) /\ (val n == Qpower (val a) (nnum b))%Q /\ good n /\ lowest n /\ ncast n = format_of a b.
Proof.
  intros L stl x y a b s Hx Hy Ux Uy Hp Hpow Ga Db Sb Nz S1 S2.
  assert (S3 : small (l_prec L) (nden a ^ Z.abs (nnum b))) by (unfold small, good in *; rewrite Z.abs_eq; [exact S2|apply Z.pow_nonneg; lia]).
  assert (N : exists n, num_pow (l_prec L) (f_pow (l_fmt L)) a b = Some n /\ (val n == Qpower (val a) (nnum b))%Q /\ good n /\ lowest n /\ ncast n = ncast a).
  { destruct (Z.leb_spec 0 (nnum b)).
    - rewrite (Z.abs_eq (nnum b)) in S1, S3 by lia. now apply num_pow_nonneg.
    - rewrite (Z.abs_neq (nnum b)) in S1, S3 by lia. apply num_pow_neg; auto. destruct Nz as [Nz|Nz]; [exact Nz|lia]. }
  destruct N as (n & E & V & G & Lo & C). exists (with_cast n (format_of a b)). split; [now apply (pow_call L stl x y a b n s)|]. repeat split; auto.
Qed.
Print Assumptions c55_power.
Example c55_power_ex : answer "(-2 / 3) ^ 3" = "-0.296296296296296296296296296296"%string /\ answer "'2' ^ -2" = "0.25"%string.
Proof. vm_compute. split; reflexivity. Qed.

(** The comparisons, of numbers of any format and of texts that are numbers. *)
Theorem c55_compare : forall L stl sym R x y a b k s, In (sym, R) comparisons -> number_at L x a -> number_at L y b ->
  good a -> good b -> size_le k a -> size_le k b -> 0 <= k -> 2 * k + 1 <= l_prec L ->
  exists r, callop (std L) stl sym [x; y] s = (OOk r, s) /\ yes_no r (R (val a) (val b)).
Proof.
  intros L stl sym R x y a b k s H Hx Hy Ga Gb Sa Sb Hk Hp.
  destruct (num_ltb_exact (l_prec L) k a b Hk Hp Ga Gb Sa Sb) as [L1 E1]. destruct (num_ltb_exact (l_prec L) k b a Hk Hp Gb Ga Sb Sa) as [L2 _].
  assert (Le1 : num_leb (l_prec L) a b = true <-> (val a <= val b)%Q).
  { replace (num_leb (l_prec L) a b) with (negb (num_ltb (l_prec L) b a)) by (unfold num_ltb, num_leb; apply negb_involutive). rewrite negb_true_iff, <- not_true_iff_false, L2. split; [apply Qnot_lt_le|apply Qle_not_lt]. }
  assert (Le2 : num_leb (l_prec L) b a = true <-> (val b <= val a)%Q).
  { replace (num_leb (l_prec L) b a) with (negb (num_ltb (l_prec L) a b)) by (unfold num_ltb, num_leb; apply negb_involutive). rewrite negb_true_iff, <- not_true_iff_false, L1. split; [apply Qnot_lt_le|apply Qle_not_lt]. }
  repeat (destruct H as [H|H]; [injection H as <- <-; eexists; split; [eapply cmp_call; [cbn [cmp_ops In]; eauto 8|exact Hx|exact Hy]|apply yes_no_bool]|]); try assumption; [|destruct H].
  rewrite negb_true_iff, <- not_true_iff_false. now rewrite E1.
Qed.
Print Assumptions c55_compare.
Example c55_compare_ex : answer "1/3 < 0.3333333333333333333" = "False"%string /\ answer "'0x10' == 16" = "True"%string /\ answer "50% >= 1/2" = "True"%string /\ answer "2 != '2.0'" = "False"%string.
Proof. vm_compute. repeat split; reflexivity. Qed.
