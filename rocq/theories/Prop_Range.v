(** C36: array ranges. *)
From Coq Require Import ZArith QArith Ascii String List Bool Lia Lqa.
From Verif Require Import Base BaseProofs Dec Num NumSpec NumProofs NumProofs2 NumProofs4 Lex Bases Formats Units Install Syntax Pos Call CallSpec Loop LoopSpec Parse Exec ExecSpec Std StdSpec StdRun RangeSpec RangeProofs.
Import ListNotations.
Open Scope nat_scope.

(** [start..end step c]: the three parts are plain numbers over a common denominator [d], and [2k+1] digits fit. *)
Theorem c36_range : forall G rec stl e e2 e3 n a b c s s1 s2 s3 k d x y z,
  e_end e = Some e2 -> e_step e = Some e3 ->
  part_gives G rec stl (e_start e) s a s1 -> part_gives G rec stl e2 s1 b s2 -> part_gives G rec stl e3 s2 c s3 ->
  (0 <= k)%Z -> (2 * k + 1 <= g_prec G)%Z -> (0 < d < 10 ^ k)%Z -> over d x a -> over d y b -> over d z c -> (Z.abs x + Z.abs y + Z.abs z < 10 ^ k)%Z ->
  ~ (val c == 0)%Q -> (0 <= (val b - val a) * val c)%Q ->
  exists l m, eval_element G rec stl e n s = ((OOk (plain l), m), s3) /\ steps_from a b c l.
Proof.
  intros G rec stl e e2 e3 n a b c s s1 s2 s3 k d x y z E2 E3 A B C Hk Hp [Hd Sd] Ha Hb Hc S Nz D.
  assert (Z0 : z <> 0%Z). { intros ->. apply Nz. destruct Hc as (_ & _ & V). rewrite V. unfold Qdiv. apply Qmult_0_l. }
  assert (D0 : (0 <= (y - x) * z)%Z). { pose proof (over_sign d x y z a b c 0 Hd Ha Hb Hc) as O. rewrite Z.mul_0_l, Z.add_0_r in O. apply O.
    change (inject_Z 0) with 0%Q. setoid_replace (val a + 0 * val c)%Q with (val a) by ring. exact D. }
  destruct (steps_all (g_prec G) k d x y z a b c s3 Hk Hp Hd Sd Ha Hb Hc S Z0 D0) as (l & L1 & L2).
  exists l. eexists. split; [|exact L2]. rewrite (element_step G rec stl e e2 e3 n a b c s s1 s2 s3 E2 E3 A B C). cbv zeta. unfold count_bind. rewrite L1. reflexivity.
Qed.
Print Assumptions c36_range.
Example c36_range_ex : answer "[1..10 step 3]" = "[1;4;7;10;]"%string /\ answer "[1..0 step -0.3]" = "[1;0.7;0.4;0.1;]"%string /\
  answer "[-1..-1 step 5]" = "[-1;]"%string.
Proof. vm_compute. repeat split; reflexivity. Qed.
(** The numbers of such a range are over a common denominator *)
Example c36_over_ex : over 10 10 (mkNum 1 1 None None) /\ over 10 0 (mkNum 0 1 None None) /\ over 10 (-3) (mkNum (-3) 10 None None).
Proof.
  assert (one : forall q, (q | 1)%Z -> q = 1%Z \/ q = (-1)%Z) by (intros; now apply Z.divide_1_r).
  split; [|split]; (split; [reflexivity|]); (split; [|reflexivity]); intros q H1 H2; cbn [nnum nden] in *; auto.
  apply one. replace 1%Z with (-10 + 3 * 3 + 2)%Z by lia. replace (-10 + 3 * 3 + 2)%Z with (10 * 1 + (-3) * 3)%Z by lia.
  apply Z.divide_add_r; now apply Z.divide_mul_l.
Qed.

(** A step away from the end is an error. *)
Theorem c36_wrong_way : forall G rec stl e e2 e3 n a b c s s1 s2 s3 k d x y z,
  e_end e = Some e2 -> e_step e = Some e3 ->
  part_gives G rec stl (e_start e) s a s1 -> part_gives G rec stl e2 s1 b s2 -> part_gives G rec stl e3 s2 c s3 ->
  (0 <= k)%Z -> (2 * k + 1 <= g_prec G)%Z -> (0 < d < 10 ^ k)%Z -> over d x a -> over d y b -> over d z c -> (Z.abs x + Z.abs y + Z.abs z < 10 ^ k)%Z ->
  ((val b - val a) * val c < 0)%Q ->
  exists m, eval_element G rec stl e n s = ((OErr (XExec MOther [] None false), m), s3).
Proof.
  intros G rec stl e e2 e3 n a b c s s1 s2 s3 k d x y z E2 E3 A B C Hk Hp [Hd Sd] Ha Hb Hc S D.
  pose proof (range_values_spec (g_prec G) k d x y z a b c s3 Hk Hp Hd Sd Ha Hb Hc S) as R.
  destruct (Z.leb_spec 0 ((y - x) * z)) as [Q|Q].
  - exfalso. pose proof (over_sign d x y z a b c 0 Hd Ha Hb Hc) as O. rewrite Z.mul_0_l, Z.add_0_r in O. apply O in Q.
    change (inject_Z 0) with 0%Q in Q. assert (F : (val a + 0 * val c == val a)%Q) by ring. rewrite F in Q. lra.
  - eexists. rewrite (element_step G rec stl e e2 e3 n a b c s s1 s2 s3 E2 E3 A B C). cbv zeta. unfold count_bind. rewrite R. reflexivity.
Qed.
Print Assumptions c36_wrong_way.
Example c36_wrong_way_ex : answer "[1..3 step -1]" = "execute error"%string /\ answer "[3..1 step 0.5]" = "execute error"%string.
Proof. vm_compute. split; reflexivity. Qed.

(** Without a step it is 1, or -1 when the end is below the start; such a range is never refused and always has its start. *)
Theorem c36_default : forall G rec stl e e2 n a b s s1 s2 k d x y,
  e_end e = Some e2 -> e_step e = None ->
  part_gives G rec stl (e_start e) s a s1 -> part_gives G rec stl e2 s1 b s2 ->
  (0 <= k)%Z -> (2 * k + 1 <= g_prec G)%Z -> (0 < d < 10 ^ k)%Z -> over d x a -> over d y b -> (Z.abs x + Z.abs y + d < 10 ^ k)%Z ->
  exists l m c, eval_element G rec stl e n s = ((OOk (plain l), m), s2) /\ steps_from a b c l /\
    ((val a <= val b)%Q -> (val c == 1)%Q) /\ ((val b < val a)%Q -> (val c == -1)%Q) /\ 1 <= length l.
Proof.
  intros G rec stl e e2 n a b s s1 s2 k d x y E2 E3 A B Hk Hp [Hd Sd] Ha Hb S.
  pose proof (ltb_over (g_prec G) k d y x b a Hk Hp Hd Hb Ha ltac:(lia) ltac:(lia) Sd) as Lt.
  pose proof (one_over (g_prec G) d (y <? x)%Z ltac:(lia) Hd) as Hc. set (c := num_of_Z (g_prec G) (if (y <? x)%Z then (-1)%Z else 1%Z)) in *.
  set (z := (if (y <? x)%Z then - d else d)%Z) in *.
  assert (Z0 : z <> 0%Z) by (unfold z; destruct (y <? x)%Z; lia).
  assert (D0 : (0 <= (y - x) * z)%Z) by (unfold z; destruct (Z.ltb_spec y x); nia).
  assert (S0 : (Z.abs x + Z.abs y + Z.abs z < 10 ^ k)%Z) by (unfold z; destruct (y <? x)%Z; lia).
  destruct (steps_all (g_prec G) k d x y z a b c s2 Hk Hp Hd Sd Ha Hb Hc S0 Z0 D0) as (l & L1 & L2).
  exists l. eexists. exists c. split; [|split; [exact L2|]].
  - rewrite (element_default G rec stl e e2 n a b s s1 s2 E2 E3 A B). cbv zeta. rewrite Lt. fold c. unfold count_bind. rewrite L1. reflexivity.
  - assert (V : (val c == inject_Z z / inject_Z d)%Q) by apply Hc. pose proof (inj_pos d Hd) as P. split; [|split].
    + intros H. assert (F : (y <? x)%Z = false). { apply not_true_is_false. intros T. apply Z.ltb_lt in T. apply (over_lt d y x b a Hd Hb Ha) in T. lra. }
      rewrite V. unfold z. rewrite F. field. lra.
    + intros H. assert (F : (y <? x)%Z = true) by (apply Z.ltb_lt; now apply (over_lt d y x b a Hd Hb Ha)). rewrite V. unfold z. rewrite F, inject_Z_opp. field. lra.
    + destruct L2 as [_ L2]. apply (proj2 (L2 0)). pose proof (proj1 (over_sign d x y z a b c 0 Hd Ha Hb Hc)) as O. apply O. rewrite Z.mul_0_l, Z.add_0_r. exact D0.
Qed.
Print Assumptions c36_default.
Example c36_default_ex : answer "[1..4]" = "[1;2;3;4;]"%string /\ answer "[2.5..0]" = "[2.5;1.5;0.5;]"%string /\ answer "[7, 1..2, 3..2]" = "[7;1;2;3;2;]"%string.
Proof. vm_compute. repeat split; reflexivity. Qed.

(** A step of zero gives an empty array, even when the start is the end: no value is "reached". *)
Theorem c36_step_zero_refuted : forall G rec stl e e2 e3 n a b c s s1 s2 s3 k d x y z,
  e_end e = Some e2 -> e_step e = Some e3 ->
  part_gives G rec stl (e_start e) s a s1 -> part_gives G rec stl e2 s1 b s2 -> part_gives G rec stl e3 s2 c s3 ->
  (0 <= k)%Z -> (2 * k + 1 <= g_prec G)%Z -> (0 < d < 10 ^ k)%Z -> over d x a -> over d y b -> over d z c -> (Z.abs x + Z.abs y + Z.abs z < 10 ^ k)%Z ->
  (val c == 0)%Q -> exists m, eval_element G rec stl e n s = ((OOk [], m), s3).
Proof.
  intros G rec stl e e2 e3 n a b c s s1 s2 s3 k d x y z E2 E3 A B C Hk Hp [Hd Sd] Ha Hb Hc S V0.
  assert (Z0 : z = 0%Z). { destruct Hc as (Gc & _ & V). rewrite V in V0. pose proof (inj_pos d Hd). assert (inject_Z z == 0)%Q.
    { setoid_replace (inject_Z z) with (inject_Z z / inject_Z d * inject_Z d)%Q by (field; lra). rewrite V0. ring. } unfold Qeq in H0. cbn in H0. lia. }
  pose proof (range_values_spec (g_prec G) k d x y z a b c s3 Hk Hp Hd Sd Ha Hb Hc S) as R. subst z. rewrite Z.mul_0_r in R. destruct R as (l & R1 & R2 & _).
  rewrite count_zero in R2. destruct l; [|discriminate]. eexists.
  rewrite (element_step G rec stl e e2 e3 n a b c s s1 s2 s3 E2 E3 A B C). cbv zeta. unfold count_bind. rewrite R1. reflexivity.
Qed.
Print Assumptions c36_step_zero_refuted.
Example c36_step_zero_ex : answer "[1..1 step 0]" = "[]"%string /\ answer "[1..3 step 0]" = "[]"%string.
Proof. vm_compute. split; reflexivity. Qed.

(** A step lost in rounding: the loop never ends, whatever the number of rounds. *)
Theorem c36_ends_refuted : exists a b c, good a /\ good b /\ good c /\ (val a < val b)%Q /\ (0 < val c)%Q /\
  forall fuel, range_loop fuel 100 a b c = Ok None.
Proof.
  exists (mkNum (10 ^ 99) 1 None None), (mkNum (2 * 10 ^ 99) 1 None None), (mkNum 1 1000 None None).
  repeat split; try reflexivity. induction fuel as [|fuel IH]; [reflexivity|]. cbn [range_loop].
  replace (num_add 100 (mkNum (10 ^ 99) 1 None None) (mkNum 1 1000 None None)) with (Some (mkNum (10 ^ 99) 1 None None)) by (vm_compute; reflexivity).
  rewrite IH. replace (Qle_bool (to_decimal 100 (mkNum 1 1000 None None)) 0) with false by (vm_compute; reflexivity).
  replace (num_leb 100 (mkNum (10 ^ 99) 1 None None) (mkNum (2 * 10 ^ 99) 1 None None)) with true by (vm_compute; reflexivity). reflexivity.
Qed.
Print Assumptions c36_ends_refuted.
