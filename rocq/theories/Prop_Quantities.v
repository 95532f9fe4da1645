(** C57: adding, subtracting and comparing numbers with units. *)
From Coq Require Import ZArith QArith Qpower Qabs Qround Ascii String List Bool Lia Lqa Permutation.
From Verif Require Import Base BaseProofs Dec Num NumSpec NumProofs NumProofs2 NumProofs3 NumProofs4 Bases BasesProofs Formats Units UnitsSpec UnitsProofs UnitsProofs2 UnitsProofs3 UnitsProofs4 UnitsProofs5 UnitReg UnitData Install Syntax Pos Call CallSpec Loop Parse Exec Std StdSpec StdRun StdProofs9 TextSpec TextProofs ArithSpec ArithProofs UnitCalc UnitCalcSpec UnitCalcProofs UnitRun UnitTable.
Import ListNotations.
Open Scope Z_scope.

(** [+] and [-] of two quantities of the same dimensions give the sum and the difference of the quantities, in the unit of
    the first, exactly. *)
Theorem c57_sum : forall U us stl sym f x y a b u v k s, In (sym, f) sums -> world (u_rels U) us -> made_of us u -> made_of us v ->
  number_at (u_lib U) x a -> number_at (u_lib U) y b -> runit x = Some u -> runit y = Some v ->
  same_dims (u_rels U) (Some u) (Some v) -> steady (u_rels U) u -> steady (u_rels U) v ->
  good a -> good b -> size_le k a -> size_le k b -> has_digits k (val b * size_of (Some v) / size_of (Some u)) -> 0 <= k -> 3 * k + 1 <= l_prec (u_lib U) ->
  exists n, callop (with_units U) stl sym [x; y] s = (OOk (mkRes (VNum n) (Some u) None), s) /\
    (val n * size_of (Some u) == f (val a * size_of (Some u)) (val b * size_of (Some v)))%Q /\ ncast n = format_of a b.
Proof.
  intros U us stl sym f x y a b u v k s H W (Ou & _) (Ov & _) Hx Hy Ux Uy D Su Sv Ga Gb Sa Sb Hd Hk Hp.
  assert (D' : same_dims (u_rels U) (Some v) (Some u)) by (intros d; symmetry; apply D).
  destruct (convert_ok (u_rels U) us b v u true W Ov Ou D' Sv Su Gb) as (m & c & E & V & Gm & Cm & _ & Hm). specialize (Hm k Sb Hd).
  assert (P1 : 1 <= l_prec (u_lib U)) by lia. destruct (size_add_sub (l_prec (u_lib U)) k a m Hk Ga Gm Sa Hm Hp) as [F1 F2].
  assert (Nz : ~ (factor (eu_list u) == 0)%Q) by (apply factor_nz; apply (world_scaled (u_rels U) us); assumption).
  cbn [size_of]. destruct H as [H|[H|[]]]; injection H as <- <-.
  - destruct (num_add_exact _ a m P1 Ga Gm F1) as (n & N & Vn & _ & _ & C). exists (with_cast n (format_of a b)). split; [|split].
    + eapply usum_call; [left; auto|exact Hx|exact Hy|exact Ux|rewrite Uy; exact E|exact N|exact C].
    + rewrite with_cast_val, Vn, V. field. exact Nz.
    + reflexivity.
  - destruct (num_sub_exact _ a m P1 Ga Gm F2) as (n & N & Vn & _ & _ & C). exists (with_cast n (format_of a b)). split; [|split].
    + eapply usum_call; [right; auto|exact Hx|exact Hy|exact Ux|rewrite Uy; exact E|exact N|exact C].
    + rewrite with_cast_val, Vn, V. field. exact Nz.
    + reflexivity.
Qed.
Print Assumptions c57_sum.

(** The comparisons decide the order of the quantities, whatever units they are in. *)
Theorem c57_compare : forall U us stl sym R x y a b u v k s, In (sym, R) comparisons -> world (u_rels U) us -> made_of us u -> made_of us v ->
  number_at (u_lib U) x a -> number_at (u_lib U) y b -> runit x = Some u -> runit y = Some v ->
  same_dims (u_rels U) (Some u) (Some v) -> steady (u_rels U) u -> steady (u_rels U) v ->
  good a -> good b -> size_le k a -> size_le k b -> has_digits k (val b * size_of (Some v) / size_of (Some u)) -> 0 <= k -> 2 * k + 1 <= l_prec (u_lib U) ->
  exists r, callop (with_units U) stl sym [x; y] s = (OOk r, s) /\ runit r = None /\ yes_no r (R (val a * size_of (Some u)) (val b * size_of (Some v)))%Q.
Proof.
  intros U us stl sym R x y a b u v k s H W (Ou & _) (Ov & _) Hx Hy Ux Uy D Su Sv Ga Gb Sa Sb Hd Hk Hp.
  assert (D' : same_dims (u_rels U) (Some v) (Some u)) by (intros d; symmetry; apply D).
  destruct (convert_ok (u_rels U) us b v u false W Ov Ou D' Sv Su Gb) as (m & c & E & V & Gm & Cm & _ & Hm). specialize (Hm k Sb Hd).
  destruct (num_ltb_exact (l_prec (u_lib U)) k a m Hk Hp Ga Gm Sa Hm) as [L1 E1]. destruct (num_ltb_exact (l_prec (u_lib U)) k m a Hk Hp Gm Ga Hm Sa) as [L2 _].
  pose proof (over_pos (u_rels U) us (eu_list u) W Ou) as Pos. cbn [size_of] in *.
  assert (V' : (val m * factor (eu_list u) == val b * factor (eu_list v))%Q) by (rewrite V; field; intros Z; rewrite Z in Pos; discriminate).
  assert (T1 : (val a < val m <-> val a * factor (eu_list u) < val b * factor (eu_list v))%Q) by (rewrite <- V'; symmetry; now apply Qmult_lt_r).
  assert (T2 : (val m < val a <-> val b * factor (eu_list v) < val a * factor (eu_list u))%Q) by (rewrite <- V'; symmetry; now apply Qmult_lt_r).
  assert (T3 : (val a == val m <-> val a * factor (eu_list u) == val b * factor (eu_list v))%Q).
  { rewrite <- V'. split; [intros ->; reflexivity|]. intros Z. apply Qmult_inj_r in Z; [exact Z|]. intros Q. rewrite Q in Pos. discriminate. }
  rewrite T1 in L1. rewrite T2 in L2. rewrite T3 in E1.
  assert (Le1 : num_leb (l_prec (u_lib U)) a m = true <-> (val a * factor (eu_list u) <= val b * factor (eu_list v))%Q).
  { replace (num_leb (l_prec (u_lib U)) a m) with (negb (num_ltb (l_prec (u_lib U)) m a)) by (unfold num_ltb, num_leb; apply negb_involutive). rewrite negb_true_iff, <- not_true_iff_false, L2. split; [apply Qnot_lt_le|apply Qle_not_lt]. }
  assert (Le2 : num_leb (l_prec (u_lib U)) m a = true <-> (val b * factor (eu_list v) <= val a * factor (eu_list u))%Q).
  { replace (num_leb (l_prec (u_lib U)) m a) with (negb (num_ltb (l_prec (u_lib U)) a m)) by (unfold num_ltb, num_leb; apply negb_involutive). rewrite negb_true_iff, <- not_true_iff_false, L1. split; [apply Qnot_lt_le|apply Qle_not_lt]. }
  repeat (destruct H as [H|H]; [injection H as <- <-; eexists; split; [eapply ucmp_call; [cbn [cmp_ops In]; eauto 8|exact Hx|exact Hy|exact Ux|rewrite Uy; exact E]|split; [reflexivity|apply yes_no_bool]]|]); try assumption; [|destruct H].
  rewrite negb_true_iff, <- not_true_iff_false. now rewrite E1.
Qed.
Print Assumptions c57_compare.

(** Quantities of different dimensions are never added, subtracted or compared: the operator reports an error. *)
Theorem c57_different : forall U us stl sym x y a b u v s, In sym needs_same -> world (u_rels U) us -> made_of us u -> made_of us v ->
  number_at (u_lib U) x a -> number_at (u_lib U) y b -> runit x = Some u -> runit y = Some v ->
  (exists d, dims_of (u_rels U) (Some u) d <> dims_of (u_rels U) (Some v) d) -> steady (u_rels U) u -> steady (u_rels U) v ->
  shows (u_lib U) (rval x) = true -> shows (u_lib U) (rval y) = true ->
  callop (with_units U) stl sym [x; y] s = (OErr (XCalc true (MOp ($"operator " ++ sym))), s).
Proof.
  intros U us stl sym x y a b u v s Hs W (Ou & _) (Ov & _) Hx Hy Ux Uy [d D] Su Sv Sx Sy. apply (urefused_call U stl sym x y a b s); auto.
  intros relative. rewrite Ux, Uy, to_first, (convert_refused (u_rels U) us b v u relative W Ov Ou); auto. exists d. intros Z. apply D. symmetry. exact Z.
Qed.
Print Assumptions c57_different.
(** A quantity and a plain number neither, whichever comes first. *)
Theorem c57_plain : forall U stl sym x y a b u v s, In sym needs_same -> number_at (u_lib U) x a -> number_at (u_lib U) y b -> runit x = u -> runit y = v ->
  (u = None <-> v <> None) -> shows (u_lib U) (rval x) = true -> shows (u_lib U) (rval y) = true ->
  callop (with_units U) stl sym [x; y] s = (OErr (XCalc true (MOp ($"operator " ++ sym))), s).
Proof.
  intros U stl sym x y a b u v s Hs Hx Hy Ux Uy Huv Sx Sy. apply (urefused_call U stl sym x y a b s); auto.
  intros relative. rewrite Ux, Uy. destruct u as [u|]; destruct v as [v|].
  - exfalso. assert (Some v <> None) as Z by discriminate. apply Huv in Z. discriminate.
  - reflexivity.
  - reflexivity.
  - exfalso. destruct Huv as [Z _]. now apply Z.
Qed.
Print Assumptions c57_plain.
(** Temperatures: a sum or difference takes the second as a number of degrees; a comparison takes both as temperatures. *)
Theorem c57_degrees : forall U stl sym f x y a b t w k s, In (sym, f) sums -> temperature t -> temperature w -> udim t = udim w -> named [w; t] ->
  number_at (u_lib U) x a -> number_at (u_lib U) y b -> runit x = Some (mkEU [(t, 1)] false) -> runit y = Some (mkEU [(w, 1)] false) ->
  good a -> good b -> size_le k a -> size_le k b -> has_digits k (val b * degree (ukind_of w) / degree (ukind_of t)) -> 0 <= k -> 3 * k + 1 <= l_prec (u_lib U) ->
  exists n, callop (with_units U) stl sym [x; y] s = (OOk (mkRes (VNum n) (Some (mkEU [(t, 1)] false)) None), s) /\
    (val n == f (val a) (val b * degree (ukind_of w) / degree (ukind_of t)))%Q /\ ncast n = format_of a b.
Proof.
  intros U stl sym f x y a b t w k s H Tt Tw Ud Nm Hx Hy Ux Uy Ga Gb Sa Sb Hd Hk Hp.
  destruct (convert_temperature (u_rels U) b w t true Tw Tt (eq_sym Ud) Nm Gb) as (m & c & E & V & Gm & Cm & Hm). cbv iota in V, Hm. specialize (Hm k Sb Hd).
  assert (P1 : 1 <= l_prec (u_lib U)) by lia. destruct (size_add_sub (l_prec (u_lib U)) k a m Hk Ga Gm Sa Hm Hp) as [F1 F2].
  destruct H as [H|[H|[]]]; injection H as <- <-.
  - destruct (num_add_exact _ a m P1 Ga Gm F1) as (n & N & Vn & _ & _ & C). exists (with_cast n (format_of a b)). split; [|split; [|reflexivity]].
    + eapply usum_call; [left; auto|exact Hx|exact Hy|exact Ux|rewrite Uy; exact E|exact N|exact C].
    + rewrite with_cast_val, Vn, V. reflexivity.
  - destruct (num_sub_exact _ a m P1 Ga Gm F2) as (n & N & Vn & _ & _ & C). exists (with_cast n (format_of a b)). split; [|split; [|reflexivity]].
    + eapply usum_call; [right; auto|exact Hx|exact Hy|exact Ux|rewrite Uy; exact E|exact N|exact C].
    + rewrite with_cast_val, Vn, V. reflexivity.
Qed.
Print Assumptions c57_degrees.
Theorem c57_warmer : forall U stl sym R x y a b t w k s, In (sym, R) comparisons -> temperature t -> temperature w -> udim t = udim w -> named [w; t] ->
  number_at (u_lib U) x a -> number_at (u_lib U) y b -> runit x = Some (mkEU [(t, 1)] false) -> runit y = Some (mkEU [(w, 1)] false) ->
  good a -> good b -> size_le k a -> size_le k b -> has_digits k (from_kelvin (ukind_of t) (to_kelvin (ukind_of w) (val b))) -> 0 <= k -> 2 * k + 1 <= l_prec (u_lib U) ->
  exists r, callop (with_units U) stl sym [x; y] s = (OOk r, s) /\ runit r = None /\ yes_no r (R (to_kelvin (ukind_of t) (val a)) (to_kelvin (ukind_of w) (val b)))%Q.
Proof.
  intros U stl sym R x y a b t w k s H Tt Tw Ud Nm Hx Hy Ux Uy Ga Gb Sa Sb Hd Hk Hp.
  destruct (convert_temperature (u_rels U) b w t false Tw Tt (eq_sym Ud) Nm Gb) as (m & c & E & V & Gm & Cm & Hm). cbv iota in V, Hm. specialize (Hm k Sb Hd).
  destruct (num_ltb_exact (l_prec (u_lib U)) k a m Hk Hp Ga Gm Sa Hm) as [L1 E1]. destruct (num_ltb_exact (l_prec (u_lib U)) k m a Hk Hp Gm Ga Hm Sa) as [L2 _].
  assert (V' : (to_kelvin (ukind_of t) (val m) == to_kelvin (ukind_of w) (val b))%Q).
  { rewrite <- (proj2 (kelvin_inverse (ukind_of t) (to_kelvin (ukind_of w) (val b)))). destruct (ukind_of t); cbn [to_kelvin]; rewrite V; reflexivity. }
  assert (T1 : (val a < val m <-> to_kelvin (ukind_of t) (val a) < to_kelvin (ukind_of w) (val b))%Q) by (rewrite <- V'; apply kelvin_order).
  assert (T2 : (val m < val a <-> to_kelvin (ukind_of w) (val b) < to_kelvin (ukind_of t) (val a))%Q) by (rewrite <- V'; apply kelvin_order).
  assert (T3 : (val a == val m <-> to_kelvin (ukind_of t) (val a) == to_kelvin (ukind_of w) (val b))%Q) by (rewrite <- V'; apply kelvin_order).
  rewrite T1 in L1. rewrite T2 in L2. rewrite T3 in E1.
  assert (Le1 : num_leb (l_prec (u_lib U)) a m = true <-> (to_kelvin (ukind_of t) (val a) <= to_kelvin (ukind_of w) (val b))%Q).
  { replace (num_leb (l_prec (u_lib U)) a m) with (negb (num_ltb (l_prec (u_lib U)) m a)) by (unfold num_ltb, num_leb; apply negb_involutive). rewrite negb_true_iff, <- not_true_iff_false, L2. split; [apply Qnot_lt_le|apply Qle_not_lt]. }
  assert (Le2 : num_leb (l_prec (u_lib U)) m a = true <-> (to_kelvin (ukind_of w) (val b) <= to_kelvin (ukind_of t) (val a))%Q).
  { replace (num_leb (l_prec (u_lib U)) m a) with (negb (num_ltb (l_prec (u_lib U)) a m)) by (unfold num_ltb, num_leb; apply negb_involutive). rewrite negb_true_iff, <- not_true_iff_false, L1. split; [apply Qnot_lt_le|apply Qle_not_lt]. }
  repeat (destruct H as [H|H]; [injection H as <- <-; eexists; split; [eapply ucmp_call; [cbn [cmp_ops In]; eauto 8|exact Hx|exact Hy|exact Ux|rewrite Uy; exact E]|split; [reflexivity|apply yes_no_bool]]|]); try assumption; [|destruct H].
  rewrite negb_true_iff, <- not_true_iff_false. now rewrite E1.
Qed.
Print Assumptions c57_warmer.

(** The units the code defines in its largest preset, except Celsius and Fahrenheit, meet what is asked of units above. *)
Theorem c57_table : world (n_rels demo_norm) (plain_units demo_norm) /\
  forall u, In u (all_units demo_norm) -> In u (plain_units demo_norm) \/ (temperature u /\ ukind_of u <> UScale).
Proof. split; [exact preset_world|exact (plain_or_not demo_norm)]. Qed.
Print Assumptions c57_table.
Example c57_table_ex : length (plain_units demo_norm) = 424%nat. Proof. exact preset_count. Qed.
Example c57_ex : map (uanswer demo_norm) ["3 meters + 2 feet"; "1 km - 30 cm"; "1 kW + 23 J/s"; "5 feet < 2 m"; "1 UK pint == 0.56826125 l"; "1 m + 1 s"; "1 m/s + 2"; "2 < 3 kg"; "20@C + 9@F"; "20@C == 68@F"; "1@C < 1K"]%string =
  ["3.6096 meters"; "0.9997 kilometers"; "1.023 kilowatts"; "True"; "True"; "execute error"; "execute error"; "execute error"; "25 Celsius"; "True"; "False"]%string.
Proof. vm_compute. reflexivity. Qed.
