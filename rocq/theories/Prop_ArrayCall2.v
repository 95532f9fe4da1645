(** C84: averages of arrays written out, and sorting them. *)
From Coq Require Import ZArith QArith Qpower Ascii String List Bool Lia Permutation Sorted.
From Verif Require Import Base Dec Num NumSpec NumProofs3 Lex LexSpec Bases Formats Units Syntax Call Parse Exec Std StdSpec StdRun RangeSpec StatSpec VarNameSpec ArithTextSpec ArrayTextSpec ArithRunSpec ArrayRunSpec ArrayCallSpec ArrayCallProofs2 Prop_Ints Prop_ArithText Prop_ArrayText Prop_ArrayCall.
Import ListNotations.
Open Scope nat_scope.

(** [mean([...])] answers the sum of the numbers by how many they are, each a decimal of the precision, rounded once. *)
Theorem c84_mean : forall L vars k text es n fl s,
  exp_letter L -> pow_ok (l_prec L) (f_pow (l_fmt L)) -> (0 <= k)%Z -> (6 * k + 3 <= l_prec L)%Z -> vars_hold vars s ->
  array_call_text ($"mean") text es -> Forall (element_stays vars (l_prec L) k) es -> length text < n -> cf_parse_only fl = false ->
  exists items ls, Forall2 (element_of vars (shown_as s)) es ls /\
    let m := rnd (l_prec L) (qsum (map (key L) (concat ls)) / inject_Z (Z.of_nat (length (concat ls)))) in
    (narrow (l_prec L) m -> exists v, (val v == m)%Q /\ calculate (std L) n fl text s = (CDone [mkCR items (Some (VNum v, None)) (if cf_state fl then Some (s_vars s) else None)], s)).
Proof. exact mean_answer. Qed.
Print Assumptions c84_mean.
(** [median([...])] answers the middle one of the sorted numbers, or half the sum of the middle two. *)
Theorem c84_median : forall L vars k text es n fl s,
  exp_letter L -> pow_ok (l_prec L) (f_pow (l_fmt L)) -> (0 <= k)%Z -> (6 * k + 3 <= l_prec L)%Z -> vars_hold vars s ->
  array_call_text ($"median") text es -> Forall (element_stays vars (l_prec L) k) es -> length text < n -> cf_parse_only fl = false ->
  exists items ls ks, Forall2 (element_of vars (shown_as s)) es ls /\ Permutation (map (key L) (concat ls)) ks /\ StronglySorted Qle ks /\
    let i := length (concat ls) / 2 in
    let m := if Nat.odd (length (concat ls)) then nth i ks 0%Q else rnd (l_prec L) (rnd (l_prec L) (nth (i - 1) ks 0 + nth i ks 0) / 2)%Q in
    (narrow (l_prec L) m -> exists v, (val v == m)%Q /\ calculate (std L) n fl text s = (CDone [mkCR items (Some (VNum v, None)) (if cf_state fl then Some (s_vars s) else None)], s)).
Proof. exact median_answer. Qed.
Print Assumptions c84_median.
(** [mode([...])] answers the first of the most frequent numbers. *)
Theorem c84_mode : forall L vars k text es n fl s,
  exp_letter L -> pow_ok (l_prec L) (f_pow (l_fmt L)) -> (0 <= k)%Z -> (6 * k + 3 <= l_prec L)%Z -> vars_hold vars s ->
  array_call_text ($"mode") text es -> Forall (element_stays vars (l_prec L) k) es -> length text < n -> cf_parse_only fl = false ->
  exists items ls a m b, Forall2 (element_of vars (shown_as s)) es ls /\ map (key L) (concat ls) = a ++ m :: b /\
    (forall y, In y (map (key L) (concat ls)) -> how_many y (map (key L) (concat ls)) <= how_many m (map (key L) (concat ls))) /\
    (forall y, In y a -> how_many y (map (key L) (concat ls)) < how_many m (map (key L) (concat ls))) /\
    (narrow (l_prec L) m -> exists v, (val v == m)%Q /\ calculate (std L) n fl text s = (CDone [mkCR items (Some (VNum v, None)) (if cf_state fl then Some (s_vars s) else None)], s)).
Proof. exact mode_answer. Qed.
Print Assumptions c84_mode.
(** [sort([...])] answers the same elements in order, equal ones as they were. *)
Theorem c84_sort : forall L vars k text es n fl s,
  exp_letter L -> pow_ok (l_prec L) (f_pow (l_fmt L)) -> (0 <= k)%Z -> (6 * k + 3 <= l_prec L)%Z -> vars_hold vars s ->
  array_call_text ($"sort") text es -> Forall (element_stays vars (l_prec L) k) es -> length text < n -> cf_parse_only fl = false ->
  exists items ls m, Forall2 (element_of vars (shown_as s)) es ls /\
    Permutation (map StdSpec.plain (concat ls)) m /\ StronglySorted (fun a b => key L a <= key L b)%Q m /\
    (forall q, filter (fun r => Qeq_bool (key L r) q) m = filter (fun r => Qeq_bool (key L r) q) (map StdSpec.plain (concat ls))) /\
    calculate (std L) n fl text s = (CDone [mkCR items (Some (VList m, None)) (if cf_state fl then Some (s_vars s) else None)], s).
Proof. exact sort_answer. Qed.
Print Assumptions c84_sort.

(** * A case meeting the hypotheses: the array of C81, whose other hypotheses are met by [c81_ex] *)
Example c84_text_ex : Forall (fun w => array_call_text w (w ++ $"(" ++ ex_array ++ $") ") ex_elements) [$"mean"; $"median"; $"mode"; $"sort"].
Proof. repeat constructor; apply c82_text_ex; cbn; tauto. Qed.
Example c84_narrow_ex : narrow (l_prec demo) (15 # 4) /\ narrow (l_prec demo) (rnd (l_prec demo) (27 / 8)).
Proof. split; vm_compute; discriminate. Qed.
Example c84_ex : answer "x = 2; median( [2 * 3, 1 .. 3 ,7 ..x step -2 ] ) " = "3"%string /\ answer "x = 2; mode( [2 * 3, 1 .. 3 ,7 ..x step -2 ] ) " = "3"%string /\
  answer "mean([1 / 4, -1 .. 2 step 1 / 2])" = "0.46875"%string /\ answer "median([4, 1 .. 3])" = "2.5"%string.
Proof. repeat split; vm_compute; reflexivity. Qed.
Example c84_sort_ex : answer "x = 2; sort( [2 * 3, 1 .. 3 ,7 ..x step -2 ] ) " = answer "[1, 2, 3, 3, 5, 6, 7]".
Proof. vm_compute. reflexivity. Qed.
