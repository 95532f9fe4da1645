(** C82: counting an array written out, its least and greatest element, and the one at a place. *)
From Coq Require Import ZArith QArith Qpower Ascii String List Bool Lia.
From Verif Require Import Base Dec Num NumSpec NumProofs3 Lex LexSpec Bases Formats Units Syntax Call Parse Exec Std StdRun VarNameSpec ArithTextSpec ArrayTextSpec ArithRunSpec ArrayRunSpec ArrayCallSpec ArrayCallProofs Prop_Ints Prop_ArithText Prop_ArrayText.
Import ListNotations.
Open Scope nat_scope.

(** [count([...])] answers how many numbers the elements give together, ranges counted out. *)
Theorem c82_count : forall L vars k text es n fl s,
  exp_letter L -> pow_ok (l_prec L) (f_pow (l_fmt L)) -> (0 <= k)%Z -> (6 * k + 3 <= l_prec L)%Z -> vars_hold vars s ->
  array_call_text ($"count") text es -> Forall (element_stays vars (l_prec L) k) es -> length text < n -> cf_parse_only fl = false ->
  exists items ls, Forall2 (element_of vars (shown_as s)) es ls /\
    calculate (std L) n fl text s =
      (CDone [mkCR items (Some (VNum (mkNum (Z.of_nat (length (concat ls))) 1 None None), None)) (if cf_state fl then Some (s_vars s) else None)], s).
Proof. exact count_answer. Qed.
Print Assumptions c82_count.
(** [min([...])] answers the first of the least numbers, [max([...])] the first of the greatest, without unit. *)
Theorem c82_min : forall L vars k text es n fl s,
  exp_letter L -> pow_ok (l_prec L) (f_pow (l_fmt L)) -> (0 <= k)%Z -> (6 * k + 3 <= l_prec L)%Z -> vars_hold vars s ->
  array_call_text ($"min") text es -> Forall (element_stays vars (l_prec L) k) es -> length text < n -> cf_parse_only fl = false ->
  exists items ls v, Forall2 (element_of vars (shown_as s)) es ls /\ first_least L (concat ls) v /\
    calculate (std L) n fl text s = (CDone [mkCR items (Some (v, None)) (if cf_state fl then Some (s_vars s) else None)], s).
Proof. exact least_answer. Qed.
Print Assumptions c82_min.
Theorem c82_max : forall L vars k text es n fl s,
  exp_letter L -> pow_ok (l_prec L) (f_pow (l_fmt L)) -> (0 <= k)%Z -> (6 * k + 3 <= l_prec L)%Z -> vars_hold vars s ->
  array_call_text ($"max") text es -> Forall (element_stays vars (l_prec L) k) es -> length text < n -> cf_parse_only fl = false ->
  exists items ls v, Forall2 (element_of vars (shown_as s)) es ls /\ first_greatest L (concat ls) v /\
    calculate (std L) n fl text s = (CDone [mkCR items (Some (v, None)) (if cf_state fl then Some (s_vars s) else None)], s).
Proof. exact greatest_answer. Qed.
Print Assumptions c82_max.
(** [element([...], e)], where [e] is worth a whole number from 1 to the number of the elements, answers the element at that place, counted
    over all the numbers that the elements give. *)
Theorem c82_element : forall L vars k text es e q i n fl s,
  exp_letter L -> pow_ok (l_prec L) (f_pow (l_fmt L)) -> (0 <= k)%Z -> (6 * k + 3 <= l_prec L)%Z -> vars_hold vars s ->
  array_element_text text es e -> Forall (element_stays vars (l_prec L) k) es -> stays vars (l_prec L) k e -> avalue vars e = Some q -> (q == inject_Z i)%Q ->
  length text < n -> cf_parse_only fl = false ->
  exists items ls, Forall2 (element_of vars (shown_as s)) es ls /\
    ((1 <= i <= Z.of_nat (length (concat ls)))%Z -> exists r v, nth_error (concat ls) (Z.to_nat (i - 1)) = Some r /\ StdSpec.same_value v (rval r) /\
      calculate (std L) n fl text s = (CDone [mkCR items (Some (v, None)) (if cf_state fl then Some (s_vars s) else None)], s)).
Proof. exact element_answer. Qed.
Print Assumptions c82_element.
(** A place that is 0 or less is no error: 0 is the last of the elements, -1 the one before it, and so on back to the first. *)
Theorem c82_element_back : forall L vars k text es e q i n fl s,
  exp_letter L -> pow_ok (l_prec L) (f_pow (l_fmt L)) -> (0 <= k)%Z -> (6 * k + 3 <= l_prec L)%Z -> vars_hold vars s ->
  array_element_text text es e -> Forall (element_stays vars (l_prec L) k) es -> stays vars (l_prec L) k e -> avalue vars e = Some q -> (q == inject_Z i)%Q ->
  length text < n -> cf_parse_only fl = false ->
  exists items ls, Forall2 (element_of vars (shown_as s)) es ls /\
    ((1 - Z.of_nat (length (concat ls)) <= i <= 0)%Z -> exists r v, nth_error (rev (concat ls)) (Z.to_nat (- i)) = Some r /\ StdSpec.same_value v (rval r) /\
      calculate (std L) n fl text s = (CDone [mkCR items (Some (v, None)) (if cf_state fl then Some (s_vars s) else None)], s)).
Proof. exact element_back. Qed.
Print Assumptions c82_element_back.
(** [sum([...])] answers the sum of the numbers, exactly and in lowest terms, if over a common denominator they have few enough digits. *)
Theorem c82_sum : forall L vars k text es n fl s,
  exp_letter L -> pow_ok (l_prec L) (f_pow (l_fmt L)) -> (0 <= k)%Z -> (6 * k + 3 <= l_prec L)%Z -> vars_hold vars s ->
  array_call_text ($"sum") text es -> Forall (element_stays vars (l_prec L) k) es -> length text < n -> cf_parse_only fl = false ->
  exists items ls, Forall2 (element_of vars (shown_as s)) es ls /\ forall d xs,
    (0 < d < 10 ^ l_prec L)%Z -> worth_over d xs (concat ls) -> (StatSpec.zsum (map Z.abs xs) * d < 10 ^ l_prec L)%Z ->
    exists v, RangeSpec.over d (StatSpec.zsum xs) v /\
      calculate (std L) n fl text s = (CDone [mkCR items (Some (VNum v, None)) (if cf_state fl then Some (s_vars s) else None)], s).
Proof. exact sum_answer. Qed.
Print Assumptions c82_sum.

(** * A case meeting the hypotheses: the array of C81, whose other hypotheses are met by [c81_ex] *)
Example c82_text_ex w : In w array_functions -> array_call_text w (w ++ $"(" ++ ex_array ++ $") ") ex_elements.
Proof. intros _. exists [], ex_array, ($" "). split; [reflexivity|]. split; [constructor|]. split; [exact ex_space|exact c81_text_ex]. Qed.
Example c82_ex : answer "x = 2; count( [2 * 3, 1 .. 3 ,7 ..x step -2 ] ) " = "7"%string /\ answer "x = 2; min( [2 * 3, 1 .. 3 ,7 ..x step -2 ] ) " = "1"%string /\
  answer "x = 2; max( [2 * 3, 1 .. 3 ,7 ..x step -2 ] ) " = "7"%string /\ answer "min([1 / 4, -1 .. 2 step 1 / 2])" = "-1"%string.
Proof. repeat split; vm_compute; reflexivity. Qed.
Example c82_element_text_ex : array_element_text ($"element(" ++ ex_array ++ $",x * 3)") ex_elements (ABin Times (AVar ($"x")) (ANum (dig "3"))).
Proof.
  exists [], ex_array, ($"x * 3"), []. split; [reflexivity|]. split; [constructor|]. split; [constructor|]. split; [exact c81_text_ex|].
  exists [], ($"x * 3"), []. split; [reflexivity|]. split; [constructor|]. split; [constructor|]. apply reads_looser.
  apply (reads_bin Times ($"x") ($" ") ($" ") ($"3")); [exact ex_space|exact ex_space|exact I| |]; (apply ex_lift; [|cbn; lia]); [now apply reads_var; apply ex_name_x|now apply (ex_num _)].
Qed.
Example c82_element_ex : stays ex_vars (l_prec demo) 16 (ABin Times (AVar ($"x")) (ANum (dig "3"))) /\ avalue ex_vars (ABin Times (AVar ($"x")) (ANum (dig "3"))) = Some 6%Q /\
  answer "x = 2; element( [2 * 3, 1 .. 3 ,7 ..x step -2 ] ,x * 3)" = "5"%string.
Proof. split; [vm_compute; intuition (reflexivity || discriminate)|]. split; vm_compute; reflexivity. Qed.
(** The elements of that array are worth 6, 1, 2, 3, 7, 5 and 3; those of the other cases are fractions. *)
Example c82_sum_ex : answer "x = 2; sum( [2 * 3, 1 .. 3 ,7 ..x step -2 ] ) " = "27"%string /\ StatSpec.zsum [6; 1; 2; 3; 7; 5; 3]%Z = 27%Z /\
  answer "sum([1 / 4, -1 .. 2 step 1 / 2])" = "3.75"%string /\ answer "sum([1 / 3, 1 / 6 .. 1 / 2 step 1 / 6])" = answer "4 / 3".
Proof. repeat split; vm_compute; reflexivity. Qed.
Example c82_worth_ex : worth_over 4 [1; -4; -2]%Z [mkRes (VNum (mkNum 1 4 None None)) None None; mkRes (VNum (mkNum (-1) 1 None None)) None None; mkRes (VNum (mkNum (-1) 2 None None)) None None].
Proof. repeat constructor; (eexists; split; [reflexivity|vm_compute; reflexivity]). Qed.
Example c82_element_back_ex : answer "element([4, 7 .. 9, 1 / 2], 0)" = "0.5"%string /\ answer "element([4, 7 .. 9, 1 / 2], 1 - 2)" = "9"%string /\ answer "element([4, 7 .. 9, 1 / 2], 4 - 8)" = "4"%string /\
  avalue ex_vars (ABin Minus (ANum (dig "4")) (ANum (dig "8"))) = Some (-4)%Q.
Proof. repeat split; vm_compute; reflexivity. Qed.
