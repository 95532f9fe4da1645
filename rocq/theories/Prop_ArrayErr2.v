(** C83: a function of an array with an element that goes wrong. *)
From Coq Require Import ZArith QArith Qpower Ascii String List Bool Lia.
From Verif Require Import Base Dec Num NumSpec NumProofs3 Lex LexSpec Bases Formats Units Syntax Call Parse Exec Std StdRun VarNameSpec ArithTextSpec ArrayTextSpec ArithRunSpec ArrayRunSpec ArithErrSpec ArrayErrSpec ArrayCallSpec ArrayErrProofs2 Prop_Ints Prop_ArithText Prop_ArithErr Prop_ArrayText Prop_ArrayErr.
Import ListNotations.
Open Scope nat_scope.

(** [count], [min], [max], [sum], [mean], [median], [mode] and [sort] of such an array are errors too and change nothing; even [count]
    does not answer. *)
Theorem c83_call : forall L vars k w text es1 e es2 n fl s,
  exp_letter L -> pow_ok (l_prec L) (f_pow (l_fmt L)) -> (0 <= k /\ 1 <= f_places (l_fmt L) /\ k + f_places (l_fmt L) <= l_prec L)%Z -> (6 * k + 3 <= l_prec L)%Z ->
  vars_exactly vars s -> In w array_functions -> array_call_text w text (es1 ++ e :: es2) -> Forall (element_stays vars (l_prec L) k) es1 ->
  element_wrong vars (l_prec L) k e -> Forall (element_numerals (l_prec L)) es2 -> length text < n -> cf_parse_only fl = false ->
  exists its nx tr, calculate (std L) n fl text s = (CFail false [] [its] nx tr, s).
Proof. exact array_call_wrong. Qed.
Print Assumptions c83_call.
(** [element] of such an array is an error, whatever the place; and so is [element] of any array at a place that goes wrong. *)
Theorem c83_element : forall L vars k text es1 e es2 ix n fl s,
  exp_letter L -> pow_ok (l_prec L) (f_pow (l_fmt L)) -> (0 <= k /\ 1 <= f_places (l_fmt L) /\ k + f_places (l_fmt L) <= l_prec L)%Z -> (6 * k + 3 <= l_prec L)%Z ->
  vars_exactly vars s -> array_element_text text (es1 ++ e :: es2) ix -> Forall (element_stays vars (l_prec L) k) es1 ->
  element_wrong vars (l_prec L) k e -> Forall (element_numerals (l_prec L)) es2 -> numerals_fit (l_prec L) ix -> length text < n -> cf_parse_only fl = false ->
  exists its nx tr, calculate (std L) n fl text s = (CFail false [] [its] nx tr, s).
Proof. exact element_array_wrong. Qed.
Print Assumptions c83_element.
Theorem c83_place : forall L vars k text es ix n fl s,
  exp_letter L -> pow_ok (l_prec L) (f_pow (l_fmt L)) -> (0 <= k /\ 1 <= f_places (l_fmt L) /\ k + f_places (l_fmt L) <= l_prec L)%Z -> (6 * k + 3 <= l_prec L)%Z ->
  vars_exactly vars s -> array_element_text text es ix -> Forall (element_stays vars (l_prec L) k) es -> part_wrong vars (l_prec L) k ix ->
  length text < n -> cf_parse_only fl = false ->
  exists its nx tr, calculate (std L) n fl text s = (CFail false [] [its] nx tr, s).
Proof. exact element_index_wrong. Qed.
Print Assumptions c83_place.

(** * A case meeting the hypotheses: the array of [c83_text_ex]; the others are met by [c83_ex] *)
Example c83_call_text_ex w : array_call_text w ($" " ++ w ++ $"(" ++ ex_wrong ++ $")") ([One (ANum (dig "6"))] ++ Range (ANum (dig "1")) bad_exp :: [One (ANum (dig "7"))]).
Proof. exists ($" "), ex_wrong, []. split; [reflexivity|]. split; [exact ex_space|]. split; [constructor|exact c83_text_ex]. Qed.
Example c83_call_ex : answer "x = 2;count([6,1 .. 5 + (x - 1) / (x - 2),7])" = "execute error"%string /\ answer "x = 2; sort( [6,1 .. 5 + (x - 1) / (x - 2),7])" = "execute error"%string /\
  answer "x = 3;count([6,1 .. 5 + (x - 1) / (x - 2),7])" = "9"%string.
Proof. repeat split; vm_compute; reflexivity. Qed.
Example c83_element_text_ex : array_element_text ($"element(" ++ ex_wrong ++ $",5 + (x - 1) / (x - 2))") ([One (ANum (dig "6"))] ++ Range (ANum (dig "1")) bad_exp :: [One (ANum (dig "7"))]) bad_exp /\
  array_element_text ($"element(" ++ ex_array ++ $",5 + (x - 1) / (x - 2))") ex_elements bad_exp /\ numerals_fit (l_prec demo) bad_exp /\ part_wrong ex_vars (l_prec demo) 16 bad_exp.
Proof.
  assert (B : arithmetic_text ($"5 + (x - 1) / (x - 2)") bad_exp).
  { exists [], ($"5 + (x - 1) / (x - 2)"), []. split; [reflexivity|]. split; [constructor|]. split; [constructor|exact bad_reads]. }
  split; [|split; [|split]].
  - exists [], ex_wrong, ($"5 + (x - 1) / (x - 2)"), []. split; [reflexivity|]. split; [constructor|]. split; [constructor|]. split; [exact c83_text_ex|exact B].
  - exists [], ex_array, ($"5 + (x - 1) / (x - 2)"), []. split; [reflexivity|]. split; [constructor|]. split; [constructor|]. split; [exact c81_text_ex|exact B].
  - vm_compute. intuition (reflexivity || discriminate).
  - split; vm_compute; intuition (reflexivity || discriminate).
Qed.
Example c83_element_ex : answer "x = 2;element([6,1 .. 5 + (x - 1) / (x - 2),7], 1)" = "execute error"%string /\ answer "x = 2;element([6, 7], 5 + (x - 1) / (x - 2))" = "execute error"%string /\
  answer "x = 3;element([6,1 .. 5 + (x - 1) / (x - 2),7], 5 + (x - 1) / (x - 2))" = "6"%string.
Proof. repeat split; vm_compute; reflexivity. Qed.
