(** C83: an array with an element that goes wrong. *)
From Coq Require Import ZArith QArith Qpower Ascii String List Bool Lia.
From Verif Require Import Base Dec Num NumSpec NumProofs3 Lex LexSpec Bases Formats Units Syntax Call Parse Exec Std StdRun VarNameSpec ArithTextSpec ArrayTextSpec ArithRunSpec ArrayRunSpec ArithErrSpec ArrayErrSpec ArrayErrProofs Prop_Ints Prop_ArithText Prop_ArithErr Prop_ArrayText.
Import ListNotations.
Open Scope nat_scope.

(** An array in which an element, or the start, the end or the step of a range, goes wrong (C76) is an error and changes nothing, whatever
    comes after it. *)
Theorem c83_wrong : forall L vars k text es1 e es2 n fl s,
  exp_letter L -> pow_ok (l_prec L) (f_pow (l_fmt L)) -> (0 <= k /\ 1 <= f_places (l_fmt L) /\ k + f_places (l_fmt L) <= l_prec L)%Z -> (6 * k + 3 <= l_prec L)%Z ->
  vars_exactly vars s -> array_text text (es1 ++ e :: es2) -> Forall (element_stays vars (l_prec L) k) es1 -> element_wrong vars (l_prec L) k e ->
  Forall (element_numerals (l_prec L)) es2 -> length text < n -> cf_parse_only fl = false ->
  exists its nx tr, calculate (std L) n fl text s = (CFail false [] [its] nx tr, s).
Proof. exact array_wrong. Qed.
Print Assumptions c83_wrong.

(** * A case meeting the hypotheses: [5 + (x - 1) / (x - 2)], with 2 for [x], as the end of a range *)
Definition ex_wrong : str := $"[6,1 .. 5 + (x - 1) / (x - 2),7]".
Example c83_text_ex : array_text ex_wrong ([One (ANum (dig "6"))] ++ Range (ANum (dig "1")) bad_exp :: [One (ANum (dig "7"))]).
Proof.
  exists [], ($"6,1 .. 5 + (x - 1) / (x - 2),7"), []. split; [reflexivity|]. split; [constructor|]. split; [constructor|].
  apply (elements_more ($"6") _ ($"1 .. 5 + (x - 1) / (x - 2),7")).
  { apply element_one. apply (ex_framed [] ($"6") []); [constructor|constructor| |exact I]. apply ex_lift; [now apply (ex_num "6")|lia]. }
  apply (elements_more ($"1 .. 5 + (x - 1) / (x - 2)") _ ($"7")).
  { apply (element_range ($"1 ") ($" 5 + (x - 1) / (x - 2)")).
    - split; [|exact I]. exists [], ($"1"), ($" "). split; [reflexivity|]. split; [constructor|]. split; [exact ex_space|]. split; [discriminate|]. apply ex_lift; [now apply (ex_num "1")|lia].
    - rewrite <- (app_nil_r ($" 5 + (x - 1) / (x - 2)")). apply (ex_framed ($" ") ($"5 + (x - 1) / (x - 2)") []); [exact ex_space|constructor|exact bad_reads|].
      assert (Sx : ~ starts ($"step") ($"x")) by (intros [y E]; discriminate E). cbn [stepless bad_exp]. tauto. }
  apply elements_last. apply element_one. apply (ex_framed [] ($"7") []); [constructor|constructor| |exact I]. apply ex_lift; [now apply (ex_num "7")|lia].
Qed.
Example c83_ex : vars_exactly ex_vars ex_state /\ (0 <= 16 /\ 1 <= f_places (l_fmt demo) /\ 16 + f_places (l_fmt demo) <= l_prec demo)%Z /\ (6 * 16 + 3 <= l_prec demo)%Z /\
  Forall (element_stays ex_vars (l_prec demo) 16) [One (ANum (dig "6"))] /\ element_wrong ex_vars (l_prec demo) 16 (Range (ANum (dig "1")) bad_exp) /\
  Forall (element_numerals (l_prec demo)) [One (ANum (dig "7"))].
Proof.
  split; [split; [exact (proj1 c81_ex)|]|].
  { intros n. unfold ex_vars, ex_state. cbn [s_vars assoc]. rewrite (UnitsProofs5.seq_eqb_sym ($"x") n). destruct (seq_eqb n ($"x")); [split; [discriminate|reflexivity]|reflexivity]. }
  split; [vm_compute; repeat split; discriminate|]. split; [vm_compute; discriminate|]. split; [repeat constructor; vm_compute; intuition (reflexivity || discriminate)|].
  split; [|repeat constructor]. right. split; [split; vm_compute; intuition (reflexivity || discriminate)|split; vm_compute; intuition (reflexivity || discriminate)].
Qed.
Example c83_run_ex : answer "x = 2;[6,1 .. 5 + (x - 1) / (x - 2),7]" = "execute error"%string /\ answer "x = 3;[6,1 .. 5 + (x - 1) / (x - 2),7]" = "[6;1;2;3;4;5;6;7;7;]"%string /\
  answer "[1, 1 / 0, 2]" = "execute error"%string /\ answer "[1 .. 2 step y + 1]" = "execute error"%string.
Proof. vm_compute. repeat split. Qed.
