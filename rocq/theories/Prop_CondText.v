(** C78: conditions on arithmetic decide as they read. *)
From Coq Require Import ZArith QArith Qpower Ascii String List Bool Lia.
From Verif Require Import Base BaseProofs Dec Num NumSpec NumProofs NumProofs3 Lex LexSpec Bases Formats Units Syntax Call Parse Exec Std StdRun VarNameSpec ArithTextSpec ArithRunSpec CondTextSpec CondTextProofs2 Prop_Ints Prop_ArithText.
Import ListNotations.
Open Scope nat_scope.

(** Any text of a condition, with any blanks and superfluous parentheses, answers whether it holds, and changes nothing. *)
Theorem c78_condition : forall L vars k text e b n fl s,
  exp_letter L -> pow_ok (l_prec L) (f_pow (l_fmt L)) -> (0 <= k)%Z -> (3 * k + 1 <= l_prec L)%Z -> vars_hold vars s ->
  condition_text text e -> bvalue vars e = Some b -> bstays vars (l_prec L) k e -> length text < n -> cf_parse_only fl = false ->
  exists items, calculate (std L) n fl text s =
    (CDone [mkCR items (Some (VBool b, None)) (if cf_state fl then Some (s_vars s) else None)], s).
Proof. exact condition_answer. Qed.
Print Assumptions c78_condition.

(** A text decides one thing: it cannot be read as a condition that holds and as one that does not. *)
Theorem c78_one_meaning : forall k vars text e1 e2 b1 b2, (0 <= k <= 33)%Z -> (exists s, vars_hold vars s) ->
  condition_text text e1 -> condition_text text e2 -> bvalue vars e1 = Some b1 -> bvalue vars e2 = Some b2 ->
  bstays vars 100 k e1 -> bstays vars 100 k e2 -> b1 = b2.
Proof.
  intros k vars text e1 e2 b1 b2 Hk [s Hs] T1 T2 V1 V2 S1 S2.
  assert (E : exp_letter demo) by (exists "E"%char, []; split; [reflexivity|left; vm_compute; split; discriminate]).
  assert (H3 : (3 * k + 1 <= l_prec demo)%Z) by (change (l_prec demo) with 100%Z; lia).
  destruct (condition_answer demo vars k text e1 b1 _ plain_flags s E c46_pow_ex (proj1 Hk) H3 Hs T1 V1 S1 (Nat.lt_succ_diag_r _) eq_refl) as [i1 R1].
  destruct (condition_answer demo vars k text e2 b2 _ plain_flags s E c46_pow_ex (proj1 Hk) H3 Hs T2 V2 S2 (Nat.lt_succ_diag_r _) eq_refl) as [i2 R2].
  rewrite R1 in R2. clear - R2. congruence.
Qed.
Print Assumptions c78_one_meaning.

(** No text is both arithmetic with a value and a condition. *)
Theorem c78_no_number : forall k vars text a e q b, (0 <= k <= 33)%Z -> (exists s, vars_hold vars s) ->
  arithmetic_text text a -> condition_text text e -> avalue vars a = Some q -> bvalue vars e = Some b ->
  stays vars 100 k a -> bstays vars 100 k e -> False.
Proof.
  intros k vars text a e q b Hk [s Hs] T1 T2 V1 V2 S1 S2.
  assert (E : exp_letter demo) by (exists "E"%char, []; split; [reflexivity|left; vm_compute; split; discriminate]).
  assert (H3 : (3 * k + 1 <= l_prec demo)%Z) by (change (l_prec demo) with 100%Z; lia).
  destruct (c74_expression demo vars k text a q _ plain_flags s E c46_pow_ex (proj1 Hk) H3 Hs T1 V1 S1 (Nat.lt_succ_diag_r _) eq_refl) as (i1 & x & R1 & _).
  destruct (condition_answer demo vars k text e b _ plain_flags s E c46_pow_ex (proj1 Hk) H3 Hs T2 V2 S2 (Nat.lt_succ_diag_r _) eq_refl) as [i2 R2].
  rewrite R1 in R2. clear - R2. congruence.
Qed.
Print Assumptions c78_no_number.

(** * A case meeting the hypotheses *)
Definition ex_cond : bexp :=
  BJoin Xor (BJoin And (BCmp Less (AVar ($"x")) (ABin Plus (ANum (dig "2")) (ANum (dig "3")))) (BCmp Unequal (ANum (dig "1")) (ANum (dig "2"))))
    (BNot (BJoin Or (BTruth true) (BCmp AtLeast (AVar ($"x")) (ANum (dig "4"))))).
Definition ex_cond_text : str := $" x<2 + 3 and 1!= 2 xor not  (True or x >=4 )".
Definition ex_cond_vars (n : str) : option Q := if seq_eqb n ($"x") then Some (3 # 1)%Q else None.
Definition ex_cond_state : st := mkSt [($"x", (VNum (mkNum 3 1 None None), None))] None.
Lemma ex_up j k t e : j <= k -> decides j t e -> decides k t e.
Proof. induction 1; auto using decides_looser. Qed.
Lemma ex_cmp c t1 i j t2 a b text : text = t1 ++ gap i ++ csym c ++ gap j ++ t2 -> reads 4 t1 a -> reads 4 t2 b -> decides 1 text (BCmp c a b).
Proof. intros -> A B. apply decides_cmp; auto using ex_blank. Qed.
Lemma ex_join o t1 i j t2 a b text : text = t1 ++ gap (S i) ++ jsym o ++ gap (S j) ++ t2 -> decides 2 t1 a -> decides 1 t2 b -> decides 2 text (BJoin o a b).
Proof. intros -> A B. apply decides_join; auto using ex_blank; discriminate. Qed.
Lemma ex_dig i : forallb is_digit ($i) = true -> $i <> [] -> reads 4 ($i) (ANum (dig i)).
Proof. intros H N. apply (ex_level 0); [lia|]. now apply ex_num. Qed.
Lemma ex_var_x : reads 4 ($"x") (AVar ($"x")).
Proof. apply (ex_level 0); [lia|]. destruct ex_x as [N T]. now apply reads_var. Qed.
Example c78_reads_ex : condition_text ex_cond_text ex_cond.
Proof.
  exists (gap 1), ($"x<2 + 3 and 1!= 2 xor not  (True or x >=4 )"), []. split; [reflexivity|]. split; [apply (ex_blank 1)|]. split; [constructor|].
  apply (ex_join Xor ($"x<2 + 3 and 1!= 2") 0 0 ($"not  (True or x >=4 )")); [reflexivity| |].
  - apply (ex_join And ($"x<2 + 3") 0 0 ($"1!= 2")); [reflexivity| |].
    + apply (ex_up 1); [lia|]. apply (ex_cmp Less ($"x") 0 0 ($"2 + 3")); [reflexivity|exact ex_var_x|].
      apply (ex_bin Plus ($"2") 1 1 ($"3")); [reflexivity|exact I|now apply (ex_dig "2")|]. apply (ex_level 0); [cbn; lia|]. now apply (ex_num "3").
    + apply (ex_cmp Unequal ($"1") 0 1 ($"2")); [reflexivity|now apply (ex_dig "1")|now apply (ex_dig "2")].
  - apply (decides_not (gap 2) ($"(True or x >=4 )")); [apply (ex_blank 2)|discriminate|]. apply (decides_paren [] ($"True or x >=4") (gap 1)); [constructor|apply (ex_blank 1)|].
    apply (ex_join Or ($"True") 0 0 ($"x >=4")); [reflexivity| |].
    + apply (ex_up 0); [lia|]. apply (decides_truth ($"True") true). reflexivity.
    + apply (ex_cmp AtLeast ($"x") 1 0 ($"4")); [reflexivity|exact ex_var_x|now apply (ex_dig "4")].
Qed.
Example c78_ex : vars_hold ex_cond_vars ex_cond_state /\ bstays ex_cond_vars (l_prec demo) 33 ex_cond /\ bvalue ex_cond_vars ex_cond = Some true /\
  answer "x = 3; x<2 + 3 and 1!= 2 xor not  (True or x >=4 )" = "True"%string.
Proof.
  split.
  - intros n q. unfold ex_cond_vars. destruct (seq_eqb n ($"x")) eqn:E; [|discriminate]. intros H. injection H as <-. apply seq_eqb_iff in E. subst n.
    exists (mkNum 3 1 None None). split; [reflexivity|]. split; [reflexivity|]. split; [apply gcd1_lowest; reflexivity|]. split; [reflexivity|discriminate].
  - split; [vm_compute; intuition (reflexivity || discriminate)|]. vm_compute. split; reflexivity.
Qed.

(** * Where it is not as one may expect *)
(** [and] does not bind tighter than [or]. *)
Theorem c78_and_first_refuted : answer "true or true and false" = "False"%string /\ answer "true or (true and false)" = "True"%string.
Proof. vm_compute. split; reflexivity. Qed.
Print Assumptions c78_and_first_refuted.
(** [not] binds tighter than the comparisons: it does not negate one without parentheses. *)
Theorem c78_not_last_refuted : answer "not (1 == 2)" = "True"%string /\ answer "not 1 == 2" <> "True"%string.
Proof. vm_compute. split; [reflexivity|discriminate]. Qed.
Print Assumptions c78_not_last_refuted.
(** The bound on the sizes is needed: a third is taken to be equal to its first hundred places. *)
Theorem c78_equal_refuted : exists d, Forall (fun c => c = "3"%char) ($d) /\ (~ 3 * spec_val (mkLit false ($"0") (Some ($d))) == 1)%Q /\
  answer ("1 / 3 == 0." ++ d) = "True"%string.
Proof.
  exists "3333333333333333333333333333333333333333333333333333333333333333333333333333333333333333333333333333"%string.
  split; [repeat constructor|]. split; [vm_compute; discriminate|vm_compute; reflexivity].
Qed.
Print Assumptions c78_equal_refuted.
