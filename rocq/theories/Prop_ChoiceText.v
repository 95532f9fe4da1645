(** C79: [then ... else] takes the branch that is chosen. *)
From Coq Require Import ZArith QArith Qpower Ascii String List Bool Lia.
From Verif Require Import Base BaseProofs Dec Num NumSpec NumProofs NumProofs3 Lex LexSpec Bases Formats Units Syntax Call Parse Exec Std StdRun VarNameSpec ArithTextSpec ArithRunSpec ArithErrSpec CondTextSpec ChoiceTextSpec ChoiceTextProofs2 Prop_Ints Prop_ArithText Prop_CondText.
Import ListNotations.
Open Scope nat_scope.

(** Any text of a choice, with any blanks and parentheses and choices within the branches, answers with the value of the arithmetic
    that is chosen, whatever becomes of the arithmetic that is not, and changes nothing. *)
Theorem c79_value : forall L vars k text e a q n fl s,
  exp_letter L -> pow_ok (l_prec L) (f_pow (l_fmt L)) -> (0 <= k /\ 1 <= f_places (l_fmt L) /\ k + f_places (l_fmt L) <= l_prec L)%Z -> (3 * k + 1 <= l_prec L)%Z ->
  vars_exactly vars s -> choice_text text e -> csized vars (l_prec L) k e -> length text < n -> cf_parse_only fl = false ->
  chosen vars e = Some a -> judge vars a = Worth q ->
  exists items x, calculate (std L) n fl text s = (CDone [mkCR items (Some (VNum x, None)) (if cf_state fl then Some (s_vars s) else None)], s) /\ (val x == q)%Q.
Proof.
  intros L vars k text e a q n fl s H1 H2 H3 H4 H5 H6 H7 H8 H9 Hc Hj. pose proof (choice_judged L vars k text e n fl s H1 H2 H3 H4 H5 H6 H7 H8 H9) as R. unfold cjudge in R. rewrite Hc, Hj in R. exact R.
Qed.
Print Assumptions c79_value.
(** It is an error if the chosen arithmetic goes wrong, and only then: the other errors are not reported. *)
Theorem c79_wrong : forall L vars k text e n fl s,
  exp_letter L -> pow_ok (l_prec L) (f_pow (l_fmt L)) -> (0 <= k /\ 1 <= f_places (l_fmt L) /\ k + f_places (l_fmt L) <= l_prec L)%Z -> (3 * k + 1 <= l_prec L)%Z ->
  vars_exactly vars s -> choice_text text e -> csized vars (l_prec L) k e -> length text < n -> cf_parse_only fl = false ->
  exists a, chosen vars e = Some a /\
  ((exists its nx tr, calculate (std L) n fl text s = (CFail false [] [its] nx tr, s)) <-> judge vars a = Wrong) /\
  (judge vars a = Unset -> exists items, calculate (std L) n fl text s = (CDone [mkCR items (Some (VNone, None)) (if cf_state fl then Some (s_vars s) else None)], s)).
Proof.
  intros L vars k text e n fl s H1 H2 H3 H4 H5 H6 H7 H8 H9. pose proof (choice_judged L vars k text e n fl s H1 H2 H3 H4 H5 H6 H7 H8 H9) as R. unfold cjudge in R.
  destruct (chosen vars e) as [a|]; [|destruct R]. exists a. split; [reflexivity|]. destruct (judge vars a) as [q| | |]; [..|destruct R].
  - destruct R as (i & x & R & _). split; [|discriminate]. split; [|discriminate]. intros (j & nx & tr & E). rewrite R in E. discriminate E.
  - destruct R as (i & R). split; [|intros _; exists i; exact R]. split; [|discriminate]. intros (j & nx & tr & E). rewrite R in E. discriminate E.
  - split; [|discriminate]. split; [reflexivity|intros _; exact R].
Qed.
Print Assumptions c79_wrong.
(** A text means one choice: read in two ways, the same comes of it. *)
Theorem c79_one_meaning : forall k vars text e1 e2 a1 a2, (0 <= k <= 33)%Z -> (exists s, vars_exactly vars s) ->
  choice_text text e1 -> choice_text text e2 -> csized vars 100 k e1 -> csized vars 100 k e2 -> chosen vars e1 = Some a1 -> chosen vars e2 = Some a2 ->
  match judge vars a1, judge vars a2 with Worth x, Worth y => (x == y)%Q | u, v => u = v end.
Proof.
  intros k vars text e1 e2 a1 a2 Hk [s Hs] T1 T2 S1 S2 C1 C2.
  assert (E : exp_letter demo) by (exists "E"%char, []; split; [reflexivity|left; vm_compute; split; discriminate]).
  assert (H2 : (0 <= k /\ 1 <= f_places (l_fmt demo) /\ k + f_places (l_fmt demo) <= l_prec demo)%Z) by (change (l_prec demo) with 100%Z; change (f_places (l_fmt demo)) with 30%Z; lia).
  assert (H3 : (3 * k + 1 <= l_prec demo)%Z) by (change (l_prec demo) with 100%Z; lia).
  pose proof (choice_judged demo vars k text e1 _ plain_flags s E c46_pow_ex H2 H3 Hs T1 S1 (Nat.lt_succ_diag_r _) eq_refl) as R1.
  pose proof (choice_judged demo vars k text e2 _ plain_flags s E c46_pow_ex H2 H3 Hs T2 S2 (Nat.lt_succ_diag_r _) eq_refl) as R2.
  unfold cjudge in R1, R2. rewrite C1 in R1. rewrite C2 in R2. revert R1 R2. generalize (calculate (std demo) (S (length text)) plain_flags text s). intros r R1 R2. clear - R1 R2.
  destruct (judge vars a1) as [x| | |], (judge vars a2) as [y| | |]; try reflexivity; try destruct R1; try destruct R2.
  - destruct H as (u & -> & U). destruct H0 as (v & E & V). assert (u = v) by congruence. subst v. apply (Qeq_trans _ (val u)); [apply Qeq_sym, U|exact V].
  - destruct H as (u & -> & U). congruence.
  - destruct H as (u & -> & U). destruct H0 as (v & w & E). congruence.
  - destruct H0 as (v & E & V). congruence.
  - destruct H0 as (v & w & E). congruence.
  - destruct H as (v & w & E). destruct H0 as (u & E' & _). congruence.
  - destruct H as (v & w & E). congruence.
Qed.
Print Assumptions c79_one_meaning.

(** * A case meeting the hypotheses: the divisions by zero are not reported *)
Definition ex_zero : aexp := ABin Over (AVar ($"x")) (ANum (dig "0")).
Definition ex_choice : cexp :=
  CIf (BJoin And (BCmp Less (AVar ($"x")) (ANum (dig "5"))) (BNot (BTruth false)))
    (CIf (BCmp Equal (AVar ($"x")) (ANum (dig "4"))) (CNum ex_zero) (CNum (ABin Times (AVar ($"x")) (ANum (dig "7"))))) (CNum ex_zero).
Definition ex_choice_text : str := $" x < 5 and not false then ( x == 4 then x / 0 else x * 7) else x / 0 ".
Lemma ex_if t1 i1 i2 t2 i3 i4 t3 c x y text : text = t1 ++ gap (S i1) ++ $"then" ++ gap (S i2) ++ t2 ++ gap (S i3) ++ $"else" ++ gap (S i4) ++ t3 ->
  decides 2 t1 c -> chooses 0 t2 x -> chooses 0 t3 y -> chooses 1 text (CIf c x y).
Proof. intros -> A B C. apply chooses_if; auto using ex_blank; discriminate. Qed.
Example c79_reads_ex : choice_text ex_choice_text ex_choice.
Proof.
  assert (Z : chooses 0 ($"x / 0") (CNum ex_zero)).
  { apply chooses_num. apply (ex_level 3); [lia|]. apply (ex_bin Over ($"x") 1 1 ($"0")); [reflexivity|exact I| |]; (apply (ex_level 0); [cbn; lia|]); [|now apply (ex_num "0")].
    destruct ex_x as [N T]. now apply reads_var. }
  exists (gap 1), ($"x < 5 and not false then ( x == 4 then x / 0 else x * 7) else x / 0"), (gap 1). split; [reflexivity|]. split; [apply (ex_blank 1)|]. split; [apply (ex_blank 1)|].
  apply (ex_if ($"x < 5 and not false") 0 0 ($"( x == 4 then x / 0 else x * 7)") 0 0 ($"x / 0")); [reflexivity| | |exact Z].
  - apply (ex_join And ($"x < 5") 0 0 ($"not false")); [reflexivity| |].
    + apply (ex_up 1); [lia|]. apply (ex_cmp Less ($"x") 1 1 ($"5")); [reflexivity|exact ex_var_x|now apply (ex_dig "5")].
    + apply (decides_not (gap 1) ($"false")); [apply (ex_blank 1)|discriminate|]. apply (decides_truth ($"false") false). reflexivity.
  - apply (chooses_paren (gap 1) ($"x == 4 then x / 0 else x * 7") []); [apply (ex_blank 1)|constructor|].
    apply (ex_if ($"x == 4") 0 0 ($"x / 0") 0 0 ($"x * 7")); [reflexivity| |exact Z|].
    + apply (ex_up 1); [lia|]. apply (ex_cmp Equal ($"x") 1 1 ($"4")); [reflexivity|exact ex_var_x|now apply (ex_dig "4")].
    + apply chooses_num. apply (ex_level 3); [lia|]. apply (ex_bin Times ($"x") 1 1 ($"7")); [reflexivity|exact I| |]; (apply (ex_level 0); [cbn; lia|]); [|now apply (ex_num "7")].
      destruct ex_x as [N T]. now apply reads_var.
Qed.
Example c79_ex : vars_exactly ex_cond_vars ex_cond_state /\ csized ex_cond_vars (l_prec demo) 33 ex_choice /\
  (exists a, chosen ex_cond_vars ex_choice = Some a /\ judge ex_cond_vars a = Worth 21) /\ judge ex_cond_vars ex_zero = Wrong /\
  answer "x = 3; x < 5 and not false then ( x == 4 then x / 0 else x * 7) else x / 0 " = "21"%string /\
  answer "x = 4; x < 5 and not false then ( x == 4 then x / 0 else x * 7) else x / 0 " = "execute error"%string.
Proof.
  split.
  - split; [exact (proj1 c78_ex)|]. intros n. unfold ex_cond_vars, ex_cond_state. cbn [s_vars assoc]. replace (seq_eqb ($"x") n) with (seq_eqb n ($"x")).
    + destruct (seq_eqb n ($"x")); [split; [discriminate|reflexivity]|reflexivity].
    + destruct (seq_eqb n ($"x")) eqn:E, (seq_eqb ($"x") n) eqn:F; try reflexivity; [apply seq_eqb_iff in E; subst n; discriminate F|apply seq_eqb_iff in F; subst n; discriminate E].
  - split; [vm_compute; intuition (reflexivity || discriminate)|]. split; [eexists; split; [reflexivity|vm_compute; reflexivity]|]. vm_compute. repeat split.
Qed.

(** * Where it is not as one may expect *)
(** Without parentheses a choice in the last branch is none: the words group to the left, and the number 1 is no condition. *)
Theorem c79_chain_refuted : answer "true then 1 else (true then 2 else 3)" = "1"%string /\ answer "true then 1 else true then 2 else 3" = "execute error"%string.
Proof. vm_compute. split; reflexivity. Qed.
Print Assumptions c79_chain_refuted.
(** Only errors are spared in the branch that is not taken: it is run all the same, and what it assigns stays. *)
Theorem c79_lazy_refuted : vars_after "true then 1 else (y = 5)" = [("y", "5")]%string /\ answer "true then 1 else (y = 5)" = "1"%string.
Proof. vm_compute. split; reflexivity. Qed.
Print Assumptions c79_lazy_refuted.
