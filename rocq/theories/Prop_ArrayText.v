(** C81: arrays of arithmetic and ranges, from the text to the answer. *)
From Coq Require Import ZArith QArith Qpower Ascii String List Bool Lia.
From Verif Require Import Base Dec Num NumSpec NumProofs3 Lex LexSpec Bases Formats Units Syntax Call Parse Exec Std StdRun VarNameSpec ArithTextSpec ArrayTextSpec ArithRunSpec ArrayRunSpec ArrayTextProofs2 Prop_Ints Prop_ArithText.
Import ListNotations.
Open Scope nat_scope.

(** An array written out answers the numbers its elements are worth, one after the other: arithmetic gives one number, exactly, in lowest
    terms and in the format of its first formatted operand, a range [a .. b] or [a .. b step c] the numbers from [a] by [c] as far as [b].
    Nothing is changed. *)
Theorem c81_array : forall L vars k text es n fl s,
  exp_letter L -> pow_ok (l_prec L) (f_pow (l_fmt L)) -> (0 <= k)%Z -> (6 * k + 3 <= l_prec L)%Z -> vars_hold vars s ->
  array_text text es -> Forall (element_stays vars (l_prec L) k) es -> length text < n -> cf_parse_only fl = false ->
  exists items ls, calculate (std L) n fl text s =
      (CDone [mkCR items (Some (VList (concat ls), None)) (if cf_state fl then Some (s_vars s) else None)], s) /\
    Forall2 (element_of vars (shown_as s)) es ls.
Proof. exact array_answer. Qed.
Print Assumptions c81_array.

(** * A case meeting the hypotheses *)
Definition ex_elements : list aelem :=
  [One (ABin Times (ANum (dig "2")) (ANum (dig "3"))); Range (ANum (dig "1")) (ANum (dig "3")); Stepped (ANum (dig "7")) (AVar ($"x")) (ANum (mkLit true ($"2") None))].
Definition ex_array : str := $" [2 * 3, 1 .. 3 ,7 ..x step -2 ] ".
Definition ex_state : st := mkSt [($"x", (VNum (mkNum 2 1 None None), None))] None.
Definition ex_vars : str -> option Q := fun n => if seq_eqb n ($"x") then Some 2%Q else None.
Lemma ex_lift k t e : reads 0 t e -> k <= 4 -> reads k t e.
Proof. intros H. induction k; intros Hk; [exact H|]. apply reads_looser, IHk. lia. Qed.
Lemma ex_framed b1 u b2 e : blank_text b1 -> blank_text b2 -> reads 4 u e -> stepless e -> part_text (b1 ++ u ++ b2) e.
Proof. intros H1 H2 H3 H4. split; [|exact H4]. exists b1, u, b2. auto. Qed.
Lemma ex_minus : reads 0 ($"-2") (ANum (mkLit true ($"2") None)).
Proof. apply (reads_num (mkLit true ($"2") None)). split; [discriminate|]. split; [reflexivity|exact I]. Qed.
Lemma ex_name_x : is_name ($"x") /\ ~ taken ($"x").
Proof. exact (conj (proj1 ex_x) (proj2 ex_x)). Qed.
Lemma ex_space : blank_text ($" ").
Proof. repeat constructor; discriminate. Qed.
Example c81_text_ex : array_text ex_array ex_elements.
Proof.
  destruct ex_name_x as [Nx Tx]. exists ($" "), ($"2 * 3, 1 .. 3 ,7 ..x step -2 "), ($" "). split; [reflexivity|]. split; [exact ex_space|]. split; [exact ex_space|].
  apply (elements_more ($"2 * 3") _ ($" 1 .. 3 ,7 ..x step -2 ")).
  { apply element_one. apply (ex_framed [] ($"2 * 3") []); [constructor|constructor| |split; exact I].
    apply reads_looser. apply (reads_bin Times ($"2") ($" ") ($" ") ($"3")); [exact ex_space|exact ex_space|exact I| |]; (apply ex_lift; [|cbn; lia]); now apply (ex_num _). }
  apply (elements_more ($" 1 .. 3 ") _ ($"7 ..x step -2 ")).
  { apply (element_range ($" 1 ") ($" 3 ")).
    - split; [|exact I]. exists ($" "), ($"1"), ($" "). split; [reflexivity|]. split; [exact ex_space|]. split; [exact ex_space|]. split; [discriminate|]. apply ex_lift; [now apply (ex_num "1")|lia].
    - apply (ex_framed ($" ") ($"3") ($" ")); [exact ex_space|exact ex_space| |exact I]. apply ex_lift; [now apply (ex_num "3")|lia]. }
  apply elements_last. apply (element_step ($"7 ") ($"x ") ($" ") ($"-2 ")).
  - split; [|exact I]. exists [], ($"7"), ($" "). split; [reflexivity|]. split; [constructor|]. split; [exact ex_space|]. split; [discriminate|]. apply ex_lift; [now apply (ex_num "7")|lia].
  - split; [|intros [y E]; discriminate E]. exists [], ($"x"), ($" "). split; [reflexivity|]. split; [constructor|]. split; [exact ex_space|]. split; [discriminate|]. apply ex_lift; [now apply reads_var|lia].
  - exact ex_space.
  - discriminate.
  - apply (ex_framed [] ($"-2") ($" ")); [constructor|exact ex_space| |exact I]. apply ex_lift; [exact ex_minus|lia].
Qed.
Example c81_ex : vars_hold ex_vars ex_state /\ Forall (element_stays ex_vars (l_prec demo) 16) ex_elements /\
  answer "x = 2; [2 * 3, 1 .. 3 ,7 ..x step -2 ] " = "[6;1;2;3;7;5;3;]"%string /\ answer "[1 / 4, 0.5 .. 2 step 1 / 2]" = "[0.25;0.5;1;1.5;2;]"%string.
Proof.
  split; [|split; [|split; vm_compute; reflexivity]].
  - intros n q E. unfold ex_vars in E. destruct (seq_eqb n ($"x")) eqn:En; [|discriminate E]. apply BaseProofs.seq_eqb_iff in En. subst n. injection E as <-. eexists. split; [reflexivity|]. split; [reflexivity|]. split; [intros d _ D; cbn in D; apply Z.divide_1_r in D; exact D|]. split; [reflexivity|discriminate].
  - repeat constructor; try (vm_compute; intuition (reflexivity || discriminate)).
Qed.
