(** C74: arithmetic, written as in books, gives what it is worth. *)
From Coq Require Import ZArith QArith Qpower Ascii String List Bool Lia.
From Verif Require Import Base Dec Num NumSpec NumProofs3 Lex LexSpec Bases Formats Units Syntax Call Parse Exec Std StdRun VarNameSpec ArithTextSpec ArithRunSpec ArithTextProofs5 ArithTextProofs7 Prop_Ints.
Import ListNotations.
Open Scope nat_scope.

(** One expression: any text of it, with any blanks and superfluous parentheses, gives exactly its value, in lowest terms,
    and changes nothing, shown in the format of its first formatted operand, if all values on the way have at most [k] digits above and below the line and the precision is
    more than three times that, where it rounds to whole numbers more than four times that. *)
Theorem c74_expression : forall L vars k text e q n fl s,
  exp_letter L -> pow_ok (l_prec L) (f_pow (l_fmt L)) -> (0 <= k)%Z -> (3 * k + 1 <= l_prec L)%Z -> vars_hold vars s ->
  arithmetic_text text e -> avalue vars e = Some q -> stays vars (l_prec L) k e -> length text < n -> cf_parse_only fl = false ->
  exists items x, calculate (std L) n fl text s =
      (CDone [mkCR items (Some (VNum x, None)) (if cf_state fl then Some (s_vars s) else None)], s) /\
    good x /\ lowest x /\ (val x == q)%Q /\ ncast x = aformat (shown_as s) e.
Proof. exact text_answer. Qed.
Print Assumptions c74_expression.

(** A text has one meaning: read in two ways it is worth the same. *)
Theorem c74_one_meaning : forall k vars text e1 e2 q1 q2, (0 <= k <= 33)%Z ->
  (exists s, vars_hold vars s) ->
  arithmetic_text text e1 -> arithmetic_text text e2 -> avalue vars e1 = Some q1 -> avalue vars e2 = Some q2 ->
  stays vars 100 k e1 -> stays vars 100 k e2 -> (q1 == q2)%Q.
Proof.
  intros k vars text e1 e2 q1 q2 Hk [s Hs] T1 T2 V1 V2 S1 S2.
  assert (E : exp_letter demo) by (exists "E"%char, []; split; [reflexivity|left; vm_compute; split; discriminate]).
  assert (H3 : (3 * k + 1 <= l_prec demo)%Z) by (change (l_prec demo) with 100%Z; lia).
  destruct (text_answer demo vars k text e1 q1 _ plain_flags s E c46_pow_ex (proj1 Hk) H3 Hs T1 V1 S1 (Nat.lt_succ_diag_r _) eq_refl) as [i1 [x1 [R1 [_ [_ [W1 _]]]]]].
  destruct (text_answer demo vars k text e2 q2 _ plain_flags s E c46_pow_ex (proj1 Hk) H3 Hs T2 V2 S2 (Nat.lt_succ_diag_r _) eq_refl) as [i2 [x2 [R2 [_ [_ [W2 _]]]]]].
  rewrite R1 in R2. assert (X : x1 = x2) by (clear - R2; congruence). subst x2. rewrite <- W1. exact W2.
Qed.
Print Assumptions c74_one_meaning.

(** Programs: lines that are blank, expressions, or assignments.  Every line answers what it is worth with what the lines
    before it assigned, the variables end with the values assigned last, and no other variable is touched. *)
Theorem c74_program : forall L vars k texts ls n fl s,
  exp_letter L -> pow_ok (l_prec L) (f_pow (l_fmt L)) -> (0 <= k)%Z -> (3 * k + 1 <= l_prec L)%Z ->
  Forall2 line_reads texts ls -> lines_text texts <> [] -> vars_hold vars s -> all_ordinary s -> s_lft s = None ->
  all_stay vars (l_prec L) k ls -> length (lines_text texts) < n -> cf_parse_only fl = false -> cf_stl fl = false ->
  exists rs s', calculate (std L) n fl (lines_text texts) s = (CDone rs, s') /\ Forall2 answers_with (answers vars ls) rs /\
    vars_hold (vars_end vars ls) s' /\ all_ordinary s' /\ s_lft s' = None /\
    (forall m, (forall e, ~ In (LSet m e) ls) -> assoc m (s_vars s') = assoc m (s_vars s)) /\
    Forall2 answers_as (formats_along (shown_as s) ls) rs.
Proof. exact program_runs. Qed.
Print Assumptions c74_program.

(** * A case meeting the hypotheses *)
Definition dig (i : string) : declit := mkLit false ($i) None.
Definition ex_lines : list aline :=
  [LSet ($"x") (ABin Plus (ANum (dig "2")) (ABin Times (ANum (dig "3")) (ANum (dig "4"))));
   LBlank;
   LSet ($"y") (ABin Over (ABin Power (ABin Minus (AVar ($"x")) (ANum (dig "4"))) (ANum (dig "2"))) (ANum (mkLit true ($"3") None)));
   LExp (ABin Beside (ABin Beside (AVar ($"y")) (AVar ($"x"))) (ABin Plus (ANum (dig "1")) (ANum (dig "1"))))].
Definition ex_texts : list str := [$"x = 2+3 * 4"; $" "; $"y=( x - 4) ^ 2 / -3"; $"y x (1 + 1)"].

Lemma ex_num i : forallb is_digit ($i) = true -> $i <> [] -> reads 0 ($i) (ANum (dig i)).
Proof.
  intros H N. assert (E : $i = lit_text (dig i)) by (unfold lit_text; cbn; now rewrite app_nil_r).
  rewrite E at 1. apply reads_num. split; [exact N|]. split; [exact H|exact I].
Qed.
Lemma ex_level j k t e : j <= k -> reads j t e -> reads k t e.
Proof. induction 1; auto using reads_looser. Qed.
Lemma Forall2_len (A B : Type) (R : A -> B -> Prop) a b : Forall2 R a b -> length a = length b.
Proof. induction 1; cbn; congruence. Qed.
Lemma ex_free c : letter c -> ~ In c (map (fun n => hd c n) constant_names) -> ~ taken [c].
Proof.
  intros Hl Hn [H|[H|[H|[[r H]|[[w [Hw [r [H _]]]]|[w [Hw [r [H _]]]]]]]]].
  - cbn in H. repeat (destruct H as [H|H]; [discriminate H|]). exact H.
  - apply Forall2_len in H. discriminate H.
  - apply Forall2_len in H. discriminate H.
  - discriminate H.
  - cbn in Hw. destruct Hw as [<-|[<-|[<-|[]]]]; cbn in Hn, H; try discriminate H. injection H as E _. apply Hn. now left.
  - cbn in Hw. repeat (destruct Hw as [<-|Hw]; [discriminate H|]). exact Hw.
Qed.
Lemma ex_x : is_name ($"x") /\ ~ taken ($"x").
Proof.
  assert (H : letter "x"%char) by (right; vm_compute; split; discriminate).
  split; [exists "x"%char, []; auto|]. apply ex_free; [exact H|]. cbn. intuition discriminate.
Qed.
Lemma ex_y : is_name ($"y") /\ ~ taken ($"y").
Proof.
  assert (H : letter "y"%char) by (right; vm_compute; split; discriminate).
  split; [exists "y"%char, []; auto|]. apply ex_free; [exact H|]. cbn. intuition discriminate.
Qed.
Lemma ex_blank k : blank_text (gap k).
Proof. induction k; constructor; [split; [reflexivity|discriminate]|assumption]. Qed.
Lemma ex_bin o t1 i j t2 a b text : text = t1 ++ gap i ++ osym o ++ gap j ++ t2 -> joint o (gap i) (gap j) t2 ->
  reads (olevel o) t1 a -> reads (pred (olevel o)) t2 b -> reads (olevel o) text (ABin o a b).
Proof. intros -> J A B. apply reads_bin; auto using ex_blank. Qed.
Lemma ex_whole text e : reads 4 text e -> arithmetic_text text e.
Proof. intros H. exists [], text, []. rewrite app_nil_r. split; [reflexivity|]. split; [constructor|]. split; [constructor|exact H]. Qed.

Example c74_reads_ex : Forall2 line_reads ex_texts ex_lines.
Proof.
  destruct ex_x as [Nx Tx], ex_y as [Ny Ty].
  repeat apply Forall2_cons; [..|apply Forall2_nil].
  - apply (line_set [] ($"x") (gap 1) ($" 2+3 * 4")); [constructor|assumption|assumption|apply ex_blank|].
    exists (gap 1), ($"2+3 * 4"), []. split; [reflexivity|]. split; [apply ex_blank|]. split; [constructor|].
    apply (ex_bin Plus ($"2") 0 0 ($"3 * 4")); [reflexivity|exact I| |].
    + apply (ex_level 0); [lia|]. now apply (ex_num "2").
    + apply (ex_bin Times ($"3") 1 1 ($"4")); [reflexivity|exact I| |].
      * apply (ex_level 0); [cbn; lia|]. now apply (ex_num "3").
      * apply (ex_level 0); [cbn; lia|]. now apply (ex_num "4").
  - constructor. apply (ex_blank 1).
  - apply (line_set [] ($"y") [] ($"( x - 4) ^ 2 / -3")); [constructor|assumption|assumption|constructor|].
    apply ex_whole. apply (ex_level 3); [lia|].
    apply (ex_bin Over ($"( x - 4) ^ 2") 1 1 ($"-3")); [reflexivity|exact I| |].
    + apply (ex_level 1); [cbn; lia|]. apply (ex_bin Power ($"( x - 4)") 1 1 ($"2")); [reflexivity|exact I| |].
      * apply (ex_level 0); [cbn; lia|]. apply (reads_paren (gap 1) ($"x - 4") []); [apply ex_blank|constructor|].
        apply (ex_bin Minus ($"x") 1 1 ($"4")); [reflexivity|discriminate| |].
        -- apply (ex_level 0); [lia|]. now apply reads_var.
        -- apply (ex_level 0); [cbn; lia|]. now apply (ex_num "4").
      * apply (ex_level 0); [cbn; lia|]. now apply (ex_num "2").
    + apply (ex_level 0); [cbn; lia|]. apply (reads_num (mkLit true ($"3") None)). repeat split; discriminate.
  - constructor. apply ex_whole. apply (ex_level 2); [lia|].
    apply (ex_bin Beside ($"y x") 1 0 ($"(1 + 1)")); [reflexivity|split; [discriminate|]; split; [reflexivity|now left]| |].
    + apply (ex_bin Beside ($"y") 1 0 ($"x")); [reflexivity| | |].
      * split; [discriminate|]. split; [reflexivity|]. right; left. right. vm_compute. split; discriminate.
      * apply (ex_level 0); [cbn; lia|]. now apply reads_var.
      * apply (ex_level 0); [cbn; lia|]. now apply reads_var.
    + apply (ex_level 0); [cbn; lia|]. apply (reads_paren [] ($"1 + 1") []); [constructor|constructor|].
      apply (ex_bin Plus ($"1") 1 1 ($"1")); [reflexivity|exact I| |].
      * apply (ex_level 0); [lia|]. now apply (ex_num "1").
      * apply (ex_level 0); [cbn; lia|]. now apply (ex_num "1").
Qed.
Example c74_ex : exp_letter demo /\ pow_ok (l_prec demo) (f_pow (l_fmt demo)) /\ (3 * 30 + 1 <= l_prec demo)%Z /\
  all_stay (fun _ => None) (l_prec demo) 30 ex_lines /\ all_ordinary start /\ vars_hold (fun _ => None) start /\
  map (option_map Qred) (answers (fun _ => None) ex_lines) = [Some (14 # 1); None; Some (-100 # 3); Some (-2800 # 3)]%Q.
Proof.
  split; [exists "E"%char, []; split; [reflexivity|left; vm_compute; split; discriminate]|].
  split; [exact c46_pow_ex|]. split; [vm_compute; discriminate|]. split; [vm_compute; intuition (reflexivity || discriminate)|].
  split; [intros ? ? ? H; discriminate H|]. split; [intros ? ? H; discriminate H|]. vm_compute. reflexivity.
Qed.
Example c74_same_ex : answer "x = 2+3 * 4; ;y=( x - 4) ^ 2 / -3;y x (1 + 1)" = answer "-2800/3" /\
  vars_after "x = 2+3 * 4; ;y=( x - 4) ^ 2 / -3;y x (1 + 1)" = [("x", "14"); ("y", show (VNum (mkNum (-100) 3 None None)))]%string.
Proof. vm_compute. split; reflexivity. Qed.

(** Calls of functions, with blanks about the arguments *)
Definition ex_call : aexp :=
  ABin Plus (ACall Floor (ABin Over (ANum (dig "7")) (ANum (dig "2"))))
    (ABin Times (ACall2 Gcd (ANum (dig "12")) (ACall Fact (ANum (dig "3")))) (ACall Round (ANum (mkLit true ($"2") (Some ($"5")))))).
Definition ex_call_text : str := $"floor(7 / 2)+gcd( 12,fact(3) )*round( -2.5)".
Example c74_call_ex : arithmetic_text ex_call_text ex_call /\ stays (fun _ => None) (l_prec demo) 24 ex_call /\
  option_map Qred (avalue (fun _ => None) ex_call) = Some (-15 # 1)%Q /\ answer "floor(7 / 2)+gcd( 12,fact(3) )*round( -2.5)" = "-15"%string.
Proof.
  split; [|split; [vm_compute; intuition (reflexivity || discriminate)|vm_compute; split; reflexivity]].
  apply ex_whole. apply (ex_bin Plus ($"floor(7 / 2)") 0 0 ($"gcd( 12,fact(3) )*round( -2.5)")); [reflexivity|exact I| |].
  - apply (ex_level 0); [cbn; lia|]. apply (reads_call Floor [] ($"7 / 2") []); [constructor|constructor|]. apply (ex_level 3); [lia|].
    apply (ex_bin Over ($"7") 1 1 ($"2")); [reflexivity|exact I| |]; (apply (ex_level 0); [cbn; lia|]); [now apply (ex_num "7")|now apply (ex_num "2")].
  - apply (ex_bin Times ($"gcd( 12,fact(3) )") 0 0 ($"round( -2.5)")); [reflexivity|exact I| |]; (apply (ex_level 0); [cbn; lia|]).
    + apply (reads_call2 Gcd (gap 1) ($"12") [] [] ($"fact(3)") (gap 1)); try constructor; try apply ex_blank; try (split; [reflexivity|discriminate]); try constructor.
      * apply (ex_level 0); [lia|]. now apply (ex_num "12").
      * apply (ex_level 0); [lia|]. apply (reads_call Fact [] ($"3") []); [constructor|constructor|]. apply (ex_level 0); [lia|]. now apply (ex_num "3").
    + apply (reads_call Round (gap 1) ($"-2.5") []); [apply ex_blank|constructor|]. apply (ex_level 0); [lia|].
      apply (reads_num (mkLit true ($"2") (Some ($"5")))). repeat split; discriminate.
Qed.

(** * Where it is not as in books *)
(** Powers of powers group to the left: 2^3^2 is 64, not 2^(3^2). *)
Theorem c74_powers_right_refuted : answer "2^3^2" = "64"%string /\ answer "2^(3^2)" = "512"%string.
Proof. vm_compute. split; reflexivity. Qed.
Print Assumptions c74_powers_right_refuted.
(** A sign belongs to the numeral: -2^2 is 4; after an operand it is the operator, and 0-2^2 is -4. *)
Theorem c74_sign_last_refuted : answer "-2^2" = "4"%string /\ answer "0-2^2" = "-4"%string.
Proof. vm_compute. split; reflexivity. Qed.
Print Assumptions c74_sign_last_refuted.
(** The bound on the sizes is needed: with a precision of 100 digits adding 1 to 10^101 is lost. *)
Theorem c74_exact_refuted : answer "(10 ^ 101 + 1 - 10 ^ 101) * 1" = "0"%string.
Proof. vm_compute. reflexivity. Qed.
Print Assumptions c74_exact_refuted.
(** Variables shown as percentages are left out: they are rounded to whole percents, so that 150% stays 150%, 1.5 becomes 1. *)
Theorem c74_percent_refuted : answer "x = 150%;floor(x) * 1" = "150%"%string /\ answer "x = 1.5;floor(x) * 1" = "1"%string.
Proof. vm_compute. split; reflexivity. Qed.
Print Assumptions c74_percent_refuted.
