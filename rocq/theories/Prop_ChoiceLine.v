(** C80: programs whose lines are choices, or assign them, with [=] or with [+=] and the like, or count up or down with [++] and [--]. *)
From Coq Require Import ZArith QArith Qpower Ascii String List Bool Lia.
From Verif Require Import Base BaseProofs Dec Num NumSpec NumProofs NumProofs3 Lex LexSpec Bases Formats Units Syntax Call Parse Exec Std StdRun VarNameSpec ArithTextSpec ArithRunSpec ArithErrSpec CondTextSpec ChoiceTextSpec ChoiceTextProofs2 ChoiceLineSpec ChoiceLineProofs Prop_Ints Prop_ArithText Prop_CondText Prop_ChoiceText.
Import ListNotations.
Open Scope nat_scope.

(** A program whose lines are blank, choices (or arithmetic), or assign them ([n = e], [n += e], [n -= e], [n *= e], [n /= e],
    [n ^= e]), or count ([n++], [n--]) answers every line with the value of the arithmetic that is chosen there, where the conditions and the branches see what was assigned before, and leaves the variables as assigned. *)
Theorem c80_program : forall L vars k texts ls n fl s,
  exp_letter L -> pow_ok (l_prec L) (f_pow (l_fmt L)) -> (0 <= k /\ 1 <= f_places (l_fmt L) /\ k + f_places (l_fmt L) <= l_prec L)%Z -> (3 * k + 1 <= l_prec L)%Z ->
  Forall2 cline_reads texts ls -> lines_text texts <> [] -> vars_exactly vars s -> s_lft s = None ->
  call_stay vars (l_prec L) k ls -> length (lines_text texts) < n -> cf_parse_only fl = false -> cf_stl fl = false ->
  exists rs s', calculate (std L) n fl (lines_text texts) s = (CDone rs, s') /\ Forall2 answers_with (canswers vars ls) rs /\
    vars_exactly (cvars_end vars ls) s' /\ s_lft s' = None.
Proof. exact cprogram_runs. Qed.
Print Assumptions c80_program.
(** The first line whose chosen arithmetic goes wrong (in [n += e] and [n++] also because [n] is not set) ends the program: the lines before it are answered and have assigned what they
    assign, it and the lines after it assign nothing. *)
Theorem c80_wrong : forall L vars k texts ls1 l ls2 n fl s,
  exp_letter L -> pow_ok (l_prec L) (f_pow (l_fmt L)) -> (0 <= k /\ 1 <= f_places (l_fmt L) /\ k + f_places (l_fmt L) <= l_prec L)%Z -> (3 * k + 1 <= l_prec L)%Z ->
  Forall2 cline_reads texts (ls1 ++ l :: ls2) -> vars_exactly vars s -> s_lft s = None -> call_stay vars (l_prec L) k ls1 ->
  cline_wrong (cvars_end vars ls1) (l_prec L) k l -> Forall (cline_numerals (l_prec L)) ls2 ->
  length (lines_text texts) < n -> cf_parse_only fl = false -> cf_stl fl = false ->
  exists rs its nx tr s', calculate (std L) n fl (lines_text texts) s = (CFail false rs its nx tr, s') /\ Forall2 answers_with (canswers vars ls1) rs /\
    length its = S (length ls1) /\ vars_exactly (cvars_end vars ls1) s' /\ s_lft s' = None.
Proof. exact cprogram_wrong. Qed.
Print Assumptions c80_wrong.

(** * A case meeting the hypotheses *)
Definition ex_after : cexp := CIf (BCmp Equal (AVar ($"y")) (ANum (dig "21"))) (CNum (ABin Plus (AVar ($"y")) (ANum (dig "1")))) (CNum (AVar ($"x"))).
Definition ex_less : cexp := CIf (BCmp More (AVar ($"x")) (AVar ($"y"))) (CNum (ANum (dig "1"))) (CNum (AVar ($"x"))).
Definition ex_clines : list cline := [KSet None ($"x") (CNum (ANum (dig "3"))); KSet None ($"y") ex_choice; KBlank; KExp ex_after; KSet (Some Over) ($"y") ex_less; KSet (Some Minus) ($"x") (CNum (AVar ($"y"))); KStep true ($"x"); KStep false ($"x"); KStep true ($"x")].
Definition ex_ctexts : list str := [$"x = 3"; $"y =" ++ ex_choice_text; $" "; $"y == 21 then y + 1 else x"; $"y /= x > y then 1 else x"; $"x-=y"; $"x++"; $"x -- "; $" x ++"].
Definition ex_bad : cline := KSet None ($"x") (CIf (BCmp More (AVar ($"y")) (ANum (dig "5"))) (CNum (ABin Over (AVar ($"y")) (ANum (dig "0")))) (CNum (ANum (dig "8")))).
Definition ex_unset : cline := KSet (Some Plus) ($"y") (CNum (ANum (dig "3"))).
Definition ex_uncounted : cline := KStep false ($"y").
Lemma ex_var_y : reads 4 ($"y") (AVar ($"y")).
Proof. destruct ex_y as [N T]. apply (ex_level 0); [lia|]. now apply reads_var. Qed.
Example c80_reads_ex : Forall2 cline_reads ex_ctexts ex_clines /\ cline_reads ($"x = y > 5 then y / 0 else 8") ex_bad.
Proof.
  destruct ex_x as [Nx Tx]. destruct ex_y as [Ny Ty]. split; [apply Forall2_cons; [|apply Forall2_cons; [|apply Forall2_cons; [|apply Forall2_cons; [|apply Forall2_cons; [|apply Forall2_cons; [|apply Forall2_cons; [|apply Forall2_cons; [|apply Forall2_cons; [|apply Forall2_nil]]]]]]]]]|].
  - apply (cline_set None [] ($"x") (gap 1) ($" 3")); [discriminate|constructor|exact Nx|exact Tx|apply (ex_blank 1)|]. exists (gap 1), ($"3"), []. split; [reflexivity|]. split; [apply (ex_blank 1)|]. split; [constructor|].
    apply chooses_any, chooses_num. now apply (ex_dig "3").
  - apply (cline_set None [] ($"y") (gap 1) ex_choice_text); [discriminate|constructor|exact Ny|exact Ty|apply (ex_blank 1)|exact c79_reads_ex].
  - apply cline_blank. apply (ex_blank 1).
  - apply cline_exp. exists [], ($"y == 21 then y + 1 else x"), []. split; [rewrite app_nil_r; reflexivity|]. split; [constructor|]. split; [constructor|].
    apply (ex_if ($"y == 21") 0 0 ($"y + 1") 0 0 ($"x")); [reflexivity| | |].
    + apply (ex_up 1); [lia|]. apply (ex_cmp Equal ($"y") 1 1 ($"21")); [reflexivity|exact ex_var_y|now apply (ex_dig "21")].
    + apply chooses_num. apply (ex_bin Plus ($"y") 1 1 ($"1")); [reflexivity|exact I| |]; (apply (ex_level 0); [cbn; lia|]); [now apply reads_var|now apply (ex_num "1")].
    + apply chooses_num. exact ex_var_x.
  - apply (cline_set (Some Over) [] ($"y") (gap 1) ($" x > y then 1 else x")); [discriminate|constructor|exact Ny|exact Ty|apply (ex_blank 1)|]. exists (gap 1), ($"x > y then 1 else x"), []. split; [reflexivity|]. split; [apply (ex_blank 1)|]. split; [constructor|].
    apply (ex_if ($"x > y") 0 0 ($"1") 0 0 ($"x")); [reflexivity| | |].
    + apply (ex_up 1); [lia|]. apply (ex_cmp More ($"x") 1 1 ($"y")); [reflexivity|exact ex_var_x|exact ex_var_y].
    + apply chooses_num. now apply (ex_dig "1").
    + apply chooses_num. exact ex_var_x.
  - apply (cline_set (Some Minus) [] ($"x") [] ($"y")); [discriminate|constructor|exact Nx|exact Tx|constructor|]. exists [], ($"y"), []. split; [reflexivity|]. split; [constructor|]. split; [constructor|].
    apply chooses_any, chooses_num. exact ex_var_y.
  - apply (cline_step true [] ($"x") [] []); [constructor|exact Nx|exact Tx|constructor|constructor].
  - apply (cline_step false [] ($"x") (gap 1) (gap 1)); [constructor|exact Nx|exact Tx|apply (ex_blank 1)|apply (ex_blank 1)].
  - apply (cline_step true (gap 1) ($"x") (gap 1) []); [apply (ex_blank 1)|exact Nx|exact Tx|apply (ex_blank 1)|constructor].
  - apply (cline_set None [] ($"x") (gap 1) ($" y > 5 then y / 0 else 8")); [discriminate|constructor|exact Nx|exact Tx|apply (ex_blank 1)|]. exists (gap 1), ($"y > 5 then y / 0 else 8"), []. split; [reflexivity|]. split; [apply (ex_blank 1)|]. split; [constructor|].
    apply (ex_if ($"y > 5") 0 0 ($"y / 0") 0 0 ($"8")); [reflexivity| | |].
    + apply (ex_up 1); [lia|]. apply (ex_cmp More ($"y") 1 1 ($"5")); [reflexivity|exact ex_var_y|now apply (ex_dig "5")].
    + apply chooses_num. apply (ex_level 3); [lia|]. apply (ex_bin Over ($"y") 1 1 ($"0")); [reflexivity|exact I| |]; (apply (ex_level 0); [cbn; lia|]); [now apply reads_var|now apply (ex_num "0")].
    + apply chooses_num. now apply (ex_dig "8").
Qed.
Example c80_ex : vars_exactly (fun _ => None) start /\ call_stay (fun _ => None) (l_prec demo) 33 ex_clines /\
  map (option_map Qred) (canswers (fun _ => None) ex_clines) = [Some 3; Some 21; None; Some 22; Some 7; Some (-4); Some (-3); Some (-4); Some (-3)]%Q /\
  cline_wrong (cvars_end (fun _ => None) ex_clines) (l_prec demo) 33 ex_bad /\ cline_wrong (fun _ => None) (l_prec demo) 33 ex_unset /\ cline_wrong (fun _ => None) (l_prec demo) 33 ex_uncounted /\
  answer "x = 3;y = x < 5 and not false then ( x == 4 then x / 0 else x * 7) else x / 0 ; ;y == 21 then y + 1 else x;y /= x > y then 1 else x;x-=y;x++;x -- ; x ++" = "-3"%string /\
  vars_after "x = 3;y = x < 5 and not false then ( x == 4 then x / 0 else x * 7) else x / 0 ;x = y > 5 then y / 0 else 8;y = 1" = [("x", "3"); ("y", "21")]%string /\
  answer "x = 3;y = x < 5 and not false then ( x == 4 then x / 0 else x * 7) else x / 0 ;x = y > 5 then y / 0 else 8;y = 1" = "execute error"%string /\
  answer "x = 3;y += 3" = "execute error"%string /\ answer "x = 3;y--" = "execute error"%string /\ vars_after "x = 3;y = 4;y /= x - 3" = [("x", "3"); ("y", "4")]%string.
Proof.
  split; [split; [intros n q E; discriminate E|intros n; reflexivity]|]. split; [vm_compute; intuition (reflexivity || discriminate)|]. split; [vm_compute; reflexivity|].
  split; [split; [vm_compute; intuition (reflexivity || discriminate)|eexists; split; [reflexivity|vm_compute; reflexivity]]|]. do 2 (split; [split; [vm_compute; intuition (reflexivity || discriminate)|eexists; split; [reflexivity|vm_compute; reflexivity]]|]).
  vm_compute. repeat split.
Qed.
