(** C76: arithmetic that goes wrong is an error, and nothing else is. *)
From Coq Require Import ZArith QArith Qpower Ascii String List Bool Lia.
From Verif Require Import Base Dec Num NumSpec NumProofs3 Lex LexSpec Bases Formats Units Syntax Call Parse Exec Std StdRun VarNameSpec ArithTextSpec ArithRunSpec ArithTextProofs5 ArithTextProofs7 Prop_Ints Prop_ArithText ArithErrSpec ArithErrProofs ArithErrProofs3 ArithErrProofs4.
Import ListNotations.
Open Scope nat_scope.

(** A text in which something is divided by zero, a function is given a number it is not defined for (the factorial of a
    number that is negative or not whole, the common divisor of numbers that are not whole), or a variable that has no
    value is computed with, however deep in it and whatever else is in it, gives an error and changes nothing, if the values there are on the way have at most [k] digits
    above and below the line, and numbers of that size can be printed. *)
Theorem c76_wrong : forall L vars k text e n fl s,
  exp_letter L -> pow_ok (l_prec L) (f_pow (l_fmt L)) -> (0 <= k /\ 1 <= f_places (l_fmt L) /\ k + f_places (l_fmt L) <= l_prec L)%Z -> (3 * k + 1 <= l_prec L)%Z ->
  vars_exactly vars s -> arithmetic_text text e -> sized vars (l_prec L) k e -> length text < n -> cf_parse_only fl = false ->
  judge vars e = Wrong -> exists its nx tr, calculate (std L) n fl text s = (CFail false [] [its] nx tr, s).
Proof. intros L vars k text e n fl s H1 H2 H3 H4 H5 H6 H7 H8 H9. exact (proj1 (text_judged L vars k text e n fl s H1 H2 H3 H4 H5 H6 H7 H8 H9)). Qed.
Print Assumptions c76_wrong.

(** Nothing else is an error: the answer to a text that does not go wrong is its value, or nothing for a variable without
    value. *)
Lemma sized_stays vars p k e q : sized vars p k e -> judge vars e = Worth q -> stays vars p k e /\ avalue vars e = Some q.
Proof.
  revert q. induction e as [l|n|o a IHa b IHb|f a IHa|f a IHa b IHb]; intros q Hs Hj.
  - cbn [judge] in Hj. injection Hj as <-. cbn [sized judge stays avalue] in *. auto.
  - cbn [judge] in Hj. cbn [sized judge stays avalue] in *. destruct (vars n) as [x|]; [|discriminate]. injection Hj as ->. tauto.
  - cbn [sized] in Hs. rewrite Hj in Hs. destruct Hs as (S0 & S1 & S2). cbn [judge] in Hj. destruct (judge vars a) as [x| | |]; destruct (judge vars b) as [y| | |]; try discriminate Hj.
    destruct (IHa x S1 eq_refl) as [A1 A2]. destruct (IHb y S2 eq_refl) as [B1 B2]. cbn [decide] in Hj. cbn [stays avalue]. rewrite A2, B2.
    destruct (match o with Over => Qeq_bool y 0 | _ => false end); [discriminate|]. destruct (apply_op o x y) as [r|]; [|discriminate]. injection Hj as ->. auto.
  - cbn [sized] in Hs. rewrite Hj in Hs. destruct Hs as (S0 & Rm & S1). cbn [judge] in Hj. destruct (judge vars a) as [x| | |]; try discriminate Hj.
    destruct (IHa x S1 eq_refl) as [A1 A2]. cbn [decide_fun] in Hj. cbn [stays avalue]. rewrite A2. destruct (apply_fun f x) as [r|]; [|discriminate]. injection Hj as ->. auto.
  - cbn [sized] in Hs. rewrite Hj in Hs. destruct Hs as (S0 & S1 & S2). cbn [judge] in Hj. destruct (judge vars a) as [x| | |]; destruct (judge vars b) as [y| | |]; try discriminate Hj.
    destruct (IHa x S1 eq_refl) as [A1 A2]. destruct (IHb y S2 eq_refl) as [B1 B2]. cbn [decide_fun2] in Hj. cbn [stays avalue]. rewrite A2, B2. destruct (apply_fun2 f x y) as [r|]; [|discriminate]. injection Hj as ->. auto.
Qed.
Theorem c76_nothing_else : forall L vars k text e n fl s,
  exp_letter L -> pow_ok (l_prec L) (f_pow (l_fmt L)) -> (0 <= k /\ 1 <= f_places (l_fmt L) /\ k + f_places (l_fmt L) <= l_prec L)%Z -> (3 * k + 1 <= l_prec L)%Z ->
  vars_exactly vars s -> arithmetic_text text e -> sized vars (l_prec L) k e -> length text < n -> cf_parse_only fl = false ->
  judge vars e <> Wrong -> judge vars e <> Open ->
  exists items v, calculate (std L) n fl text s = (CDone [mkCR items (Some (v, None)) (if cf_state fl then Some (s_vars s) else None)], s) /\
    match v with VNum x => exists q, judge vars e = Worth q /\ (val x == q)%Q | VNone => exists m, e = AVar m /\ vars m = None | _ => False end.
Proof.
  intros L vars k text e n fl s H1 H2 H3 H4 H5 H6 H7 H8 H9 Hw Ho. destruct (judge vars e) as [q| | |] eqn:Ej; try congruence.
  - destruct (sized_stays _ _ _ _ _ H7 Ej) as [St Av]. destruct (text_answer L vars k text e q n fl s H1 H2 (proj1 H3) H4 (proj1 H5) H6 Av St H8 H9) as (items & x & R & _ & _ & V & _).
    exists items, (VNum x). split; [exact R|]. exists q. auto.
  - destruct (proj2 (text_judged L vars k text e n fl s H1 H2 H3 H4 H5 H6 H7 H8 H9) Ej) as (items & R). exists items, VNone. split; [exact R|].
    destruct e as [l|m|o a b|f a|f a b]; cbn [judge] in Ej; [discriminate| | | |].
    + exists m. split; [reflexivity|]. destruct (vars m); [discriminate|reflexivity].
    + exfalso. destruct (judge vars a), (judge vars b); cbn [decide] in Ej; try discriminate Ej. destruct (match o with Over => _ | _ => false end); [discriminate Ej|]. destruct (apply_op o q q0); discriminate Ej.
    + exfalso. destruct (judge vars a); cbn [decide_fun] in Ej; try discriminate Ej. destruct (apply_fun f q); discriminate Ej.
    + exfalso. destruct (judge vars a), (judge vars b); cbn [decide_fun2] in Ej; try discriminate Ej. destruct (apply_fun2 f q q0); discriminate Ej.
Qed.
Print Assumptions c76_nothing_else.

(** In a program the lines before the one that goes wrong have their answers and their assignments; the line that goes wrong
    assigns nothing, and the lines after it are not run. *)
Theorem c76_program : forall L vars k texts ls1 l ls2 n fl s,
  exp_letter L -> pow_ok (l_prec L) (f_pow (l_fmt L)) -> (0 <= k /\ 1 <= f_places (l_fmt L) /\ k + f_places (l_fmt L) <= l_prec L)%Z -> (3 * k + 1 <= l_prec L)%Z ->
  Forall2 line_reads texts (ls1 ++ l :: ls2) -> vars_exactly vars s -> s_lft s = None -> all_stay vars (l_prec L) k ls1 ->
  line_wrong (vars_end vars ls1) (l_prec L) k l -> Forall (line_numerals (l_prec L)) ls2 ->
  length (lines_text texts) < n -> cf_parse_only fl = false -> cf_stl fl = false ->
  exists rs its nx tr s', calculate (std L) n fl (lines_text texts) s = (CFail false rs its nx tr, s') /\ Forall2 answers_with (answers vars ls1) rs /\
    length its = S (length ls1) /\ vars_exactly (vars_end vars ls1) s' /\ s_lft s' = None.
Proof. exact program_wrong. Qed.
Print Assumptions c76_program.

(** * A case meeting the hypotheses: [y = (x - 1) / (x - 2)] after [x = 2], before [x = 7] *)
Definition bad_exp : aexp := ABin Plus (ANum (dig "5")) (ABin Over (ABin Minus (AVar ($"x")) (ANum (dig "1"))) (ABin Minus (AVar ($"x")) (ANum (dig "2")))).
Lemma bad_reads : reads 4 ($"5 + (x - 1) / (x - 2)") bad_exp.
Proof.
  destruct ex_x as [Nx Tx].
  assert (M : forall d, forallb is_digit ($d) = true -> $d <> [] -> ~ starts ($"-") ($d) -> reads 0 ($"(" ++ [] ++ ($"x - " ++ $d) ++ [] ++ $")") (ABin Minus (AVar ($"x")) (ANum (dig d)))).
  { intros d D1 D2 D3. apply reads_paren; [constructor|constructor|]. apply (ex_bin Minus ($"x") 1 1 ($d)); [reflexivity|intros K; destruct (D3 K)| |].
    - apply (ex_level 0); [lia|]. now apply reads_var.
    - apply (ex_level 0); [cbn; lia|]. now apply (ex_num d). }
  apply (ex_bin Plus ($"5") 1 1 ($"(x - 1) / (x - 2)")); [reflexivity|exact I|apply (ex_level 0); [lia|]; now apply (ex_num "5")|].
  apply (ex_bin Over ($"(x - 1)") 1 1 ($"(x - 2)")); [reflexivity|exact I| |]; (apply (ex_level 0); [cbn; lia|]).
  - apply (M "1"%string); [reflexivity|discriminate|]. intros [r K]; discriminate K.
  - apply (M "2"%string); [reflexivity|discriminate|]. intros [r K]; discriminate K.
Qed.
Definition bad_texts : list str := [$"x = 2"; $"y = 5 + (x - 1) / (x - 2)"; $"x = 7"].
Example c76_ex : Forall2 line_reads bad_texts ([LSet ($"x") (ANum (dig "2"))] ++ LSet ($"y") bad_exp :: [LSet ($"x") (ANum (dig "7"))]) /\
  exp_letter demo /\ pow_ok (l_prec demo) (f_pow (l_fmt demo)) /\ (0 <= 30 /\ 1 <= f_places (l_fmt demo) /\ 30 + f_places (l_fmt demo) <= l_prec demo)%Z /\ (3 * 30 + 1 <= l_prec demo)%Z /\
  vars_exactly (fun _ => None) start /\ all_stay (fun _ => None) (l_prec demo) 30 [LSet ($"x") (ANum (dig "2"))] /\
  line_wrong (vars_end (fun _ => None) [LSet ($"x") (ANum (dig "2"))]) (l_prec demo) 30 (LSet ($"y") bad_exp) /\ Forall (line_numerals (l_prec demo)) [LSet ($"x") (ANum (dig "7"))].
Proof.
  destruct ex_x as [Nx Tx], ex_y as [Ny Ty]. split.
  { repeat apply Forall2_cons; [..|apply Forall2_nil].
    - apply (line_set [] ($"x") (gap 1) ($" 2")); [constructor|assumption|assumption|apply ex_blank|]. exists (gap 1), ($"2"), []. split; [reflexivity|]. split; [apply ex_blank|]. split; [constructor|].
      apply (ex_level 0); [lia|]. now apply (ex_num "2").
    - apply (line_set [] ($"y") (gap 1) ($" 5 + (x - 1) / (x - 2)")); [constructor|assumption|assumption|apply ex_blank|].
      exists (gap 1), ($"5 + (x - 1) / (x - 2)"), []. split; [reflexivity|]. split; [apply ex_blank|]. split; [constructor|]. exact bad_reads.
    - apply (line_set [] ($"x") (gap 1) ($" 7")); [constructor|assumption|assumption|apply ex_blank|]. exists (gap 1), ($"7"), []. split; [reflexivity|]. split; [apply ex_blank|]. split; [constructor|].
      apply (ex_level 0); [lia|]. now apply (ex_num "7"). }
  split; [exists "E"%char, []; split; [reflexivity|left; vm_compute; split; discriminate]|].
  split; [exact c46_pow_ex|]. split; [vm_compute; repeat split; discriminate|]. split; [vm_compute; discriminate|].
  split; [split; [intros ? ? H; discriminate H|intros m; reflexivity]|].
  split; [vm_compute; intuition (reflexivity || discriminate)|]. split; [vm_compute; intuition (reflexivity || discriminate)|]. repeat constructor.
Qed.
Example c76_unset_ex : judge (fun _ => None) (ABin Plus (AVar ($"x")) (ANum (dig "2"))) = Wrong /\ judge (fun _ => None) (AVar ($"x")) = Unset /\
  judge (fun _ => Some 2%Q) bad_exp = Wrong /\ judge (fun _ => Some 3%Q) bad_exp = Worth (5 + (3 - 1) / (3 - 2))%Q.
Proof. vm_compute. repeat split. Qed.
Example c76_run_ex : answer "x = 2;y = 5 + (x - 1) / (x - 2);x = 7" = "execute error"%string /\ vars_after "x = 2;y = 5 + (x - 1) / (x - 2);x = 7" = [("x", "2")]%string /\
  answer "x" = "None"%string /\ answer "x + 2" = "execute error"%string.
Proof. vm_compute. repeat split. Qed.
(** Functions *)
Definition bad_call : aexp := ABin Times (ANum (dig "2")) (ACall Floor (ACall2 Gcd (ANum (dig "6")) (ABin Over (ACall Fact (AVar ($"x"))) (ANum (dig "4"))))).
Example c76_call_ex : arithmetic_text ($"2 * floor(gcd( 6, fact(x) / 4))") bad_call /\
  judge (fun _ => Some 2%Q) bad_call = Wrong /\ judge (fun _ => Some (1 # 2)%Q) bad_call = Wrong /\ judge (fun _ => None) bad_call = Wrong /\
  (match judge (fun _ => Some 4%Q) bad_call with Worth q => Qeq_bool q 12 | _ => false end) = true /\
  sized (fun _ => Some 2%Q) (l_prec demo) 24 bad_call /\ sized (fun _ => Some (1 # 2)%Q) (l_prec demo) 24 bad_call /\ sized (fun _ => None) (l_prec demo) 24 bad_call.
Proof.
  destruct ex_x as [Nx Tx]. split; [|vm_compute; intuition (reflexivity || discriminate)].
  apply ex_whole. apply (ex_level 3); [lia|]. apply (ex_bin Times ($"2") 1 1 ($"floor(gcd( 6, fact(x) / 4))")); [reflexivity|exact I|apply (ex_level 0); [cbn; lia|]; now apply (ex_num "2")|].
  apply (ex_level 0); [cbn; lia|]. apply (reads_call Floor [] ($"gcd( 6, fact(x) / 4)") []); [constructor|constructor|]. apply (ex_level 0); [lia|].
  apply (reads_call2 Gcd (gap 1) ($"6") [] (gap 1) ($"fact(x) / 4") []); try apply ex_blank; try (exact (Forall_nil _)).
  - apply (ex_level 0); [lia|]. now apply (ex_num "6").
  - apply (ex_level 3); [lia|]. apply (ex_bin Over ($"fact(x)") 1 1 ($"4")); [reflexivity|exact I| |]; (apply (ex_level 0); [cbn; lia|]); [|now apply (ex_num "4")].
    apply (reads_call Fact [] ($"x") []); [exact (Forall_nil _)|exact (Forall_nil _)|]. apply (ex_level 0); [lia|]. now apply reads_var.
Qed.
Example c76_call_run_ex : answer "x = 2;2 * floor(gcd( 6, fact(x) / 4))" = "execute error"%string /\ answer "x = 4;2 * floor(gcd( 6, fact(x) / 4))" = "12"%string /\
  answer "x = 1/2;2 * floor(gcd( 6, fact(x) / 4))" = "execute error"%string /\ answer "2 * floor(gcd( 6, fact(x) / 4))" = "execute error"%string.
Proof. vm_compute. repeat split. Qed.
(** The condition on sizes is needed: a number that cannot be printed, divided by zero, is no calculator error but an exception of
    python's. *)
Theorem c76_size_refuted : fst (calculate (std demo) 20 plain_flags ($"10^75 / 0") start) = CPy /\
  judge (fun _ => None) (ABin Over (ABin Power (ANum (dig "10")) (ANum (dig "75"))) (ANum (dig "0"))) = Wrong.
Proof. vm_compute. split; reflexivity. Qed.
Print Assumptions c76_size_refuted.
