(** C24, C28, C29, C33, C34, C43, C52: running statements. *)
From Coq Require Import ZArith QArith Ascii String List Bool Lia.
From Verif Require Import Base Dec Num Lex Bases Formats NumProofs3 Units Syntax Pos Call CallSpec Loop LoopSpec Parse Exec ExecSpec
  ExecProofs ExecProofs2 ExecProofs3 ExecProofs4 ExecProofs5 ExecProofs6 Std StdRun.
Import ListNotations.
Open Scope nat_scope.

(** * C24: the operands are run once each, in the order they are written, before any operator; then only operators run. *)
Theorem c24_operands_first : forall G n stl items s o s', functional_items items <> [] ->
  execute G (S n) stl items s = (o, s') ->
  let ev := eval_item G (execute G n) stl in
  (exists outs rs s1 l s2, in_order ev (filter is_operand items) s outs s1 /\ Forall2 stands_for outs rs /\
     reduces (callop G stl) rs s1 l s2 /\
     match o with OOk r => s2 = s' /\ exists r', l = [r'] /\ same_result r r' | _ => last_call (callop G stl) l s2 s' end) \/
  (exists l1 i l2 outs s1 oi, filter is_operand items = l1 ++ i :: l2 /\ in_order ev l1 s outs s1 /\
     ev i s1 = (oi, s') /\ (oi = OPy /\ o = OPy \/ oi = OFuel /\ o = OFuel)).
Proof. exact execute_order. Qed.
Print Assumptions c24_operands_first.
(** The assignments in the operands are done before the product is computed: 1 + 2 * 2. *)
Example c24_ex : answer "(x = 1) + (x = x + 1) * x" = "5"%string /\ vars_after "(x = 1) + (x = x + 1) * x" = [("x", "2")]%string.
Proof. vm_compute. split; reflexivity. Qed.

(** * C28: refuted.  A range from a text is checked to be a number and then compared as a text: python's TypeError comes
    out of [calculate]. *)
Theorem c28_only_calculator_errors_refuted : exists L fl text, fst (calculate (std L) 20 fl text start) = CPy.
Proof. exists demo, plain_flags, ($"['1'..3]"). vm_compute. reflexivity. Qed.
Print Assumptions c28_only_calculator_errors_refuted.
(** It is not that ranges always fail so. *)
Example c28_ex : answer "[1..3]" = "[1;2;3;]"%string /\ answer "[1..'a']" = "execute error"%string. Proof. vm_compute. split; reflexivity. Qed.

(** * C29: a failing statement *)
Theorem c29_results_before : forall G n fl text s rs its nx tr s', cf_parse_only fl = false ->
  calculate G n fl text s = (CFail false rs its nx tr, s') ->
  exists sts k lft a x b sk err, fst (parse_text (g_parse G) text (s_lft s)) = POk sts k lft /\ sts = a ++ x :: b /\
    runs (execute G n (cf_stl fl)) (g_final G) (cf_state fl) a
         (mkSt (s_vars s) (snd (parse_text (g_parse G) text (s_lft s))))
         (map (fun r => (cr_items r, cr_answer r, cr_state r)) rs) sk /\
    fails_at (execute G n (cf_stl fl)) (g_final G) x sk s' /\ its = a ++ [err].
Proof.
  intros G n fl text s rs its nx tr s' Hp H. unfold calculate, calculate_with in H.
  destruct text as [|ch text]; [discriminate|]. destruct (parse_text _ _ _) as [r lft] eqn:Ep.
  destruct r as [sts k lf|sts nx'| | |]; try discriminate.
  apply run_statements_runs in H; [|exact Hp]. destruct H as [_ [a [x [b [sk [new [err [E1 [E2 [E3 [E4 E5]]]]]]]]]]].
  exists sts, k, lf, a, x, b, sk, err. cbn [fst snd]. cbn [app] in E2, E5. subst rs. repeat split; auto; apply E4.
Qed.
Print Assumptions c29_results_before.
(** The results of the statements before are those of running them alone: what [runs] gives is what running them gives,
    there is only one such, and if all of them run there is one result each. *)
Theorem c29_all_results : forall G n fl sts s, cf_parse_only fl = false ->
  (forall outs s', runs (execute G n (cf_stl fl)) (g_final G) (cf_state fl) sts s outs s' ->
     exists rs, run_statements G (execute G n (cf_stl fl)) fl [] sts [] s = (CDone rs, s') /\
       map (fun r => (cr_items r, cr_answer r, cr_state r)) rs = outs) /\
  (forall rs s', run_statements G (execute G n (cf_stl fl)) fl [] sts [] s = (CDone rs, s') ->
     runs (execute G n (cf_stl fl)) (g_final G) (cf_state fl) sts s (map (fun r => (cr_items r, cr_answer r, cr_state r)) rs) s' /\
     map cr_items rs = sts).
Proof.
  intros G n fl sts s Hp. split.
  - intros outs s' H. destruct (runs_run_statements _ _ _ _ _ _ _ H Hp [] []) as [new [E1 E2]]. exists new. split; assumption.
  - intros rs s' H. pose proof (run_statements_runs _ _ _ Hp _ _ _ _ _ _ H) as K. destruct K as [new [E K]]. cbn [app] in E. subst new.
    split; [exact K|]. destruct (run_statements_count _ _ _ _ _ _ _ _ _ H) as [new [E M]]. cbn [app] in E. subst new. exact M.
Qed.
Print Assumptions c29_all_results.
Theorem c29_one_outcome : forall run final state sts s o1 s1 o2 s2,
  runs run final state sts s o1 s1 -> runs run final state sts s o2 s2 -> o1 = o2 /\ s1 = s2.
Proof. intros. eapply runs_det; eassumption. Qed.
Print Assumptions c29_one_outcome.
(** Three statements, the second fails after changing a variable: one result, and the change stays. *)
Example c29_ex : (exists r i1 i2 nx tr s', calc_in start (lines "x = 1;y = (x = 2) / 0;z = 3") = (CFail false [r] [i1; i2] nx tr, s') /\
    option_map (fun p => show (fst p)) (cr_answer r) = Some "1"%string) /\
  vars_after "x = 1;y = (x = 2) / 0;z = 3" = [("x", "2")]%string.
Proof. split; [eexists _, _, _, _, _, _; split; [vm_compute; reflexivity|]|]; vm_compute; reflexivity. Qed.

(** * C33: inline functions *)
(** The code of an inline function whose body has something in it: however the body ends, except by an error the
    calculator does not know about, the variables are what they were. *)
Theorem c33_inline_function : forall G n stl items vs us s,
  statements_of items <> [] ->
  stops (fst (run_all (execute G n stl) (statements_of items) None (set_vars s (set_params 1 vs us (s_vars s))))) = false ->
  s_vars (snd (inline_impl (execute G n) items stl vs us s)) = s_vars s.
Proof. exact inline_vars. Qed.
Print Assumptions c33_inline_function.
(** A whole call, with arrays as inputs too *)
Theorem c33_inline_call : forall G n stl items ins h s,
  statements_of items <> [] ->
  (forall vs us s, stops (fst (run_all (execute G n stl) (statements_of items) None (set_vars s (set_params 1 vs us (s_vars s))))) = false) ->
  s_vars (snd (call (g_env G) h (inline_def (execute G n) items) stl ins s)) = s_vars s.
Proof.
  intros G n stl items ins h s Hne Hs. symmetry.
  apply (keeps_call eq); [split; [reflexivity|intros; congruence]|].
  intros vs us rs s0. symmetry. apply inline_vars; [exact Hne|apply Hs].
Qed.
Print Assumptions c33_inline_call.
(** A body that assigns to a variable of the caller and to its own parameter; one that fails *)
Example c33_ex : answer "x = 1;f = {x = PARAM1; PARAM1 = 7; x * 2};@f([4, 5])" = "[8;10;]"%string /\
  map fst (vars_after "x = 1;f = {x = PARAM1; PARAM1 = 7; x * 2};@f([4, 5])") = ["x"; "f"]%string /\
  vars_after "x = 1;f = {x = PARAM1; x / 0};@f(4)" = [("x", "1"); ("f", "function")]%string.
Proof. vm_compute. repeat split. Qed.
Example c33_ex_hyp : let seven := ILit ($"7") (LNum (mkNum 7 1 None None)) in
  let items := [seven; IOp ($"*"); seven; INon NTerm [newline]; seven; IOp ($"/"); ILit ($"0") (LNum (mkNum 0 1 None None))] in
  length (statements_of items) = 2 /\
  forall vs us s, stops (fst (run_all (execute (std demo) 5 true) (statements_of items) None (set_vars s (set_params 1 vs us (s_vars s))))) = false.
Proof.
  split; [reflexivity|]. intros vs us s. generalize (set_vars s (set_params 1 vs us (s_vars s))). intro s0. vm_compute. reflexivity.
Qed.
(** Refuted for an empty body, and for a body that ends in an error the calculator does not know about: the call fails,
    which is an ordinary error, and the parameters (and what the body assigned) stay. *)
Theorem c33_empty_body_refuted : exists L text, (exists rs its nx tr s', calculate (std L) 20 plain_flags text start = (CFail false rs its nx tr, s') /\
  assoc ($"PARAM1") (s_vars s') <> None).
Proof. exists demo, (lines "f = {};@f(1)"). eexists _, _, _, _, _. split; [vm_compute; reflexivity|]. vm_compute. discriminate. Qed.
Print Assumptions c33_empty_body_refuted.
Theorem c33_unknown_error_refuted : exists L text, (exists rs its nx tr s', calculate (std L) 20 plain_flags text start = (CFail false rs its nx tr, s') /\
  assoc ($"PARAM1") (s_vars s') <> None /\ assoc ($"x") (s_vars s') <> None).
Proof. exists demo, (lines "f = {x = 1;['1'..2]};@f(1)"). eexists _, _, _, _, _. split; [vm_compute; reflexivity|]. vm_compute. split; discriminate. Qed.
Print Assumptions c33_unknown_error_refuted.

(** * C34: external functions, however the file ends *)
Theorem c34_external_function : forall G n content vs us s,
  s_vars (snd (external_impl G (execute G n) content vs us s)) = s_vars s.
Proof. intros. apply external_vars. Qed.
Print Assumptions c34_external_function.
Theorem c34_external_call : forall G n stl content rs us ins h s,
  s_vars (snd (call (g_env G) h (external_def G (execute G n) content rs us) stl ins s)) = s_vars s.
Proof.
  intros G n stl content rs us ins h s. symmetry.
  apply (keeps_call eq); [split; [reflexivity|intros; congruence]|].
  intros vs us' rs' s0. symmetry. apply external_vars.
Qed.
Print Assumptions c34_external_call.
(** The standard calculator, with files: one that works, one that fails, one that is a python error *)
Definition demo_files : ecfg :=
  let g := std demo in
  mkG (g_prec g) (g_env g) (g_parse g) (g_funcs g) true true
      (fun path => if seq_eqb path ($"good") then Some (lines "x = PARAM1;x * 2")
                   else if seq_eqb path ($"bad") then Some (lines "x = PARAM1;x / 0")
                   else if seq_eqb path ($"worse") then Some (lines "x = PARAM1;['1'..x]") else None)
      (fun _ => Ok ([], [])) (g_final g).
Definition file_run (t : string) : string * list string :=
  let r := calculate demo_files 20 plain_flags (lines t) start in (tell (fst r), map (fun p => string_of_list_ascii (fst p)) (s_vars (snd r))).
Example c34_ex : file_run "f = 'good';@f([1, 2])" = ("[2;4;]", ["f"])%string /\ file_run "f = 'bad';@f(1)" = ("execute error", ["f"])%string /\
  file_run "f = 'worse';@f(1)" = ("execute error", ["f"])%string /\ file_run "f = 'none';@f(1)" = ("execute error", ["f"])%string.
Proof. vm_compute. repeat split. Qed.

(** * C43: only parsing *)
Theorem c43_parse_only : forall G n fl text s, cf_parse_only fl = true ->
  s_vars (snd (calculate G n fl text s)) = s_vars s /\
  (forall rs, fst (calculate G n fl text s) = CDone rs -> Forall (fun r => cr_answer r = None) rs).
Proof. exact parse_only_calculate. Qed.
Print Assumptions c43_parse_only.
Example c43_parse_only_ex : exists r1 r2 s', calculate (std demo) 20 (mkCF false true false) (lines "x = 1;x = 2") start = (CDone [r1; r2], s') /\ s_vars s' = [].
Proof. eexists _, _, _. split; [vm_compute; reflexivity|]. reflexivity. Qed.

(** * C52: the bound on nesting does not matter *)
(** An answer found within a bound is the answer within any larger one. *)
Theorem c52_depth : forall G n m fl text s, n <= m -> fst (calculate G n fl text s) <> CFuel ->
  calculate G m fl text s = calculate G n fl text s.
Proof. exact calculate_depth. Qed.
Print Assumptions c52_depth.
(** A statement without function pointers and ranges has one, within a bound that is its own nesting. *)
Theorem c52_terminates : forall G stl, ops_answer G stl -> forall n items, forallb plain_item items = true -> nestings items < n ->
  forall s, fst (execute G n stl items s) <> OFuel.
Proof. exact execute_answers. Qed.
Print Assumptions c52_terminates.
Example c52_ex : answer "((((1 + 2)))) * sum([1, (2), max([3, 4])])" = "21"%string /\
  fst (calculate (std demo) 3 plain_flags (lines "((((1 + 2))))") start) = CFuel.
Proof. vm_compute. split; reflexivity. Qed.
