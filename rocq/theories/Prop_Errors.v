(** C61: where errors are reported.  Also C24 (arguments) and C42 (complete statements). *)
From Coq Require Import ZArith QArith Ascii String List Bool Lia.
From Verif Require Import Base Dec Num Lex Bases Formats NumProofs3 Units Syntax Pos Call Loop Parse Exec ExecSpec Std StdRun
  InstallProofs ErrorSpec ErrorProofs2 ErrorProofs3 ErrorProofs4 CompleteProofs.
Import ListNotations.
Open Scope nat_scope.

(** * C61: the items reported with an error *)
(** An error of a statement itself is reported with the items before one of its operators or operands, white space and
    comments included, and with the text of that one or none. *)
Theorem c61_error : forall G n stl items s e s', unwritten_infix (g_ops G) -> functional_items items <> [] ->
  execute G (S n) stl items s = (OErr e, s') -> exists m its nx, e = XExec m its nx false /\ before_an_item items its nx.
Proof. exact execute_error_items. Qed.
Print Assumptions c61_error.
(** So is an error that is the value of a statement, unless it comes from within one of its operands; then that operand is
    the last item reported, cut off where the error is.  For operators that only pass on errors they are given, and
    operands that fail but have no errors as values. *)
Theorem c61_error_value : forall G n stl items s r e s', unwritten_infix (g_ops G) ->
  (forall sym, used_in (g_ops G) items sym -> passes_errors (callop G stl) sym) ->
  let ev := eval_item G (execute G n) stl in
  (forall outs s1, in_order ev (filter is_operand items) s outs s1 -> Forall value_clean outs) ->
  execute G (S n) stl items s = (OOk r, s') -> rval r = VExc e ->
  exists m its nx tr, e = XExec m its nx tr /\
    ((tr = false /\ before_an_item items its nx) \/ (tr = true /\ within_an_item ev items its m nx)).
Proof. exact execute_value_items. Qed.
Print Assumptions c61_error_value.
(** Of the standard operators all but those that compute with a variable and assign it only pass on errors; and values
    next to each other are multiplied. *)
Theorem c61_standard_operators : forall L stl, unwritten_infix (g_ops (std L)) /\
  forall sym, ~ In sym [$"++"; $"--"; $"+="; $"-="; $"*="; $"/="; $"^="; $"%="; $"\="] -> passes_errors (callop (std L) stl) sym.
Proof. intros L stl. split; [apply std_unwritten_infix|]. intros sym H. apply std_passes. exact H. Qed.
Print Assumptions c61_standard_operators.
(** Operands other than variables and calls have no errors as values. *)
Theorem c61_plain_operands : forall G rec stl l s outs s', in_order (eval_item G rec stl) l s outs s' ->
  Forall (fun i => match i with IVar _ | IFunc _ _ _ _ _ | IPtr _ _ _ _ _ => False | _ => True end) l -> Forall value_clean outs.
Proof. exact plain_operands_clean. Qed.
Print Assumptions c61_plain_operands.
(** The position of the error of a calculation is always found: the text before it is what the items reported spell, and
    the text reported starts there. *)
Theorem c61_position : forall G n fl text s rs its nx tr s', unwritten_infix (g_ops G) -> cf_parse_only fl = false ->
  let run := execute G (S n) (cf_stl fl) in
  (forall sts k lf a x b outs sk, fst (parse_text (g_parse G) text (s_lft s)) = POk sts k lf -> sts = a ++ x :: b ->
     runs run (g_final G) (cf_state fl) a (mkSt (s_vars s) (snd (parse_text (g_parse G) text (s_lft s)))) outs sk ->
     (forall sym, used_in (g_ops G) x sym -> passes_errors (callop G (cf_stl fl)) sym) /\
     (forall outs s1, in_order (eval_item G (execute G n) (cf_stl fl)) (filter is_operand x) sk outs s1 -> Forall value_clean outs)) ->
  calculate G (S n) fl text s = (CFail false rs its nx tr, s') ->
  exists before after, text = before ++ after /\ concat (map items_text its) = before /\
    (forall t, nx = Some t -> exists more, after = t ++ more) /\ find_pos text its nx = Some (length before).
Proof. exact calculate_points. Qed.
Print Assumptions c61_position.
(** The second statement fails within the brackets; the hypotheses of [c61_position] hold. *)
Definition err_at (t : string) : option (list (list string) * option string * bool * option nat) :=
  match fst (calc_in start (lines t)) with
  | CFail false _ its nx tr => Some (map (map (fun i => string_of_list_ascii (itext i))) its, option_map string_of_list_ascii nx, tr, find_pos (lines t) its nx)
  | _ => None
  end.
Example c61_ex : err_at "1 + 2;3 * (4 + 5/0) - 6"%string = Some ([["1"; " "; "+"; " "; "2"; String newline EmptyString]; ["3"; " "; "*"; " "; "(4 + 5"]]%string, Some "/"%string, true, Some 16)
  /\ err_at "2 - 'a' * 3"%string = Some ([["2"; " "; "-"; " "; "'a'"; " "]]%string, Some "*"%string, false, Some 8).
Proof. vm_compute. auto. Qed.
Example c61_ex_hypotheses : forall a x b outs sk sts k lf, fst (parse_text (g_parse (std demo)) (lines "1 + 2;3 * (4 + 5/0) - 6") None) = POk sts k lf ->
  sts = a ++ x :: b -> runs (execute (std demo) 20 false) (g_final (std demo)) false a start outs sk ->
  (forall sym, used_in (g_ops (std demo)) x sym -> passes_errors (callop (std demo) false) sym) /\
  (forall outs s1, in_order (eval_item (std demo) (execute (std demo) 19) false) (filter is_operand x) sk outs s1 -> Forall value_clean outs).
Proof.
  intros a x b outs sk sts k lf Hp Hs _.
  assert (K : Forall (fun x => Forall (fun i => match i with IVar _ | IFunc _ _ _ _ _ | IPtr _ _ _ _ _ => False
      | IOp s => mem_str s computing_assignments = false | _ => True end) x) sts).
  { assert (K : match fst (parse_text (g_parse (std demo)) (lines "1 + 2;3 * (4 + 5/0) - 6") None) with
       | POk sts _ _ => forallb (forallb (fun i => match i with IVar _ | IFunc _ _ _ _ _ | IPtr _ _ _ _ _ => false
           | IOp s => negb (mem_str s computing_assignments) | _ => true end)) sts | _ => true end = true) by (vm_compute; reflexivity).
    rewrite Hp in K. clear Hp. rewrite forallb_forall in K. apply Forall_forall. intros y Hy. specialize (K y Hy). rewrite forallb_forall in K.
    apply Forall_forall. intros i Hi. specialize (K i Hi). destruct i; try discriminate K; try exact I. apply negb_true_iff. exact K. }
  clear Hp. subst sts. apply Forall_app in K. destruct K as [_ K]. apply Forall_inv in K. rewrite Forall_forall in K. split.
  - intros sym Hu. apply c61_standard_operators. intros Hin. destruct Hu as [Hu|[Hu|[Hu|[Hu|Hu]]]]; try discriminate Hu.
    + specialize (K _ Hu). change (mem_str sym computing_assignments = false) in K. apply mem_false in K. apply K. exact Hin.
    + injection Hu as <-. repeat (destruct Hin as [Hin|Hin]; [discriminate|]). exact Hin.
  - intros outs1 s1 Hio. eapply c61_plain_operands; [exact Hio|]. apply Forall_forall. intros i Hi. apply filter_In in Hi. destruct Hi as [Hi _].
    specialize (K _ Hi). destruct i; try exact I; exact K.
Qed.
(** An error kept in an array is taken to be one of the statement that gets it out, and reported at a wrong position, or
    at none ([find_pos] raises an exception). *)
Theorem c61_kept_error_refuted : exists t1 t2 its1 nx1 s1 its2 nx2 s2 rs1 rs2,
  calculate (std demo) 20 plain_flags t1 start = (CFail false rs1 its1 nx1 true, s1) /\ find_pos t1 its1 nx1 = None /\
  calculate (std demo) 20 plain_flags t2 start = (CFail false rs2 its2 nx2 true, s2) /\ find_pos t2 its2 nx2 = Some 59 /\
  firstn 3 (skipn 58 t2) = $"8/2".
Proof.
  pose (T1 := lines "x = ([true, false] then (1/0) else 2);element(x, 1)").
  pose (T2 := lines "x = ([true, false] then (1/0) else 2);7 + element(x, 1) - 8/2").
  assert (A : match calculate (std demo) 20 plain_flags T1 start with (CFail false _ its nx true, _) => find_pos T1 its nx = None | _ => False end) by (vm_compute; reflexivity).
  assert (B : match calculate (std demo) 20 plain_flags T2 start with (CFail false _ its nx true, _) => find_pos T2 its nx = Some 59 | _ => False end) by (vm_compute; reflexivity).
  exists T1, T2. destruct (calculate (std demo) 20 plain_flags T1 start) as [[|[|] rs1 its1 nx1 [|]| | |] s1]; try destruct A.
  destruct (calculate (std demo) 20 plain_flags T2 start) as [[|[|] rs2 its2 nx2 [|]| | |] s2]; try destruct B.
  exists its1, nx1, s1, its2, nx2, s2, rs1, rs2. repeat split; assumption || reflexivity.
Qed.
Print Assumptions c61_kept_error_refuted.

(** * C42: a statement that ends with an operand is complete, unless an operator with more than one thing on its right,
    as [then … else …], occurs in it *)
Theorem c42_complete : forall T func x s, iisop x = false ->
  (forall t o, In (IOp t) func \/ unwritten T t -> find_op T t = Some o -> length (op_r o) <= 1) ->
  incomplete T (func ++ [x]) s = false.
Proof. exact ends_complete. Qed.
Print Assumptions c42_complete.
Example c42_complete_ex :
  incomplete (std_table demo) [IVar $"a"; IOp $"+"; IVar $"b"] start = false /\ incomplete (std_table demo) [IVar $"a"; IOp $"+"] start = true /\
  incomplete (std_table demo) [IVar $"a"; IOp $"then"; IVar $"b"] start = true /\
  (forall t o, In (IOp t) [IVar $"a"; IOp $"+"] \/ unwritten (std_table demo) t -> find_op (std_table demo) t = Some o -> length (op_r o) <= 1).
Proof.
  split; [vm_compute; reflexivity|]. split; [vm_compute; reflexivity|]. split; [vm_compute; reflexivity|].
  assert (A : forall t, t = $"+" \/ t = $"IMPLICIT_MULTIPLY" -> match find_op (std_table demo) t with Some o => length (op_r o) <=? 1 | None => true end = true)
    by (intros t [->| ->]; vm_compute; reflexivity).
  intros t o H Ho. specialize (A t). rewrite Ho in A. apply Nat.leb_le, A. clear A Ho.
  destruct H as [[H|[H|[]]]|[H|[H|[H|H]]]]; try discriminate H; injection H as <-; auto.
Qed.

(** * C24: the arguments of a function are run one after the other and given to it in that order *)
Theorem c24_arguments : forall G rec stl text tr items name args s rs s' d, assoc name (g_funcs G) = Some d ->
  args_in_turn (rec stl) args s rs s' -> (o_excs d = true \/ Forall no_error rs) ->
  eval_item G rec stl (IFunc text tr items name args) s = call (g_env G) (callop G stl) d stl rs s'.
Proof. exact function_call. Qed.
Print Assumptions c24_arguments.
Theorem c24_pointer_arguments : forall G rec stl text tr items name args s rs s' b u, assoc name (s_vars s) = Some (VFun b, u) ->
  args_in_turn (rec stl) args s rs s' -> Forall no_error rs ->
  forall d, pointer_def G rec (VFun b) = Some (Ok d) ->
  eval_item G rec stl (IPtr text tr items name args) s = call (g_env G) (callop G stl) d stl rs s'.
Proof. exact pointer_call. Qed.
Print Assumptions c24_pointer_arguments.
Example c24_arguments_ex : exists r1 r2 s', args_in_turn (execute (std demo) 9 false) [[IVar $"x"; IOp $"="; ILit $"3" (LNum (num_of_Z 100 3))]; [IVar $"x"]] start [r1; r2] s' /\
  show (rval r2) = "3"%string /\ Forall no_error [r1; r2].
Proof.
  eexists _, _, _. split; [eapply at_cons; [vm_compute; reflexivity|eapply at_cons; [vm_compute; reflexivity|constructor]]|].
  split; [vm_compute; reflexivity|]. repeat constructor; intros e; discriminate.
Qed.
