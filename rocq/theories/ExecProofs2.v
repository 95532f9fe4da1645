(** More proofs about running statements: order of evaluation, statements, kinds of errors. *)
From Coq Require Import ZArith QArith Ascii String List Bool Lia.
From Verif Require Import Base Dec Num Bases Units Syntax Pos Call Loop Parse Exec ExecSpec ExecProofs.
Import ListNotations.
Open Scope nat_scope.

(** * Statements *)
Lemma run_statements_keeps : forall P G run fl sts before rs s, preorder P -> (forall l, keeps P (run l)) ->
  P (s_vars s) (s_vars (snd (run_statements G run fl before sts rs s))).
Proof.
  intros P G run fl sts. induction sts as [|x rest IH]; intros before rs s HP Hr; cbn [run_statements].
  - apply HP.
  - cbv zeta. destruct (is_nil (functional_items x) || cf_parse_only fl); [apply IH; assumption|].
    pose proof (Hr x s) as H. destruct (run x s) as [o s1]. cbn [snd] in H. pose proof HP as [R T].
    destruct o as [r|e| |]; try exact H; [|destruct e; exact H].
    destruct (g_final G r) as [f| |]; destruct (rval r); try exact H; try (eapply T; [exact H|apply IH; assumption]);
      destruct e; exact H.
Qed.
Lemma calculate_keeps : forall P G n fl text s, preorder P -> ops_keep P G (cf_stl fl) -> params_kept P G ->
  P (s_vars s) (s_vars (snd (calculate G n fl text s))).
Proof.
  intros P G n fl text s HP Ho Hp. unfold calculate, calculate_with. destruct text as [|c t]; [apply HP|].
  destruct (parse_text (g_parse G) (c :: t) (s_lft s)) as [r lft]. cbv zeta. destruct r; try apply HP.
  apply (run_statements_keeps P G (execute G n (cf_stl fl)) fl sts [] [] (mkSt (s_vars s) lft) HP).
  apply keeps_execute; assumption.
Qed.

(** Only parsing *)
Lemma parse_only_statements : forall G run fl, cf_parse_only fl = true -> forall sts before rs s,
  run_statements G run fl before sts rs s =
  (CDone (rs ++ map (fun l => mkCR l None (if cf_state fl then Some (s_vars s) else None)) sts), s).
Proof.
  intros G run fl Hf. induction sts as [|x rest IH]; intros before rs s; cbn [run_statements map].
  - rewrite app_nil_r. reflexivity.
  - cbv zeta. rewrite Hf, orb_true_r, IH, <- app_assoc. reflexivity.
Qed.
Lemma parse_only_calculate : forall G n fl text s, cf_parse_only fl = true ->
  s_vars (snd (calculate G n fl text s)) = s_vars s /\
  (forall rs, fst (calculate G n fl text s) = CDone rs -> Forall (fun r => cr_answer r = None) rs).
Proof.
  intros G n fl text s Hf. unfold calculate, calculate_with. destruct text as [|c t].
  - split; [reflexivity|]. intros rs H. injection H as <-. constructor.
  - destruct (parse_text (g_parse G) (c :: t) (s_lft s)) as [r lft]. cbv zeta. destruct r; try (split; [reflexivity|discriminate]).
    rewrite parse_only_statements by exact Hf. split; [reflexivity|]. intros rs H. injection H as <-.
    rewrite Forall_forall. intros x Hx. cbn [app] in Hx. apply in_map_iff in Hx. destruct Hx as [l [<- _]]. reflexivity.
Qed.

(** The statements before the failing one ran as they do alone. *)
Lemma run_statements_split : forall G run fl a b before rs s,
  run_statements G run fl before (a ++ b) rs s =
  match run_statements G run fl before a rs s with
  | (CDone rs', s') => run_statements G run fl (before ++ a) b rs' s'
  | x => x
  end.
Proof.
  intros G run fl a b. induction a as [|x a IH]; intros before rs s; cbn [run_statements app].
  - rewrite app_nil_r. reflexivity.
  - cbv zeta. destruct (is_nil (functional_items x) || cf_parse_only fl).
    + rewrite IH, <- app_assoc. reflexivity.
    + destruct (run x s) as [o s1]. destruct o as [r|e| |]; try reflexivity; [|destruct e; reflexivity].
      destruct (rval r); try (destruct (g_final G r); try reflexivity; rewrite IH, <- app_assoc; reflexivity). destruct e; reflexivity.
Qed.
Lemma run_statements_count : forall G run fl sts before rs s rs' s',
  run_statements G run fl before sts rs s = (CDone rs', s') ->
  exists new, rs' = rs ++ new /\ map cr_items new = sts.
Proof.
  intros G run fl sts. induction sts as [|x rest IH]; intros before rs s rs' s' H; cbn [run_statements] in H.
  - injection H as <- <-. exists []. rewrite app_nil_r. split; reflexivity.
  - cbv zeta in H.
    assert (K : forall ans s1, run_statements G run fl (before ++ [x]) rest (rs ++ [mkCR x ans (if cf_state fl then Some (s_vars s1) else None)]) s1 = (CDone rs', s') ->
                exists new, rs' = rs ++ new /\ map cr_items new = x :: rest).
    { intros ans s1 H'. apply IH in H'. destruct H' as [new [-> E]]. eexists. rewrite <- app_assoc. cbn [app].
      split; [reflexivity|]. cbn [map cr_items]. rewrite E. reflexivity. }
    destruct (is_nil (functional_items x) || cf_parse_only fl); [eapply K, H|].
    destruct (run x s) as [o s1]. destruct o as [r|e| |]; try discriminate; [|destruct e; discriminate].
    destruct (rval r); try (destruct (g_final G r) as [f| |]; try discriminate; eapply K, H). destruct e; discriminate.
Qed.
Lemma run_statements_acc : forall G run fl sts before rs s,
  run_statements G run fl before sts rs s =
  match run_statements G run fl [] sts [] s with
  | (CDone rs', s') => (CDone (rs ++ rs'), s')
  | (CFail p rs' st nx tr, s') => (CFail p (rs ++ rs') (before ++ st) nx tr, s')
  | x => x
  end.
Proof.
  intros G run fl sts. induction sts as [|x rest IH]; intros before rs s.
  - cbn [run_statements]. rewrite app_nil_r. reflexivity.
  - cbn [run_statements]. cbv zeta.
    assert (K : forall ans s1, run_statements G run fl (before ++ [x]) rest (rs ++ [mkCR x ans (if cf_state fl then Some (s_vars s1) else None)]) s1 =
      match run_statements G run fl ([] ++ [x]) rest ([] ++ [mkCR x ans (if cf_state fl then Some (s_vars s1) else None)]) s1 with
      | (CDone rs', s') => (CDone (rs ++ rs'), s')
      | (CFail p rs' st nx tr, s') => (CFail p (rs ++ rs') (before ++ st) nx tr, s')
      | y => y
      end).
    { intros ans s1. rewrite IH. symmetry. rewrite IH. destruct (run_statements G run fl [] rest [] s1) as [c s2].
      destruct c; try reflexivity; rewrite <- !app_assoc; reflexivity. }
    destruct (is_nil (functional_items x) || cf_parse_only fl); [apply K|].
    destruct (run x s) as [o s1]. destruct o as [r|e| |]; try reflexivity.
    + destruct (rval r); try (destruct (g_final G r); try apply K; try reflexivity; rewrite app_nil_r; reflexivity).
      destruct e; rewrite app_nil_r; reflexivity.
    + destruct e; rewrite app_nil_r; reflexivity.
Qed.
(** The failing statement is the one after the results. *)
Lemma run_statements_fail : forall G run fl sts s p rs its nx tr s',
  run_statements G run fl [] sts [] s = (CFail p rs its nx tr, s') ->
  exists a x b sk, sts = a ++ x :: b /\ map cr_items rs = a /\
    run_statements G run fl [] a [] s = (CDone rs, sk) /\
    (exists err, its = a ++ [err]) /\
    run_statements G run fl a [x] rs sk = (CFail p rs its nx tr, s').
Proof.
  intros G run fl sts. induction sts as [|x rest IH]; intros s p rs its nx tr s' H; [discriminate|].
  change (x :: rest) with ([x] ++ rest) in H. rewrite run_statements_split in H.
  destruct (run_statements G run fl [] [x] [] s) as [c s1] eqn:E1. destruct c as [r1|p1 r1 i1 n1 t1| | |]; try discriminate.
  - rewrite run_statements_acc in H. destruct (run_statements G run fl [] rest [] s1) as [c2 s2] eqn:E2.
    destruct c2 as [r2|p2 r2 i2 n2 t2| | |]; try discriminate. injection H as <- <- <- <- <- <-.
    destruct (IH _ _ _ _ _ _ _ E2) as [a [y [b [sk [Es [Em [Ea [[err Ei] Ef]]]]]]]]. subst rest.
    destruct (run_statements_count _ _ _ _ _ _ _ _ _ E1) as [new [En Ex]]. cbn [app] in En. subst new.
    exists (x :: a), y, b, sk. split; [reflexivity|]. split; [rewrite map_app, Em, Ex; reflexivity|]. split.
    { change (x :: a) with ([x] ++ a). rewrite run_statements_split, E1, run_statements_acc, Ea. reflexivity. }
    split; [exists err; rewrite Ei; reflexivity|].
    rewrite run_statements_acc. rewrite run_statements_acc in Ef. destruct (run_statements G run fl [] [y] [] sk) as [c3 s3].
    destruct c3 as [r3|p3 r3 i3 n3 t3| | |]; try discriminate. injection Ef as -> E3 E4 -> -> ->.
    rewrite <- app_assoc, E3. rewrite Ei in E4. apply app_inv_head in E4. subst i3. rewrite Ei. reflexivity.
  - injection H as -> -> -> -> -> ->. exists [], x, rest, s. split; [reflexivity|].
    cbn [run_statements] in E1. cbv zeta in E1.
    assert (K : rs = [] /\ exists err, its = [] ++ [err]).
    { destruct (is_nil (functional_items x) || cf_parse_only fl); [discriminate|].
      destruct (run x s) as [o s2]. destruct o as [r|e| |]; try discriminate.
      - destruct (rval r); try (destruct (g_final G r); try discriminate; injection E1 as <- <- <- <- <- <-; split; [reflexivity|eexists; reflexivity]).
        destruct e; injection E1 as <- <- <- <- <- <-; split; try reflexivity; eexists; reflexivity.
      - destruct e; injection E1 as <- <- <- <- <- <-; split; try reflexivity; eexists; reflexivity. }
    destruct K as [-> K]. split; [reflexivity|]. split; [reflexivity|]. split; [exact K|].
    cbn [run_statements]. cbv zeta. exact E1.
Qed.

(** * Errors that come out of a statement *)
Lemma take_inputs_err : forall orig sym prev want have s e s', take_inputs orig sym prev want have s = (OErr e, s') ->
  exists m its nx tr, e = XExec m its nx tr.
Proof.
  intros orig sym prev want. induction want as [|w want IH]; intros have s e s' H; cbn [take_inputs] in H; [discriminate|].
  destruct w as [t|], have as [|[t' i|r i] have]; try discriminate.
  - destruct (seq_eqb t' t); [eapply IH, H|]. injection H as <- _. eauto.
  - injection H as <- _. eauto.
  - unfold bind in H. destruct (take_inputs orig sym prev want have s) as [o s1] eqn:E. destruct o; try discriminate.
    injection H as <- _. eapply IH, E.
Qed.
Lemma op_loop_err : forall n T orig call sl s e s', op_loop n T orig call sl s = (OErr e, s') -> exists m its nx tr, e = XExec m its nx tr.
Proof.
  induction n as [|k IH]; intros T orig call sl s e s' H; cbn [op_loop] in H; [discriminate|].
  destruct (scan_levels T (t_levels T) sl) as [[[[i sym] w]|]| |]; try discriminate.
  unfold bind at 1 in H. destruct (run_op T orig call sl i sym w s) as [o s1] eqn:E. destruct o as [sl'|e'| |]; try discriminate.
  - eapply IH, H.
  - injection H as <- _. unfold run_op in E. destruct (find_op T sym) as [o|]; [|discriminate]. destruct (nth_error sl i) as [x|]; [|discriminate].
    destruct (i <? length (op_l o)); [injection E as <- _; eauto|]. destruct (length sl <? i + length (op_r o) + w); [injection E as <- _; eauto|].
    unfold bind at 1 in E. match type of E with context [take_inputs ?a ?b ?c ?d ?f s] => destruct (take_inputs a b c d f s) as [y s2] eqn:Et end.
    destruct y as [ins|e2| |]; try discriminate.
    + unfold bind at 1 in E. destruct (call sym ins s2) as [z s3]. destruct z; discriminate.
    + injection E as <- _. eapply take_inputs_err, Et.
Qed.
Lemma run_slots_err : forall T orig call sl s e s', run_slots T orig call sl s = (OErr e, s') -> exists m its nx tr, e = XExec m its nx tr.
Proof.
  intros T orig call sl s e s' H. unfold run_slots, bind in H. destruct (op_loop _ _ _ _ _ s) as [o s1] eqn:E. destruct o as [sl'|e'| |]; try discriminate.
  - unfold ends in H. destruct sl' as [|[t i|r i] [|y rest]]; try discriminate; try (injection H as <- _; eauto);
      match goal with H : context [filter ?f ?l] |- _ => destruct (filter f l) end; try discriminate; injection H as <- _; eauto.
  - injection H as <- _. eapply op_loop_err, E.
Qed.
Lemma eval_operands_err : forall G rec stl items k sl orig s e s', eval_operands G rec stl items k sl orig s <> (OErr e, s').
Proof.
  intros G rec stl items. induction items as [|i r IH]; intros k sl orig s e s'; cbn [eval_operands]; [discriminate|].
  assert (L : (if ifunc i then let* p := eval_operand G rec stl (firstn k orig) i in
      eval_operands G rec stl r (S k) (sl ++ [SRes (fst p) k]) (orig ++ [snd p]) else eval_operands G rec stl r k sl (orig ++ [i])) s <> (OErr e, s')).
  { destruct (ifunc i); [|apply IH]. unfold bind, eval_operand. destruct (eval_item G rec stl i s) as [o s1].
    destruct o as [x|x| |]; try discriminate; [apply IH|]. destruct x; apply IH. }
  destruct i; try exact L. apply IH.
Qed.
Theorem execute_err : forall G n stl items s e s', execute G n stl items s = (OErr e, s') -> exists m its nx tr, e = XExec m its nx tr.
Proof.
  intros G n stl items s e s' H. destruct n as [|k]; cbn [execute] in H; [discriminate|]. unfold execute_body in H.
  destruct (is_nil (functional_items items)); [injection H as <- _; cbn; eauto|].
  unfold bind in H. destruct (eval_operands _ _ _ _ _ _ _ s) as [o s1] eqn:E. destruct o as [[sl orig]|e'| |]; try discriminate.
  - destruct (run_slots _ _ _ _ s1) as [o s2] eqn:Er. destruct o as [r|e'| |]; try discriminate.
    + destruct (rval r); try discriminate. destruct e0; discriminate.
    + injection H as <- _. destruct (run_slots_err _ _ _ _ _ _ _ Er) as [m [its [nx [tr ->]]]]. cbn [restore_items]. eauto.
  - exfalso. eapply eval_operands_err, E.
Qed.

(** * Inline functions put the variables back *)
Lemma run_all_err : forall G n stl sts last s e s', run_all (execute G n stl) sts last s = (OErr e, s') -> exists m its nx tr, e = XExec m its nx tr.
Proof.
  intros G n stl sts. induction sts as [|x r IH]; intros last s e s' H; cbn [run_all] in H; [discriminate|].
  unfold bind in H. destruct (execute G n stl x s) as [o s1] eqn:E. destruct o; try discriminate; [eapply IH, H|].
  injection H as <- _. eapply execute_err, E.
Qed.
Lemma run_all_some : forall f sts last s r s', run_all f sts last s = (OOk r, s') -> (sts <> [] \/ last <> None) -> r <> None.
Proof.
  intros f sts. induction sts as [|x l IH]; intros last s r s' H Hn; cbn [run_all] in H.
  - injection H as <- _. destruct Hn; [congruence|assumption].
  - unfold bind in H. destruct (f x s) as [o s1]. destruct o; try discriminate. eapply IH; [exact H|]. right. discriminate.
Qed.
Lemma inline_vars : forall G n stl items vs us s,
  statements_of items <> [] ->
  stops (fst (run_all (execute G n stl) (statements_of items) None (set_vars s (set_params 1 vs us (s_vars s))))) = false ->
  s_vars (snd (inline_impl (execute G n) items stl vs us s)) = s_vars s.
Proof.
  intros G n stl items vs us s Hn Hs. unfold inline_impl. cbv zeta. destruct (run_all _ _ _ _) as [o s1] eqn:E. destruct o as [[r|]|e| |]; try discriminate.
  - destruct (rval r); reflexivity.
  - exfalso. eapply run_all_some; [exact E|left; exact Hn|reflexivity].
  - destruct (run_all_err _ _ _ _ _ _ _ _ E) as [m [its [nx [tr ->]]]]. reflexivity.
Qed.
