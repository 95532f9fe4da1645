(** Stateless evaluation keeps the variables; the operators and functions give an answer. *)
From Coq Require Import ZArith QArith Ascii String List Bool Lia.
From Verif Require Import Base BaseProofs Dec Num Lex Bases Formats Units Install InstallProofs Syntax Pos Call CallSpec CallProofs Loop LoopSpec LoopProofs Parse Exec ExecSpec ExecProofs ExecProofs2 ExecProofs5 Std StdSpec StdProofs.
Import ListNotations.
Open Scope nat_scope.

Ltac keep HP :=
  repeat match goal with
  | |- keeps _ (bind _ _) => apply keeps_bind; [exact HP| |intros ?]
  | |- keeps _ (ret _) => apply keeps_ret; exact HP
  | |- keeps _ (raise _) => apply keeps_raise; exact HP
  | |- keeps _ pyerr => apply keeps_py; exact HP
  | |- keeps _ (lift _) => apply keeps_lift; exact HP
  | |- keeps _ (just _) => apply keeps_ret; exact HP
  | |- keeps _ (unitless _) => apply keeps_ret; exact HP
  | |- keeps _ (with_unit _ _) => apply keeps_ret; exact HP
  | |- keeps _ calc_err => apply keeps_raise; exact HP
  | |- keeps _ (pym ?x) => destruct x; cbn [pym]
  | |- keeps _ (boolean ?x) => destruct x; cbn [boolean]
  | |- keeps _ (match ?x with _ => _ end) => destruct x
  | |- keeps _ (if ?x then _ else _) => destruct x
  | |- keeps _ (the_var ?x) => unfold the_var
  | |- keeps _ (integer _ _) => unfold integer
  | |- keeps _ (natural _ _) => unfold natural
  | |- keeps _ (int_power _ _) => unfold int_power
  | |- keeps _ (let _ := _ in _) => cbv zeta
  end.

Ltac unfold_ops := unfold op_power, op_multiply, op_divide, op_scale, op_num2, op_int_divide, op_not, op_compare, op_and, op_or, op_xor, op_then,
    op_shift, op_bit_not, op_as, op_text_cmp, fn_text2, op_text_mult.
Ltac unfold_fns := unfold fn_abs, fn_rounding, fn_fact, fn_ints, fn_convert, fn_scientific, fn_concat, fn_element, fn_filter, fn_count,
    fn_sort, fn_reverse, fn_sum, fn_pick, fn_stat, fn_base, fn_text1, fn_split, fn_join, fn_replace, fn_substr.
Lemma plain_keep P L stl : preorder P -> Forall (fun p : str * operator => impl_keeps P stl (op_def (snd p)))
  (concat (removelast (std_levels L))).
Proof.
  intros HP. unfold std_levels. cbv zeta. cbn [removelast concat app].
  repeat (apply Forall_cons; [|]); try apply Forall_nil; unfold impl_keeps; intros h Hh vs us rs;
  cbn [op_def snd infix op2 op_def odef o_impl no_result fst]; unfold_ops; keep HP; try apply Hh; unfold op_bits; keep HP.
Qed.
Lemma assign_keep P L : preorder P -> Forall (fun p : str * operator => impl_keeps P true (op_def (snd p)))
  (last (std_levels L) []).
Proof.
  intros HP. unfold std_levels. cbv zeta. cbn [last].
  repeat (apply Forall_cons; [|]); try apply Forall_nil; unfold impl_keeps; intros h Hh vs us rs;
  cbn [op_def snd infix odef o_impl fst]; unfold op_assign, op_assign_if_empty, op_assign_op, op_increment, assign_with; keep HP.
Qed.
Lemma funcs_keep P L stl : preorder P -> Forall (fun p : str * opdef => ~ In (fst p) state_funcs -> impl_keeps P stl (snd p)) (std_funcs L).
Proof.
  intros HP. unfold std_funcs. cbv zeta.
  repeat (apply Forall_cons; [|]); try apply Forall_nil; unfold impl_keeps; intros Hf h Hh vs us rs;
  cbn [snd fst fdef o_impl no_result no_norm] in Hf |- *; unfold_fns; keep HP; try (unfold fn_text2; keep HP).
  all: exfalso; apply Hf; cbn [state_funcs In]; tauto.
Qed.
Lemma levels_split L : concat (std_levels L) = concat (removelast (std_levels L)) ++ last (std_levels L) [].
Proof. reflexivity. Qed.
Lemma find_op_in T sym o : find_op T sym = Some o -> In (sym, o) (concat (t_levels T)).
Proof. intros H. apply assoc_some_in in H. now apply in_rev. Qed.

Lemma stateless_keep P L G : preorder P -> built_from L G -> (forall f, In f state_funcs -> assoc f (g_funcs G) = None) -> ops_keep P G true.
Proof.
  intros HP [Ho Hf] Hs. split.
  - intros sym o H. rewrite Ho in H. apply find_op_in in H. cbn [t_levels std_table] in H. rewrite levels_split in H. apply in_app_iff in H.
    destruct H as [H|H].
    + pose proof (plain_keep P L true HP) as K. rewrite Forall_forall in K. apply (K _ H).
    + pose proof (assign_keep P L HP) as K. rewrite Forall_forall in K. apply (K _ H).
  - intros f d H. pose proof (Hf f d H) as Hi. pose proof (funcs_keep P L true HP) as K. rewrite Forall_forall in K.
    apply (K _ Hi). cbn [fst]. intros Hin. rewrite (Hs f Hin) in H. discriminate.
Qed.

(** * Answers *)
Ltac ans :=
  repeat match goal with
  | |- answers_always (bind _ _) => apply always_bind; [|intros ?]
  | |- answers_always (ret _) => apply always_ret
  | |- answers_always (raise _) => apply always_raise
  | |- answers_always pyerr => apply always_py
  | |- answers_always (lift _) => apply always_lift
  | |- answers_always (just _) => apply always_ret
  | |- answers_always (unitless _) => apply always_ret
  | |- answers_always (with_unit _ _) => apply always_ret
  | |- answers_always calc_err => apply always_raise
  | |- answers_always (pym ?x) => destruct x; cbn [pym]
  | |- answers_always (boolean ?x) => destruct x; cbn [boolean]
  | |- answers_always (match ?x with _ => _ end) => destruct x
  | |- answers_always (if ?x then _ else _) => destruct x
  | |- answers_always (the_var ?x) => unfold the_var
  | |- answers_always (integer _ _) => unfold integer
  | |- answers_always (natural _ _) => unfold natural
  | |- answers_always (int_power _ _) => unfold int_power
  | |- answers_always (let _ := _ in _) => cbv zeta
  end.
Lemma plain_answer L stl : Forall (fun p : str * operator => forall h, ((forall ins, answers_always (h ($"/") ins)) \/ fst p <> $"\") ->
  forall vs us rs, answers_always (o_impl (op_def (snd p)) h vs us rs stl)) (concat (removelast (std_levels L))).
Proof.
  unfold std_levels. cbv zeta. cbn [removelast concat app].
  repeat (apply Forall_cons; [|]); try apply Forall_nil; intros h Hh vs us rs;
  cbn [op_def snd infix op2 op_def odef o_impl no_result fst] in Hh |- *; unfold_ops; ans; unfold op_bits; ans.
  destruct Hh as [Hh|Hh]; [apply Hh|exfalso; apply Hh; reflexivity].
Qed.
Definition base_ops : list str := map snd updates.
Lemma assign_answer L stl : Forall (fun p : str * operator => forall h, (forall op, In op base_ops -> forall ins, answers_always (h op ins)) ->
  forall vs us rs, answers_always (o_impl (op_def (snd p)) h vs us rs stl)) (last (std_levels L) []).
Proof.
  unfold std_levels. cbv zeta. cbn [last].
  repeat (apply Forall_cons; [|]); try apply Forall_nil; intros h Hh vs us rs;
  cbn [op_def snd infix odef o_impl fst]; unfold op_assign, op_assign_if_empty, op_assign_op, op_increment, assign_with; ans.
  all: try (apply Hh; cbn; tauto).
  all: intros s; unfold store, lookup; try discriminate; destruct (assoc _ (s_vars s)); discriminate.
Qed.
Lemma funcs_answer L stl h : Forall (fun p : str * opdef => forall vs us rs, answers_always (o_impl (snd p) h vs us rs stl)) (std_funcs L).
Proof.
  unfold std_funcs. cbv zeta.
  repeat (apply Forall_cons; [|]); try apply Forall_nil; intros vs us rs;
  cbn [snd fst fdef o_impl no_result no_norm]; unfold_fns; ans; try (unfold fn_text2; ans).
  - intros s. discriminate.
  - unfold fn_delete. ans. intros s. destruct (assoc a (s_vars s)); discriminate.
Qed.
Lemma handle_plain L stl k sym o : In (sym, o) (concat (removelast (std_levels L))) -> sym <> $"\" ->
  find_op (g_ops (std L)) sym = Some o -> forall ins, answers_always (op_handle (std L) (S k) stl sym ins).
Proof.
  intros Hi Hs Hf ins. cbn [op_handle]. rewrite Hf. apply always_call. intros vs us rs.
  pose proof (plain_answer L stl) as K. rewrite Forall_forall in K. apply (K _ Hi). right. exact Hs.
Qed.
Definition assign_syms : list str := [$"="; $"++"; $"--"; $"+="; $"-="; $"*="; $"/="; $"^="; $"%="; $"\="; $"||="].
Lemma assign_names L : map fst (last (std_levels L) []) = assign_syms.
Proof. reflexivity. Qed.
Lemma plain_in L sym o : find_op (g_ops (std L)) sym = Some o -> existsb (seq_eqb sym) assign_syms = false ->
  In (sym, o) (concat (removelast (std_levels L))).
Proof.
  intros Hf Hs. apply find_op_in in Hf. change (t_levels (g_ops (std L))) with (std_levels L) in Hf. rewrite levels_split in Hf.
  apply in_app_iff in Hf. destruct Hf as [H|H]; [exact H|]. exfalso. apply (in_map fst) in H. rewrite assign_names in H. cbn [fst] in H.
  enough (existsb (seq_eqb sym) assign_syms = true) by congruence. apply existsb_exists. exists sym. split; [exact H|apply seq_eqb_refl].
Qed.
Lemma divide_in L : exists o, find_op (g_ops (std L)) ($"/") = Some o /\ In ($"/", o) (concat (removelast (std_levels L))).
Proof. eexists. split; [reflexivity|]. apply plain_in; reflexivity. Qed.
Lemma handle_plain2 L stl k sym o : In (sym, o) (concat (removelast (std_levels L))) ->
  find_op (g_ops (std L)) sym = Some o -> forall ins, answers_always (op_handle (std L) (S (S k)) stl sym ins).
Proof.
  intros Hi Hf ins. cbn [op_handle]. rewrite Hf. apply always_call. intros vs us rs.
  pose proof (plain_answer L stl) as K. rewrite Forall_forall in K. apply (K _ Hi). left. intros ins'.
  destruct (divide_in L) as [o' [Hf' Hi']]. apply (handle_plain L stl k ($"/") o' Hi'); [discriminate|exact Hf'].
Qed.
Lemma base_in L op : In op base_ops -> exists o, find_op (g_ops (std L)) op = Some o /\ In (op, o) (concat (removelast (std_levels L))).
Proof.
  intros H. cbn [base_ops updates map snd In] in H.
  repeat (destruct H as [<-|H]; [eexists; split; [reflexivity|]; apply plain_in; reflexivity|]). destruct H.
Qed.
Lemma handle_all L stl k sym ins : answers_always (op_handle (std L) (S (S (S k))) stl sym ins).
Proof.
  cbn [op_handle]. destruct (find_op (g_ops (std L)) sym) as [o|] eqn:Hf; [|apply always_py]. apply always_call. intros vs us rs.
  pose proof (find_op_in _ _ _ Hf) as Hi. change (t_levels (g_ops (std L))) with (std_levels L) in Hi. rewrite levels_split in Hi.
  apply in_app_iff in Hi. destruct Hi as [Hi|Hi].
  - pose proof (plain_answer L stl) as K. rewrite Forall_forall in K. apply (K _ Hi). left. intros ins'.
    destruct (divide_in L) as [o' [Hf' Hi']]. apply (handle_plain2 L stl k ($"/") o' Hi' Hf').
  - pose proof (assign_answer L stl) as K. rewrite Forall_forall in K. apply (K _ Hi). intros op Hop ins'.
    destruct (base_in L op Hop) as [o' [Hf' Hi']]. apply (handle_plain2 L stl k op o' Hi' Hf').
Qed.
Lemma find_imul L : find_op (g_ops (std L)) ($"IMPLICIT_MULTIPLY") =
  Some (mkOper [None] [None] false (odef ($"IMPLICIT_MULTIPLY") 2 (all_are tynum) true true true false (op_multiply L))).
Proof. reflexivity. Qed.
Lemma std_answers L stl : ops_answer (std L) stl.
Proof.
  split; [|split].
  - intros s o H Hf. assert (E : s = $"IMPLICIT_MULTIPLY") by (destruct H as [H|[H|H]]; [discriminate H|discriminate H|injection H as <-; reflexivity]).
    subst s. rewrite find_imul in Hf. injection Hf as <-. cbn [op_l op_r length]. lia.
  - intros sym ins. apply (handle_all L stl 2).
  - intros f d vs us rs H. apply assoc_some_in in H. pose proof (funcs_answer L stl (callop (std L) stl)) as K. rewrite Forall_forall in K.
    apply (K _ H).
Qed.
