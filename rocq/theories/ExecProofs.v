(** Proofs about running statements (Exec.v). *)
From Coq Require Import ZArith QArith Ascii String List Bool Lia.
From Verif Require Import Base Dec Num Bases Units Syntax Pos Call Loop Parse Exec ExecSpec.
Import ListNotations.
Open Scope nat_scope.

(** * What is kept *)
Lemma keeps_ret : forall P A (a : A), preorder P -> keeps P (ret a).
Proof. intros P A a [H _] s. apply H. Qed.
Lemma keeps_raise : forall P A e, preorder P -> @keeps A P (raise e).
Proof. intros P A a [H _] s. apply H. Qed.
Lemma keeps_py : forall P A, preorder P -> @keeps A P pyerr.
Proof. intros P A [H _] s. apply H. Qed.
Lemma keeps_fuel : forall P A, preorder P -> @keeps A P (fun s => (OFuel, s)).
Proof. intros P A [H _] s. apply H. Qed.
Lemma keeps_lift : forall P A (x : out A), preorder P -> keeps P (lift x).
Proof. intros P A x [H _] s. destruct x; apply H. Qed.
Lemma keeps_bind : forall P A B (m : M A) (f : A -> M B), preorder P -> keeps P m -> (forall a, keeps P (f a)) -> keeps P (bind m f).
Proof.
  intros P A B m f [R T] Hm Hf s. unfold bind. specialize (Hm s). destruct (m s) as [o s1]. destruct o; cbn [snd] in *; try exact Hm.
  eapply T; [exact Hm|apply Hf].
Qed.
(** Changing the outcome only *)
Lemma keeps_map : forall P A B (m : M A) (f : st -> oc B * st), keeps P m ->
  (forall s, snd (f s) = snd (m s)) -> keeps P f.
Proof. intros P A B m f Hm H s. rewrite H. apply Hm. Qed.

Lemma keeps_each_row : forall P f, preorder P -> (forall x, keeps P (f x)) -> forall rows, keeps P (each_row f rows).
Proof.
  intros P f HP Hf. induction rows as [|x t IH]; cbn [each_row]; [apply keeps_ret, HP|].
  intros s. pose proof (Hf x s) as Hx. destruct (f x s) as [o s1]. cbn [snd] in Hx.
  assert (K : forall r : result, keeps P (let* l := each_row f t in ret (r :: l))).
  { intros r. apply keeps_bind; [exact HP|exact IH|]. intros. apply keeps_ret, HP. }
  destruct HP as [R T]. destruct o; cbn [snd]; try exact Hx; (eapply T; [exact Hx|apply K]).
Qed.
Lemma keeps_each_pack : forall P f, preorder P -> (forall x, keeps P (f x)) -> forall rows, keeps P (each_pack f rows).
Proof.
  intros P f HP Hf. induction rows as [|x t IH]; cbn [each_pack]; [apply keeps_ret, HP|].
  apply keeps_bind; [exact HP|apply Hf|]. intros r. destruct (is_list (rval r)); [apply keeps_raise, HP|].
  apply keeps_bind; [exact HP|exact IH|]. intros. apply keeps_ret, HP.
Qed.
Lemma keeps_call_plain : forall P E h d stl ins, preorder P -> (forall vs us rs, keeps P (o_impl d h vs us rs stl)) ->
  keeps P (call_plain E h d stl ins).
Proof.
  intros P E h d stl ins HP Hi. unfold call_plain. destruct (if o_excs d then None else find_exc ins); [apply keeps_ret, HP|].
  eapply keeps_map with (m := let* p := lift (prepare E d (map rval ins) (map runit ins) (map rref ins)) in
           let* o := o_impl d h (fst (fst (fst p))) (snd (fst (fst p))) (map rref ins) stl in
           ret (finish d (snd (fst p)) (snd p) o)).
  - apply keeps_bind; [exact HP|apply keeps_lift, HP|]. intros p. apply keeps_bind; [exact HP|apply Hi|]. intros. apply keeps_ret, HP.
  - intros s. cbv zeta. match goal with |- context [match ?x with _ => _ end] => destruct x as [o s1] end.
    destruct o; cbn [snd]; try reflexivity.
    + destruct (wrapped e); [reflexivity|]. destruct (forallb (e_tostr E) ins); reflexivity.
    + destruct (forallb (e_tostr E) ins); reflexivity.
Qed.
Lemma keeps_call : forall P E h d stl ins, preorder P -> (forall vs us rs, keeps P (o_impl d h vs us rs stl)) ->
  keeps P (call E h d stl ins).
Proof.
  intros P E h d stl ins HP Hi. unfold call. generalize (3 + depths ins) as n. intros n. revert ins.
  induction n as [|k IH]; intros ins; cbn [call_fuel]; [apply keeps_fuel, HP|]. unfold call_step. cbv zeta.
  destruct (existsb (fun b : bool => b) (flags_of d 0 ins)).
  - destruct (same_length _) as [[n|]|]; try (apply keeps_raise, HP).
    apply keeps_bind; [exact HP|apply keeps_each_row; [exact HP|exact IH]|]. intros. apply keeps_ret, HP.
  - destruct (is_packed d ins); [|apply keeps_call_plain; assumption].
    destruct (same_length _) as [[n|]|]; try (apply keeps_raise, HP); [|apply IH].
    apply keeps_bind; [exact HP|apply keeps_each_pack; [exact HP|exact IH]|]. intros. apply keeps_ret, HP.
Qed.

Lemma keeps_op_handle : forall P G stl, preorder P ->
  (forall sym o, find_op (g_ops G) sym = Some o -> impl_keeps P stl (op_def o)) ->
  forall n sym ins, keeps P (op_handle G n stl sym ins).
Proof.
  intros P G stl HP H. induction n as [|k IH]; intros sym ins; cbn [op_handle]; [apply keeps_fuel, HP|].
  destruct (find_op (g_ops G) sym) as [o|] eqn:Eo; [|apply keeps_py, HP].
  apply keeps_call; [exact HP|]. apply (H sym o Eo). exact IH.
Qed.

Lemma keeps_take : forall P orig sym prev want have, preorder P -> keeps P (take_inputs orig sym prev want have).
Proof.
  intros P orig sym prev want. induction want as [|w want IH]; intros have HP; cbn [take_inputs]; [apply keeps_ret, HP|].
  destruct w as [t|], have as [|[t' i|r i] have]; try (apply keeps_ret, HP); try (apply keeps_raise, HP); try (apply keeps_py, HP).
  - destruct (seq_eqb t' t); [apply IH, HP|apply keeps_raise, HP].
  - apply keeps_bind; [exact HP|apply IH, HP|]. intros. apply keeps_ret, HP.
Qed.
Lemma keeps_run_op : forall P T orig call sl i sym w, preorder P -> (forall sym ins, keeps P (call sym ins)) ->
  keeps P (run_op T orig call sl i sym w).
Proof.
  intros P T orig call sl i sym w HP Hc. unfold run_op. destruct (find_op T sym) as [o|]; [|apply keeps_py, HP].
  destruct (nth_error sl i) as [x|]; [|apply keeps_py, HP].
  destruct (i <? length (op_l o)); [apply keeps_raise, HP|].
  destruct (length sl <? i + length (op_r o) + w); [apply keeps_raise, HP|].
  apply keeps_bind; [exact HP|apply keeps_take, HP|]. intros ins.
  apply keeps_bind; [exact HP| |intros; apply keeps_ret, HP].
  eapply keeps_map; [apply (Hc sym ins)|]. intros s. cbv beta. destruct (call sym ins s) as [y s1]. destruct y; reflexivity.
Qed.
Lemma keeps_run_slots : forall P T orig call sl, preorder P -> (forall sym ins, keeps P (call sym ins)) ->
  keeps P (run_slots T orig call sl).
Proof.
  intros P T orig call sl HP Hc. unfold run_slots. apply keeps_bind; [exact HP| |].
  - generalize (loop_fuel sl) as n. intros n. revert sl. induction n as [|k IH]; intros sl; cbn [op_loop]; [apply keeps_fuel, HP|].
    destruct (scan_levels T (t_levels T) sl) as [[[[i sym] w]|]| |]; try (apply keeps_py, HP); [|apply keeps_ret, HP].
    apply keeps_bind; [exact HP|apply keeps_run_op; assumption|]. intros sl'. apply IH.
  - intros sl'. unfold ends. destruct sl' as [|[t i|r i] [|y rest]]; try (apply keeps_py, HP); try (apply keeps_raise, HP);
      try (apply keeps_ret, HP); match goal with |- context [filter ?f ?l] => destruct (filter f l) end;
      try (apply keeps_py, HP); apply keeps_raise, HP.
Qed.

Lemma keeps_reraise : forall P A text mk m its nx, preorder P -> @keeps A P (reraise text mk m its nx).
Proof. intros P A text mk m its nx HP. unfold reraise. destruct (truncate text [its] nx); [apply keeps_raise|apply keeps_py]; exact HP. Qed.

(** Going on with a computation that keeps *)
Lemma keeps_step : forall P A B (m : M A) (f : oc A * st -> oc B * st), preorder P -> keeps P m ->
  (forall o s, P (s_vars s) (s_vars (snd (f (o, s))))) -> keeps P (fun s => f (m s)).
Proof.
  intros P A B m f [R T] Hm Hf s. specialize (Hm s). destruct (m s) as [o s1]. cbn [snd] in Hm. eapply T; [exact Hm|apply Hf].
Qed.

Lemma keeps_eval_inner : forall P (rec : exec) stl text items, preorder P -> (forall l, keeps P (rec stl l)) ->
  keeps P (eval_inner rec stl text items).
Proof.
  intros P rec stl text items HP Hr. unfold eval_inner.
  intros s. pose proof (Hr items s) as H. destruct (rec stl items s) as [o s1]. cbn [snd] in H. pose proof HP as [R T].
  destruct o as [r|e| |]; try exact H.
  - destruct (rval r); try exact H. destruct e; try exact H. eapply T; [exact H|apply keeps_reraise, HP].
  - destruct e; try exact H. eapply T; [exact H|apply keeps_reraise, HP].
Qed.
Lemma keeps_eval_args : forall P (rec : exec) stl allow text items mk args n acc, preorder P -> (forall l, keeps P (rec stl l)) ->
  keeps P (eval_args rec stl allow text items mk args n acc).
Proof.
  intros P rec stl allow text items mk args. induction args as [|arg rest IH]; intros n acc HP Hr; cbn [eval_args]; [apply keeps_ret, HP|].
  intros s. cbv zeta. pose proof (Hr arg s) as H. destruct (rec stl arg s) as [o s1]. cbn [snd] in H. pose proof HP as [R T].
  destruct o as [r|e| |]; try exact H.
  - destruct (rval r); try (eapply T; [exact H|apply IH; assumption]).
    destruct e; (destruct allow; [eapply T; [exact H|apply IH; assumption]|]); [exact H|]. eapply T; [exact H|apply keeps_reraise, HP].
  - destruct e; try exact H. eapply T; [exact H|apply keeps_reraise, HP].
Qed.
Lemma keeps_run_all : forall P f, preorder P -> (forall x, keeps P (f x)) -> forall sts last, keeps P (run_all f sts last).
Proof.
  intros P f HP Hf. induction sts as [|x r IH]; intros last; cbn [run_all]; [apply keeps_ret, HP|].
  apply keeps_bind; [exact HP|apply Hf|]. intros. apply IH.
Qed.
(** Inline functions put the variables back, or not: then the parameters and what the body did stay *)
Lemma keeps_inline : forall P (rec : exec) items stl vs us, preorder P -> (forall l, keeps P (rec stl l)) ->
  (forall vars, P vars (set_params 1 vs us vars)) -> keeps P (inline_impl rec items stl vs us).
Proof.
  intros P rec items stl vs us HP Hr Hp s. unfold inline_impl. cbv zeta.
  pose proof (keeps_run_all P (rec stl) HP Hr (statements_of items) None (set_vars s (set_params 1 vs us (s_vars s)))) as H.
  destruct (run_all _ _ _ _) as [o s1]. cbn [snd s_vars set_vars] in H. pose proof HP as [R T].
  assert (L : P (s_vars s) (s_vars s1)) by (eapply T; [apply Hp|exact H]).
  destruct o as [[r|]|e| |]; try exact L; [|destruct e; [exact L|apply R]].
  destruct (rval r); apply R.
Qed.
(** External functions always put the variables back *)
Lemma external_vars : forall G rec content vs us s, s_vars (snd (external_impl G rec content vs us s)) = s_vars s.
Proof.
  intros G rec content vs us s. unfold external_impl. cbv zeta. destruct (calculate_with _ _ _ _ _) as [c s1].
  destruct c; try reflexivity. destruct (last_answer rs) as [[v u]|]; reflexivity.
Qed.
Lemma keeps_call_pointers : forall P f, preorder P -> (forall v, keeps P (f v)) -> forall vs, keeps P (call_pointers f vs).
Proof.
  intros P f HP Hf. induction vs as [|v r IH]; cbn [call_pointers]; [apply keeps_ret, HP|].
  apply keeps_bind; [exact HP|apply Hf|]. intros. apply keeps_bind; [exact HP|exact IH|]. intros. apply keeps_ret, HP.
Qed.
Lemma pointer_def_ok : forall G rec v d, pointer_def G rec v = Some (Ok d) ->
  (g_inline G = true /\ exists items, d = inline_def rec items) \/
  (g_external G = true /\ exists content rs us, d = external_def G rec content rs us).
Proof.
  intros G rec v d H. unfold pointer_def in H. destruct v; try discriminate.
  - destruct (g_external G); [|discriminate]. destruct (g_read G s) as [content|]; [|discriminate].
    destruct (g_input G content) as [[rs us]| |]; try discriminate. injection H as <-. right. split; [reflexivity|]. eauto.
  - destruct i; try discriminate. destruct (g_inline G); [|discriminate]. injection H as <-. left. split; [reflexivity|]. eauto.
Qed.
Definition params_kept (P : varstore -> varstore -> Prop) (G : ecfg) : Prop :=
  g_inline G = true -> forall vs us vars, P vars (set_params 1 vs us vars).
Lemma keeps_call_pointer : forall P G (rec : exec) stl self ins v, preorder P -> (forall l, keeps P (rec stl l)) -> params_kept P G ->
  keeps P (call_pointer G rec stl self ins v).
Proof.
  intros P G rec stl self ins v HP Hr Hp. unfold call_pointer. destruct (pointer_def G rec v) as [[d| |]|] eqn:Ed;
    try (apply keeps_raise, HP); try (apply keeps_py, HP).
  apply keeps_call; [exact HP|]. intros vs us rs. destruct (pointer_def_ok G rec v d Ed) as [[Hi [items ->]]|[_ [c [r [u ->]]]]].
  - cbn [o_impl inline_def]. apply keeps_inline; [exact HP|exact Hr|]. apply Hp, Hi.
  - cbn [o_impl external_def]. intros s. rewrite external_vars. apply HP.
Qed.
Lemma keeps_eval_ptr : forall P G (rec : exec) stl text tr items name args, preorder P -> (forall l, keeps P (rec stl l)) -> params_kept P G ->
  keeps P (eval_ptr G rec stl text tr items name args).
Proof.
  intros P G rec stl text tr items name args HP Hr Hp s. unfold eval_ptr. destruct (assoc name (s_vars s)) as [[v u]|]; [|apply HP].
  match goal with |- P _ (s_vars (snd (?m s))) => assert (K : keeps P m); [|apply K] end.
  apply keeps_bind; [exact HP|apply keeps_eval_args; assumption|]. intros ins. cbv zeta.
  assert (K : forall v, keeps P (call_pointer G rec stl (IPtr [] tr [] name args) ins v)).
  { intros v'. apply keeps_call_pointer; assumption. }
  destruct v; try apply K. apply keeps_bind; [exact HP|apply keeps_call_pointers; [exact HP|exact K]|]. intros. apply keeps_ret, HP.
Qed.

Definition keepsc {A} (P : varstore -> varstore -> Prop) (m : counted A) : Prop := forall s, P (s_vars s) (s_vars (snd (m s))).
Lemma keeps_count_bind : forall P A B (m : M A) n (f : A -> counted B), preorder P -> keeps P m -> (forall a, keepsc P (f a)) ->
  keepsc P (count_bind m n f).
Proof.
  intros P A B m n f [R T] Hm Hf s. unfold count_bind. specialize (Hm s). destruct (m s) as [o s1]. destruct o; cbn [snd] in *; try exact Hm.
  eapply T; [exact Hm|apply Hf].
Qed.
Lemma keeps_eval_part : forall P G (rec : exec) stl num items, preorder P -> (forall l, keeps P (rec stl l)) ->
  keeps P (eval_part G rec stl num items).
Proof.
  intros P G rec stl num items HP Hr. unfold eval_part. apply keeps_bind; [exact HP|apply Hr|]. intros r.
  assert (K : forall b : bool, keeps P (if b then range_error else ret r)).
  { intros [|]; [apply keeps_raise, HP|apply keeps_ret, HP]. }
  destruct (rval r); try apply K. destruct e; try apply K. apply keeps_raise, HP.
Qed.
Lemma keeps_range_unit : forall P E a b, preorder P -> keeps P (range_unit E a b).
Proof.
  intros P E a b HP. unfold range_unit. destruct (runit b); [|apply keeps_raise, HP]. destruct (e_norm E) as [f|]; [|apply keeps_py, HP].
  apply keeps_bind; [exact HP|apply keeps_lift, HP|]. intros n. destruct (nth_error (fst (fst n)) 1); [|apply keeps_py, HP].
  destruct (nth_error (snd (fst n)) 1); [apply keeps_ret, HP|apply keeps_py, HP].
Qed.
Lemma keeps_range_values : forall P p a b c, preorder P -> keeps P (range_values p a b c).
Proof.
  intros P p a b c HP. unfold range_values. destruct a; try (apply keeps_py, HP). destruct b; try (apply keeps_py, HP).
  destruct c; try (apply keeps_py, HP). destruct (num_sub p n0 n); [|apply keeps_py, HP]. destruct (num_mul p n2 n1); [|apply keeps_py, HP].
  destruct (negb _); [apply keeps_raise, HP|]. destruct (range_loop _ _ _ _ _) as [[l|]| |]; try (apply keeps_py, HP);
    [apply keeps_ret, HP|apply keeps_fuel, HP].
Qed.
Lemma keeps_eval_element : forall P G (rec : exec) stl e n, preorder P -> (forall l, keeps P (rec stl l)) ->
  keepsc P (eval_element G rec stl e n).
Proof.
  intros P G rec stl e n HP Hr. pose proof HP as [R T]. unfold eval_element. cbv zeta. destruct (e_end e) as [e2|].
  - apply keeps_count_bind; [exact HP|apply keeps_eval_part; assumption|]. intros a.
    apply keeps_count_bind; [exact HP|apply keeps_eval_part; assumption|]. intros b.
    apply keeps_count_bind; [exact HP|apply keeps_lift, HP|]. intros down.
    apply keeps_count_bind; [exact HP| |].
    { destruct (e_step e); [apply keeps_eval_part; assumption|apply keeps_ret, HP]. }
    intros c. apply keeps_count_bind; [exact HP| |].
    { assert (K : keeps P (let* b' := range_unit (g_env G) a b in let* c' := range_unit (g_env G) a c in ret (fst b', fst c'))).
      { apply keeps_bind; [exact HP|apply keeps_range_unit, HP|]. intros. apply keeps_bind; [exact HP|apply keeps_range_unit, HP|].
        intros. apply keeps_ret, HP. }
      destruct (runit a); [exact K|]. destruct (runit b); [apply keeps_raise, HP|]. destruct (runit c); [apply keeps_raise, HP|apply keeps_ret, HP]. }
    intros bc. apply keeps_count_bind; [exact HP|apply keeps_range_values, HP|]. intros l s. apply R.
  - apply keeps_count_bind; [exact HP|apply keeps_eval_part; assumption|]. intros a s. apply R.
Qed.
Lemma keeps_eval_elements : forall P G (rec : exec) stl es n acc, preorder P -> (forall l, keeps P (rec stl l)) ->
  keepsc P (eval_elements G rec stl es n acc).
Proof.
  intros P G rec stl es. induction es as [|e r IH]; intros n acc HP Hr; cbn [eval_elements].
  - intros s. apply HP.
  - intros s. pose proof (keeps_eval_element P G rec stl e (n + 1) HP Hr s) as H. destruct (eval_element _ _ _ _ _ s) as [[o n'] s1].
    cbn [snd] in H. destruct o; try exact H. destruct HP as [R T]. eapply T; [exact H|apply IH; [split; assumption|exact Hr]].
Qed.
Lemma keeps_eval_arr : forall P G (rec : exec) stl text items es, preorder P -> (forall l, keeps P (rec stl l)) ->
  keeps P (eval_arr G rec stl text items es).
Proof.
  intros P G rec stl text items es HP Hr s. unfold eval_arr. pose proof (keeps_eval_elements P G rec stl es 0 [] HP Hr s) as H.
  destruct (eval_elements _ _ _ _ _ _ s) as [[o n] s1]. cbn [snd] in H. destruct o as [l|e| |]; try exact H.
  destruct e; try exact H. cbv zeta. destruct HP as [R T]. eapply T; [exact H|apply keeps_reraise; split; assumption].
Qed.

Definition ops_keep (P : varstore -> varstore -> Prop) (G : ecfg) (stl : bool) : Prop :=
  (forall sym o, find_op (g_ops G) sym = Some o -> impl_keeps P stl (op_def o)) /\
  (forall name d, assoc name (g_funcs G) = Some d -> impl_keeps P stl d).
Lemma keeps_callop : forall P G stl, preorder P -> ops_keep P G stl -> forall sym ins, keeps P (callop G stl sym ins).
Proof. intros P G stl HP [H _] sym ins. apply keeps_op_handle; assumption. Qed.
Lemma keeps_eval_item : forall P G (rec : exec) stl i, preorder P -> (forall l, keeps P (rec stl l)) -> ops_keep P G stl -> params_kept P G ->
  keeps P (eval_item G rec stl i).
Proof.
  intros P G rec stl i HP Hr Ho Hp. destruct i; cbn [eval_item]; try (apply keeps_py, HP); try (apply keeps_ret, HP).
  - intros s. destruct (assoc name (s_vars s)) as [[v u]|]; apply HP.
  - apply keeps_eval_inner; assumption.
  - unfold eval_func. destruct (assoc name (g_funcs G)) as [d|] eqn:Ed; [|apply keeps_py, HP].
    apply keeps_bind; [exact HP|apply keeps_eval_args; assumption|]. intros ins. apply keeps_call; [exact HP|].
    apply (proj2 Ho name d Ed). apply keeps_callop; assumption.
  - apply keeps_eval_ptr; assumption.
  - apply keeps_eval_arr; assumption.
Qed.
Lemma keeps_eval_operands : forall P G (rec : exec) stl items k sl orig, preorder P -> (forall l, keeps P (rec stl l)) -> ops_keep P G stl -> params_kept P G ->
  keeps P (eval_operands G rec stl items k sl orig).
Proof.
  intros P G rec stl items. induction items as [|i r IH]; intros k sl orig HP Hr Ho Hp; cbn [eval_operands]; [apply keeps_ret, HP|].
  assert (K : keeps P (eval_operand G rec stl (firstn k orig) i)).
  { eapply keeps_map; [apply (keeps_eval_item P G rec stl i); assumption|]. intros s. unfold eval_operand.
    destruct (eval_item G rec stl i s) as [o s1]. destruct o as [x|e| |]; try reflexivity. destruct e; reflexivity. }
  assert (L : keeps P (if ifunc i then let* p := eval_operand G rec stl (firstn k orig) i in
      eval_operands G rec stl r (S k) (sl ++ [SRes (fst p) k]) (orig ++ [snd p]) else eval_operands G rec stl r k sl (orig ++ [i]))).
  { destruct (ifunc i); [|apply IH; assumption]. apply keeps_bind; [exact HP|exact K|]. intros p. apply IH; assumption. }
  destruct i; try exact L. apply IH; assumption.
Qed.
Theorem keeps_execute : forall P G stl, preorder P -> ops_keep P G stl -> params_kept P G ->
  forall n items, keeps P (execute G n stl items).
Proof.
  intros P G stl HP Ho Hp. induction n as [|k IH]; intros items; cbn [execute]; [apply keeps_fuel, HP|].
  unfold execute_body. destruct (is_nil (functional_items items)); [apply keeps_raise, HP|].
  apply keeps_bind; [exact HP|apply keeps_eval_operands; assumption|]. intros [sl orig].
  eapply keeps_map; [apply (keeps_run_slots P (g_ops G) orig (callop G stl) sl HP)|].
  - apply keeps_callop; assumption.
  - intros s. cbv beta. destruct (run_slots _ _ _ _ s) as [o s1]. destruct o as [r|e| |]; try reflexivity.
    destruct (rval r); try reflexivity. destruct e; reflexivity.
Qed.
