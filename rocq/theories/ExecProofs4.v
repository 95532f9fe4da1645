(** Proofs about the bound on the depth: more depth does not change an answer, and nested expressions without function
    pointers always have one. *)
From Coq Require Import ZArith QArith Ascii String List Bool Lia.
From Verif Require Import Base Dec Num Bases Units Syntax Pos Call CallSpec CallProofs Loop LoopSpec LoopProofs Parse Exec ExecSpec ExecProofs.
Import ListNotations.
Open Scope nat_scope.

(** * Agreement *)
Lemma agrees_refl : forall A (m : M A), agrees m m.
Proof. intros A m s. right. reflexivity. Qed.
Lemma agrees_bind : forall A B (m m' : M A) (f f' : A -> M B), agrees m m' -> (forall a, agrees (f a) (f' a)) -> agrees (bind m f) (bind m' f').
Proof.
  intros A B m m' f f' Hm Hf s. unfold bind. destruct (Hm s) as [E|E].
  - left. destruct (m s) as [o s1]. cbn [fst] in E. subst o. reflexivity.
  - rewrite E. destruct (m s) as [o s1]. destruct o; try (right; reflexivity). apply Hf.
Qed.
Lemma agrees_each_row : forall f f', (forall x, agrees (f x) (f' x)) -> forall rows, agrees (each_row f rows) (each_row f' rows).
Proof.
  intros f f' Hf. induction rows as [|x t IH]; cbn [each_row]; [apply agrees_refl|]. intros s. destruct (Hf x s) as [E|E].
  - left. destruct (f x s) as [o s1]. cbn [fst] in E. subst o. reflexivity.
  - rewrite E. destruct (f x s) as [o s1]. destruct o; try (right; reflexivity);
      apply agrees_bind; try exact IH; intros; apply agrees_refl.
Qed.
Lemma agrees_each_pack : forall f f', (forall x, agrees (f x) (f' x)) -> forall rows, agrees (each_pack f rows) (each_pack f' rows).
Proof.
  intros f f' Hf. induction rows as [|x t IH]; cbn [each_pack]; [apply agrees_refl|]. apply agrees_bind; [apply Hf|]. intros r.
  destruct (is_list (rval r)); [apply agrees_refl|]. apply agrees_bind; [exact IH|]. intros. apply agrees_refl.
Qed.
Lemma norm_arrays_impl : forall E d f vs i c ru, norm_arrays E (with_impl d f) i vs c ru = norm_arrays E d i vs c ru.
Proof.
  intros E d f. induction vs as [|v r IH]; intros i c ru; cbn [norm_arrays]; [reflexivity|].
  change (must_be (with_impl d f)) with (must_be d). cbn [with_impl o_norm o_multi o_rel].
  match goal with |- obind ?x _ = obind ?x _ => destruct x as [p| |] end; try reflexivity. cbn [obind]. rewrite IH. reflexivity.
Qed.
Lemma all_numbers_impl : forall E d f vs i, all_numbers E (with_impl d f) i vs = all_numbers E d i vs.
Proof.
  intros E d f. induction vs as [|v r IH]; intros i; cbn [all_numbers]; [reflexivity|]. rewrite IH. reflexivity.
Qed.
Lemma flags_of_impl : forall d f ins i, flags_of (with_impl d f) i ins = flags_of d i ins.
Proof. intros d f. induction ins as [|r t IH]; intros i; cbn [flags_of]; [reflexivity|]. rewrite IH. reflexivity. Qed.
Lemma prepare_impl : forall E d f vs us rs, prepare E (with_impl d f) vs us rs = prepare E d vs us rs.
Proof.
  intros E d f vs us rs. unfold prepare. change (validate E (with_impl d f)) with (validate E d).
  change (convert_numbers E (with_impl d f)) with (convert_numbers E d). cbn [with_impl o_autoin o_norm o_multi o_rel].
  rewrite all_numbers_impl, norm_arrays_impl. reflexivity.
Qed.
Lemma agrees_call_plain : forall E h d f f' stl ins, (forall vs us rs, agrees (f h vs us rs stl) (f' h vs us rs stl)) ->
  agrees (call_plain E h (with_impl d f) stl ins) (call_plain E h (with_impl d f') stl ins).
Proof.
  intros E h d f f' stl ins Hf. unfold call_plain. cbn [with_impl o_excs o_name o_impl].
  destruct (if o_excs d then None else find_exc ins); [apply agrees_refl|]. intros s. cbv zeta.
  rewrite !prepare_impl.
  set (P := lift (prepare E _ _ _ _)).
  assert (K : agrees (let* p := P in let* o := f h (fst (fst (fst p))) (snd (fst (fst p))) (map rref ins) stl in
                      ret (finish (with_impl d f) (snd (fst p)) (snd p) o))
                     (let* p := P in let* o := f' h (fst (fst (fst p))) (snd (fst (fst p))) (map rref ins) stl in
                      ret (finish (with_impl d f') (snd (fst p)) (snd p) o))).
  { apply agrees_bind; [apply agrees_refl|]. intros p. apply agrees_bind; [apply Hf|]. intros o. apply agrees_refl. }
  specialize (K s). destruct K as [K|K].
  - left. match type of K with fst ?x = OFuel => destruct x as [o s1] end. cbn [fst] in K. subst o. reflexivity.
  - right. rewrite K. reflexivity.
Qed.
Lemma agrees_call : forall E h d f f' stl ins, (forall vs us rs, agrees (f h vs us rs stl) (f' h vs us rs stl)) ->
  agrees (call E h (with_impl d f) stl ins) (call E h (with_impl d f') stl ins).
Proof.
  intros E h d f f' stl ins Hf. unfold call. generalize (3 + depths ins) as n. intros n. revert ins.
  induction n as [|k IH]; intros ins; cbn [call_fuel]; [apply agrees_refl|]. unfold call_step. cbv zeta.
  rewrite !flags_of_impl.
  change (is_packed (with_impl d f') ins) with (is_packed (with_impl d f) ins).
  destruct (existsb (fun b : bool => b) (flags_of d 0 ins)).
  - destruct (same_length _) as [[n|]|]; try apply agrees_refl.
    apply agrees_bind; [apply agrees_each_row, IH|]. intros. apply agrees_refl.
  - destruct (is_packed (with_impl d f) ins); [|apply agrees_call_plain; assumption].
    destruct (same_length _) as [[n|]|]; try apply agrees_refl; [|apply IH].
    apply agrees_bind; [apply agrees_each_pack, IH|]. intros. apply agrees_refl.
Qed.

Definition rec_agrees (rec rec' : exec) : Prop := forall stl items, agrees (rec stl items) (rec' stl items).
Ltac fuel_case H := left; match type of H with fst ?x = OFuel => destruct x as [?o ?s1]; cbn [fst] in H; subst; reflexivity end.
Lemma agrees_eval_inner : forall rec rec' stl text items, rec_agrees rec rec' -> agrees (eval_inner rec stl text items) (eval_inner rec' stl text items).
Proof. intros rec rec' stl text items H s. unfold eval_inner. destruct (H stl items s) as [E|E]; [fuel_case E|]. rewrite E. right. reflexivity. Qed.
Lemma agrees_eval_args : forall rec rec' stl allow text items mk args n acc, rec_agrees rec rec' ->
  agrees (eval_args rec stl allow text items mk args n acc) (eval_args rec' stl allow text items mk args n acc).
Proof.
  intros rec rec' stl allow text items mk args. induction args as [|arg rest IH]; intros n acc H; cbn [eval_args]; [apply agrees_refl|].
  intros s. cbv zeta. destruct (H stl arg s) as [E|E]; [fuel_case E|]. rewrite E.
  destruct (rec stl arg s) as [o s1]. destruct o as [r|e| |]; try (right; reflexivity).
  destruct (rval r); try (apply IH; exact H).
  destruct e; (destruct allow; [apply IH; exact H|right; reflexivity]).
Qed.
Lemma agrees_run_all : forall f f', (forall x, agrees (f x) (f' x)) -> forall sts last, agrees (run_all f sts last) (run_all f' sts last).
Proof.
  intros f f' Hf. induction sts as [|x r IH]; intros last; cbn [run_all]; [apply agrees_refl|].
  apply agrees_bind; [apply Hf|]. intros. apply IH.
Qed.
Lemma agrees_inline : forall rec rec' items stl vs us, rec_agrees rec rec' -> agrees (inline_impl rec items stl vs us) (inline_impl rec' items stl vs us).
Proof.
  intros rec rec' items stl vs us H s. unfold inline_impl. cbv zeta.
  destruct (agrees_run_all (rec stl) (rec' stl) (H stl) (statements_of items) None (set_vars s (set_params 1 vs us (s_vars s)))) as [E|E];
    [fuel_case E|]. rewrite E. right. reflexivity.
Qed.
Lemma statements_agree : forall G run run' fl, (forall x, agrees (run x) (run' x)) -> forall sts before rs s,
  fst (run_statements G run fl before sts rs s) = CFuel \/ run_statements G run' fl before sts rs s = run_statements G run fl before sts rs s.
Proof.
  intros G run run' fl Hr. induction sts as [|x rest IH]; intros before rs s; cbn [run_statements]; [right; reflexivity|]. cbv zeta.
  destruct (is_nil (functional_items x) || cf_parse_only fl); [apply IH|].
  destruct (Hr x s) as [E|E]; [fuel_case E|]. rewrite E. destruct (run x s) as [o s1]. destruct o as [r|e| |]; try (right; reflexivity).
  destruct (rval r); try (right; reflexivity); destruct (g_final G r); try (right; reflexivity); apply IH.
Qed.
Lemma calculate_agrees : forall G rec rec' fl text s, rec_agrees rec rec' ->
  fst (calculate_with G rec fl text s) = CFuel \/ calculate_with G rec' fl text s = calculate_with G rec fl text s.
Proof.
  intros G rec rec' fl text s H. unfold calculate_with. destruct text; [right; reflexivity|].
  destruct (parse_text _ _ _) as [r lft]. cbv zeta. destruct r; try (right; reflexivity). apply statements_agree. apply H.
Qed.
Lemma agrees_external : forall G rec rec' content vs us, rec_agrees rec rec' ->
  agrees (external_impl G rec content vs us) (external_impl G rec' content vs us).
Proof.
  intros G rec rec' content vs us H s. unfold external_impl. cbv zeta.
  destruct (calculate_agrees G rec rec' (mkCF false false false) content (set_vars s (set_params 1 vs us [])) H) as [E|E].
  - left. destruct (calculate_with G rec _ _ _) as [c s1]. cbn [fst] in E. subst c. reflexivity.
  - rewrite E. right. reflexivity.
Qed.
Lemma agrees_pointer : forall G rec rec' stl self ins v, rec_agrees rec rec' ->
  agrees (call_pointer G rec stl self ins v) (call_pointer G rec' stl self ins v).
Proof.
  intros G rec rec' stl self ins v H. unfold call_pointer, pointer_def. destruct v; try apply agrees_refl.
  - destruct (g_external G); [|apply agrees_refl]. destruct (g_read G s) as [content|]; [|apply agrees_refl].
    destruct (g_input G content) as [[rs us]| |]; try apply agrees_refl.
    change (external_def G rec' content rs us) with (with_impl (external_def G rec content rs us) (fun _ vs us' _ _ => external_impl G rec' content vs us')).
    change (external_def G rec content rs us) with (with_impl (external_def G rec content rs us) (fun _ vs us' _ _ => external_impl G rec content vs us')) at 1.
    apply agrees_call. intros. apply agrees_external, H.
  - destruct i; try apply agrees_refl. destruct (g_inline G); [|apply agrees_refl].
    change (inline_def rec' items) with (with_impl (inline_def rec items) (fun _ vs us _ stl => inline_impl rec' items stl vs us)).
    change (inline_def rec items) with (with_impl (inline_def rec items) (fun _ vs us _ stl => inline_impl rec items stl vs us)) at 1.
    apply agrees_call. intros. apply agrees_inline, H.
Qed.
Lemma agrees_call_pointers : forall f f', (forall v, agrees (f v) (f' v)) -> forall vs, agrees (call_pointers f vs) (call_pointers f' vs).
Proof.
  intros f f' Hf. induction vs as [|v r IH]; cbn [call_pointers]; [apply agrees_refl|].
  apply agrees_bind; [apply Hf|]. intros. apply agrees_bind; [exact IH|]. intros. apply agrees_refl.
Qed.
Lemma agrees_eval_ptr : forall G rec rec' stl text tr items name args, rec_agrees rec rec' ->
  agrees (eval_ptr G rec stl text tr items name args) (eval_ptr G rec' stl text tr items name args).
Proof.
  intros G rec rec' stl text tr items name args H s. unfold eval_ptr. destruct (assoc name (s_vars s)) as [[v u]|]; [|right; reflexivity].
  match goal with |- fst (?m s) = _ \/ ?m' s = _ => assert (K : agrees m m'); [|apply K] end.
  apply agrees_bind; [apply agrees_eval_args, H|]. intros ins. cbv zeta.
  pose proof (fun v => agrees_pointer G rec rec' stl (IPtr [] tr [] name args) ins v H) as K.
  destruct v; try apply K. apply agrees_bind; [apply agrees_call_pointers, K|]. intros. apply agrees_refl.
Qed.

Definition cagrees {A} (m m' : counted A) : Prop := forall s, fst (fst (m s)) = OFuel \/ m' s = m s.
Lemma cagrees_bind : forall A B (m m' : M A) n (f f' : A -> counted B), agrees m m' -> (forall a, cagrees (f a) (f' a)) ->
  cagrees (count_bind m n f) (count_bind m' n f').
Proof.
  intros A B m m' n f f' Hm Hf s. unfold count_bind. destruct (Hm s) as [E|E].
  - left. destruct (m s) as [o s1]. cbn [fst] in E. subst o. reflexivity.
  - rewrite E. destruct (m s) as [o s1]. destruct o; try (right; reflexivity). apply Hf.
Qed.
Lemma cagrees_refl : forall A (m : counted A), cagrees m m.
Proof. intros A m s. right. reflexivity. Qed.
Lemma agrees_part : forall G rec rec' stl num items, rec_agrees rec rec' -> agrees (eval_part G rec stl num items) (eval_part G rec' stl num items).
Proof. intros G rec rec' stl num items H. unfold eval_part. apply agrees_bind; [apply H|]. intros. apply agrees_refl. Qed.
Lemma agrees_element : forall G rec rec' stl e n, rec_agrees rec rec' -> cagrees (eval_element G rec stl e n) (eval_element G rec' stl e n).
Proof.
  intros G rec rec' stl e n H. unfold eval_element. cbv zeta. destruct (e_end e) as [e2|].
  - apply cagrees_bind; [apply agrees_part, H|]. intros a. apply cagrees_bind; [apply agrees_part, H|]. intros b.
    apply cagrees_bind; [apply agrees_refl|]. intros down.
    apply cagrees_bind; [destruct (e_step e); [apply agrees_part, H|apply agrees_refl]|]. intros c. apply cagrees_refl.
  - apply cagrees_bind; [apply agrees_part, H|]. intros. apply cagrees_refl.
Qed.
Lemma agrees_elements : forall G rec rec' stl es n acc, rec_agrees rec rec' ->
  cagrees (eval_elements G rec stl es n acc) (eval_elements G rec' stl es n acc).
Proof.
  intros G rec rec' stl es. induction es as [|e r IH]; intros n acc H; cbn [eval_elements]; [apply cagrees_refl|].
  intros s. destruct (agrees_element G rec rec' stl e (n + 1) H s) as [E|E].
  - left. destruct (eval_element G rec stl e (n + 1) s) as [[o k] s1]. cbn [fst] in E. subst o. reflexivity.
  - rewrite E. destruct (eval_element G rec stl e (n + 1) s) as [[o k] s1]. destruct o; try (right; reflexivity). apply IH, H.
Qed.
Lemma agrees_eval_arr : forall G rec rec' stl text items es, rec_agrees rec rec' ->
  agrees (eval_arr G rec stl text items es) (eval_arr G rec' stl text items es).
Proof.
  intros G rec rec' stl text items es H s. unfold eval_arr. destruct (agrees_elements G rec rec' stl es 0 [] H s) as [E|E].
  - left. destruct (eval_elements G rec stl es 0 [] s) as [[o k] s1]. cbn [fst] in E. subst o. reflexivity.
  - rewrite E. right. reflexivity.
Qed.
Lemma agrees_eval_item : forall G rec rec' stl i, rec_agrees rec rec' -> agrees (eval_item G rec stl i) (eval_item G rec' stl i).
Proof.
  intros G rec rec' stl i H. destruct i; cbn [eval_item]; try apply agrees_refl.
  - apply agrees_eval_inner, H.
  - unfold eval_func. destruct (assoc name (g_funcs G)); [|apply agrees_refl].
    apply agrees_bind; [apply agrees_eval_args, H|]. intros. apply agrees_refl.
  - apply agrees_eval_ptr, H.
  - apply agrees_eval_arr, H.
Qed.
Lemma agrees_operands : forall G rec rec' stl items k sl orig, rec_agrees rec rec' ->
  agrees (eval_operands G rec stl items k sl orig) (eval_operands G rec' stl items k sl orig).
Proof.
  intros G rec rec' stl items. induction items as [|i r IH]; intros k sl orig H; cbn [eval_operands]; [apply agrees_refl|].
  assert (K : agrees (eval_operand G rec stl (firstn k orig) i) (eval_operand G rec' stl (firstn k orig) i)).
  { intros s. unfold eval_operand. destruct (agrees_eval_item G rec rec' stl i H s) as [E|E]; [fuel_case E|]. rewrite E. right. reflexivity. }
  destruct i; try (apply IH; exact H);
    (destruct (ifunc _); [apply agrees_bind; [exact K|]; intros p; apply IH; exact H|apply IH; exact H]).
Qed.
Lemma agrees_body : forall G rec rec', rec_agrees rec rec' -> rec_agrees (execute_body G rec) (execute_body G rec').
Proof.
  intros G rec rec' H stl items. unfold execute_body. destruct (is_nil (functional_items items)); [apply agrees_refl|].
  apply agrees_bind; [apply agrees_operands, H|]. intros [sl orig]. apply agrees_refl.
Qed.
Lemma execute_agrees : forall G n, rec_agrees (execute G n) (execute G (S n)).
Proof.
  intros G n. induction n as [|k IH]; [intros stl items s; left; reflexivity|]. cbn [execute]. apply agrees_body, IH.
Qed.
Theorem execute_depth : forall G n m stl items s, n <= m -> fst (execute G n stl items s) <> OFuel ->
  execute G m stl items s = execute G n stl items s.
Proof.
  intros G n m stl items s H Hf. induction H as [|m H IH]; [reflexivity|].
  destruct (execute_agrees G m stl items s) as [E|E]; [rewrite IH in E; contradiction|congruence].
Qed.
Lemma execute_agrees_le : forall G n m, n <= m -> rec_agrees (execute G n) (execute G m).
Proof.
  intros G n m H stl items s. destruct (fst (execute G n stl items s)) eqn:E; try (left; reflexivity);
    right; apply execute_depth; try exact H; rewrite E; discriminate.
Qed.
Theorem calculate_depth : forall G n m fl text s, n <= m -> fst (calculate G n fl text s) <> CFuel ->
  calculate G m fl text s = calculate G n fl text s.
Proof.
  intros G n m fl text s H Hf. unfold calculate in *.
  destruct (calculate_agrees G (execute G n) (execute G m) fl text s (execute_agrees_le G n m H)) as [E|E]; [contradiction|exact E].
Qed.
