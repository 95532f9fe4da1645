(** Nested expressions without function pointers and ranges always have an answer. *)
From Coq Require Import ZArith QArith Ascii String List Bool Lia.
From Verif Require Import Base Dec Num Bases Units Syntax Pos Call CallSpec CallProofs Loop LoopSpec LoopProofs Parse Exec ExecSpec ExecProofs.
Import ListNotations.
Open Scope nat_scope.

Lemma always_bind : forall A B (m : M A) (f : A -> M B), answers_always m -> (forall a, answers_always (f a)) -> answers_always (bind m f).
Proof.
  intros A B m f Hm Hf s. unfold bind. specialize (Hm s). destruct (m s) as [o s1]. destruct o; try discriminate; [apply Hf|contradiction].
Qed.
Lemma always_ret : forall A (a : A), answers_always (ret a). Proof. intros A a s. discriminate. Qed.
Lemma always_raise : forall A e, @answers_always A (raise e). Proof. intros A a s. discriminate. Qed.
Lemma always_py : forall A, @answers_always A pyerr. Proof. intros A s. discriminate. Qed.
Lemma always_lift : forall A (x : out A), answers_always (lift x). Proof. intros A x s. destruct x; discriminate. Qed.
Lemma always_each_row : forall f rows, (forall x, In x rows -> answers_always (f x)) -> answers_always (each_row f rows).
Proof.
  intros f. induction rows as [|x t IH]; intros Hf; cbn [each_row]; [apply always_ret|]. intros s.
  pose proof (Hf x (or_introl eq_refl) s) as H. assert (K : answers_always (each_row f t)) by (apply IH; intros; apply Hf; right; assumption).
  assert (L : forall r : result, answers_always (let* l := each_row f t in ret (r :: l))) by (intros; apply always_bind; [exact K|intros; apply always_ret]).
  destruct (f x s) as [o s1]. destruct o; try discriminate; try apply L. contradiction.
Qed.
Lemma always_each_pack : forall f rows, (forall x, answers_always (f [mkRes (VList x) None None])) -> answers_always (each_pack f rows).
Proof.
  intros f rows Hf. induction rows as [|x t IH]; cbn [each_pack]; [apply always_ret|]. apply always_bind; [apply Hf|]. intros r.
  destruct (is_list (rval r)); [apply always_raise|]. apply always_bind; [exact IH|]. intros. apply always_ret.
Qed.
Lemma always_call_plain : forall E h d stl ins, (forall vs us rs, answers_always (o_impl d h vs us rs stl)) ->
  answers_always (call_plain E h d stl ins).
Proof.
  intros E h d stl ins Hi. unfold call_plain. destruct (if o_excs d then None else find_exc ins); [apply always_ret|].
  intros s. cbv zeta.
  assert (K : answers_always (let* p := lift (prepare E d (map rval ins) (map runit ins) (map rref ins)) in
           let* o := o_impl d h (fst (fst (fst p))) (snd (fst (fst p))) (map rref ins) stl in
           ret (finish d (snd (fst p)) (snd p) o))).
  { apply always_bind; [apply always_lift|]. intros p. apply always_bind; [apply Hi|]. intros. apply always_ret. }
  specialize (K s). match type of K with fst ?x <> _ => destruct x as [o s1] end. destruct o; try discriminate.
  - destruct (wrapped e); [discriminate|]. destruct (forallb (e_tostr E) ins); discriminate.
  - destruct (forallb (e_tostr E) ins); discriminate.
  - contradiction.
Qed.
Lemma always_call : forall E h d stl ins, (forall vs us rs, answers_always (o_impl d h vs us rs stl)) ->
  answers_always (call E h d stl ins).
Proof.
  intros E h d stl ins Hi. remember (depths ins) as k eqn:Ek. revert ins Ek.
  induction k as [k IH] using lt_wf_ind. intros ins Ek s. rewrite call_eq. revert s.
  match goal with |- forall s, fst (?m s) <> _ => change (answers_always m) end. unfold call_step. cbv zeta.
  destruct (existsb (fun b : bool => b) (flags_of d 0 ins)) eqn:Ef.
  - destruct (same_length _) as [[n|]|] eqn:El; try apply always_raise.
    apply always_bind; [|intros; apply always_ret]. apply always_each_row. intros x Hx. apply in_map_iff in Hx.
    destruct Hx as [i [<- Hi']]. apply in_seq in Hi'. eapply IH; [|reflexivity].
    subst k. eapply row_smaller; [exact Ef|exact El|lia].
  - destruct (is_packed d ins) eqn:Ep; [|apply always_call_plain, Hi].
    assert (Hm : must_be d 0 s_array None = true).
    { unfold is_packed in Ep. rewrite !andb_true_iff in Ep. tauto. }
    assert (Hpk : forall x, answers_always (call E h d stl [mkRes (VList x) None None])).
    { intros x s. rewrite call_eq, packed_plain by exact Hm. apply always_call_plain, Hi. }
    destruct (same_length _) as [[n|]|]; try apply always_raise; [|apply Hpk].
    apply always_bind; [|intros; apply always_ret]. apply always_each_pack. exact Hpk.
Qed.

Lemma always_args : forall rec stl allow text items mk args n acc, (forall a, In a args -> answers_always (rec stl a)) ->
  answers_always (eval_args rec stl allow text items mk args n acc).
Proof.
  intros rec stl allow text items mk args. induction args as [|arg rest IH]; intros n acc H; cbn [eval_args]; [apply always_ret|].
  intros s. cbv zeta. pose proof (H arg (or_introl eq_refl) s) as Ha. destruct (rec stl arg s) as [o s1].
  assert (K : forall n acc, answers_always (eval_args rec stl allow text items mk rest n acc)) by (intros; apply IH; intros; apply H; right; assumption).
  assert (L : forall m its nx, fst (reraise (A := list result) text (fun t => mk t its) m its nx s1) <> OFuel).
  { intros. unfold reraise. destruct (truncate text [its] nx); discriminate. }
  destruct o as [r|e| |]; try discriminate; [|destruct e; [discriminate|apply L]|contradiction].
  destruct (rval r); try apply K. destruct e; (destruct allow; [apply K|]); [discriminate|apply L].
Qed.

Definition ops_answer (G : ecfg) (stl : bool) : Prop :=
  shrinks (g_ops G) /\ (forall sym ins, answers_always (callop G stl sym ins)) /\
  (forall name d vs us rs, assoc name (g_funcs G) = Some d -> answers_always (o_impl d (callop G stl) vs us rs stl)).

Lemma max_in : forall A (f : A -> nat) l x, In x l -> f x <= fold_right (fun j d => Nat.max (f j) d) 0 l.
Proof. intros A f l x. induction l as [|y l IH]; intros H; [destruct H|]. cbn [fold_right]. destruct H as [->|H]; [lia|]. specialize (IH H). lia. Qed.

Lemma always_item : forall G rec stl i k, ops_answer G stl -> plain_item i = true -> nesting i <= k ->
  (forall l, forallb plain_item l = true -> nestings l < k -> answers_always (rec stl l)) ->
  answers_always (eval_item G rec stl i).
Proof.
  intros G rec stl i k Ho Hp Hn Hr. destruct i; cbn [eval_item]; try apply always_py; try apply always_ret.
  - intros s. destruct (assoc name (s_vars s)) as [[v u]|]; discriminate.
  - cbn [plain_item nesting] in Hp, Hn. assert (H : answers_always (rec stl items)) by (apply Hr; [exact Hp|unfold nestings; lia]).
    intros s. unfold eval_inner. specialize (H s). destruct (rec stl items s) as [o s1].
    assert (L : forall m its nx, fst (reraise (A := result) text (fun t => IInner t true its) m its nx s1) <> OFuel).
    { intros. unfold reraise. destruct (truncate text [its] nx); discriminate. }
    destruct o as [r|e| |]; try discriminate; [|destruct e; [discriminate|apply L]|contradiction].
    destruct (rval r); try discriminate. destruct e; [discriminate|apply L].
  - cbn [plain_item nesting] in Hp, Hn. unfold eval_func. destruct (assoc name (g_funcs G)) as [d|] eqn:Ed; [|apply always_py].
    apply always_bind.
    + apply always_args. intros a Ha. apply Hr.
      * rewrite forallb_forall in Hp. apply Hp, Ha.
      * unfold nestings. pose proof (max_in _ (fun l => fold_right (fun j d => Nat.max (nesting j) d) 0 l) args a Ha). cbv beta in *. lia.
    + intros ins. apply always_call. intros vs us rs. apply (proj2 (proj2 Ho) name d vs us rs Ed).
  - discriminate.
  - cbn [plain_item nesting] in Hp, Hn.
    assert (H : forall e, In e elements -> e_end e = None /\ answers_always (rec stl (e_start e))).
    { intros e He. rewrite forallb_forall in Hp. pose proof (Hp e He) as Hpe. rewrite andb_true_iff in Hpe. destruct Hpe as [H1 H2].
      split; [destruct (e_end e); [discriminate|reflexivity]|]. apply Hr; [exact H1|]. clear - He Hn. induction elements as [|y l IH]; [destruct He|].
      cbn [fold_right] in Hn. destruct He as [->|He]; [unfold nestings; lia|]. apply IH; [lia|exact He]. }
    clear Hp Hn. intros s. unfold eval_arr.
    assert (K : forall n acc s, fst (fst (eval_elements G rec stl elements n acc s)) <> OFuel).
    { revert H. clear. induction elements as [|e r IH]; intros H n acc s; cbn [eval_elements]; [discriminate|].
      destruct (H e (or_introl eq_refl)) as [H1 H2]. unfold eval_element at 1. rewrite H1. unfold count_bind, eval_part at 1, bind at 1. cbv zeta.
      specialize (H2 s). destruct (rec stl (e_start e) s) as [o s1]. destruct o as [x|x| |]; try discriminate; [|contradiction].
      cbn [andb]. assert (L : forall n acc s, fst (fst (eval_elements G rec stl r n acc s)) <> OFuel).
      { apply IH. intros e' He'. apply H. right. exact He'. }
      destruct (rval x); try apply L. destruct e0; [apply L|discriminate]. }
    specialize (K 0 [] s). destruct (eval_elements G rec stl elements 0 [] s) as [[o n] s1]. cbn [fst] in K.
    destruct o as [l|e| |]; try discriminate; [|contradiction]. destruct e; [discriminate|]. unfold reraise. cbv zeta.
    destruct (truncate _ _ _); discriminate.
Qed.
Lemma always_operands : forall G rec stl k items n sl orig, ops_answer G stl -> forallb plain_item items = true -> nestings items <= k ->
  (forall l, forallb plain_item l = true -> nestings l < k -> answers_always (rec stl l)) ->
  answers_always (eval_operands G rec stl items n sl orig).
Proof.
  intros G rec stl k items. induction items as [|i r IH]; intros n sl orig Ho Hp Hn Hr; cbn [eval_operands]; [apply always_ret|].
  cbn [forallb] in Hp. rewrite andb_true_iff in Hp. destruct Hp as [Hi Hp]. cbn [nestings fold_right] in Hn.
  assert (Hk : forall n sl orig, answers_always (eval_operands G rec stl r n sl orig)).
  { intros. apply IH; try assumption. unfold nestings. lia. }
  assert (K : answers_always (eval_operand G rec stl (firstn n orig) i)).
  { intros s. unfold eval_operand. pose proof (always_item G rec stl i k Ho Hi ltac:(lia) Hr s) as H.
    destruct (eval_item G rec stl i s) as [o s1]. destruct o as [x|e| |]; try discriminate; [destruct e; discriminate|contradiction]. }
  destruct i; try apply Hk; (destruct (ifunc _); [apply always_bind; [exact K|intros; apply Hk]|apply Hk]).
Qed.
Theorem execute_answers : forall G stl, ops_answer G stl -> forall n items, forallb plain_item items = true -> nestings items < n ->
  answers_always (execute G n stl items).
Proof.
  intros G stl Ho. induction n as [|k IH]; intros items Hp Hn; [lia|]. cbn [execute]. unfold execute_body.
  destruct (is_nil (functional_items items)); [apply always_raise|]. apply always_bind.
  - apply (always_operands G (execute G k) stl k); try assumption. lia.
  - intros [sl orig] s. pose proof (run_slots_fuel (g_ops G) orig (callop G stl) sl s (proj1 Ho) (fun sym ins st => proj1 (proj2 Ho) sym ins st)) as H.
    destruct (run_slots _ _ _ _ s) as [o s1]. destruct o as [r|e| |]; try discriminate; [|contradiction].
    destruct (rval r); try discriminate. destruct e; discriminate.
Qed.
