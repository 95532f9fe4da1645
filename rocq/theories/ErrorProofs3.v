(** Which operators give errors as values. *)
From Coq Require Import ZArith QArith Ascii String List Bool Lia.
From Verif Require Import Base Dec Num Bases Units Syntax Call Loop Parse Exec Formats Std InstallProofs ErrorSpec.
Import ListNotations.
Open Scope nat_scope.

(** The implementation gives an error as value only if it is one of its values *)
Definition honest (d : opdef) : Prop := forall h vs us rs stl s o s' e, o_impl d h vs us rs stl s = (OOk o, s') -> or_val o = VExc e -> In (VExc e) vs.
Definition norm_honest (E : env) : Prop := forall f vs us m r vs' us' u e, e_norm E = Some f -> f vs us m r = Ok (vs', us', u) -> In (VExc e) vs' -> In (VExc e) vs.

Lemma In_list_set A (l : list A) i x y : In y (list_set l i x) -> y = x \/ In y l.
Proof.
  revert i. induction l as [|z l IH]; intros i H; [destruct H|]. destruct i as [|i]; cbn [list_set] in H; destruct H as [H|H]; cbn [In]; auto.
  destruct (IH _ H); auto.
Qed.
Lemma convert_numbers_in E d vs e : In (VExc e) (fst (convert_numbers E d vs)) -> In (VExc e) vs.
Proof.
  unfold convert_numbers. set (P := fun acc : list value * option cast => In (VExc e) (fst acc) -> In (VExc e) vs).
  assert (S1 : forall acc i, P acc -> P (convert_one E vs acc i)).
  { unfold P, convert_one. intros acc i H. destruct (nth_error vs i) as [v|]; [|exact H]. destruct (to_number E v) as [n| |]; try exact H.
    cbn [fst]. intros K. apply In_list_set in K. destruct K as [K|K]; [discriminate|auto]. }
  assert (S2 : forall l acc, P acc -> P (fold_left (convert_one E vs) l acc)) by (induction l; cbn [fold_left]; auto).
  assert (S3 : forall l acc, P acc -> P (fold_left (fun acc r => if existsb is_plain_number (rs_types r)
                          then fold_left (convert_one E vs) (convert_range r (length vs)) acc else acc) l acc)).
  { induction l as [|r l IH]; cbn [fold_left]; [auto|]. intros acc H. apply IH. destruct (existsb _ _); auto. }
  apply (S3 (o_vals d) (vs, None)). unfold P. auto.
Qed.
Lemma norm_arrays_in E d e : forall vs i c ru t, norm_arrays E d i vs c ru = Ok t -> In (VExc e) (fst (fst t)) -> In (VExc e) vs.
Proof.
  induction vs as [|v vs IH]; intros i c ru t H K; cbn [norm_arrays] in H; [injection H as <-; exact K|].
  assert (G : forall p : value * option cast * option eunit,
    (do t <- norm_arrays E d (S i) vs (snd (fst p)) (snd p); Ok (fst (fst p) :: fst (fst t), snd (fst t), snd t)) = Ok t ->
    (fst (fst p) = v \/ exists l, fst (fst p) = VList l) -> In (VExc e) (v :: vs)).
  { intros p Hp Hv. destruct (norm_arrays E d (S i) vs (snd (fst p)) (snd p)) as [t'| |] eqn:En; try discriminate. cbn [obind] in Hp.
    injection Hp as <-. cbn [fst] in K. destruct K as [K|K]; [|right; eapply IH; eassumption].
    destruct Hv as [Hv|[l Hv]]; [left; congruence|congruence]. }
  destruct v; try (eapply G; [exact H|left; reflexivity]).
  destruct (must_be d i s_array (Some s_number)); [|eapply G; [exact H|left; reflexivity]].
  destruct (array_numbers E l c) as [q| |]; try discriminate. cbn [obind] in H.
  destruct (match e_norm E with Some f => if o_norm d then f (fst q) (map runit l) (o_multi d) (o_rel d) else Ok (fst q, map runit l, ru)
                          | None => Ok (fst q, map runit l, ru) end) as [n| |]; try discriminate. cbn [obind] in H.
  destruct (put_back l (fst (fst n)) (snd (fst n))) as [l'| |]; try discriminate. cbn [obind] in H.
  eapply G; [exact H|]. right. cbn [fst]. eauto.
Qed.
Lemma prepare_in E d vs us rs p e : norm_honest E -> prepare E d vs us rs = Ok p -> In (VExc e) (fst (fst (fst p))) -> In (VExc e) vs.
Proof.
  intros Hn H K. unfold prepare in H. destruct (validate E d vs us rs); try discriminate. cbn [obind] in H.
  assert (C : In (VExc e) (fst (if o_autoin d then convert_numbers E d vs else (vs, None))) -> In (VExc e) vs).
  { destruct (o_autoin d); [apply convert_numbers_in|auto]. }
  destruct (if o_autoin d then convert_numbers E d vs else (vs, None)) as [ws c]. cbn [fst snd] in *. cbv zeta in H.
  destruct (all_numbers E d 0 ws).
  - destruct (e_norm E) as [f|] eqn:Ef; [|injection H as <-; auto]. destruct (o_norm d); [|injection H as <-; auto].
    destruct (f ws us (o_multi d) (o_rel d)) as [[[a1 b1] u1]| |] eqn:E1; try discriminate. cbn [obind fst snd] in H. injection H as <-.
    apply C. eapply Hn; eassumption.
  - destruct (norm_arrays E d 0 ws c None) as [t| |] eqn:E1; try discriminate. cbn [obind] in H. injection H as <-. apply C.
    eapply norm_arrays_in; eassumption.
Qed.
Lemma call_plain_honest E h d stl ins s r s' e : norm_honest E -> honest d -> call_plain E h d stl ins s = (OOk r, s') -> rval r = VExc e ->
  exists x, In x ins /\ rval x = VExc e.
Proof.
  intros Hn Hd H K. unfold call_plain in H. destruct (if o_excs d then None else find_exc ins) as [x|] eqn:Ex.
  - injection H as <- _. exists x. split; [|exact K]. destruct (o_excs d); [discriminate|]. unfold find_exc in Ex. apply find_some in Ex. apply Ex.
  - cbv zeta in H. unfold bind, lift in H. destruct (prepare E d (map rval ins) (map runit ins) (map rref ins)) as [p| |] eqn:Ep.
    + unfold ret at 1 in H. cbn beta iota in H. destruct (o_impl d h _ _ _ stl s) as [[o|e1| |] s1] eqn:Ei; try discriminate.
      * injection H as <- _. unfold finish in K. cbn [rval mkRes] in K.
        assert (Ko : or_val o = VExc e) by (destruct (or_val o); try discriminate; exact K).
        apply (Hd _ _ _ _ _ _ _ _ _ Ei) in Ko. apply (prepare_in _ _ _ _ _ _ e Hn) in Ep; [|exact Ko]. apply in_map_iff in Ep.
        destruct Ep as [x [E1 E2]]. eauto.
      * destruct (wrapped e1); [discriminate|]. destruct (forallb _ ins); discriminate.
      * destruct (forallb _ ins); discriminate.
    + unfold raise in H. cbn beta iota in H. destruct (wrapped _); [discriminate|]. destruct (forallb _ ins); discriminate.
    + unfold pyerr in H. cbn beta iota in H. destruct (forallb _ ins); discriminate.
Qed.
Lemma call_honest E h d stl ins s r s' e : norm_honest E -> honest d -> call E h d stl ins s = (OOk r, s') -> rval r = VExc e ->
  (is_packed d ins = true \/ exists x, In x ins /\ rval x = VExc e).
Proof.
  intros Hn Hd H K. unfold call in H. cbn [Nat.add call_fuel] in H. unfold call_step at 1 in H.
  destruct (existsb (fun b => b) (flags_of d 0 ins)).
  - destruct (same_length _) as [[n|]|]; try discriminate. unfold bind in H. destruct (each_row _ _ s) as [[l|e1| |] s1]; try discriminate.
    injection H as <- _. discriminate.
  - destruct (is_packed d ins); [left; reflexivity|]. right. eapply call_plain_honest; eassumption.
Qed.

Ltac honest_tac :=
  intros h vs us rs stl s o s' e H K;
  repeat match type of H with
  | (let* _ := ?m in _) _ = _ => unfold bind at 1 in H; destruct (m _) as [[?x|?x| |] ?s] eqn:?; try discriminate
  | (if ?b then _ else _) _ = _ => destruct b; try discriminate
  | match ?v with _ => _ end _ = _ => destruct v; try discriminate
  end; try (injection H as <- _; cbn [or_val] in K; first [discriminate|subst; cbn [In]; auto 6]).
Definition honest_impl (f : impl) : Prop := forall h vs us rs stl s o s' e, f h vs us rs stl s = (OOk o, s') -> or_val o = VExc e -> In (VExc e) vs.
Lemma honest_power L : honest_impl (op_power L).
Proof. unfold honest_impl, op_power. cbv zeta. honest_tac. Qed.
Lemma honest_scale L k f : honest_impl (op_scale L k f).
Proof. unfold honest_impl, op_scale. cbv zeta. honest_tac. Qed.
Lemma honest_num2 L f : honest_impl (op_num2 L f).
Proof. unfold honest_impl, op_num2. honest_tac. Qed.
Lemma honest_int_divide L : honest_impl (op_int_divide L).
Proof. unfold honest_impl, op_int_divide. honest_tac. Qed.
Lemma honest_not : honest_impl op_not.
Proof. unfold honest_impl, op_not. honest_tac. Qed.
Lemma honest_compare L f : honest_impl (op_compare L f).
Proof. unfold honest_impl, op_compare. honest_tac. Qed.
Lemma honest_and : honest_impl op_and.
Proof. unfold honest_impl, op_and. honest_tac. Qed.
Lemma honest_or : honest_impl op_or.
Proof. unfold honest_impl, op_or. honest_tac. Qed.
Lemma honest_xor : honest_impl op_xor.
Proof. unfold honest_impl, op_xor. honest_tac. Qed.
Lemma honest_then : honest_impl op_then.
Proof. unfold honest_impl, op_then. honest_tac. Qed.
Lemma honest_assign : honest_impl op_assign.
Proof. unfold honest_impl, op_assign. honest_tac. Qed.
Lemma honest_assign_if_empty : honest_impl op_assign_if_empty.
Proof. unfold honest_impl, op_assign_if_empty. honest_tac. Qed.
Lemma honest_bits L f : honest_impl (op_bits L f).
Proof. unfold honest_impl, op_bits. cbv zeta. honest_tac. Qed.
Lemma honest_shift L f : honest_impl (op_shift L f).
Proof. unfold honest_impl, op_shift, op_bits. cbv zeta. honest_tac. Qed.
Lemma honest_bit_not L : honest_impl (op_bit_not L).
Proof. unfold honest_impl, op_bit_not. cbv zeta. honest_tac. Qed.
Lemma honest_as : honest_impl op_as.
Proof. unfold honest_impl, op_as. honest_tac. Qed.
Lemma honest_concat L : honest_impl (fn_text2 L (fun s t => just (VStr (s ++ t)))).
Proof. unfold honest_impl, fn_text2. honest_tac. Qed.
Lemma honest_text_cmp L p f : honest_impl (op_text_cmp L p f).
Proof. unfold honest_impl, op_text_cmp, fn_text2. honest_tac. Qed.
Lemma honest_text_mult L : honest_impl (op_text_mult L).
Proof. unfold honest_impl, op_text_mult. honest_tac. Qed.

(** The operators that compute with the value of a variable and store the result in it *)
Definition computing_assignments : list str := [$"++"; $"--"; $"+="; $"-="; $"*="; $"/="; $"^="; $"%="; $"\="].
Definition op_honest (p : str * operator) : Prop := In (fst p) computing_assignments \/ (honest (op_def (snd p)) /\ forall ins, is_packed (op_def (snd p)) ins = false).
Lemma std_honest L : Forall op_honest (concat (std_levels L)).
Proof.
  assert (A : forall s o f, o_impl (op_def o) = f -> honest_impl f -> (forall ins, is_packed (op_def o) ins = false) -> op_honest (s, o)).
  { intros s o f <- Hf Hp. right. split; [exact Hf|exact Hp]. }
  unfold std_levels. cbn [concat app].
  repeat (apply Forall_cons; [first [left; cbn [fst]; unfold computing_assignments; cbn [In]; tauto
    | eapply A; [reflexivity| |intros; reflexivity];
      first [apply honest_power|apply honest_scale|apply honest_num2|apply honest_int_divide|apply honest_not|apply honest_compare|apply honest_and|apply honest_or
        |apply honest_xor|apply honest_then|apply honest_assign|apply honest_assign_if_empty|apply honest_shift|apply honest_bits|apply honest_bit_not|apply honest_as|apply honest_concat
        |apply honest_text_cmp|apply honest_text_mult]]|]).
  apply Forall_nil.
Qed.
Lemma std_passes L stl sym : ~ In sym computing_assignments -> passes_errors (callop (std L) stl) sym.
Proof.
  intros Hs ins s r s' e H K. unfold callop, op_depth in H. cbn [op_handle] in H. fold (op_handle (std L) 4 stl) in H.
  destruct (find_op (g_ops (std L)) sym) as [o|] eqn:Eo; [|discriminate].
  assert (Hin : In (sym, o) (concat (std_levels L))).
  { unfold find_op in Eo. apply in_rev. apply assoc_some_in. exact Eo. }
  pose proof (std_honest L) as F. rewrite Forall_forall in F. destruct (F _ Hin) as [F1|[F1 F2]]; [contradiction|]. cbn [snd] in *.
  eapply call_honest in H; [|intros f; discriminate|exact F1|exact K]. destruct H as [H|H]; [rewrite F2 in H; discriminate|exact H].
Qed.
Lemma std_unwritten_infix L : unwritten_infix (g_ops (std L)).
Proof.
  intros s o [H|[H|[H|H]]] Ho; try discriminate. injection H as <-. 
  assert (Hin : In ($"IMPLICIT_MULTIPLY", o) (concat (std_levels L))) by (unfold find_op in Ho; apply in_rev, assoc_some_in, Ho).
  unfold std_levels in Hin. cbn [concat app] in Hin.
  repeat (destruct Hin as [Hin|Hin]; [try discriminate Hin; injection Hin as <-; split; reflexivity|]). destruct Hin.
Qed.
