(** The operators and functions of the standard calculator do not fail with a plain exception. *)
From Coq Require Import ZArith QArith Ascii String List Bool Lia Permutation.
From Verif Require Import Base Dec Num Bases Units Syntax Call Loop Parse Exec Formats Std InstallProofs ErrorSpec ErrorProofs3 ContainSpec ContainProofs ContainProofs2 ContainProofs4 ContainProofs5 BaseProofs.
Import ListNotations.
Open Scope nat_scope.

Definition post (u : bool) (vs : list value) (m : M opres) : Prop := forall s o s', usable_vars u s -> m s = (o, s') ->
  usable_vars u s' /\ match o with OOk r => sane u (or_val r) /\ (is_exc (or_val r) = true -> In (or_val r) vs) | _ => True end.
Definition pure {A} (m : M A) : Prop := forall s, snd (m s) = s.
Lemma post_py u vs : post u vs pyerr.
Proof. intros s o s' Hs H. injection H as <- <-. auto. Qed.
Lemma post_raise u vs e : post u vs (raise e).
Proof. intros s o s' Hs H. injection H as <- <-. auto. Qed.
Lemma post_ret u vs r : sane u (or_val r) -> (is_exc (or_val r) = true -> In (or_val r) vs) -> post u vs (ret r).
Proof. intros H1 H2 s o s' Hs H. injection H as <- <-. auto. Qed.
Lemma post_pure u vs A (m : M A) f : pure m -> (forall a, post u vs (f a)) -> post u vs (bind m f).
Proof.
  intros Hm Hf s o s' Hs H. unfold bind in H. specialize (Hm s). destruct (m s) as [[a|e| |] s1]; cbn [snd] in Hm; subst s1;
    [eapply Hf; eassumption|injection H as <- <-; auto..].
Qed.
Lemma pure_lift A (x : out A) : pure (lift x).
Proof. intros s. destruct x; reflexivity. Qed.
Lemma pure_pym A (x : option A) : pure (pym x).
Proof. intros s. destruct x; reflexivity. Qed.
Lemma pure_ret A (x : A) : pure (ret x).
Proof. intros s. reflexivity. Qed.
Lemma pure_py A : pure (@pyerr A).
Proof. intros s. reflexivity. Qed.
Lemma pure_boolean v : pure (boolean v).
Proof. intros s. destruct v; reflexivity. Qed.
Lemma pure_int_power p n : pure (int_power p n).
Proof. intros s. unfold int_power. destruct (_ =? _)%Z; reflexivity. Qed.
Lemma pure_integer L n : pure (integer L n).
Proof. intros s. unfold integer, bind, pym. destruct (num_mod _ _ _); reflexivity. Qed.
Lemma pure_natural L n : pure (natural L n).
Proof. unfold natural. destruct (negb _); [apply pure_ret|apply pure_integer]. Qed.
Lemma pure_the_var rs : pure (the_var rs).
Proof. intros s. destruct rs as [|[[]|] rs]; reflexivity. Qed.
Lemma pure_lookup n : pure (lookup n).
Proof. intros s. unfold lookup. destruct (assoc _ _); reflexivity. Qed.
Ltac pure_tac := repeat match goal with
  | |- pure (if ?b then _ else _) => destruct b
  | |- pure (match ?v with _ => _ end) => destruct v
  | _ => first [apply pure_lift|apply pure_pym|apply pure_ret|apply pure_py|apply pure_boolean|apply pure_int_power|apply pure_integer|apply pure_natural|apply pure_the_var|apply pure_lookup]
  end.
Ltac sane_tac := first [exact I | assumption | reflexivity | discriminate].
Ltac post_tac := repeat match goal with
  | |- post _ _ pyerr => apply post_py
  | |- post _ _ (raise _) => apply post_raise
  | |- post _ _ calc_err => apply post_raise
  | |- post _ _ (if ?b then _ else _) => destruct b
  | |- post _ _ (match ?v with _ => _ end) => destruct v
  | |- post _ _ (bind ?m _) => apply post_pure; [solve [pure_tac]|intros]
  | |- post _ _ (just _) => apply post_ret; cbn [or_val]
  | |- post _ _ (unitless _) => apply post_ret; cbn [or_val]
  | |- post _ _ (with_unit _ _) => apply post_ret; cbn [or_val]
  | |- post _ _ (ret _) => apply post_ret; cbn [or_val]
  | H : Forall _ (_ :: _) |- _ => apply Forall_cons_iff in H; destruct H
  end; try sane_tac.
Lemma post_pym u vs A (x : option A) f : (forall a, x = Some a -> post u vs (f a)) -> post u vs (bind (pym x) f).
Proof. intros H. destruct x as [a|]; [exact (H a eq_refl)|apply post_py]. Qed.
Lemma ok_intro u x f : (forall h vs us rs stl, (forall sym, mild u (h sym)) -> Forall (sane u) vs ->
  (x = true \/ Forall (fun v => is_exc v = false) vs) -> post u vs (f h vs us rs stl)) -> impl_ok u x f.
Proof. intros H h vs us rs stl s o s' Hh Hv Hx. exact (H h vs us rs stl Hh Hv Hx s o s'). Qed.
Ltac ok_tac := apply ok_intro; cbv zeta; intros h vs us rs stl Hh Hv Hne; post_tac.
Lemma ok_power u x L : impl_ok u x (op_power L).
Proof. unfold op_power. ok_tac. Qed.
Lemma ok_scale u x L k f : impl_ok u x (op_scale L k f).
Proof. unfold op_scale. ok_tac. Qed.
Lemma ok_num2 u x L f : impl_ok u x (op_num2 L f).
Proof. unfold op_num2. ok_tac. Qed.
Lemma ok_not u x : impl_ok u x op_not.
Proof. unfold op_not. ok_tac. Qed.
Lemma ok_compare u x L f : impl_ok u x (op_compare L f).
Proof. unfold op_compare. ok_tac. Qed.
Lemma ok_and u x : impl_ok u x op_and.
Proof. unfold op_and. ok_tac. Qed.
Lemma ok_or u x : impl_ok u x op_or.
Proof. unfold op_or. ok_tac. Qed.
Lemma ok_xor u x : impl_ok u x op_xor.
Proof. unfold op_xor. ok_tac. Qed.
Lemma ok_then u x : impl_ok u x op_then.
Proof. unfold op_then. ok_tac; intros _; cbn [In]; auto. Qed.
Lemma ok_bits u x L f : impl_ok u x (op_bits L f).
Proof. unfold op_bits. ok_tac. Qed.
Lemma ok_shift u x L f : impl_ok u x (op_shift L f).
Proof. unfold op_shift, op_bits. ok_tac. Qed.
Lemma ok_bit_not u x L : impl_ok u x (op_bit_not L).
Proof. unfold op_bit_not. ok_tac. Qed.
Lemma ok_as u x : impl_ok u x op_as.
Proof. unfold op_as. ok_tac. Qed.
Lemma ok_text1 u x L f : (forall s vs, post u vs (f s)) -> impl_ok u x (fn_text1 L f).
Proof. intros Hf. unfold fn_text1. ok_tac. apply Hf. Qed.
Lemma ok_text2 u x L f : (forall s t vs, post u vs (f s t)) -> impl_ok u x (fn_text2 L f).
Proof. intros Hf. unfold fn_text2. ok_tac. apply Hf. Qed.
Lemma ok_text_cmp u x L p f : impl_ok u x (op_text_cmp L p f).
Proof. unfold op_text_cmp. apply ok_text2. intros s t vs. post_tac. Qed.
Lemma ok_text_mult u x L : impl_ok u x (op_text_mult L).
Proof. unfold op_text_mult. ok_tac. Qed.

(** Operators that call an operator or change variables *)
Lemma ok_int_divide u x L : impl_ok u x (op_int_divide L).
Proof.
  unfold op_int_divide. apply ok_intro. intros h vs us rs stl Hh Hv _. destruct vs as [|v [|v0 [|]]], us as [|o0 [|o1 [|]]]; post_tac.
  intros s o s' Hs Hc. unfold bind in Hc. destruct (h ($"/") _ s) as [oh s1] eqn:Eh.
  assert (Hi : Forall (sane_res u) [mkRes v o0 None; mkRes v0 o1 None]) by (repeat constructor; assumption).
  destruct (Hh _ _ _ _ _ Hi Hs Eh) as [Hs1 _]. destruct oh as [r|e| |]; try (injection Hc as <- <-; auto; fail).
  destruct (rval r); injection Hc as <- <-; (split; [exact Hs1|]); try exact I. split; [exact I|discriminate].
Qed.
Lemma dset_in A n (x : A) l k y : In (k, y) (dset n x l) -> y = x \/ In (k, y) l.
Proof.
  induction l as [|[m z] l IH]; cbn [dset]; [intros [H|[]]; left; congruence|]. destruct (seq_eqb m n); cbn [In].
  - intros [H|H]; [left; congruence|right; right; exact H].
  - intros [H|H]; [right; left; exact H|destruct (IH H); auto].
Qed.
Lemma stored u n v w s : usable u v -> usable_vars u s -> usable_vars u (mkSt (dset n (v, w) (s_vars s)) (s_lft s)).
Proof. intros Hv Hs k y z H. apply dset_in in H. destruct H as [H|H]; [injection H as -> _; exact Hv|eapply Hs, H]. Qed.
Lemma post_store u vs n v w f : usable u v -> post u vs f -> post u vs (bind (store n v w) (fun _ => f)).
Proof. intros Hv Hf s o s' Hs H. unfold bind, store in H. eapply Hf; [|exact H]. apply stored; assumption. Qed.
Lemma ok_assign u : impl_ok u false op_assign.
Proof.
  unfold op_assign. ok_tac. destruct Hne as [Hne|Hne]; [discriminate|]. repeat (apply Forall_cons_iff in Hne; destruct Hne as [? Hne]).
  destruct stl; [post_tac|apply post_store; [split; assumption|post_tac]]; congruence.
Qed.
Lemma ok_assign_if_empty u : impl_ok u false op_assign_if_empty.
Proof.
  unfold op_assign_if_empty. ok_tac. destruct Hne as [Hne|Hne]; [discriminate|]. repeat (apply Forall_cons_iff in Hne; destruct Hne as [? Hne]).
  destruct stl; [post_tac; congruence|]. intros st1 oc1 st2 Hs Hc. unfold bind in Hc.
  destruct (assoc a (s_vars st1)) as [y|]; [|unfold store in Hc]; injection Hc as <- <-; (split; [|split; [assumption|cbn [or_val]; congruence]]);
    [exact Hs|apply stored; [split; assumption|exact Hs]].
Qed.
Lemma recast_sane u c v : sane u v -> sane u (recast c v).
Proof. destruct c, v; exact (fun H => H). Qed.
Lemma recast_exc c v : is_exc (recast c v) = is_exc v.
Proof. destruct c, v; reflexivity. Qed.
Lemma ok_assign_with u vs sym c v w r rs h stl : (forall sym, mild u (h sym)) -> sane u v -> is_exc v = false -> post u vs (assign_with sym c v w r rs h stl).
Proof.
  intros Hh Hv Hx. unfold assign_with. apply post_pure; [apply pure_the_var|intros a]. destruct stl; [apply post_py|]. intros st1 oc1 st2 Hs Hc. unfold bind at 1 in Hc. unfold lookup in Hc.
  destruct (assoc a (s_vars st1)) as [[y z]|] eqn:Ea; [|injection Hc as <- <-; auto]. cbn [fst snd] in Hc.
  destruct (Hs _ _ _ (assoc_some_in _ _ _ Ea)) as [Y1 Y2]. unfold bind at 1 in Hc.
  destruct (h sym _ st1) as [oh s1] eqn:Eh.
  assert (Hi : Forall (sane_res u) [mkRes y z None; mkRes v w r]) by (repeat constructor; assumption).
  destruct (Hh _ _ _ _ _ Hi Hs Eh) as [Hs1 Ho]. destruct oh as [q|e| |]; try (injection Hc as <- <-; auto; fail). destruct Ho as [Ho1 Ho2].
  assert (Hq : is_exc (rval q) = false).
  { destruct (is_exc (rval q)) eqn:Eq; [|reflexivity]. destruct (Ho2 eq_refl) as [e [[<-|[<-|[]]] E]]; cbn [mkRes rval] in E; congruence. }
  unfold bind, store in Hc. injection Hc as <- <-. split; [apply stored; [split; [apply recast_sane, sane_val, Ho1|now rewrite recast_exc]|exact Hs1]|]. cbn [or_val].
  split; [apply recast_sane, sane_val, Ho1|rewrite recast_exc; congruence].
Qed.
Lemma ok_assign_op u sym : impl_ok u false (op_assign_op sym).
Proof.
  unfold op_assign_op. ok_tac. destruct Hne as [Hne|Hne]; [discriminate|]. repeat (apply Forall_cons_iff in Hne; destruct Hne as [? Hne]).
  apply ok_assign_with; assumption.
Qed.
Lemma ok_increment u x L sym : impl_ok u x (op_increment L sym).
Proof. unfold op_increment. apply ok_intro. intros h vs us rs stl Hh _ _. apply ok_assign_with; [exact Hh|exact I|reflexivity]. Qed.
Lemma ok_reset u x : impl_ok u x fn_reset.
Proof. intros h vs us rs stl s o s' _ _ _ _ H. injection H as <- <-. split; [intros n v w []|]. split; [exact I|discriminate]. Qed.
Lemma ok_delete u x : impl_ok u x fn_delete.
Proof.
  unfold fn_delete. ok_tac. intros st1 oc1 st2 Hs Hc. destruct (assoc a (s_vars st1)); injection Hc as <- <-; (split; [|try exact I]).
  - intros n v w K. cbn [s_vars] in K. apply filter_In in K. eapply Hs, K.
  - split; [exact I|discriminate].
  - exact Hs.
Qed.

(** Functions *)
Lemma ok_abs u x L : impl_ok u x (fn_abs L).
Proof. unfold fn_abs. ok_tac. Qed.
Lemma ok_rounding u x L f : impl_ok u x (fn_rounding L f).
Proof. unfold fn_rounding. ok_tac. Qed.
Lemma ok_fact u x L : impl_ok u x (fn_fact L).
Proof. unfold fn_fact. ok_tac. Qed.
Lemma ok_ints u x L f : impl_ok u x (fn_ints L f).
Proof. unfold fn_ints. ok_tac. Qed.
Lemma ok_convert u x c : impl_ok u x (fn_convert c).
Proof. unfold fn_convert. ok_tac. Qed.
Lemma ok_scientific u x L : impl_ok u x (fn_scientific L).
Proof. unfold fn_scientific. ok_tac. Qed.
Lemma ok_concat u x : impl_ok u x fn_concat.
Proof. unfold fn_concat. ok_tac. apply sane_list, Forall_app. split; apply sane_list; assumption. Qed.
Lemma filter_by_in : forall ts l r x, filter_by ts l = Some r -> In x r -> In x l.
Proof.
  induction ts as [|t ts IH]; intros l r x H Hx; cbn [filter_by] in H; [injection H as <-; destruct Hx|]. cbv zeta in H. destruct l as [|y l].
  - destruct (match rval t with VBool b => b | _ => true end); [discriminate|]. eapply IH; eassumption.
  - destruct (filter_by ts l) as [q|] eqn:E; [|discriminate]. cbn [option_map] in H. injection H as <-.
    destruct (match rval t with VBool b => b | _ => true end); [destruct Hx as [<-|Hx]; [left; reflexivity|]|]; right; eapply IH; eassumption.
Qed.
Lemma ok_filter u x : impl_ok u x fn_filter.
Proof.
  unfold fn_filter. apply ok_intro. intros h vs us rs stl Hh Hv _.
  destruct vs as [|v [|w [|]]]; try (post_tac; fail). destruct v as [| | | | |l| |]; try (post_tac; fail). destruct w as [| | | | |t| |]; try (post_tac; fail).
  apply post_pym. intros r E. apply post_ret; [|discriminate]. cbn [or_val].
  apply Forall_cons_iff in Hv. destruct Hv as [Hv _]. apply sane_list in Hv. rewrite Forall_forall in Hv.
  apply sane_list, Forall_forall. intros y Hy. apply Hv. eapply filter_by_in; eassumption.
Qed.
Lemma ok_count u x L : impl_ok u x (fn_count L).
Proof. unfold fn_count. ok_tac. Qed.
Lemma insert_by_in A (lt : A -> A -> bool) x l y : In y (insert_by lt x l) -> y = x \/ In y l.
Proof.
  induction l as [|z l IH]; cbn [insert_by]; [intros [H|[]]; auto|]. destruct (lt x z); cbn [In]; [intuition|]. intros [H|H]; [auto|]. destruct (IH H); auto.
Qed.
Lemma sort_by_in A (lt : A -> A -> bool) l y : In y (sort_by lt l) -> In y l.
Proof.
  unfold sort_by. assert (G : forall acc, In y (fold_left (fun acc x => insert_by lt x acc) l acc) -> In y acc \/ In y l).
  { induction l as [|z l IH]; intros acc H; cbn [fold_left] in H; [auto|]. destruct (IH _ H) as [K|K]; [|right; right; exact K].
    apply insert_by_in in K. destruct K as [->|K]; [right; left; reflexivity|left; exact K]. }
  intros H. destruct (G [] H) as [[]|K]. exact K.
Qed.
Lemma ok_sort u x L : impl_ok u x (fn_sort L).
Proof.
  unfold fn_sort. ok_tac. match goal with H : sane u (VList _) |- _ => apply sane_list in H; rewrite Forall_forall in H end.
  apply sane_list, Forall_forall. intros y Hy. apply sort_by_in in Hy. auto.
Qed.
Lemma ok_reverse u x : impl_ok u x fn_reverse.
Proof.
  unfold fn_reverse. ok_tac. match goal with H : sane u (VList _) |- _ => apply sane_list in H; rewrite Forall_forall in H end.
  apply sane_list, Forall_forall. intros y Hy. apply in_rev in Hy. auto.
Qed.
Lemma ok_sum u x L : impl_ok u x (fn_sum L).
Proof. unfold fn_sum. ok_tac. Qed.
Lemma ok_stat u x L f : impl_ok u x (fn_stat L f).
Proof. unfold fn_stat. ok_tac. Qed.
Lemma ok_base u x L : impl_ok u x (fn_base L).
Proof. unfold fn_base. ok_tac. Qed.
Lemma pick_from_in better l : forall best, In (pick_from better best l) (best :: l).
Proof.
  induction l as [|x l IH]; intros best; [left; reflexivity|]. cbn [pick_from]. destruct (IH (if better x best then x else best)) as [H|H].
  - destruct (better x best); rewrite <- H; [right; left; reflexivity|left; reflexivity].
  - right. right. exact H.
Qed.
Lemma ok_pick u x L better : impl_ok u x (fn_pick L better).
Proof.
  unfold fn_pick. apply ok_intro. intros h vs us rs stl _ Hv _. destruct vs as [|[| | | | |[|y l]| |] [|]]; try apply post_py.
  destruct (all_nums (y :: l)); [|apply post_py]. pose proof (pick_from_in better l y) as Hin. apply Forall_cons_iff in Hv. destruct Hv as [Hv _].
  apply sane_list in Hv. rewrite Forall_forall in Hv. specialize (Hv _ Hin). destruct (pick_from better y l) as [v w f [[v0 w0]|]]; [|apply post_py].
  destruct Hv as [_ [H1 H2]]. apply post_ret; cbn [or_val]; [exact H1|congruence].
Qed.
Lemma ok_replace u x L : impl_ok u x (fn_replace L).
Proof. unfold fn_replace. ok_tac. Qed.
Lemma ok_substr u x L : impl_ok u x (fn_substr L).
Proof. unfold fn_substr. ok_tac. Qed.
Lemma ok_split u x L : impl_ok u x (fn_split L).
Proof.
  unfold fn_split. apply ok_text2. intros s t vs. post_tac. apply sane_list, Forall_forall. intros y Hy. apply in_map_iff in Hy.
  destruct Hy as [z [<- _]]. split; exact I.
Qed.
Lemma ok_join u x L : impl_ok u x (fn_join L).
Proof. unfold fn_join. ok_tac. Qed.

(** * The standard calculator *)
Lemma std_table_ok L : table_ok false (std_table L).
Proof.
  assert (G : Forall (fun p => impl_ok false (o_excs (op_def (snd p))) (o_impl (op_def (snd p)))) (concat (std_levels L))).
  { unfold std_levels, op2, infix. cbn [concat app]. repeat (apply Forall_cons; [cbn [snd op_def o_excs odef no_result o_impl]|]); try apply Forall_nil;
    first [apply ok_power|apply ok_not|apply ok_bit_not|apply ok_scale|apply ok_num2|apply ok_text_mult|apply ok_int_divide|apply ok_shift|apply ok_compare
      |apply ok_text_cmp|apply ok_bits|apply ok_and|apply ok_or|apply ok_xor|apply ok_then|apply ok_as|apply ok_assign|apply ok_assign_if_empty|apply ok_assign_op|apply ok_increment
      |apply ok_text2; intros; post_tac]. }
  intros sym o H. rewrite Forall_forall in G. unfold find_op in H. apply assoc_some_in, in_rev in H. exact (G _ H).
Qed.
Lemma std_funcs_ok L : Forall (fun p => fst p = $"element" \/ (o_excs (snd p) = false /\ impl_ok false false (o_impl (snd p)))) (std_funcs L).
Proof.
  unfold std_funcs, fdef. cbn [fst snd]. repeat (apply Forall_cons; [cbn [fst snd o_excs no_result no_norm o_impl]; first [left; reflexivity|right; split; [reflexivity|]]|]); try apply Forall_nil;
  first [apply ok_abs|apply ok_rounding|apply ok_fact|apply ok_ints|apply ok_convert|apply ok_scientific|apply ok_concat|apply ok_filter|apply ok_count|apply ok_sort|apply ok_reverse
   |apply ok_sum|apply ok_stat|apply ok_base|apply ok_pick|apply ok_replace|apply ok_substr|apply ok_split|apply ok_join|apply ok_reset|apply ok_delete
   |apply ok_text1; intros; post_tac|apply ok_text2; intros; post_tac|unfold fn_text2; ok_tac].
Qed.
Lemma std_env_sane L : env_sane false (g_env (displayed (std L))).
Proof. split; [intros e n; discriminate|]. split; [intros f; discriminate|]. split; [intros f; discriminate|reflexivity]. Qed.
Lemma try_none C rec p ps fl cur nxt lft : run_parser C rec p fl cur nxt lft = (PRnone, lft) ->
  try_parsers C rec (p :: ps) fl cur nxt lft = try_parsers C rec ps fl cur nxt lft.
Proof. intros H. cbn [try_parsers]. rewrite H. reflexivity. Qed.
Lemma std_array_symbols L : array_symbols (std_pcfg L).
Proof.
  intros m rec r lft [->| ->]; (split; [discriminate|]); [lazy; reflexivity|].
  cbn [pc_parsers std_pcfg]. unfold std_parsers. cbv zeta. do 14 (rewrite try_none by reflexivity).
  rewrite try_none. 
  2: { unfold run_parser. cbv zeta. change (match_name (as_step (pc_arr (std_pcfg L)) ++ r)) with (Some ($"step" ++ take_while is_word r)). cbv iota.
       replace (mem_str ($"step" ++ take_while is_word r) (map fst (std_funcs L))) with false by (symmetry; lazy; reflexivity). rewrite andb_false_r. reflexivity. }
  lazy. reflexivity.
Qed.
Lemma std_proper L : proper_table false (std_table L).
Proof.
  split; [exact (std_unwritten_infix L)|]. split; [|split].
  - intros l Hl. cbn [t_levels std_table] in Hl. unfold std_levels in Hl. cbn [In] in Hl. repeat (destruct Hl as [<-|Hl]; [discriminate|]). destruct Hl.
  - intros s o H. assert (G : Forall (fun p => no_symbols (op_l (snd p)) /\ after_operands false (op_r (snd p))) (concat (std_levels L))).
    { unfold std_levels. cbn [concat app]. repeat (apply Forall_cons; [cbn; split; [intros x Hx; cbn in Hx; intuition congruence|tauto]|]). apply Forall_nil. }
    rewrite Forall_forall in G. unfold find_op in H. apply assoc_some_in, in_rev in H. exact (G _ H).
  - exists (firstn 3 (std_levels L)), (skipn 3 (std_levels L)). split; [symmetry; apply firstn_skipn|]. split; [|split; [|discriminate]].
    + intros l s o Hl Hs H. assert (G : Forall (fun p => fst p = $"then" \/ no_symbols (op_r (snd p))) (concat (std_levels L))).
      { unfold std_levels. cbn [concat app].
        repeat (apply Forall_cons; [first [left; reflexivity|right; intros x Hx; cbn in Hx; intuition congruence]|]). apply Forall_nil. }
      rewrite Forall_forall in G. unfold find_op in H. apply assoc_some_in, in_rev in H. destruct (G _ H) as [K|K]; [|exact K]. cbn [fst] in K. subst s. exfalso. clear H G.
      unfold std_levels in Hl. cbn [firstn In] in Hl. 
      repeat (destruct Hl as [<-|Hl]; [cbn [map fst In infix] in Hs; repeat (destruct Hs as [Hs|Hs]; [discriminate Hs|]); destruct Hs|]). destruct Hl.
    + eexists. split; [right; right; left; reflexivity|reflexivity].
Qed.
Theorem std_contained : forall L n fl text s, usable_vars false s ->
  match fst (parse_text (std_pcfg L) text (s_lft s)) with
  | POk sts _ _ => Forall (Forall (tame false (fun t => find_op (std_table L) t <> None) (fun f => In f (map fst (std_funcs L)) /\ f <> $"element"))) sts
  | PCalc | PPy => False | _ => True end ->
  shown_at text (fst (calculate (displayed (std L)) n fl text s)).
Proof.
  intros L n fl text s Hs Ht. eapply (calculate_contained (displayed (std L)) false (fun t => find_op (std_table L) t <> None) (fun f => In f (map fst (std_funcs L)) /\ f <> $"element")); [exact (std_proper L)|exact (std_array_symbols L)| | | |exact Hs|exact Ht].
  - split.
    + intros t [H|[H|[H|H]]]; try discriminate. assert (Et : t = $"IMPLICIT_MULTIPLY") by (injection H as <-; reflexivity). rewrite Et.
      destruct (find_op_in (std_table L) (nth 2 (std_levels L) []) ($"IMPLICIT_MULTIPLY")) as [o E]; [right; right; left; reflexivity|left; reflexivity|]. rewrite E. discriminate.
    + intros t H. destruct (find_op (std_table L) t) as [o|] eqn:E; [|contradiction]. eapply callop_contained; [exact (std_env_sane L)|exact (std_table_ok L)|exact E].
  - intros name [H1 H2]. destruct (assoc name (std_funcs L)) as [d|] eqn:E.
    + exists d. split; [exact E|]. pose proof (std_funcs_ok L) as F. rewrite Forall_forall in F. destruct (F _ (assoc_some_in _ _ _ E)) as [K|[K1 K2]]; [contradiction|].
      apply func_contained; [exact (std_env_sane L)|exact (std_table_ok L)|exact K1|exact K2].
    + exfalso. clear -H1 E. induction (std_funcs L) as [|[k d] l IH]; [destruct H1|]. cbn [assoc] in E. destruct (seq_eqb k name) eqn:Ek; [discriminate|].
      cbn [map fst In] in H1. destruct H1 as [->|H1]; [|auto]. rewrite seq_eqb_refl in Ek. discriminate.
  - intros r _ _. discriminate.
Qed.
