(** The operators and functions of the calculators with units and dates, and with regular expressions, do not fail with a
    plain exception. *)
From Coq Require Import ZArith QArith Ascii String List Bool Lia.
From Verif Require Import Base Dec Num Bases Units Syntax Call Loop Parse Exec Formats Std UnitCalc Dates Regex InstallProofs ErrorSpec ErrorProofs3
  ContainSpec ContainProofs ContainProofs2 ContainProofs4 ContainProofs5 ContainProofs6 BaseProofs.
Import ListNotations.
Open Scope nat_scope.

(** * Values made of units are no errors *)
Definition mundane (v w : value) : Prop := w = v \/ exists n, w = VNum n.
Lemma mundane_sane u v w : mundane v w -> sane u v -> sane u w.
Proof. intros [->|[n ->]] H; [exact H|exact I]. Qed.
Lemma mundane_exc e v : mundane v (VExc e) -> v = VExc e.
Proof. intros [H|[n H]]; [auto|discriminate]. Qed.
Lemma convert_value_mundane rel v a b r x : convert_value rel v a b r = Ok x -> mundane v (fst x).
Proof.
  unfold convert_value. destruct (same_unit a b).
  - intros H. injection H as <-. left. reflexivity.
  - destruct v; (destruct (unit_conversion _ _ _ _ _) as [q| |]; cbn [obind]; try discriminate). intros H. injection H as <-. right. eexists. reflexivity.
Qed.
Lemma convert_rest_mundane rel to r : forall vs us x, convert_rest rel vs us to r = Ok x -> Forall2 mundane vs (fst x).
Proof.
  induction vs as [|v vs IH]; intros us x H; destruct us as [|u us]; cbn [convert_rest] in H; try discriminate.
  - injection H as <-. constructor.
  - injection H as <-. cbn [fst]. clear IH. constructor; [left; reflexivity|]. induction vs; constructor; auto. left. reflexivity.
  - destruct (convert_value rel v u to r) as [y| |] eqn:E; try discriminate. cbn [obind] in H.
    destruct (convert_rest rel vs us to r) as [z| |] eqn:F; try discriminate. cbn [obind] in H. injection H as <-. cbn [fst].
    constructor; [eapply convert_value_mundane, E|eapply IH, F].
Qed.
Lemma mundane_refl : forall vs, Forall2 mundane vs vs.
Proof. induction vs; constructor; auto. left. reflexivity. Qed.
Lemma mundane_trans a b c : mundane a b -> mundane b c -> mundane a c.
Proof. intros [->|[n ->]] [->|[m ->]]; unfold mundane; eauto. Qed.
Lemma mundane_trans2 : forall a b c, Forall2 mundane a b -> Forall2 mundane b c -> Forall2 mundane a c.
Proof.
  induction a as [|x a IH]; intros b c H K; destruct b as [|y b]; inversion H; destruct c as [|z c]; inversion K; constructor;
    [eapply mundane_trans; eassumption|eapply IH; eassumption].
Qed.
Lemma normalise_pair_mundane rel u1 v u2 r x : normalise_pair rel u1 v u2 r = Ok x -> mundane v (fst x).
Proof.
  unfold normalise_pair. destruct v; try discriminate. destruct (normalise_from_left _ _ _ _ _) as [q| |]; try discriminate. cbn [obind].
  destruct (is_nil (snd q)); try discriminate. destruct (normalise_from_right _ _ _ _ _) as [p| |]; try discriminate. cbn [obind]. intros H. injection H as <-.
  right. eexists. reflexivity.
Qed.
Lemma normalise_after_mundane rel u1 r : forall vs us x, normalise_after rel u1 vs us r = Ok x -> Forall2 mundane vs (fst x).
Proof.
  induction vs as [|v vs IH]; intros us x H; cbn [normalise_after] in H; [injection H as <-; constructor|]. destruct us as [|u us]; [discriminate|].
  assert (G : forall y, match u1, u with Some a, Some b => if is_nil (eu_list a) then Py else normalise_pair rel (eu_list a) v b r | _, _ => Ok (v, u) end = Ok y -> mundane v (fst y)).
  { intros y K. destruct u1 as [a|]; [|injection K as <-; left; reflexivity]. destruct u as [b|]; [|injection K as <-; left; reflexivity].
    destruct (is_nil (eu_list a)); [discriminate|]. eapply normalise_pair_mundane, K. }
  match type of H with (do x <- ?m; _) = _ => destruct m as [y| |] end; try discriminate. cbn [obind] in H.
  destruct (normalise_after rel u1 vs us r) as [z| |] eqn:F; try discriminate. cbn [obind] in H. injection H as <-. cbn [fst].
  constructor; [apply G; reflexivity|eapply IH, F].
Qed.
Lemma normalise_all_mundane rel r : forall vs us x, normalise_all rel vs us r = Ok x -> Forall2 mundane vs (fst x).
Proof.
  induction vs as [|v vs IH]; intros us x H; cbn [normalise_all] in H; [injection H as <-; constructor|]. destruct us as [|u us]; [discriminate|].
  destruct (normalise_all rel vs us r) as [z| |] eqn:E; try discriminate. cbn [obind] in H.
  destruct (normalise_after rel u (fst z) (snd z) r) as [y| |] eqn:F; try discriminate. cbn [obind] in H. injection H as <-. cbn [fst].
  constructor; [left; reflexivity|]. eapply mundane_trans2; [eapply IH, E|eapply normalise_after_mundane, F].
Qed.
Lemma normalise_inputs_mundane rel vs us m r vs' us' w : normalise_inputs rel vs us m r = Ok (vs', us', w) -> Forall2 mundane vs vs'.
Proof.
  unfold normalise_inputs. destruct (first_unit us) as [f|]; [|intros H; injection H as <- _ _; apply mundane_refl].
  destruct (1 <? length vs); [|intros H; injection H as <- _ _; apply mundane_refl]. destruct m.
  - destruct (normalise_all rel vs us r) as [z| |] eqn:E; cbn [obind]; try discriminate. intros H. injection H as E1 _. apply normalise_all_mundane in E. rewrite E1 in E. exact E.
  - destruct vs as [|v vs]; [discriminate|]. destruct us as [|u us]; [discriminate|].
    destruct (convert_rest rel vs us u r) as [z| |] eqn:E; cbn [obind]; try discriminate. intros H. injection H as <- _ _.
    constructor; [left; reflexivity|]. eapply convert_rest_mundane, E.
Qed.
Lemma mundane_in u vs vs' : Forall2 mundane vs vs' -> (forall e, In (VExc e) vs' -> In (VExc e) vs) /\ (Forall (sane u) vs -> Forall (sane u) vs').
Proof.
  intros H. induction H as [|v w vs vs' Hv H [IH1 IH2]]; [split; auto|]. split.
  - intros e [K|K]; [left; rewrite K in Hv; apply mundane_exc, Hv|right; apply IH1, K].
  - intros K. apply Forall_cons_iff in K. destruct K as [K1 K2]. constructor; [eapply mundane_sane; eassumption|auto].
Qed.
Lemma unit_env_sane E U : (forall v, e_parse E v = any_number (l_fmt (u_lib U)) v) -> e_norm E = Some (normalise_inputs (u_rels U)) ->
  (forall r, e_tostr E r = true) -> env_sane true E.
Proof.
  intros HP HN HT. split; [intros e n; rewrite HP; discriminate|]. split; [|split; [|exact HT]].
  - intros f vs us m r vs' us' u e H. rewrite HN in H. injection H as <-. intros K. apply normalise_inputs_mundane in K.
    apply (mundane_in true) in K. destruct K as [K _]. apply K.
  - intros f vs us m r vs' us' u H. rewrite HN in H. injection H as <-. intros K. apply normalise_inputs_mundane in K.
    apply (mundane_in true) in K. destruct K as [_ K]. exact K.
Qed.

(** * The operations *)
Lemma post_lift u vs A (x : out A) f : (forall a, x = Ok a -> post u vs (f a)) -> post u vs (bind (lift x) f).
Proof. intros H. destruct x as [a| |]; [exact (H a eq_refl)|apply post_raise|apply post_py]. Qed.
Lemma unit_value_mundane p v a : mundane v (fst (unit_value p v a)).
Proof. unfold unit_value. destruct v; cbn [fst]; try (left; reflexivity). right. eexists. reflexivity. Qed.
Lemma ok_to U : impl_ok true false (op_to U).
Proof.
  unfold op_to. apply ok_intro. intros h vs us rs stl _ Hv Hne. destruct Hne as [Hne|Hne]; [discriminate|].
  destruct vs as [|v [|w [|]]]; try (post_tac; fail). destruct w; try (post_tac; fail). destruct us as [|a [|b [|]]]; try (post_tac; fail).
  pose proof (unit_value_mundane (l_prec (u_lib U)) v a) as M. destruct (unit_value _ v a) as [v1 a1]. cbn [fst] in M.
  apply post_lift. intros x Hx. apply convert_value_mundane in Hx. apply post_ret; cbn [or_val].
  - apply Forall_cons_iff in Hv. destruct Hv as [Hv _]. eapply mundane_sane; [exact Hx|]. eapply mundane_sane; eassumption.
  - apply Forall_cons_iff in Hne. destruct Hne as [Hne _]. pose proof (mundane_trans _ _ _ M Hx) as [->|[n ->]]; [congruence|discriminate].
Qed.
Lemma simplify_value_num U v u r : simplify_value U v u = Ok r -> exists n, fst r = VNum n.
Proof.
  unfold simplify_value. destruct v; try discriminate. destruct (simplify _ _ _); cbn [obind]; try discriminate. intros H. injection H as <-. eexists. reflexivity.
Qed.
Lemma ok_compact u x U : impl_ok u x (fn_compact U).
Proof.
  unfold fn_compact. apply ok_intro. intros h vs us rs stl _ Hv _. destruct vs as [|v [|]]; try (post_tac; fail). destruct us as [|[a|] [|]]; try (post_tac; fail).
  apply post_lift. intros r Hr. apply simplify_value_num in Hr. destruct Hr as [n ->]. apply post_ret; [exact I|discriminate].
Qed.
Lemma ok_format u x U : impl_ok u x (fn_format U).
Proof. unfold fn_format. ok_tac. Qed.
Lemma ok_dateformat u x : impl_ok u x fn_dateformat.
Proof. unfold fn_dateformat. ok_tac. Qed.
Lemma post_date_add u vs D s v w : post u vs (date_add D s v w).
Proof. unfold date_add. post_tac. Qed.
Lemma ok_dateadd u x D : impl_ok u x (fn_dateadd D).
Proof. unfold fn_dateadd. ok_tac; apply post_date_add. Qed.
Lemma ok_datesubtract u x D : impl_ok u x (fn_datesubtract D).
Proof. unfold fn_datesubtract. ok_tac; apply post_date_add. Qed.
Lemma ok_datedifference u x D : impl_ok u x (fn_datedifference D).
Proof.
  unfold fn_datedifference. apply ok_intro. intros h vs us rs stl _ Hv _. 
  destruct vs as [|v1 vs]; try (post_tac; fail). destruct v1; try (post_tac; fail). destruct vs as [|v2 more]; try (post_tac; fail). destruct v2; try (post_tac; fail).
  apply post_pym. intros d1 _. apply post_pym. intros d2 _. destruct (xorb _ _); [apply post_raise|]. apply post_pym. intros n _. apply post_lift. intros sec _.
  destruct more as [|[] more]; try (post_tac; fail). apply post_lift. intros r Hr. apply convert_value_mundane in Hr.
  destruct Hr as [->|[k ->]]; (apply post_ret; [exact I|discriminate]).
Qed.
Lemma ok_regex u x L R neg : impl_ok u x (op_regex L R neg).
Proof. unfold op_regex. ok_tac. Qed.
Lemma pure_bind A B (m : M A) (f : A -> M B) : pure m -> (forall a, pure (f a)) -> pure (bind m f).
Proof. intros Hm Hf s. unfold bind. specialize (Hm s). destruct (m s) as [[a|e| |] s1]; cbn [snd] in *; subst; [apply Hf|reflexivity..]. Qed.
Lemma pure_scan m s : pure (scan_all m s).
Proof. intros st. unfold scan_all. destruct (scan _ _ _ _ _); reflexivity. Qed.
Lemma pure_findall R p s : pure (findall R p s).
Proof. unfold findall. apply pure_bind; [apply pure_pym|intros m]. apply pure_bind; [apply pure_scan|intros l; apply pure_ret]. Qed.
Lemma pure_resplit R p s : pure (resplit R p s).
Proof. unfold resplit. apply pure_bind; [apply pure_pym|intros m]. apply pure_bind; [apply pure_scan|intros l; apply pure_ret]. Qed.
Lemma pure_resub R p t s k : pure (resub R p t s k).
Proof.
  unfold resub. apply pure_bind; [apply pure_pym|intros m]. destruct (_ && _)%bool; [|apply pure_py].
  apply pure_bind; [apply pure_pym|intros f]. apply pure_bind; [apply pure_scan|intros l; apply pure_ret].
Qed.
Lemma found_text f v : found_value f = Some v -> exists t, v = VStr t.
Proof. destruct f as [|t [|]]; try discriminate. intros H. injection H as <-. eauto. Qed.
Lemma all_found_text : forall l vs, all_found l = Some vs -> Forall (fun v => exists t, v = VStr t) vs.
Proof.
  induction l as [|f l IH]; intros vs H; cbn [all_found] in H; [injection H as <-; constructor|].
  destruct (found_value f) as [v|] eqn:E; [|discriminate]. destruct (all_found l) as [ws|]; [|discriminate]. injection H as <-.
  constructor; [eapply found_text, E|auto].
Qed.
Lemma ok_regexget u x L R : impl_ok u x (fn_regexget L R).
Proof.
  unfold fn_regexget. apply ok_intro. intros h vs us rs stl _ _ _. destruct vs as [|v [|w rest]]; try (post_tac; fail).
  apply post_lift. intros p _. apply post_lift. intros s _. apply post_pure; [apply pure_findall|]. intros found.
  destruct rest as [|[] [|]]; try (post_tac; fail).
  - apply post_pym. intros l Hl. apply post_ret; [|discriminate]. cbn [or_val]. apply all_found_text in Hl.
    apply sane_list, Forall_forall. intros y Hy. apply in_map_iff in Hy. destruct Hy as [z [<- Hz]]. rewrite Forall_forall in Hl. destruct (Hl _ Hz) as [t ->]. split; exact I.
  - apply post_pym. intros f _. apply post_pym. intros y Hy. destruct (found_text _ _ Hy) as [t ->]. apply post_ret; [exact I|discriminate].
Qed.
Lemma ok_regexsplit u x L R : impl_ok u x (fn_regexsplit L R).
Proof.
  unfold fn_regexsplit. apply ok_intro. intros h vs us rs stl _ _ _. destruct vs as [|v [|w [|]]]; try (post_tac; fail).
  apply post_lift. intros p _. apply post_lift. intros s _. apply post_pure; [apply pure_resplit|]. intros l. apply post_ret; [|discriminate]. cbn [or_val].
  apply sane_list, Forall_forall. intros y Hy. apply in_map_iff in Hy. destruct Hy as [[t|] [<- _]]; split; exact I.
Qed.
Lemma ok_regexsub u x L R : impl_ok u x (fn_regexsub L R).
Proof.
  unfold fn_regexsub. apply ok_intro. intros h vs us rs stl _ _ _. destruct vs as [|v [|w [|z rest]]]; try (post_tac; fail).
  apply post_lift. intros p _. apply post_lift. intros t _. apply post_lift. intros s _.
  destruct rest as [|[] [|]]; try (post_tac; fail); (apply post_pure; [apply pure_resub|]; intros r; apply post_ret; [exact I|discriminate]).
Qed.
Lemma ok_regexcount u x L R : impl_ok u x (fn_regexcount L R).
Proof.
  unfold fn_regexcount. apply ok_intro. intros h vs us rs stl _ _ _. destruct vs as [|v [|w [|]]]; try (post_tac; fail).
  apply post_lift. intros p _. apply post_lift. intros s _. apply post_pure; [apply pure_findall|]. intros l. apply post_ret; [exact I|discriminate].
Qed.

(** * The operators and functions *)
Definition row_ok (u : bool) (p : str * operator) : Prop := impl_ok u (o_excs (op_def (snd p))) (o_impl (op_def (snd p))).
Definition fun_ok (u : bool) (p : str * opdef) : Prop := fst p = $"element" \/ (o_excs (snd p) = false /\ impl_ok u false (o_impl (snd p))).
Lemma std_rows_ok u L : Forall (row_ok u) (concat (std_levels L)).
Proof.
  unfold row_ok. unfold std_levels, op2, infix. cbn [concat app]. repeat (apply Forall_cons; [cbn [snd op_def o_excs odef no_result o_impl]|]); try apply Forall_nil;
    first [apply ok_power|apply ok_not|apply ok_bit_not|apply ok_scale|apply ok_num2|apply ok_text_mult|apply ok_int_divide|apply ok_shift|apply ok_compare
      |apply ok_text_cmp|apply ok_bits|apply ok_and|apply ok_or|apply ok_xor|apply ok_then|apply ok_as|apply ok_assign|apply ok_assign_if_empty|apply ok_assign_op|apply ok_increment
      |apply ok_text2; intros; post_tac].
Qed.
Lemma std_funs_ok u L : Forall (fun_ok u) (std_funcs L).
Proof.
  unfold fun_ok, std_funcs, fdef. cbn [fst snd]. repeat (apply Forall_cons; [cbn [fst snd o_excs no_result no_norm o_impl]; first [left; reflexivity|right; split; [reflexivity|]]|]); try apply Forall_nil;
  first [apply ok_abs|apply ok_rounding|apply ok_fact|apply ok_ints|apply ok_convert|apply ok_scientific|apply ok_concat|apply ok_filter|apply ok_count|apply ok_sort|apply ok_reverse
   |apply ok_sum|apply ok_stat|apply ok_base|apply ok_pick|apply ok_replace|apply ok_substr|apply ok_split|apply ok_join|apply ok_reset|apply ok_delete
   |apply ok_text1; intros; post_tac|apply ok_text2; intros; post_tac|unfold fn_text2; ok_tac].
Qed.
Lemma table_ok_rows u T : Forall (row_ok u) (concat (t_levels T)) -> table_ok u T.
Proof. intros G sym o H. rewrite Forall_forall in G. unfold find_op in H. apply assoc_some_in, in_rev in H. exact (G _ H). Qed.

Lemma regex_table_ok L R : table_ok false (regex_table L R).
Proof.
  apply table_ok_rows. cbn [t_levels regex_table]. rewrite concat_app. cbn [concat]. apply Forall_app. pose proof (std_rows_ok false L) as H.
  rewrite <- (firstn_skipn 2 (std_levels L)), concat_app in H. apply Forall_app in H. destruct H as [H1 H2]. split; [exact H1|]. apply Forall_app. split; [|exact H2].
  unfold regex_level, op2. repeat (apply Forall_cons; [apply ok_regex|]). apply Forall_nil.
Qed.
Lemma regex_funs_ok L R : Forall (fun_ok false) (regex_funcs L R).
Proof.
  apply Forall_app. split; [apply std_funs_ok|]. unfold fun_ok, fdef. 
  repeat (apply Forall_cons; [right; split; [reflexivity|]|]); try apply Forall_nil; cbn [snd o_impl]; first [apply ok_regexget|apply ok_regexsplit|apply ok_regexsub|apply ok_regexcount].
Qed.

(** Each operator of the calculator with dates is one of the standard ones or one of these *)
Lemma date_rows D p : In p (concat (date_levels D)) ->
  In p (concat (std_levels (u_lib (dl_units D)))) \/
  In p [unit_op (dl_units D) ($"UNIT_MULTIPLY") (all_are ty_unit) (op_multiply (u_lib (dl_units D)));
        unit_op (dl_units D) ($"UNIT_DIVIDE") (all_are ty_unit) (op_divide (u_lib (dl_units D)));
        unit_op (dl_units D) ($"UNIT_ASSIGNMENT") (each_is 0 [[tynum]; [ty_unit]]) (op_multiply (u_lib (dl_units D)));
        unit_op (dl_units D) ($"to") (each_is 0 [[ty ($"number with unit"); ty_unit]; [ty_unit]]) (op_to (dl_units D));
        date_op ($"+%") (fn_dateadd D); date_op ($"-%") (fn_datesubtract D)].
Proof.
  assert (A : forall l, In l (date_levels D) -> In p l -> In p (match l with (s, o) :: _ => l | [] => [] end)) by (intros [|[s o] l]; auto).
  intros H. apply in_concat in H. destruct H as [l [Hl Hp]]. unfold date_levels in Hl. apply in_map_iff in Hl. destruct Hl as [k [<- Hk]].
  assert (Hp' : In p k \/ In p [date_op ($"+%") (fn_dateadd D); date_op ($"-%") (fn_datesubtract D)]).
  { destruct k as [|[s o] k]; [destruct Hp|]. destruct (seq_eqb s ($"+")); [apply in_app_or in Hp; exact Hp|left; exact Hp]. }
  clear Hp A. destruct Hp' as [Hp|Hp]; [|right; cbn [In] in *; tauto]. unfold unit_levels in Hk. cbv zeta in Hk.
  destruct (std_levels (u_lib (dl_units D))) as [|power [|nots rest]]; [destruct Hk|left; apply in_concat; eauto|].
  destruct Hk as [<-|[<-|[<-|[<-|Hk]]]].
  - left. apply in_concat. exists power. split; [left; reflexivity|exact Hp].
  - left. apply in_concat. exists nots. split; [right; left; reflexivity|exact Hp].
  - right. cbn [In] in *. tauto.
  - right. cbn [In] in *. tauto.
  - apply in_map_iff in Hk. destruct Hk as [l [<- Hl]].
    assert (Hp' : In p l \/ p = unit_op (dl_units D) ($"to") (each_is 0 [[ty ($"number with unit"); ty_unit]; [ty_unit]]) (op_to (dl_units D))).
    { destruct l as [|[s o] l]; [destruct Hp|]. destruct (seq_eqb s ($"as")); [destruct Hp as [Hp|Hp]; auto|auto]. }
    destruct Hp' as [Hp'| ->]; [|right; cbn [In]; tauto]. left. apply in_concat. exists l. split; [right; right; exact Hl|exact Hp'].
Qed.
Lemma date_table_ok D : table_ok true (date_table D).
Proof.
  apply table_ok_rows, Forall_forall. intros p Hp. cbn [t_levels date_table] in Hp. apply date_rows in Hp. destruct Hp as [Hp|Hp].
  - pose proof (std_rows_ok true (u_lib (dl_units D))) as H. rewrite Forall_forall in H. auto.
  - cbn [In] in Hp. unfold row_ok, unit_op, date_op, infix, limited, odef in *.
    repeat (destruct Hp as [<-|Hp]; [cbn [snd op_def o_excs o_impl]; first [apply ok_scale|apply ok_to|apply ok_dateadd|apply ok_datesubtract]|]). destruct Hp.
Qed.
Lemma date_funs_ok D : Forall (fun_ok true) (date_funcs D).
Proof.
  unfold date_funcs, unit_funcs. apply Forall_app. split; [apply Forall_app; split; [apply std_funs_ok|]|]; unfold fun_ok, date_fun, limited, no_norm, fdef;
  repeat (apply Forall_cons; [right; split; [reflexivity|]|]); try apply Forall_nil; cbn [fst snd o_impl];
  first [apply ok_compact|apply ok_format|apply ok_dateformat|apply ok_dateadd|apply ok_datesubtract|apply ok_datedifference].
Qed.
