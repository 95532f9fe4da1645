(** The position reported with an error of a calculation. *)
From Coq Require Import ZArith QArith Ascii String List Bool Lia.
From Verif Require Import Base Dec Num Bases Units Syntax Pos PosSpec PosProofs Call Loop Parse ParseSpec ParseProofs Exec ExecSpec ExecProofs2 ExecProofs3 ExecProofs6
  Prop_Parse ErrorSpec ErrorProofs ErrorProofs2.
Import ListNotations.
Open Scope nat_scope.

Lemma points_nil items : points_into items [] None.
Proof. exists (items_text items). split; [reflexivity|]. discriminate. Qed.
Lemma run_fail_points G n fl a x rs s p rs' its nx tr s' : unwritten_infix (g_ops G) -> cf_parse_only fl = false ->
  (forall sym, used_in (g_ops G) x sym -> passes_errors (callop G (cf_stl fl)) sym) ->
  (forall outs s1, in_order (eval_item G (execute G n) (cf_stl fl)) (filter is_operand x) s outs s1 -> Forall value_clean outs) ->
  run_statements G (execute G (S n) (cf_stl fl)) fl a [x] rs s = (CFail p rs' its nx tr, s') ->
  exists err, its = a ++ [err] /\ points_into x err nx.
Proof.
  intros HT Hp Hpass Hc H. cbn [run_statements] in H. rewrite Hp, orb_false_r in H. destruct (is_nil (functional_items x)) eqn:En; [discriminate|].
  assert (Hf : functional_items x <> []) by (destruct (functional_items x); [discriminate En|discriminate]).
  destruct (execute G (S n) (cf_stl fl) x s) as [[r|e| |] s1] eqn:Ee; try discriminate.
  - destruct (rval r) as [| | | | | |e|] eqn:Er;
      try (destruct (g_final G r); try discriminate; injection H as _ _ <- <- _ _; exists []; split; [reflexivity|apply points_nil]).
    destruct (execute_value_items G n (cf_stl fl) x s r e s1 HT Hpass Hc Ee Er) as [m [its' [nx' [tr' [-> K]]]]].
    injection H as _ _ <- <- _ _. exists its'. split; [reflexivity|]. destruct K as [[_ K]|[_ K]]; [apply before_points, K|eapply within_points, K].
  - destruct (execute_error_items G n (cf_stl fl) x s e s1 HT Hf Ee) as [m [its' [nx' [-> K]]]].
    injection H as _ _ <- <- _ _. exists its'. split; [reflexivity|]. apply before_points, K.
Qed.
Theorem calculate_points : forall G n fl text s rs its nx tr s', unwritten_infix (g_ops G) -> cf_parse_only fl = false ->
  let run := execute G (S n) (cf_stl fl) in
  (forall sts k lf a x b outs sk, fst (parse_text (g_parse G) text (s_lft s)) = POk sts k lf -> sts = a ++ x :: b ->
     runs run (g_final G) (cf_state fl) a (mkSt (s_vars s) (snd (parse_text (g_parse G) text (s_lft s)))) outs sk ->
     (forall sym, used_in (g_ops G) x sym -> passes_errors (callop G (cf_stl fl)) sym) /\
     (forall outs s1, in_order (eval_item G (execute G n) (cf_stl fl)) (filter is_operand x) sk outs s1 -> Forall value_clean outs)) ->
  calculate G (S n) fl text s = (CFail false rs its nx tr, s') ->
  exists before after, text = before ++ after /\ concat (map items_text its) = before /\
    (forall t, nx = Some t -> exists more, after = t ++ more) /\ find_pos text its nx = Some (length before).
Proof.
  intros G n fl text s rs its nx tr s' HT Hp run Hx H. unfold calculate, calculate_with in H.
  destruct text as [|ch text]; [discriminate|]. set (tx := ch :: text) in *.
  destruct (parse_text (g_parse G) tx (s_lft s)) as [r lft] eqn:Ep. destruct r as [sts k lf|sts nx'| | |]; try discriminate.
  pose proof (c20_lossless (g_parse G) tx (s_lft s) sts k lf) as Hl. rewrite Ep in Hl. specialize (Hl eq_refl). destruct Hl as [Hl _].
  destruct (run_statements_fail _ _ _ _ _ _ _ _ _ _ _ H) as [a [x [b [sk [E1 [E2 [E3 [_ E5]]]]]]]].
  assert (Hr : exists outs, runs run (g_final G) (cf_state fl) a (mkSt (s_vars s) lft) outs sk).
  { apply run_statements_runs in E3; [|exact Hp]. destruct E3 as [new [_ E3]]. eauto. }
  destruct Hr as [outs Hr]. specialize (Hx sts k lf a x b outs sk). cbn [fst snd] in Hx. destruct (Hx eq_refl E1 Hr) as [Hpass Hc].
  destruct (run_fail_points _ _ _ _ _ _ _ _ _ _ _ _ _ HT Hp Hpass Hc E5) as [err [-> [rest [Et Hn]]]].
  exists (concat (map items_text (a ++ [err]))), (rest ++ concat (map items_text b)).
  assert (Etx : tx = concat (map items_text (a ++ [err])) ++ rest ++ concat (map items_text b)).
  { rewrite <- Hl, E1. rewrite !map_app, !concat_app. cbn [map concat]. rewrite Et, app_nil_r, <- !app_assoc. reflexivity. }
  assert (Hm : forall t, nx = Some t -> exists more, rest ++ concat (map items_text b) = t ++ more).
  { intros t Ht. destruct (Hn t Ht) as [more ->]. exists (more ++ concat (map items_text b)). rewrite app_assoc. reflexivity. }
  repeat split; [exact Etx|exact Hm|]. rewrite Etx at 1. apply find_pos_exact. destruct nx as [t|]; [|exact I].
  destruct (Hm t eq_refl) as [more ->]. apply prefixb_iff. eauto.
Qed.

(** Operands other than variables and calls never have an error as their value *)
Lemma plain_operand_clean G rec stl i s : match i with IVar _ | IFunc _ _ _ _ _ | IPtr _ _ _ _ _ => False | _ => True end ->
  value_clean (fst (eval_item G rec stl i s)).
Proof.
  intros H. destruct i; try destruct H; cbn [eval_item]; try exact I; try (intros e; destruct v; discriminate); try (intros e; discriminate).
  - unfold eval_inner. destruct (rec stl _ s) as [[r|[b1 m1|m1 its1 nx1 tr1]| |] s1]; try exact I.
    + destruct (rval r) as [| | | | | |[b1 m1|m1 its1 nx1 tr1]|] eqn:E; try exact I; try (intros e; discriminate).
      unfold reraise. destruct (truncate _ _ _); exact I.
    + unfold reraise. destruct (truncate _ _ _); exact I.
  - unfold eval_arr. destruct (eval_elements _ _ _ _ _ _ s) as [[[r|[b1 m1|m1 its1 nx1 tr1]| |] n1] s1]; try exact I.
    + intros e. discriminate.
    + unfold reraise. destruct (truncate _ _ _); exact I.
Qed.
Lemma plain_operands_clean G rec stl : forall l s outs s', in_order (eval_item G rec stl) l s outs s' ->
  Forall (fun i => match i with IVar _ | IFunc _ _ _ _ _ | IPtr _ _ _ _ _ => False | _ => True end) l -> Forall value_clean outs.
Proof.
  intros l s outs s' H. induction H as [s|i r s o s1 os s2 E _ _ IH]; intros F; [constructor|]. inversion F; subst. constructor; [|auto].
  pose proof (plain_operand_clean G rec stl i s H1) as K. rewrite E in K. exact K.
Qed.
