(** No plain exception comes out of a calculation. *)
From Coq Require Import ZArith QArith Ascii String List Bool Lia.
From Verif Require Import Base Dec Num Bases Units Syntax Pos PosSpec PosProofs Call Loop Parse ParseSpec ParseProofs Exec ExecSpec
  Prop_Parse ErrorSpec ErrorProofs ErrorProofs2 ErrorProofs4 ContainSpec ContainProofs ContainProofs2 ContainProofs3.
Import ListNotations.
Open Scope nat_scope.

Lemma statements_contained G u okop okfn (run : list item -> M result) fl : rec_contained u okop okfn run ->
  (forall r, sane_res u r -> is_exc (rval r) = false -> g_final G r <> Py) -> forall sts before rs s,
  Forall (Forall (sound_item u okop okfn)) sts -> usable_vars u s ->
  shown_at (concat (map items_text (before ++ sts))) (fst (run_statements G run fl before sts rs s)).
Proof.
  intros Hrun Hfin. induction sts as [|x sts IH]; intros before rs s Hf Hs; cbn [run_statements]; [exact I|]. inversion Hf as [|? ? Hx Hr]. subst.
  assert (D : forall ans s1, usable_vars u s1 -> shown_at (concat (map items_text (before ++ x :: sts))) (fst (run_statements G run fl (before ++ [x]) sts
     (rs ++ [mkCR x ans (if cf_state fl then Some (s_vars s1) else None)]) s1))).
  { intros ans s1 Hs1. change (x :: sts) with ([x] ++ sts). rewrite app_assoc. apply IH; assumption. }
  assert (F : forall b rs0 (s1 : st) its nx tr, points_into x its nx -> shown_at (concat (map items_text (before ++ x :: sts))) (fst (CFail b rs0 (before ++ [its]) nx tr, s1))).
  { intros b rs0 s1 its nx tr [rest [E Hn]]. cbn [fst shown_at]. exists (rest ++ concat (map items_text sts)). split.
    - rewrite !map_app, !concat_app. cbn [map concat]. rewrite E, app_nil_r, <- !app_assoc. reflexivity.
    - intros t Ht. destruct (Hn t Ht) as [more ->]. exists (more ++ concat (map items_text sts)). rewrite app_assoc. reflexivity. }
  cbv zeta. destruct (is_nil (functional_items x) || cf_parse_only fl); [apply D, Hs|].
  destruct (run x s) as [o s1] eqn:Er. destruct (Hrun x s o s1 Hx Hs Er) as [Hs1 Ho]. destruct o as [r|e| |]; cbn [outcome_ok] in Ho.
  - destruct Ho as [Hsn [Ho|[m [its [nx [tr [E Hp]]]]]]].
    + specialize (Hfin r Hsn Ho).
      assert (K : shown_at (concat (map items_text (before ++ x :: sts))) (fst (match g_final G r with
        | Ok f => run_statements G run fl (before ++ [x]) sts (rs ++ [mkCR x (Some (rval f, runit f)) (if cf_state fl then Some (s_vars s1) else None)]) s1
        | Calc => (CFail false rs (before ++ [[]]) None false, s1) | Py => (CPy, s1) end))).
      { destruct (g_final G r); [apply D, Hs1|apply F, points_nil|congruence]. }
      destruct (rval r); try exact K. discriminate Ho.
    + rewrite E. apply F, Hp.
  - destruct Ho as [m [its [nx [tr [-> Hp]]]]]. apply F, Hp.
  - destruct Ho.
  - exact I.
Qed.
Theorem calculate_contained : forall G u okop okfn n fl text s, proper_table u (g_ops G) -> array_symbols (g_parse G) ->
  ops_contained G u (cf_stl fl) okop -> fns_contained G u (cf_stl fl) okfn -> (forall r, sane_res u r -> is_exc (rval r) = false -> g_final G r <> Py) ->
  usable_vars u s ->
  match fst (parse_text (g_parse G) text (s_lft s)) with POk sts _ _ => Forall (Forall (tame u okop okfn)) sts | PCalc | PPy => False | _ => True end ->
  shown_at text (fst (calculate G n fl text s)).
Proof.
  intros G u okop okfn n fl text s HT Ha Hop Hfn Hfin Hs Ht. unfold calculate, calculate_with. destruct text as [|c text]; [exact I|]. set (tx := c :: text) in *.
  pose proof (parse_text_good (g_parse G) tx (s_lft s)) as Hg. pose proof (c20_lossless (g_parse G) tx (s_lft s)) as Hl.
  pose proof (parse_laid (g_parse G) Ha (S (length tx)) no_flags tx (s_lft s)) as Hlo. fold (parse_text (g_parse G) tx (s_lft s)) in Hlo.
  destruct (parse_text (g_parse G) tx (s_lft s)) as [[sts k lf|sts nx| | |] lft]; cbn [fst] in *.
  - destruct (Hl _ _ _ eq_refl) as [E1 [_ [_ E2]]]. rewrite <- E1.
    apply (statements_contained G u okop okfn (execute G n (cf_stl fl)) fl (execute_contained G u okop okfn (cf_stl fl) HT Hop Hfn n) Hfin sts [] [] (mkSt (s_vars s) lft)).
    + cbn [laid_pout] in Hlo. clear -Ht E2 Hlo. induction E2 as [|x sts Hx E2 IH]; constructor; inversion Ht; inversion Hlo; subst; [|auto].
      clear -Hx H1 H5. induction Hx as [|i x Hi Hx IH]; constructor; inversion H1; inversion H5; subst; [|auto]. repeat split; assumption.
    + exact Hs.
  - cbn [shown_at pgood] in *. destruct Hg as [Hg _]. exists nx. split; [exact Hg|]. intros t Et. injection Et as ->. exists []. rewrite app_nil_r. reflexivity.
  - destruct Ht.
  - destruct Ht.
  - exact I.
Qed.
