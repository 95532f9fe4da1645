(** Statements run one after the other. *)
From Coq Require Import ZArith QArith Ascii String List Bool Lia.
From Verif Require Import Base Dec Num Bases Units Syntax Pos Call Loop Parse Exec ExecSpec ExecProofs ExecProofs2.
Import ListNotations.
Open Scope nat_scope.

Definition parts (r : cresult) := (cr_items r, cr_answer r, cr_state r).

Lemma blank_iff : forall l, is_nil (functional_items l) = true <-> Forall (fun i => ifunc i = false) l.
Proof.
  induction l as [|i l IH]; [split; intros; constructor|]. unfold functional_items in *. cbn [filter].
  destruct (ifunc i) eqn:E; split; intro H.
  - discriminate.
  - inversion H; congruence.
  - constructor; [exact E|]. apply IH, H.
  - inversion H; subst. apply IH. assumption.
Qed.

Lemma run_statements_runs : forall G run fl, cf_parse_only fl = false -> forall sts before rs s c s',
  run_statements G run fl before sts rs s = (c, s') ->
  match c with
  | CDone rs' => exists new, rs' = rs ++ new /\ runs run (g_final G) (cf_state fl) sts s (map parts new) s'
  | CFail p rs' its nx tr => p = false /\ exists a x b sk new err, sts = a ++ x :: b /\ rs' = rs ++ new /\
      runs run (g_final G) (cf_state fl) a s (map parts new) sk /\ fails_at run (g_final G) x sk s' /\ its = before ++ a ++ [err]
  | CRaw => False
  | CPy | CFuel => True
  end.
Proof.
  intros G run fl Hp. induction sts as [|x rest IH]; intros before rs s c s' H.
  - injection H as <- <-. exists []. split; [rewrite app_nil_r; reflexivity|constructor].
  - cbn [run_statements] in H. cbv zeta in H. rewrite Hp, orb_false_r in H.
    assert (More : forall ans st0 s1,
      run_statements G run fl (before ++ [x]) rest (rs ++ [mkCR x ans st0]) s1 = (c, s') ->
      (forall l outs s2, runs run (g_final G) (cf_state fl) l s1 outs s2 -> runs run (g_final G) (cf_state fl) (x :: l) s ((x, ans, st0) :: outs) s2) ->
      match c with
      | CDone rs' => exists new, rs' = rs ++ new /\ runs run (g_final G) (cf_state fl) (x :: rest) s (map parts new) s'
      | CFail p rs' its nx tr => p = false /\ exists a y b sk new err, x :: rest = a ++ y :: b /\ rs' = rs ++ new /\
          runs run (g_final G) (cf_state fl) a s (map parts new) sk /\ fails_at run (g_final G) y sk s' /\ its = before ++ a ++ [err]
      | CRaw => False
      | CPy | CFuel => True
      end).
    { intros ans st0 s1 H1 Hx. apply IH in H1. destruct c as [rs'|p rs' its nx tr| | |]; try exact H1.
      - destruct H1 as [new [-> Hr]]. exists (mkCR x ans st0 :: new). split; [rewrite <- app_assoc; reflexivity|].
        cbn [map]. apply Hx, Hr.
      - destruct H1 as [-> [a [y [b [sk [new [err [-> [-> [Hr [Hf ->]]]]]]]]]]]. split; [reflexivity|].
        exists (x :: a), y, b, sk, (mkCR x ans st0 :: new), err. split; [reflexivity|]. split; [rewrite <- app_assoc; reflexivity|].
        split; [cbn [map]; apply Hx, Hr|]. split; [exact Hf|]. rewrite <- app_assoc. reflexivity. }
    destruct (is_nil (functional_items x)) eqn:En.
    { eapply More; [exact H|]. intros l outs s2 Hl. apply runs_blank; [apply blank_iff, En|exact Hl]. }
    assert (Nb : ~ Forall (fun i => ifunc i = false) x) by (intro K; apply blank_iff in K; congruence).
    assert (Fail : forall e s1, (match e with
                     | XExec _ its nx tr => (CFail false rs (before ++ [its]) nx tr, s1)
                     | XCalc _ _ => (CFail false rs (before ++ [[]]) None false, s1)
                     end) = (c, s') -> fails_at run (g_final G) x s s1 ->
      match c with
      | CDone rs' => exists new, rs' = rs ++ new /\ runs run (g_final G) (cf_state fl) (x :: rest) s (map parts new) s'
      | CFail p rs' its nx tr => p = false /\ exists a y b sk new err, x :: rest = a ++ y :: b /\ rs' = rs ++ new /\
          runs run (g_final G) (cf_state fl) a s (map parts new) sk /\ fails_at run (g_final G) y sk s' /\ its = before ++ a ++ [err]
      | CRaw => False
      | CPy | CFuel => True
      end).
    { intros e s1 H1 Hf. destruct e as [w m|m its nx tr]; injection H1 as <- <-; (split; [reflexivity|]);
        eexists [], x, rest, s, [], _; (split; [reflexivity|]); (split; [rewrite app_nil_r; reflexivity|]);
        (split; [constructor|]); (split; [exact Hf|]); reflexivity. }
    destruct (run x s) as [o s1] eqn:Er. destruct o as [r|e| |].
    + assert (Hv : is_exc (rval r) = false -> match g_final G r with
                   | Ok f => run_statements G run fl (before ++ [x]) rest (rs ++ [mkCR x (Some (rval f, runit f)) (if cf_state fl then Some (s_vars s1) else None)]) s1
                   | Calc => (CFail false rs (before ++ [[]]) None false, s1)
                   | Py => (CPy, s1) end = (c, s') ->
        match c with
      | CDone rs' => exists new, rs' = rs ++ new /\ runs run (g_final G) (cf_state fl) (x :: rest) s (map parts new) s'
      | CFail p rs' its nx tr => p = false /\ exists a y b sk new err, x :: rest = a ++ y :: b /\ rs' = rs ++ new /\
          runs run (g_final G) (cf_state fl) a s (map parts new) sk /\ fails_at run (g_final G) y sk s' /\ its = before ++ a ++ [err]
      | CRaw => False
      | CPy | CFuel => True
      end).
      { intros Hx H1. destruct (g_final G r) as [f| |] eqn:Ef.
        - eapply More; [exact H1|]. intros l outs s2 Hl. eapply runs_one; eauto.
        - apply (Fail (XCalc false MOther) s1 H1). split; [exact Nb|]. right. exists r. split; [exact Er|]. right. exact Ef.
        - injection H1 as <- <-. exact I. }
      destruct (rval r) as [|z|z|z|z|z|z|z] eqn:Ev; try (apply Hv; [reflexivity|exact H]).
      apply (Fail z s1 H). split; [exact Nb|]. right. exists r. split; [exact Er|]. left. rewrite Ev. reflexivity.
    + apply (Fail e s1 H). split; [exact Nb|]. left. exists e. exact Er.
    + injection H as <- <-. exact I.
    + injection H as <- <-. exact I.
Qed.

Lemma runs_run_statements : forall G run fl sts s outs s', runs run (g_final G) (cf_state fl) sts s outs s' ->
  cf_parse_only fl = false -> forall before rs,
  exists new, run_statements G run fl before sts rs s = (CDone (rs ++ new), s') /\ map parts new = outs.
Proof.
  intros G run fl sts s outs s' H Hp. induction H as [s|x l s outs s' Hb Hr IH|x l s r f s1 outs s' Hb Er Hv Hf Hr IH]; intros before rs.
  - exists []. split; [rewrite app_nil_r|]; reflexivity.
  - cbn [run_statements]. cbv zeta. apply blank_iff in Hb. rewrite Hb. cbn [orb].
    destruct (IH (before ++ [x]) (rs ++ [mkCR x None (if cf_state fl then Some (s_vars s) else None)])) as [new [E <-]].
    exists (mkCR x None (if cf_state fl then Some (s_vars s) else None) :: new). rewrite E, <- app_assoc. split; reflexivity.
  - cbn [run_statements]. cbv zeta. destruct (is_nil (functional_items x)) eqn:En; [apply blank_iff in En; contradiction|].
    rewrite Hp. cbn [orb]. rewrite Er.
    destruct (IH (before ++ [x]) (rs ++ [mkCR x (Some (rval f, runit f)) (if cf_state fl then Some (s_vars s1) else None)])) as [new [E <-]].
    exists (mkCR x (Some (rval f, runit f)) (if cf_state fl then Some (s_vars s1) else None) :: new).
    rewrite <- app_assoc in E. cbn [app] in E. cbn [map parts cr_items cr_answer cr_state]. split; [|reflexivity].
    rewrite Hf. destruct (rval r); try discriminate; exact E.
Qed.
Lemma runs_det : forall run final state sts s o1 s1, runs run final state sts s o1 s1 -> forall o2 s2, runs run final state sts s o2 s2 ->
  o1 = o2 /\ s1 = s2.
Proof.
  intros run final state sts s o1 s1 H. induction H as [s|x l s outs s' Hb Hr IH|x l s r f t outs s' Hb Er Hv Hf Hr IH]; intros o2 s2 H2; inversion H2; subst.
  - split; reflexivity.
  - match goal with K : runs _ _ _ l s _ _ |- _ => destruct (IH _ _ K); subst end. split; reflexivity.
  - contradiction.
  - contradiction.
  - match goal with K : run x s = (OOk ?r0, ?t0) |- _ => rewrite Er in K; injection K as <- <- end.
    match goal with K : final r = Ok ?g |- _ => rewrite Hf in K; injection K as <- end.
    match goal with K : runs _ _ _ l t _ _ |- _ => destruct (IH _ _ K); subst end. split; reflexivity.
Qed.
