(** Proofs about the order of evaluation. *)
From Coq Require Import ZArith QArith Ascii String List Bool Lia.
From Verif Require Import Base Dec Num Bases Units Syntax Pos Call Loop Parse Exec ExecSpec ExecProofs ExecProofs2.
Import ListNotations.
Open Scope nat_scope.

Fixpoint results (sl : list slot) : list result :=
  match sl with [] => [] | SOp _ _ :: r => results r | SRes x _ :: r => x :: results r end.
Lemma results_app : forall a b, results (a ++ b) = results a ++ results b.
Proof. induction a as [|[s i|r i] a IH]; intros b; cbn [results app]; rewrite ?IH; reflexivity. Qed.

Lemma skipn_twice : forall A n m (l : list A), skipn n (skipn m l) = skipn (m + n) l.
Proof.
  intros A n m. revert n. induction m as [|m IH]; intros n l; [reflexivity|]. destruct l as [|x l]; [rewrite !skipn_nil; reflexivity|].
  cbn [skipn Nat.add]. apply IH.
Qed.

(** * Operands *)
Lemma eval_operands_order : forall G rec stl items k sl orig s o s',
  eval_operands G rec stl items k sl orig s = (o, s') ->
  match o with
  | OOk (sl', _) => exists outs rs, in_order (eval_item G rec stl) (filter is_operand items) s outs s' /\
                      Forall2 stands_for outs rs /\ results sl' = results sl ++ rs
  | OErr _ => False
  | OPy => exists l1 i l2 outs s1, filter is_operand items = l1 ++ i :: l2 /\
             in_order (eval_item G rec stl) l1 s outs s1 /\ eval_item G rec stl i s1 = (OPy, s')
  | OFuel => exists l1 i l2 outs s1, filter is_operand items = l1 ++ i :: l2 /\
             in_order (eval_item G rec stl) l1 s outs s1 /\ eval_item G rec stl i s1 = (OFuel, s')
  end.
Proof.
  intros G rec stl items. induction items as [|i r IH]; intros k sl orig s o s' H; cbn [eval_operands] in H.
  - injection H as <- <-. exists [], []. rewrite app_nil_r. repeat constructor.
  - assert (Hop : forall sym, i = IOp sym -> filter is_operand (i :: r) = filter is_operand r) by (intros sym ->; reflexivity).
    assert (L : (forall sym, i <> IOp sym) ->
      (if ifunc i then let* p := eval_operand G rec stl (firstn k orig) i in
       eval_operands G rec stl r (S k) (sl ++ [SRes (fst p) k]) (orig ++ [snd p]) else eval_operands G rec stl r k sl (orig ++ [i])) s = (o, s') ->
      match o with
      | OOk (sl', _) => exists outs rs, in_order (eval_item G rec stl) (filter is_operand (i :: r)) s outs s' /\
                          Forall2 stands_for outs rs /\ results sl' = results sl ++ rs
      | OErr _ => False
      | OPy => exists l1 x l2 outs s1, filter is_operand (i :: r) = l1 ++ x :: l2 /\
                 in_order (eval_item G rec stl) l1 s outs s1 /\ eval_item G rec stl x s1 = (OPy, s')
      | OFuel => exists l1 x l2 outs s1, filter is_operand (i :: r) = l1 ++ x :: l2 /\
                 in_order (eval_item G rec stl) l1 s outs s1 /\ eval_item G rec stl x s1 = (OFuel, s')
      end).
    { intros Hno H'. destruct (ifunc i) eqn:Ei.
      - assert (Eo : is_operand i = true). { unfold is_operand. rewrite Ei. destruct i; try reflexivity. exfalso. eapply Hno. reflexivity. }
        cbn [filter]. rewrite Eo. unfold bind, eval_operand in H'. destruct (eval_item G rec stl i s) as [oi s1] eqn:Ee.
        assert (K : forall (rr : result) (ii : item), stops oi = false -> stands_for oi rr ->
                    eval_operands G rec stl r (S k) (sl ++ [SRes (fst (rr, ii)) k]) (orig ++ [snd (rr, ii)]) s1 = (o, s') ->
                    match o with
                    | OOk (sl', _) => exists outs rs, in_order (eval_item G rec stl) (i :: filter is_operand r) s outs s' /\
                                        Forall2 stands_for outs rs /\ results sl' = results sl ++ rs
                    | OErr _ => False
                    | OPy => exists l1 x l2 outs s1, i :: filter is_operand r = l1 ++ x :: l2 /\
                               in_order (eval_item G rec stl) l1 s outs s1 /\ eval_item G rec stl x s1 = (OPy, s')
                    | OFuel => exists l1 x l2 outs s1, i :: filter is_operand r = l1 ++ x :: l2 /\
                               in_order (eval_item G rec stl) l1 s outs s1 /\ eval_item G rec stl x s1 = (OFuel, s')
                    end).
        { intros rr ii Hst Hf Hr. apply IH in Hr. destruct o as [[sl' orig']|e| |].
          - destruct Hr as [outs [rs [H1 [H2 H3]]]]. exists (oi :: outs), (rr :: rs). split; [econstructor; eassumption|].
            split; [constructor; assumption|]. rewrite H3, results_app, <- app_assoc. reflexivity.
          - exact Hr.
          - destruct Hr as [l1 [x [l2 [outs [s2 [H1 [H2 H3]]]]]]]. exists (i :: l1), x, l2, (oi :: outs), s2. rewrite H1.
            split; [reflexivity|]. split; [econstructor; eassumption|exact H3].
          - destruct Hr as [l1 [x [l2 [outs [s2 [H1 [H2 H3]]]]]]]. exists (i :: l1), x, l2, (oi :: outs), s2. rewrite H1.
            split; [reflexivity|]. split; [econstructor; eassumption|exact H3]. }
        destruct oi as [x|e| |].
        + eapply K; [reflexivity|reflexivity|exact H'].
        + destruct e; (eapply K; [reflexivity| |exact H']; cbn [stands_for fst]; eexists; reflexivity).
        + injection H' as <- <-. exists [], i, (filter is_operand r), [], s. split; [reflexivity|]. split; [constructor|exact Ee].
        + injection H' as <- <-. exists [], i, (filter is_operand r), [], s. split; [reflexivity|]. split; [constructor|exact Ee].
      - assert (Eo : is_operand i = false) by (unfold is_operand; rewrite Ei; reflexivity).
        cbn [filter]. rewrite Eo. apply IH in H'. exact H'. }
    destruct i; try (apply L; [discriminate|exact H]).
    specialize (Hop sym eq_refl). rewrite Hop. apply IH in H. rewrite results_app in H. cbn [results] in H. rewrite app_nil_r in H. exact H.
Qed.

(** * Operators *)
Lemma action_width : forall T l sl i sym w, action T l sl i = Some (sym, w) ->
  w = 0 \/ (w = 1 /\ exists t j, nth_error sl i = Some (SOp t j)).
Proof.
  intros T l sl i sym w H. unfold action in H. destruct (nth_error sl i) as [x|] eqn:E; [|discriminate]. cbv zeta in H.
  repeat match type of H with (if ?b then _ else _) = _ => destruct b eqn:?B end; try (injection H as <- <-; left; reflexivity).
  - injection H as <- <-. right. split; [reflexivity|]. destruct x; [eauto|]. rewrite andb_false_r in B1. discriminate.
  - destruct x; [|discriminate]. match type of H with (if ?b then _ else _) = _ => destruct b end; [|discriminate].
    injection H as <- <-. right. split; [reflexivity|eauto].
Qed.
Lemma scan_width : forall T l sl is i sym w, scan T l sl is = Some (i, sym, w) ->
  w = 0 \/ (w = 1 /\ exists t j, nth_error sl i = Some (SOp t j)).
Proof.
  intros T l sl is. induction is as [|k r IH]; intros i sym w H; cbn [scan] in H; [discriminate|].
  destruct (action T l sl k) as [[s' w']|] eqn:E; [|eapply IH, H]. injection H as <- <- <-. eapply action_width, E.
Qed.
Lemma scan_levels_width : forall T ls sl i sym w, scan_levels T ls sl = Ok (Some (i, sym, w)) ->
  w = 0 \/ (w = 1 /\ exists t j, nth_error sl i = Some (SOp t j)).
Proof.
  intros T ls. induction ls as [|l r IH]; intros sl i sym w H; cbn [scan_levels] in H; [discriminate|].
  destruct (level_rtl T l) as [b| |]; try discriminate. cbn [obind] in H. cbv zeta in H.
  destruct (scan T l sl _) as [[[i' s'] w']|] eqn:E; [|eapply IH, H]. injection H as <- <- <-. eapply scan_width, E.
Qed.

Lemma take_inputs_results : forall orig sym prev want have s ins s', length want = length have ->
  take_inputs orig sym prev want have s = (OOk ins, s') -> s' = s /\ ins = results have.
Proof.
  intros orig sym prev want. induction want as [|w want IH]; intros have s ins s' Hl H; cbn [take_inputs] in H.
  - injection H as <- <-. destruct have; [split; reflexivity|discriminate].
  - destruct have as [|[t' i|r i] have]; [discriminate| |]; cbn [length] in Hl; destruct w as [t|]; try discriminate.
    + destruct (seq_eqb t' t); [|discriminate]. apply IH in H; [exact H|lia].
    + unfold bind in H. destruct (take_inputs orig sym prev want have s) as [o s1] eqn:E. destruct o; try discriminate.
      injection H as <- <-. apply IH in E; [|lia]. destruct E as [-> ->]. split; reflexivity.
Qed.
Lemma take_inputs_state : forall orig sym prev want have s, snd (take_inputs orig sym prev want have s) = s.
Proof.
  intros orig sym prev want. induction want as [|w want IH]; intros have s; cbn [take_inputs]; [reflexivity|].
  destruct w as [t|], have as [|[t' i|r i] have]; try reflexivity.
  - destruct (seq_eqb t' t); [apply IH|reflexivity].
  - unfold bind. specialize (IH have s). destruct (take_inputs orig sym prev want have s) as [o s1]. cbn [snd] in IH. subst s1.
    destruct o; reflexivity.
Qed.

Lemma run_op_reduces : forall T orig call sl i sym w s o s',
  (w = 0 \/ (w = 1 /\ exists t j, nth_error sl i = Some (SOp t j))) ->
  run_op T orig call sl i sym w s = (o, s') ->
  match o with
  | OOk sl' => exists a ins b oc r, results sl = a ++ ins ++ b /\ call sym ins s = (oc, s') /\ stands_for oc r /\
                 results sl' = a ++ [r] ++ b
  | _ => last_call call (results sl) s s'
  end.
Proof.
  intros T orig call sl i sym w s o s' Hw H. unfold run_op in H.
  destruct (find_op T sym) as [op|]; [|injection H as <- <-; left; reflexivity].
  destruct (nth_error sl i) as [x|] eqn:Ex; [|injection H as <- <-; left; reflexivity].
  destruct (i <? length (op_l op)) eqn:El; [injection H as <- <-; left; reflexivity|]. apply Nat.ltb_ge in El.
  destruct (length sl <? i + length (op_r op) + w) eqn:Er; [injection H as <- <-; left; reflexivity|]. apply Nat.ltb_ge in Er.
  cbv zeta in H. set (L := length (op_l op)) in *. set (R := length (op_r op)) in *.
  set (have := firstn L (skipn (i - L) sl) ++ firstn R (skipn (i + w) sl)) in *.
  assert (Hlen : length (op_l op ++ op_r op) = length have).
  { unfold have. rewrite !app_length, !firstn_length, !skipn_length. unfold L, R in *. lia. }
  assert (Hres : results sl = results (firstn (i - L) sl) ++ results have ++ results (skipn (i + w + R) sl)).
  { assert (E1 : sl = firstn (i - L) sl ++ firstn L (skipn (i - L) sl) ++ skipn i sl).
    { rewrite <- (firstn_skipn (i - L) sl) at 1. f_equal. rewrite <- (firstn_skipn L (skipn (i - L) sl)) at 1. f_equal.
      rewrite skipn_twice. f_equal. lia. }
    assert (E2 : results (skipn i sl) = results (skipn (i + w) sl)).
    { destruct Hw as [->|[-> [t [j Hx]]]]; [rewrite Nat.add_0_r; reflexivity|].
      injection Hx as ->. destruct (nth_error_split sl i Ex) as [l1 [l2 [-> Hl]]].
      rewrite <- Hl. rewrite skipn_app, skipn_all, Nat.sub_diag. cbn [app skipn].
      replace (length l1 + 1) with (length (l1 ++ [SOp t j])) by (rewrite app_length; reflexivity).
      change (SOp t j :: l2) with ([SOp t j] ++ l2). rewrite app_assoc, skipn_app, skipn_all, Nat.sub_diag. reflexivity. }
    assert (E3 : results (skipn (i + w) sl) = results (firstn R (skipn (i + w) sl)) ++ results (skipn (i + w + R) sl)).
    { rewrite <- results_app. f_equal. rewrite <- (firstn_skipn R (skipn (i + w) sl)) at 1. f_equal. rewrite skipn_twice. reflexivity. }
    rewrite E1 at 1. rewrite !results_app, E2, E3. unfold have. rewrite results_app, !app_assoc. reflexivity. }
  unfold bind in H at 1. pose proof (take_inputs_state orig sym (firstn (slot_idx x) orig) (op_l op ++ op_r op) have s) as Hs.
  destruct (take_inputs _ _ _ _ have s) as [ti s1] eqn:Et. cbn [snd] in Hs. subst s1.
  destruct ti as [ins|e| |]; try (injection H as <- <-; left; reflexivity).
  destruct (take_inputs_results _ _ _ _ _ _ _ _ Hlen Et) as [_ ->].
  unfold bind in H at 1. destruct (call sym (results have) s) as [oc s2] eqn:Ec.
  destruct oc as [r|e| |].
  - injection H as <- <-. exists (results (firstn (i - L) sl)), (results have), (results (skipn (i + w + R) sl)), (OOk r), r.
    split; [exact Hres|]. split; [exact Ec|]. split; [reflexivity|]. rewrite results_app. reflexivity.
  - injection H as <- <-. exists (results (firstn (i - L) sl)), (results have), (results (skipn (i + w + R) sl)), (OErr e).
    eexists. split; [exact Hres|]. split; [exact Ec|]. split; [cbn; eexists; reflexivity|]. rewrite results_app. reflexivity.
  - injection H as <- <-. right. eexists _, _, _, _, _. split; [exact Hres|]. split; [exact Ec|reflexivity].
  - injection H as <- <-. right. eexists _, _, _, _, _. split; [exact Hres|]. split; [exact Ec|reflexivity].
Qed.

Lemma op_loop_reduces : forall n T orig call sl s o s', op_loop n T orig call sl s = (o, s') ->
  exists l s1, reduces call (results sl) s l s1 /\
  match o with OOk sl' => l = results sl' /\ s1 = s' | _ => last_call call l s1 s' end.
Proof.
  induction n as [|k IH]; intros T orig call sl s o s' H; cbn [op_loop] in H.
  - injection H as <- <-. exists (results sl), s. split; [constructor|left; reflexivity].
  - destruct (scan_levels T (t_levels T) sl) as [[[[i sym] w]|]| |] eqn:Es.
    + unfold bind at 1 in H. destruct (run_op T orig call sl i sym w s) as [x s1] eqn:Er.
      pose proof (run_op_reduces _ _ _ _ _ _ _ _ _ _ (scan_levels_width _ _ _ _ _ _ Es) Er) as K.
      destruct x as [sl'|e| |]; try (injection H as <- <-; exists (results sl), s; split; [constructor|exact K]).
      destruct K as [a [ins [b [oc [r [E1 [E2 [E3 E4]]]]]]]]. destruct (IH _ _ _ _ _ _ _ H) as [l [s2 [H1 H2]]].
      exists l, s2. split; [|exact H2]. rewrite E1. econstructor; [exact E2|exact E3|]. rewrite <- E4. exact H1.
    + injection H as <- <-. exists (results sl), s. split; [constructor|split; reflexivity].
    + injection H as <- <-. exists (results sl), s. split; [constructor|left; reflexivity].
    + injection H as <- <-. exists (results sl), s. split; [constructor|left; reflexivity].
Qed.

Theorem execute_order : forall G n stl items s o s', functional_items items <> [] ->
  execute G (S n) stl items s = (o, s') ->
  let ev := eval_item G (execute G n) stl in
  (exists outs rs s1 l s2, in_order ev (filter is_operand items) s outs s1 /\ Forall2 stands_for outs rs /\
     reduces (callop G stl) rs s1 l s2 /\
     match o with OOk r => s2 = s' /\ exists r', l = [r'] /\ same_result r r' | _ => last_call (callop G stl) l s2 s' end) \/
  (exists l1 i l2 outs s1 oi, filter is_operand items = l1 ++ i :: l2 /\ in_order ev l1 s outs s1 /\
     ev i s1 = (oi, s') /\ (oi = OPy /\ o = OPy \/ oi = OFuel /\ o = OFuel)).
Proof.
  intros G n stl items s o s' Hne H ev. cbn [execute] in H. unfold execute_body in H.
  destruct (functional_items items) as [|f0 fr] eqn:Ef; [congruence|]. cbn [is_nil] in H. clear Hne Ef f0 fr.
  unfold bind in H at 1. destruct (eval_operands _ _ _ _ _ _ _ s) as [x s1] eqn:E.
  apply eval_operands_order in E. destruct x as [[sl orig]|e| |].
  - left. destruct E as [outs [rs [E1 [E2 E3]]]]. cbn [results app] in E3. destruct (run_slots _ _ _ sl s1) as [y s2] eqn:Er.
    unfold run_slots, bind in Er. destruct (op_loop _ _ _ _ sl s1) as [z s3] eqn:El. apply op_loop_reduces in El.
    destruct El as [l [s4 [El1 El2]]]. rewrite E3 in El1.
    destruct z as [sl'|e| |].
    + destruct El2 as [-> ->]. exists outs, rs, s1, (results sl'), s3. split; [exact E1|]. split; [exact E2|]. split; [exact El1|].
      unfold ends in Er.
      assert (K : forall (w : oc result), (y, s2) = (w, s3) -> match w with OOk _ => False | _ => True end ->
                  match o with OOk r => s3 = s' /\ exists r', results sl' = [r'] /\ same_result r r' | _ => last_call (callop G stl) (results sl') s3 s' end).
      { intros w Hw Hf. injection Hw as -> ->. destruct w; try contradiction; injection H as <- <-; left; reflexivity. }
      destruct sl' as [|[t i|r i] [|z rest]]; try (eapply K; [symmetry; exact Er|exact I]).
      * injection Er as <- <-. clear K.
        destruct (rval r) eqn:Ev; try (injection H as <- <-; split; [reflexivity|]; exists r; split; [reflexivity|]; repeat split; left; exact Ev);
          try (injection H as <- <-; split; [reflexivity|]; exists r; split; [reflexivity|]; repeat split; left; reflexivity).
        destruct e; injection H as <- <-; (split; [reflexivity|]; exists r; split; [reflexivity|]).
        -- repeat split. left. reflexivity.
        -- destruct r as [v u f og]. cbn [rval] in Ev. subst v. repeat split. right. eexists _, _, _, _, _. split; reflexivity.
      * destruct (filter slot_op (SRes r i :: z :: rest)); (eapply K; [symmetry; exact Er|exact I]).
    + injection Er as <- <-. exists outs, rs, s1, l, s4. repeat (split; [eassumption|]). injection H as <- <-. exact El2.
    + injection Er as <- <-. exists outs, rs, s1, l, s4. repeat (split; [eassumption|]). injection H as <- <-. exact El2.
    + injection Er as <- <-. exists outs, rs, s1, l, s4. repeat (split; [eassumption|]). injection H as <- <-. exact El2.
  - contradiction.
  - injection H as <- <-. right. destruct E as [l1 [i [l2 [outs [s2 [E1 [E2 E3]]]]]]]. exists l1, i, l2, outs, s2, OPy. repeat (split; [eassumption|]).
    left. split; reflexivity.
  - injection H as <- <-. right. destruct E as [l1 [i [l2 [outs [s2 [E1 [E2 E3]]]]]]]. exists l1, i, l2, outs, s2, OFuel. repeat (split; [eassumption|]).
    right. split; reflexivity.
Qed.
