(** The items reported with an error: the slots of a statement. *)
From Coq Require Import ZArith QArith Ascii String List Bool Lia.
From Verif Require Import Base Dec Num Bases Units Syntax Pos PosSpec PosProofs Call Loop Parse Exec ExecSpec ExecProofs2 ExecProofs3 ErrorSpec ErrorProofs.
Import ListNotations.
Open Scope nat_scope.

(** The [k]-th functional item *)
Definition at_func (items : list item) (k : nat) (i : item) : Prop :=
  exists p q, items = p ++ i :: q /\ ifunc i = true /\ fcount p = k.
Definition good_slot (items : list item) (R : exc -> Prop) (x : slot) : Prop :=
  match x with
  | SOp t k => at_func items k (IOp t)
  | SRes r k => (exists i, at_func items k i) /\ forall e, rval r = VExc e -> R e
  end.
Lemma good_slot_idx items R x : good_slot items R x -> exists i, at_func items (slot_idx x) i.
Proof. destruct x as [t k|r k]; cbn [good_slot slot_idx]; [eauto|]. intros [H _]. exact H. Qed.
Lemma good_slot_mono items (R R' : exc -> Prop) x : (forall e, R e -> R' e) -> good_slot items R x -> good_slot items R' x.
Proof. intros H. destruct x as [t k|r k]; cbn [good_slot]; [auto|]. intros [H1 H2]. split; [exact H1|]. intros e E. apply H, H2, E. Qed.

(** An error of this statement, before its items are put back; [orig] are the items after evaluation *)
Definition own_error (items : list item) (ev : item -> M result) (orig : list item) (e : exc) : Prop :=
  exists m its nx tr p i q, e = XExec m its nx tr /\ items = p ++ i :: q /\ ifunc i = true /\
    ((tr = false /\ length its = fcount p /\ (nx = None \/ nx = Some (itext i))) \/
     (tr = true /\ length its = S (fcount p) /\ exists y s s' rest, nth_error orig (length p) = Some y /\ ev i s = (OErr (XExec m [y] nx true), s') /\
        itext i = itext y ++ rest /\ (forall t, nx = Some t -> exists more, rest = t ++ more))).
Lemma own_error_app items ev orig more e : own_error items ev orig e -> own_error items ev (orig ++ more) e.
Proof.
  intros [m [its [nx [tr [p [i [q [E1 [E2 [E3 E4]]]]]]]]]]. exists m, its, nx, tr, p, i, q. repeat split; auto.
  destruct E4 as [E4|[H1 [H2 [y [s [s' [rest [H3 H4]]]]]]]]; [left; exact E4|]. right. repeat split; auto. exists y, s, s', rest. split; [|exact H4].
  rewrite nth_error_app1; [exact H3|]. apply nth_error_Some. rewrite H3. discriminate.
Qed.
Lemma own_error_restored items ev orig e : Forall2 alike orig items -> own_error items ev orig e ->
  exists m its nx tr, restore_items e orig items = XExec m its nx tr /\
    ((tr = false /\ before_an_item items its nx) \/ (tr = true /\ within_an_item ev items its m nx)).
Proof.
  intros Ha [m [its [nx [tr [p [i [q [-> [E2 [E3 E4]]]]]]]]]]. cbn [restore_items]. exists m. subst items.
  destruct E4 as [[-> [Hl Hn]]|[-> [Hl [y [s [s' [rest [H3 [H4 [H5 H6]]]]]]]]]]; rewrite Hl.
  - exists p, nx, false. split; [|left; split; [reflexivity|]; exists i, q; auto].
    f_equal. apply (restore_before p i q orig 0); assumption.
  - exists (p ++ [y]), nx, true. split; [|right; split; [reflexivity|]; exists p, i, y, q, s, s', rest; auto 8].
    f_equal. apply (restore_within p i q orig 0); assumption.
Qed.

(** * Operands *)
Lemma alike_length a b : Forall2 alike a b -> length a = length b.
Proof. induction 1; cbn [length]; congruence. Qed.
Lemma firstn_count (p orig : list item) : length orig = length p -> length (firstn (fcount p) orig) = fcount p.
Proof. intros H. rewrite firstn_length. pose proof (fcount_le p). lia. Qed.
(** The slots after the operands, whatever their values; with [R] true of the errors that are values *)
Lemma operands_slots G rec stl : forall rest before sl orig s sl' orig' s' (R : exc -> Prop),
  eval_operands G rec stl rest (fcount before) sl orig s = (OOk (sl', orig'), s') ->
  Forall2 alike orig before ->
  Forall (good_slot (before ++ rest) (fun e => R e \/ own_error (before ++ rest) (eval_item G rec stl) orig e)) sl ->
  (forall outs s2, in_order (eval_item G rec stl) (filter is_operand rest) s outs s2 -> Forall (fun o => match o with OOk r => forall e, rval r = VExc e -> R e | _ => True end) outs) ->
  Forall2 alike orig' (before ++ rest) /\
  Forall (good_slot (before ++ rest) (fun e => R e \/ own_error (before ++ rest) (eval_item G rec stl) orig' e)) sl'.
Proof.
  induction rest as [|i rest IH]; intros before sl orig s sl' orig' s' R H Ha Hs Hout; cbn [eval_operands] in H.
  - injection H as <- <- _. rewrite app_nil_r in *. split; assumption.
  - assert (Hlen : length orig = length before) by (apply alike_length, Ha).
    assert (Happ : before ++ i :: rest = (before ++ [i]) ++ rest) by (rewrite <- app_assoc; reflexivity).
    assert (Hat : ifunc i = true -> at_func (before ++ i :: rest) (fcount before) i) by (intros Hi; exists before, rest; auto).
    assert (Hmono : forall y sl0, Forall (good_slot (before ++ i :: rest) (fun e => R e \/ own_error (before ++ i :: rest) (eval_item G rec stl) orig e)) sl0 ->
              Forall (good_slot (before ++ i :: rest) (fun e => R e \/ own_error (before ++ i :: rest) (eval_item G rec stl) (orig ++ [y]) e)) sl0).
    { intros y sl0 K. eapply Forall_impl; [|exact K]. intros x. apply good_slot_mono. intros e [K1|K1]; [left; exact K1|right]. apply own_error_app. exact K1. }
    assert (Hstep : forall y k0 z s1, fcount (before ++ [i]) = k0 -> alike y i ->
              Forall (good_slot (before ++ i :: rest) (fun e => R e \/ own_error (before ++ i :: rest) (eval_item G rec stl) (orig ++ [y]) e)) z ->
              eval_operands G rec stl rest k0 (sl ++ z) (orig ++ [y]) s1 = (OOk (sl', orig'), s') ->
              (forall outs s2, in_order (eval_item G rec stl) (filter is_operand rest) s1 outs s2 -> Forall (fun o => match o with OOk r => forall e, rval r = VExc e -> R e | _ => True end) outs) ->
              Forall2 alike orig' (before ++ i :: rest) /\
              Forall (good_slot (before ++ i :: rest) (fun e => R e \/ own_error (before ++ i :: rest) (eval_item G rec stl) orig' e)) sl').
    { intros y k0 z s1 <- Hy Hz Hr Ho. rewrite Happ in *. eapply IH; [exact Hr| | |exact Ho].
      - apply Forall2_app; [exact Ha|constructor; [exact Hy|constructor]].
      - apply Forall_app. split; [apply Hmono; exact Hs|exact Hz]. }
    assert (Hc : fcount (before ++ [i]) = if ifunc i then S (fcount before) else fcount before).
    { rewrite fcount_app. unfold fcount at 2. cbn [filter]. destruct (ifunc i); cbn [length]; lia. }
    assert (L : (forall sym, i <> IOp sym) ->
      (if ifunc i then let* p := eval_operand G rec stl (firstn (fcount before) orig) i in
       eval_operands G rec stl rest (S (fcount before)) (sl ++ [SRes (fst p) (fcount before)]) (orig ++ [snd p])
       else eval_operands G rec stl rest (fcount before) sl (orig ++ [i])) s = (OOk (sl', orig'), s') ->
      Forall2 alike orig' (before ++ i :: rest) /\
      Forall (good_slot (before ++ i :: rest) (fun e => R e \/ own_error (before ++ i :: rest) (eval_item G rec stl) orig' e)) sl').
    { intros Hno H'. destruct (ifunc i) eqn:Ei.
      - assert (Eo : is_operand i = true). { unfold is_operand. rewrite Ei. destruct i; try reflexivity. exfalso. eapply Hno. reflexivity. }
        cbn [filter] in Hout. rewrite Eo in Hout.
        assert (Hrest : forall o s1, eval_item G rec stl i s = (o, s1) -> stops o = false ->
          forall outs s2, in_order (eval_item G rec stl) (filter is_operand rest) s1 outs s2 ->
          Forall (fun o => match o with OOk r => forall e, rval r = VExc e -> R e | _ => True end) (o :: outs)).
        { intros o s1 E1 E2 outs s2 E3. apply (Hout (o :: outs) s2). econstructor; eassumption. }
        unfold bind, eval_operand in H'. destruct (eval_item G rec stl i s) as [oi s1] eqn:Ee.
        destruct oi as [r|e| |]; try discriminate.
        + cbn [fst snd] in H'. pose proof (eval_operands_order _ _ _ _ _ _ _ _ _ _ H') as [outs [rs [Hio _]]].
          specialize (Hrest _ _ eq_refl eq_refl _ _ Hio) as Hcl. inversion Hcl as [|? ? Hr _]. subst.
          eapply Hstep; [exact Hc|split; [reflexivity|intros Hf; congruence]| |exact H'|].
          * constructor; [|constructor]. split; [eauto|]. intros e E. left. apply Hr, E.
          * intros outs' s2 Hio'. specialize (Hrest _ _ eq_refl eq_refl _ _ Hio') as Hcl'. inversion Hcl'. assumption.
        + assert (Ho : forall outs' s2, in_order (eval_item G rec stl) (filter is_operand rest) s1 outs' s2 ->
            Forall (fun o => match o with OOk r => forall e, rval r = VExc e -> R e | _ => True end) outs').
          { intros outs' s2 Hio'. specialize (Hrest _ _ eq_refl eq_refl _ _ Hio') as Hcl'. inversion Hcl'. assumption. }
          destruct (item_errors G rec stl i _ _ _ Ee) as [[w [msg ->]]|[m [its [nx [tr [-> [-> [y [tail [-> [Hy [Ht Hn]]]]]]]]]]]].
          * cbn [fst snd] in H'. eapply Hstep; [exact Hc|split; [reflexivity|intros Hf; congruence]| |exact H'|exact Ho].
            constructor; [|constructor]. split; [eauto|]. intros e E. cbn [mkRes rval] in E. injection E as <-. right.
            eexists _, _, _, _, before, i, rest. split; [reflexivity|]. split; [reflexivity|]. split; [exact Ei|]. left.
            split; [reflexivity|]. split; [apply firstn_count; exact Hlen|]. right. reflexivity.
          * cbn [fst snd] in H'. eapply (Hstep y); [exact Hc|split; [congruence|intros Hf; congruence]| |exact H'|exact Ho].
            constructor; [|constructor]. split; [eauto|]. intros e E. cbn [mkRes rval] in E. injection E as <-. right.
            eexists _, _, _, _, before, i, rest. split; [reflexivity|]. split; [reflexivity|]. split; [exact Ei|]. right.
            split; [reflexivity|]. split; [rewrite app_length, firstn_count by exact Hlen; cbn [length]; lia|].
            exists y, s, s1, tail. split; [|auto]. rewrite nth_error_app2 by lia. rewrite <- Hlen, Nat.sub_diag. reflexivity.
      - assert (Eo : is_operand i = false) by (unfold is_operand; rewrite Ei; reflexivity).
        cbn [filter] in Hout. rewrite Eo in Hout. rewrite <- (app_nil_r sl) in H'.
        eapply Hstep; [exact Hc|split; [reflexivity|intros _; reflexivity]|constructor|exact H'|exact Hout]. }
    destruct i; try (apply L; [discriminate|exact H]).
    cbn [ifunc] in Hc. eapply Hstep; [exact Hc|split; [reflexivity|discriminate]| |exact H|exact Hout].
    constructor; [|constructor]. cbn [good_slot]. apply Hat. reflexivity.
Qed.

(** * Operators *)
Lemma action_kind T l sl i sym w : action T l sl i = Some (sym, w) ->
  (w = 1 /\ exists j, nth_error sl i = Some (SOp sym j)) \/
  (unwritten T sym /\ (exists k r j, i = S k /\ nth_error sl k = Some (SRes r j)) /\
    ((w = 0 /\ exists r j, nth_error sl i = Some (SRes r j)) \/
     (w = 1 /\ (exists t j, nth_error sl i = Some (SOp t j)) /\ exists r j, nth_error sl (S i) = Some (SRes r j)))).
Proof.
  intros H. unfold action in H. destruct (nth_error sl i) as [x|] eqn:E; [|discriminate]. cbv zeta in H.
  assert (K : forall o, in_level o l = true -> o = Some (opt_get o)) by (intros [t|]; [reflexivity|discriminate]).
  assert (At : forall f k, at_slot f sl k = true -> exists y, nth_error sl k = Some y /\ f y = true).
  { intros f k. unfold at_slot. destruct (nth_error sl k) as [y|]; [eauto|discriminate]. }
  assert (Au : forall y, slot_unit y = true -> exists r j, y = SRes r j) by (intros [t j|r j]; [discriminate|eauto]).
  assert (Ao : forall y, slot_op y = false -> exists r j, y = SRes r j) by (intros [t j|r j]; [discriminate|eauto]).
  assert (Pu : match i with O => false | S j => at_slot slot_unit sl j end = true -> exists k r j, i = S k /\ nth_error sl k = Some (SRes r j)).
  { destruct i as [|k]; [discriminate|]. intros P. destruct (At _ _ P) as [y [E1 E2]]. destruct (Au _ E2) as [r [j ->]]. eauto 6. }
  assert (Po : 0 <? i = true -> match i with O => false | S j => at_slot slot_op sl j end = false -> exists k r j, i = S k /\ nth_error sl k = Some (SRes r j)).
  { destruct i as [|k]; [discriminate|]. intros _ P. unfold at_slot in P. destruct (nth_error sl k) as [y|] eqn:E1.
    - destruct (Ao _ P) as [r [j ->]]. eauto 6.
    - exfalso. assert (S k < length sl) by (apply nth_error_Some; rewrite E; discriminate). apply nth_error_None in E1. lia. }
  repeat match type of H with (if ?b then _ else _) = _ => destruct b eqn:?B end.
  - injection H as <- <-. right. repeat (apply andb_prop in B; destruct B as [B ?]).
    split; [left; apply K; exact B|]. split; [apply Po; [assumption|]; apply negb_true_iff; assumption|].
    left. split; [reflexivity|]. destruct (Au x) as [r [j ->]]; [assumption|]. eauto.
  - injection H as <- <-. right. repeat (apply andb_prop in B0; destruct B0 as [B0 ?]).
    split; [right; left; apply K; exact B0|]. split; [apply Pu; assumption|].
    left. split; [reflexivity|]. destruct (Au x) as [r [j ->]]; [assumption|]. eauto.
  - injection H as <- <-. right. repeat (apply andb_prop in B1; destruct B1 as [B1 ?]).
    split; [right; right; left; apply K; exact B1|]. split; [apply Pu; assumption|].
    right. split; [reflexivity|]. split; [destruct x; [eauto|discriminate]|]. destruct (At _ _ H) as [y [E1 E2]].
    destruct (Au _ E2) as [r [j ->]]. eauto.
  - injection H as <- <-. right. repeat (apply andb_prop in B2; destruct B2 as [B2 ?]).
    split; [right; right; right; apply K; exact B2|]. split; [apply Po; [assumption|]; apply negb_true_iff; assumption|].
    left. split; [reflexivity|]. destruct (Ao x) as [r [j ->]]; [apply negb_true_iff; assumption|]. eauto.
  - destruct x as [t j|]; [|discriminate]. match type of H with (if ?b then _ else _) = _ => destruct b end; [|discriminate].
    injection H as <- <-. left. split; [reflexivity|eauto].
Qed.
Lemma scan_levels_kind T : forall ls sl i sym w, scan_levels T ls sl = Ok (Some (i, sym, w)) -> exists l, action T l sl i = Some (sym, w).
Proof.
  induction ls as [|l r IH]; intros sl i sym w H; cbn [scan_levels] in H; [discriminate|].
  destruct (level_rtl T l) as [b| |]; try discriminate. cbn [obind] in H. cbv zeta in H.
  destruct (scan T l sl _) as [[[i' s'] w']|] eqn:E; [|eapply IH, H]. injection H as <- <- <-. exists l.
  revert E. generalize (if b : bool then rev (seq 0 (length sl)) else seq 0 (length sl)). intros is. induction is as [|k is IHs]; cbn [scan]; [discriminate|].
  destruct (action T l sl k) as [[s0 w0]|] eqn:E; [|exact IHs]. intros H. injection H as <- <- <-. exact E.
Qed.
(** The errors of [take_inputs] are at an operator *)
Lemma take_inputs_at items R orig sym prev : forall want have s e s', Forall (good_slot items R) have ->
  take_inputs orig sym prev want have s = (OErr e, s') ->
  (exists m, e = XExec m prev (Some sym) false) \/ (exists m t i, e = XExec m (firstn i orig) (Some t) false /\ at_func items i (IOp t)).
Proof.
  induction want as [|w want IH]; intros have s e s' Hg H; cbn [take_inputs] in H; [discriminate|].
  destruct w as [t|], have as [|[t' i|r i] have]; try discriminate; inversion Hg as [|? ? H1 H2]; subst.
  - destruct (seq_eqb t' t); [eapply IH; eassumption|]. injection H as <- _. right. exists MSymbol, t', i. split; [reflexivity|exact H1].
  - injection H as <- _. left. eauto.
  - unfold bind in H. destruct (take_inputs orig sym prev want have s) as [o s1] eqn:E. destruct o; try discriminate.
    injection H as <- _. eapply IH; eassumption.
Qed.
Lemma Forall_firstn A (P : A -> Prop) n l : Forall P l -> Forall P (firstn n l).
Proof. intros H. rewrite Forall_forall in *. intros x Hx. apply H. rewrite <- (firstn_skipn n l). apply in_or_app. left. exact Hx. Qed.
Lemma Forall_skipn A (P : A -> Prop) n l : Forall P l -> Forall P (skipn n l).
Proof. intros H. rewrite Forall_forall in *. intros x Hx. apply H. rewrite <- (firstn_skipn n l). apply in_or_app. right. exact Hx. Qed.
(** An error at an item of the statement: as many items as there are functional ones before it, and its text *)
Definition at_error (items orig : list item) (e : exc) : Prop :=
  exists m k i nx, e = XExec m (firstn k orig) nx false /\ at_func items k i /\ (nx = None \/ nx = Some (itext i)).
Lemma at_error_own items ev orig e : length orig = length items -> at_error items orig e -> own_error items ev orig e.
Proof.
  intros Hl [m [k [i [nx [-> [[p [q [E1 [E2 E3]]]] Hn]]]]]]. exists m, (firstn k orig), nx, false, p, i, q. repeat split; auto. left. repeat split; auto.
  rewrite E3, firstn_length, Hl, E1, app_length. pose proof (fcount_le p). lia.
Qed.
Lemma take_two orig sym prev a i b j s : take_inputs orig sym prev [None; None] [SRes a i; SRes b j] s = (OOk [a; b], s).
Proof. reflexivity. Qed.
Lemma one_slot A (sl : list A) k x : nth_error sl k = Some x -> firstn 1 (skipn k sl) = [x].
Proof.
  revert k. induction sl as [|y l IH]; intros k H; [destruct k; discriminate|].
  destruct k as [|k]; cbn [nth_error] in H; [injection H as ->; reflexivity|]. cbn [skipn]. apply IH. exact H.
Qed.
Lemma results_in have r : In r (results have) -> exists k, In (SRes r k) have.
Proof.
  induction have as [|[t i|x i] h IH]; cbn [results]; [intros []| |].
  - intros H. destruct (IH H) as [k K]. exists k. right. exact K.
  - intros [->|H]; [exists i; left; reflexivity|]. destruct (IH H) as [k K]. exists k. right. exact K.
Qed.
Lemma run_op_error T items orig call sl i sym w s (R : exc -> Prop) l o s' : unwritten_infix T -> action T l sl i = Some (sym, w) ->
  length orig = length items -> Forall (good_slot items R) sl ->
  (forall e, at_error items orig e -> R e) -> ((forall sym, used_in T items sym -> passes_errors call sym) \/ forall e, R e) ->
  run_op T orig call sl i sym w s = (o, s') ->
  match o with OOk sl' => Forall (good_slot items R) sl' | OErr e => at_error items orig e | _ => True end.
Proof.
  intros HT Hact Hlen Hg HR Hpass H. apply action_kind in Hact. unfold run_op in H.
  destruct (find_op T sym) as [op|] eqn:Eop; [|injection H as <- <-; exact I].
  destruct (nth_error sl i) as [x|] eqn:Ex; [|injection H as <- <-; exact I].
  assert (Hi : i < length sl) by (apply nth_error_Some; rewrite Ex; discriminate).
  assert (Hx : good_slot items R x) by (rewrite Forall_forall in Hg; apply Hg; eapply nth_error_In, Ex).
  assert (Hin : forall t j, x = SOp t j -> at_error items orig (XExec MOther (firstn (slot_idx x) orig) (Some t) false) /\ forall m, at_error items orig (XExec m (firstn (slot_idx x) orig) (Some t) false)).
  { intros t j ->. cbn [good_slot slot_idx] in *. assert (A : forall m, at_error items orig (XExec m (firstn j orig) (Some t) false)); [|split; [apply A|exact A]].
    intros m. exists m, j, (IOp t), (Some t). split; [reflexivity|]. split; [exact Hx|]. right. reflexivity. }
  assert (Hused : used_in T items sym).
  { destruct Hact as [[_ [j Hj]]|[Hun _]]; [left|right; exact Hun]. injection Hj as ->. destruct Hx as [p [q [-> _]]]. apply in_or_app. right. left. reflexivity. }
  set (have := firstn (length (op_l op)) (skipn (i - length (op_l op)) sl) ++ firstn (length (op_r op)) (skipn (i + w) sl)) in *.
  assert (Hhave : Forall (good_slot items R) have) by (apply Forall_app; split; apply Forall_firstn, Forall_skipn, Hg).
  assert (Hok : forall ins s1, take_inputs orig sym (firstn (slot_idx x) orig) (op_l op ++ op_r op) have s = (OOk ins, s1) -> length (op_l op ++ op_r op) = length have ->
     (let* r := (fun s => match call sym ins s with
                          | (OErr e, s') =>
                            let text := match x with SOp t _ => if w =? 1 then Some t else None | _ => None end in
                            (OOk (mkRes (VExc (XExec (exc_msg e) (firstn (slot_idx x) orig) text false)) None None), s')
                          | y => y
                          end) in
      ret (firstn (i - length (op_l op)) sl ++ [SRes r (slot_idx x)] ++ skipn (i + w + length (op_r op)) sl)) s1 = (o, s') ->
     match o with OOk sl' => Forall (good_slot items R) sl' | OErr e => at_error items orig e | _ => True end).
  { intros ins s1 Et El H'. apply take_inputs_results in Et; [|exact El]. destruct Et as [-> ->]. unfold bind in H'.
    assert (G : forall r, (forall e, rval r = VExc e -> R e) ->
      Forall (good_slot items R) (firstn (i - length (op_l op)) sl ++ [SRes r (slot_idx x)] ++ skipn (i + w + length (op_r op)) sl)).
    { intros r Hr. apply Forall_app. split; [apply Forall_firstn, Hg|]. apply Forall_app. split; [|apply Forall_skipn, Hg].
      constructor; [|constructor]. split; [eapply good_slot_idx, Hx|exact Hr]. }
    destruct (call sym (results have) s) as [[r|e| |] s2] eqn:Ec; try (injection H' as <- <-; exact I).
    - injection H' as <- <-. apply G. intros e Ee. destruct Hpass as [Hpass|Hpass]; [|apply Hpass].
      destruct (Hpass _ Hused _ _ _ _ _ Ec Ee) as [y [Hy Ey]]. destruct (results_in _ _ Hy) as [k Hk].
      rewrite Forall_forall in Hhave. specialize (Hhave _ Hk). cbn [good_slot] in Hhave. apply Hhave. exact Ey.
    - injection H' as <- <-. apply G. intros e' Ee. cbn [mkRes rval] in Ee. injection Ee as <-. apply HR.
      destruct (good_slot_idx _ _ _ Hx) as [it Hit].
      destruct x as [t j|r j]; cbn [slot_idx] in *.
      + destruct (w =? 1); [eexists _, j, (IOp t), _; split; [reflexivity|]; split; [exact Hx|right; reflexivity]|].
        eexists _, j, (IOp t), _. split; [reflexivity|]. split; [exact Hx|left; reflexivity].
      + eexists _, j, it, _. split; [reflexivity|]. split; [exact Hit|left; reflexivity]. }
  destruct Hact as [[-> [j Hj]]|[Hun [[k [ra [ja [-> Hk]]]] Hright]]].
  - injection Hj as ->. specialize (Hin _ _ eq_refl) as [_ Hin].
    destruct (i <? length (op_l op)) eqn:E1; [injection H as <- <-; apply Hin|]. apply Nat.ltb_ge in E1.
    destruct (length sl <? i + length (op_r op) + 1) eqn:E2; [injection H as <- <-; apply Hin|]. apply Nat.ltb_ge in E2.
    cbv zeta in H. unfold bind at 1 in H. destruct (take_inputs _ _ _ _ _ s) as [[ins|e| |] s1] eqn:Et; try (injection H as <- <-; exact I).
    + eapply Hok; [reflexivity| |exact H]. unfold have. rewrite !app_length, !firstn_length, !skipn_length. lia.
    + injection H as <- <-. destruct (take_inputs_at _ _ _ _ _ _ _ _ _ _ Hhave Et) as [[m ->]|[m [t [k [-> Ha]]]]]; [apply Hin|].
      exists m, k, (IOp t), (Some t). split; [reflexivity|]. split; [exact Ha|right; reflexivity].
  - destruct (HT _ _ Hun Eop) as [HL HRr]. rewrite HL, HRr in *. cbn [length app] in *.
    assert (E1 : S k <? 1 = false) by (apply Nat.ltb_ge; lia). rewrite E1 in H.
    replace (S k - 1) with k in * by lia.
    assert (Hb : exists rb jb, nth_error sl (S k + w) = Some (SRes rb jb)).
    { destruct Hright as [[-> [rb [jb Hb]]]|[-> [_ [rb [jb Hb]]]]]; exists rb, jb; [rewrite Nat.add_0_r; congruence|rewrite Nat.add_1_r; exact Hb]. }
    destruct Hb as [rb [jb Hb]].
    assert (E2 : length sl <? S k + 1 + w = false). { apply Nat.ltb_ge. assert (S k + w < length sl) by (apply nth_error_Some; rewrite Hb; discriminate). lia. }
    rewrite E2 in H. cbv zeta in H.
    assert (Eh : have = [SRes ra ja; SRes rb jb]) by (unfold have; rewrite HL, HRr; cbn [length]; replace (S k - 1) with k by lia; rewrite (one_slot _ _ _ _ Hk), (one_slot _ _ _ _ Hb); reflexivity).
    rewrite Eh in *. rewrite take_two in Hok. unfold bind at 1 in H. rewrite take_two in H. eapply Hok; [reflexivity|reflexivity|exact H].
Qed.
Lemma op_loop_error T items orig call (R : exc -> Prop) : unwritten_infix T -> length orig = length items ->
  (forall e, at_error items orig e -> R e) -> ((forall sym, used_in T items sym -> passes_errors call sym) \/ forall e, R e) ->
  forall n sl s o s', Forall (good_slot items R) sl -> op_loop n T orig call sl s = (o, s') ->
  match o with OOk sl' => Forall (good_slot items R) sl' | OErr e => at_error items orig e | _ => True end.
Proof.
  intros HT Hlen HR Hpass. induction n as [|n IH]; intros sl s o s' Hg H; cbn [op_loop] in H; [injection H as <- <-; exact I|].
  destruct (scan_levels T (t_levels T) sl) as [[[[i sym] w]|]| |] eqn:E; try (injection H as <- <-; try exact I; exact Hg).
  destruct (scan_levels_kind _ _ _ _ _ _ E) as [l Ha]. unfold bind in H. destruct (run_op T orig call sl i sym w s) as [o1 s1] eqn:Er.
  pose proof (run_op_error _ _ _ _ _ _ _ _ _ _ _ _ _ HT Ha Hlen Hg HR Hpass Er) as K.
  destruct o1 as [sl'|e| |]; [eapply IH; eassumption|injection H as <- <-; exact K|injection H as <- <-; exact I|injection H as <- <-; exact I].
Qed.
Lemma run_slots_error T items orig call (R : exc -> Prop) : unwritten_infix T -> length orig = length items ->
  (forall e, at_error items orig e -> R e) -> ((forall sym, used_in T items sym -> passes_errors call sym) \/ forall e, R e) ->
  forall sl s o s', Forall (good_slot items R) sl -> run_slots T orig call sl s = (o, s') ->
  match o with OOk r => forall e, rval r = VExc e -> R e | OErr e => at_error items orig e | _ => True end.
Proof.
  intros HT Hlen HR Hpass sl s o s' Hg H. unfold run_slots, bind in H. destruct (op_loop _ _ _ _ _ s) as [o1 s1] eqn:E.
  pose proof (op_loop_error _ _ _ _ _ HT Hlen HR Hpass _ _ _ _ _ Hg E) as K.
  destruct o1 as [sl'|e| |]; try (injection H as <- <-; try exact I; exact K).
  assert (F : forall x t, Forall (good_slot items R) (x :: t) -> forall y z, filter slot_op (x :: t) = y :: z ->
    at_error items orig (XExec MStuck (firstn (slot_idx y) orig) None false)).
  { intros x t Hf y z Ef. assert (In y (x :: t)) by (eapply proj1, filter_In; rewrite Ef; left; reflexivity).
    rewrite Forall_forall in Hf. destruct (good_slot_idx _ _ _ (Hf _ H0)) as [it Hit]. exists MStuck, (slot_idx y), it, None.
    split; [reflexivity|]. split; [exact Hit|left; reflexivity]. }
  unfold ends in H. destruct sl' as [|x [|y l]].
  - injection H as <- <-. exact I.
  - inversion K as [|? ? Kx _]. subst. destruct x as [t i|r i]; injection H as <- <-; cbn [good_slot] in Kx.
    + exists MNotValue, i, (IOp t), None. split; [reflexivity|]. split; [exact Kx|left; reflexivity].
    + apply Kx.
  - assert (H' : (match filter slot_op (x :: y :: l) with z :: _ => raise (XExec MStuck (firstn (slot_idx z) orig) None false) | [] => pyerr end : M result) s1 = (o, s')) by (destruct x; exact H).
    destruct (filter slot_op (x :: y :: l)) as [|z zs] eqn:Ef; [injection H' as <- <-; exact I|]. injection H' as <- <-. eapply F; eassumption.
Qed.

(** * Statements *)
Theorem execute_error_items : forall G n stl items s e s', unwritten_infix (g_ops G) -> functional_items items <> [] ->
  execute G (S n) stl items s = (OErr e, s') -> exists m its nx, e = XExec m its nx false /\ before_an_item items its nx.
Proof.
  intros G n stl items s e s' HT Hf H. cbn [execute] in H. unfold execute_body in H.
  destruct (is_nil (functional_items items)) eqn:Enil; [destruct (functional_items items); [congruence|discriminate]|].
  unfold bind in H. destruct (eval_operands G (execute G n) stl items 0 [] [] s) as [[[sl orig]|e1| |] s1] eqn:Eo; try discriminate;
    [|exfalso; eapply eval_operands_err, Eo].
  destruct (operands_slots _ _ _ items [] [] [] _ _ _ _ (fun _ => True) Eo) as [Ha Hs]; try constructor.
  { intros outs s2 _. apply Forall_forall. intros [r|x| |] _; exact I || (intros; exact I). }
  cbn [app] in Ha, Hs. destruct (run_slots (g_ops G) orig (callop G stl) sl s1) as [[r|e1| |] s2] eqn:Er; try discriminate.
  - destruct (rval r) as [| | | | | |[w msg|m its nx tr]|]; discriminate.
  - injection H as <- _.
    assert (K := run_slots_error (g_ops G) items orig (callop G stl) (fun _ => True) HT (alike_length _ _ Ha) (fun _ _ => I) (or_intror (fun _ => I)) sl s1 _ _
      (Forall_impl _ (fun x => good_slot_mono _ _ _ x (fun _ _ => I)) Hs) Er). cbn beta iota in K.
    destruct (own_error_restored items (eval_item G (execute G n) stl) orig e1 Ha (at_error_own _ _ _ _ (alike_length _ _ Ha) K)) as [m [its [nx [tr [E1 E2]]]]].
    destruct K as [m1 [k [i [nx1 [-> _]]]]]. cbn [restore_items] in E1 |- *. injection E1 as -> -> -> <-.
    destruct E2 as [[_ E2]|[E2 _]]; [|discriminate]. eexists _, _, _. split; [reflexivity|exact E2].
Qed.
Theorem execute_value_items : forall G n stl items s r e s', unwritten_infix (g_ops G) ->
  (forall sym, used_in (g_ops G) items sym -> passes_errors (callop G stl) sym) ->
  let ev := eval_item G (execute G n) stl in
  (forall outs s1, in_order ev (filter is_operand items) s outs s1 -> Forall value_clean outs) ->
  execute G (S n) stl items s = (OOk r, s') -> rval r = VExc e ->
  exists m its nx tr, e = XExec m its nx tr /\
    ((tr = false /\ before_an_item items its nx) \/ (tr = true /\ within_an_item ev items its m nx)).
Proof.
  intros G n stl items s r e s' HT Hp ev Hc H Hr. cbn [execute] in H. unfold execute_body in H.
  destruct (is_nil (functional_items items)) eqn:Enil; [discriminate|].
  unfold bind in H. destruct (eval_operands G (execute G n) stl items 0 [] [] s) as [[[sl orig]|e1| |] s1] eqn:Eo; try discriminate.
  destruct (operands_slots _ _ _ items [] [] [] _ _ _ _ (fun _ => False) Eo) as [Ha Hs]; try constructor.
  { intros outs s2 Hio. specialize (Hc _ _ Hio). eapply Forall_impl; [|exact Hc]. intros [x|x| |] Hx; try exact I. exact Hx. }
  cbn [app] in Ha, Hs. destruct (run_slots (g_ops G) orig (callop G stl) sl s1) as [[r1|e1| |] s2] eqn:Er; try discriminate.
  assert (K := run_slots_error (g_ops G) items orig (callop G stl) (own_error items ev orig) HT (alike_length _ _ Ha)
    (fun e0 => at_error_own _ _ _ e0 (alike_length _ _ Ha)) (or_introl Hp) sl s1 _ _
    (Forall_impl _ (fun x => good_slot_mono _ _ _ x (fun e0 (K : False \/ _) => match K with or_introl f => match f with end | or_intror k => k end)) Hs) Er).
  cbn beta iota in K.
  assert (Hv : forall e0, rval r1 = VExc e0 -> exists m its nx tr, restore_items e0 orig items = XExec m its nx tr /\
    ((tr = false /\ before_an_item items its nx) \/ (tr = true /\ within_an_item ev items its m nx))).
  { intros e0 E0. apply own_error_restored; [exact Ha|]. apply K. exact E0. }
  destruct (rval r1) as [| | | | | |[w msg|m its nx tr]|] eqn:E1; try (injection H as <- _; rewrite E1 in Hr; discriminate).
  - exfalso. destruct (K _ eq_refl) as [m [its [nx [tr [p [i [q [E _]]]]]]]]. discriminate E.
  - injection H as <- _. destruct r1 as [v u f o]. cbn [with_value rval] in Hr. injection Hr as <-.
    destruct (Hv _ eq_refl) as [m' [its' [nx' [tr' [E2 E3]]]]]. cbn [restore_items] in E2. injection E2 as <- <- <- <-.
    eexists _, _, _, _. split; [reflexivity|exact E3].
Qed.

Lemma items_text_app a b : items_text (a ++ b) = items_text a ++ items_text b.
Proof. unfold items_text. rewrite map_app, concat_app. reflexivity. Qed.
Lemma before_points items its nx : before_an_item items its nx -> points_into items its nx.
Proof.
  intros [i [q [-> [_ Hn]]]]. exists (itext i ++ items_text q). rewrite items_text_app. split; [reflexivity|]. intros t Ht.
  destruct Hn as [Hn|Hn]; rewrite Hn in Ht; [discriminate|]. injection Ht as <-. eauto.
Qed.
Lemma within_points ev items its m nx : within_an_item ev items its m nx -> points_into items its nx.
Proof.
  intros [p [i [y [q [s [s' [rest [-> [_ [-> [_ [Ht Hn]]]]]]]]]]]]. exists (rest ++ items_text q). rewrite !items_text_app. cbn [items_text].
  unfold items_text at 2 4. cbn [map concat]. fold (items_text q). rewrite Ht, app_nil_r, !app_assoc. split; [reflexivity|].
  intros t Et. destruct (Hn t Et) as [more ->]. exists (more ++ items_text q). rewrite app_assoc. reflexivity.
Qed.
