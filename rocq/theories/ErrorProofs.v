(** The items reported with an error. *)
From Coq Require Import ZArith QArith Ascii String List Bool Lia.
From Verif Require Import Base Dec Num Bases Units Syntax Pos PosSpec PosProofs Call Loop Parse Exec ExecSpec ExecProofs2 ExecProofs3 ErrorSpec.
Import ListNotations.
Open Scope nat_scope.

(** * Putting back the items *)
Definition fcount (l : list item) : nat := length (filter ifunc l).
Lemma fcount_app a b : fcount (a ++ b) = fcount a + fcount b.
Proof. unfold fcount. rewrite filter_app, app_length. reflexivity. Qed.
Lemma fcount_le l : fcount l <= length l.
Proof. unfold fcount. induction l as [|x l IH]; cbn [filter length]; [lia|]. destruct (ifunc x); cbn [length]; lia. Qed.
(** The items after evaluation are those before, but for those that failed *)
Definition alike (o v : item) : Prop := ifunc o = ifunc v /\ (ifunc v = false -> o = v).

Lemma restore_past n f orig very : n < f -> restore_loop n false f orig very = [].
Proof.
  intros H. destruct orig as [|o os], very as [|v vs]; try reflexivity. cbn [restore_loop].
  assert (E : n <? f = true) by (apply Nat.ltb_lt; exact H). rewrite E. reflexivity.
Qed.
Lemma restore_before : forall p i q orig f, Forall2 alike orig (p ++ i :: q) -> ifunc i = true ->
  restore_loop (f + fcount p) false f orig (p ++ i :: q) = p.
Proof.
  induction p as [|v p IH]; intros i q orig f H Hi; cbn [app] in H; inversion H as [|o v' os vs [Ho _] Hr E1 E2]; subst.
  - cbn [restore_loop app fcount filter length]. rewrite Nat.add_0_r, Nat.ltb_irrefl, Ho, Hi. cbn [andb negb app].
    assert (E : S f <=? f = false) by (apply Nat.leb_gt; lia). rewrite E. apply restore_past. lia.
  - cbn [restore_loop app]. assert (E : f + fcount (v :: p) <? f = false) by (apply Nat.ltb_ge; lia). rewrite E. cbn [andb negb app]. rewrite Ho.
    unfold fcount. cbn [filter]. destruct (ifunc v); cbn [length].
    + assert (E2 : S f <=? f + S (length (filter ifunc p)) = true) by (apply Nat.leb_le; lia). rewrite E2. cbn [app]. f_equal.
      replace (f + S (length (filter ifunc p))) with (S f + fcount p) by (unfold fcount; lia). apply IH; assumption.
    + assert (E2 : f <=? f + length (filter ifunc p) = true) by (apply Nat.leb_le; lia). rewrite E2. cbn [app]. f_equal. apply IH; assumption.
Qed.
Lemma restore_none : forall n orig very f, n <= f -> restore_loop n true f orig very = [].
Proof.
  intros n orig. induction orig as [|o os IH]; intros very f H; [reflexivity|]. destruct very as [|v vs]; [reflexivity|]. cbn [restore_loop].
  destruct (n <? f); [reflexivity|]. assert (E : f <? n = false) by (apply Nat.ltb_ge; exact H). rewrite E. cbn [andb negb app].
  apply IH. destruct (ifunc o); lia.
Qed.
Lemma restore_within : forall p i q orig f y, Forall2 alike orig (p ++ i :: q) -> ifunc i = true -> nth_error orig (length p) = Some y ->
  restore_loop (S (f + fcount p)) true f orig (p ++ i :: q) = p ++ [y].
Proof.
  induction p as [|v p IH]; intros i q orig f y H Hi Hy; cbn [app] in H; inversion H as [|o v' os vs [Ho Hv] Hr E1 E2]; subst.
  - cbn [length nth_error] in Hy. injection Hy as ->. cbn [restore_loop app fcount filter length]. rewrite Nat.add_0_r, Ho, Hi.
    assert (E1 : S f <? f = false) by (apply Nat.ltb_ge; lia). assert (E2 : f <? S f = true) by (apply Nat.ltb_lt; lia). rewrite E1, E2.
    replace (S f - 1) with f by lia. rewrite Nat.ltb_irrefl. cbn [andb negb app]. f_equal. apply restore_none. lia.
  - cbn [length nth_error] in Hy. cbn [restore_loop app]. set (n := S (f + fcount (v :: p))).
    assert (E1 : n <? f = false) by (apply Nat.ltb_ge; lia). assert (E2 : f <? n = true) by (apply Nat.ltb_lt; lia). rewrite E1, E2.
    cbn [andb negb app].
    assert (Ev : (if f <? n - 1 then v else o) = v).
    { destruct (f <? n - 1) eqn:E3; [reflexivity|]. apply Nat.ltb_ge in E3. apply Hv. unfold n, fcount in E3. cbn [filter] in E3.
      destruct (ifunc v); [cbn [length] in E3; lia|reflexivity]. }
    rewrite Ev. f_equal. rewrite Ho. subst n. unfold fcount. cbn [filter]. destruct (ifunc v); cbn [length].
    + replace (S (f + S (length (filter ifunc p)))) with (S (S f + fcount p)) by (unfold fcount; lia). apply IH; assumption.
    + apply IH; assumption.
Qed.

(** * Errors raised by an operand *)
Definition raises_calc {A} (m : M A) : Prop := forall s e s', m s = (OErr e, s') -> exists w msg, e = XCalc w msg.
Lemma rc_ret A (a : A) : raises_calc (ret a). Proof. intros s e s' H. discriminate. Qed.
Lemma rc_bind A B (m : M A) (f : A -> M B) : raises_calc m -> (forall a, raises_calc (f a)) -> raises_calc (bind m f).
Proof.
  intros Hm Hf s e s' H. unfold bind in H. destruct (m s) as [[a|e1| |] s1] eqn:E; try discriminate; [eapply Hf, H|].
  injection H as <- _. eapply Hm, E.
Qed.
Lemma rc_calc A w msg : @raises_calc A (raise (XCalc w msg)). Proof. intros s e s' H. injection H as <- _. eauto. Qed.
Lemma rc_each_row f : forall rows, raises_calc (each_row f rows).
Proof.
  induction rows as [|x t IH]; intros s e s' H; cbn [each_row] in H; [discriminate|].
  destruct (f x s) as [[a|e1| |] s1]; try discriminate; eapply rc_bind in H; eauto; intros; apply rc_ret.
Qed.
Lemma rc_each_pack f : (forall l, raises_calc (f l)) -> forall rows, raises_calc (each_pack f rows).
Proof.
  intros Hf. induction rows as [|x t IH]; cbn [each_pack]; [apply rc_ret|]. apply rc_bind; [apply Hf|]. intros r.
  destruct (is_list (rval r)); [apply rc_calc|]. apply rc_bind; [exact IH|]. intros l. apply rc_ret.
Qed.
Lemma rc_plain E h d stl ins : raises_calc (call_plain E h d stl ins).
Proof.
  intros s e s' H. unfold call_plain in H. destruct (if o_excs d then None else find_exc ins); [discriminate|].
  match type of H with (match ?m with _ => _ end) = _ => destruct m as [[a|e1| |] s1] end; try discriminate.
  - destruct e1 as [w msg|m its nx tr]; cbn [wrapped] in H.
    + destruct w; [injection H as <- _; eauto|]. destruct (forallb (e_tostr E) ins); [injection H as <- _; eauto|discriminate].
    + destruct (forallb (e_tostr E) ins); [injection H as <- _; eauto|discriminate].
  - destruct (forallb (e_tostr E) ins); [injection H as <- _; eauto|discriminate].
Qed.
Lemma rc_call_fuel E h d stl : forall n ins, raises_calc (call_fuel n E h d stl ins).
Proof.
  induction n as [|n IH]; intros ins; cbn [call_fuel]; [intros s e s' H; discriminate|]. unfold call_step. cbv zeta.
  destruct (existsb _ _).
  - destruct (same_length _) as [[k|]|]; try apply rc_calc. apply rc_bind; [apply rc_each_row|intros; apply rc_ret].
  - destruct (is_packed d ins); [|apply rc_plain]. destruct (same_length _) as [[k|]|]; try apply rc_calc; [|apply IH].
    apply rc_bind; [apply rc_each_pack; intros; apply IH|intros; apply rc_ret].
Qed.
Lemma rc_call E h d stl ins : raises_calc (call E h d stl ins). Proof. apply rc_call_fuel. Qed.

(** The error of an item: what is left of it, with a prefix of its text, and the text that follows *)
Definition item_error (i : item) (its : list item) (nx : option str) (tr : bool) : Prop :=
  tr = true /\ exists y rest, its = [y] /\ ifunc y = true /\ itext i = itext y ++ rest /\ (forall t, nx = Some t -> exists more, rest = t ++ more).
Lemma truncate_sound text its nx t : truncate text [its] nx = Some t -> exists rest, text = t ++ rest /\ (forall n, nx = Some n -> exists more, rest = n ++ more).
Proof.
  unfold truncate. destruct (find_pos text [its] nx) as [k|] eqn:E; [|discriminate]. intros H. injection H as <-.
  destruct (find_pos_sound _ _ _ _ E) as [b [a [Et [El [_ Hn]]]]]. exists a. subst text. rewrite <- El, firstn_len_app. split; [reflexivity|].
  intros n ->. apply prefixb_iff. exact Hn.
Qed.
Lemma reraise_error A i text mk m its nx s e s' : itext i = text -> (forall t, ifunc (mk t) = true /\ itext (mk t) = t) ->
  @reraise A text mk m its nx s = (OErr e, s') -> exists m' its' nx' tr', e = XExec m' its' nx' tr' /\ item_error i its' nx' tr'.
Proof.
  intros Ht Hmk H. unfold reraise in H. destruct (truncate text [its] nx) as [t|] eqn:E; [|discriminate]. injection H as <- _.
  exists m, [mk t], nx, true. split; [reflexivity|]. split; [reflexivity|]. destruct (truncate_sound _ _ _ _ E) as [rest [E1 E2]].
  destruct (Hmk t) as [H1 H2]. exists (mk t), rest. rewrite H2, Ht. auto.
Qed.
Definition raises_item {A} (i : item) (m : M A) : Prop := forall s e s', m s = (OErr e, s') ->
  (exists w msg, e = XCalc w msg) \/ exists m' its nx tr, e = XExec m' its nx tr /\ item_error i its nx tr.
Lemma ri_calc A i (m : M A) : raises_calc m -> raises_item i m.
Proof. intros H s e s' E. left. eapply H, E. Qed.
Lemma ri_bind A B i (m : M A) (f : A -> M B) : raises_item i m -> (forall a, raises_item i (f a)) -> raises_item i (bind m f).
Proof.
  intros Hm Hf s e s' H. unfold bind in H. destruct (m s) as [[a|e1| |] s1] eqn:E; try discriminate; [eapply Hf, H|].
  injection H as <- _. eapply Hm, E.
Qed.
Lemma ri_reraise A i text mk m its nx : itext i = text -> (forall t, ifunc (mk t) = true /\ itext (mk t) = t) -> raises_item i (@reraise A text mk m its nx).
Proof. intros Ht Hmk s e s' H. right. eapply reraise_error; eassumption. Qed.
Lemma ri_args i rec stl allow text items mk : itext i = text -> (forall t l, ifunc (mk t l) = true /\ itext (mk t l) = t) ->
  forall args n acc, raises_item i (eval_args rec stl allow text items mk args n acc).
Proof.
  intros Ht Hmk. induction args as [|a l IH]; intros n acc s e s' H; cbn [eval_args] in H; [discriminate|]. cbv zeta in H.
  destruct (rec stl a s) as [[r|[w msg|m its nx tr]| |] s1]; try discriminate.
  - destruct (rval r) as [| | | | | |ex|]; try (eapply IH, H). destruct ex; destruct allow; try discriminate; try (eapply IH, H).
    eapply (ri_reraise _ i text); [exact Ht| |exact H]. intros t. apply Hmk.
  - injection H as <- _. left. eauto.
  - eapply (ri_reraise _ i text); [exact Ht| |exact H]. intros t. apply Hmk.
Qed.
Lemma ri_pointers i f : (forall v, raises_item i (f v)) -> forall vs, raises_item i (call_pointers f vs).
Proof.
  intros Hf. induction vs as [|v r IH]; cbn [call_pointers]; [apply ri_calc, rc_ret|]. apply ri_bind; [apply Hf|]. intros x.
  apply ri_bind; [exact IH|]. intros l. apply ri_calc, rc_ret.
Qed.
Lemma item_errors G rec stl i : raises_item i (eval_item G rec stl i).
Proof.
  destruct i; cbn [eval_item]; try (apply ri_calc, rc_ret); try (intros s e s' H; discriminate H).
  - intros s e s' H. destruct (assoc name (s_vars s)) as [[v u]|]; discriminate.
  - intros s e s' H. unfold eval_inner in H. cbv zeta in H.
    destruct (rec stl items s) as [[r|[w msg|m its nx tr0]| |] s1]; try discriminate.
    + destruct (rval r) as [| | | | | |ex|]; try discriminate. destruct ex as [w msg|m its nx tr0]; [injection H as <- _; left; eauto|].
      eapply (ri_reraise _ (IInner text tr items) text); [reflexivity| |exact H]. intros t. split; reflexivity.
    + injection H as <- _. left. eauto.
    + eapply (ri_reraise _ (IInner text tr items) text); [reflexivity| |exact H]. intros t. split; reflexivity.
  - unfold eval_func. destruct (assoc name (g_funcs G)) as [d|]; [|intros s e s' H; discriminate H].
    apply ri_bind; [apply ri_args; [reflexivity|intros; split; reflexivity]|]. intros ins. apply ri_calc, rc_call.
  - intros s e s' H. unfold eval_ptr in H. destruct (assoc name (s_vars s)) as [[v u]|].
    + revert s s' H. match goal with |- forall s s', ?m s = _ -> _ => change (forall s s', m s = (OErr e, s') -> (exists w msg, e = XCalc w msg) \/
        exists m' its nx tr0, e = XExec m' its nx tr0 /\ item_error (IPtr text tr items name args) its nx tr0); assert (K : raises_item (IPtr text tr items name args) m) end.
      { apply ri_bind; [apply ri_args; [reflexivity|intros; split; reflexivity]|]. intros ins.
        assert (Kp : forall w, raises_item (IPtr text tr items name args) (call_pointer G rec stl (IPtr [] tr [] name args) ins w)).
        { assert (Kr : @raises_item result (IPtr text tr items name args) (raise (XExec MOther [IPtr [] tr [] name args] (Some []) true))).
          { intros s1 e1 s1' E. injection E as <- _. right. eexists _, _, _, _. split; [reflexivity|]. split; [reflexivity|].
            exists (IPtr [] tr [] name args), text. repeat split. intros t Et. injection Et as <-. exists text. reflexivity. }
          intros w. unfold call_pointer. destruct (pointer_def G rec w) as [[d| |]|]; try exact Kr; [apply ri_calc, rc_call|].
          intros s1 e1 s1' E. discriminate E. }
        destruct v; try apply Kp. apply ri_bind; [apply ri_pointers; exact Kp|]. intros l0. apply ri_calc, rc_ret. }
      intros s s' H. exact (K _ _ _ H).
    + injection H as <- _. right. eexists _, _, _, _. split; [reflexivity|]. split; [reflexivity|].
      exists (IPtr text tr items name args), []. rewrite app_nil_r. repeat split. intros t Et. injection Et as <-. exists []. reflexivity.
  - intros s e s' H. unfold eval_arr in H. destruct (eval_elements G rec stl elements 0 [] s) as [[[l|[w msg|m its nx tr0]| |] n] s1]; try discriminate.
    + injection H as <- _. left. eauto.
    + cbv zeta in H. eapply (ri_reraise _ (IArr text tr items elements) text); [reflexivity| |exact H]. intros t. split; reflexivity.
Qed.
