(** The parts of calls and arrays are within their items. *)
From Coq Require Import ZArith QArith Ascii String List Bool Lia.
From Verif Require Import Base Dec Num Bases Units Syntax Pos PosSpec Call Loop Parse ParseSpec BaseProofs PosProofs ParseProofs Exec ErrorSpec ContainSpec.
Import ListNotations.
Open Scope nat_scope.

Definition endk (k : nat) (gs : list (list item)) : nat := fold_left (fun k g => k + length g + 1) gs k.
Lemma placed_extend items more : forall gs k, placed items k gs -> placed (items ++ more) k gs.
Proof.
  intros gs k H. induction H as [k|k g gs a b E1 E2 _ IH]; [constructor|].
  apply (pl_cons _ k g gs a (b ++ more)); [rewrite E1, <- !app_assoc; reflexivity|exact E2|exact IH].
Qed.
Lemma placed_snoc items : forall gs k g a b, placed items k gs -> items = a ++ g ++ b -> endk k gs <= length a -> placed items k (gs ++ [g]).
Proof.
  intros gs k g a b H. revert g a b. induction H as [k|k g gs a b E1 E2 _ IH]; intros g' a' b' Ea Ek; cbn [app].
  - eapply pl_cons; [exact Ea|exact Ek|constructor].
  - eapply pl_cons; [exact E1|exact E2|]. eapply IH; [exact Ea|exact Ek].
Qed.
Lemma endk_snoc gs k g : endk k (gs ++ [g]) = endk k gs + length g + 1.
Proof. unfold endk. rewrite fold_left_app. reflexivity. Qed.

Definition laid_pout (o : pout) : Prop := match o with POk sts _ _ => Forall (Forall laid_out) sts | _ => True end.
Definition laid_pres (r : pres) : Prop := match r with PRitems items _ _ | PRend items _ => Forall laid_out items | _ => True end.
Definition laid_rec (rec : prec) : Prop := forall fl t l, laid_pout (fst (rec fl t l)).
Lemma laid_first sts : Forall (Forall laid_out) sts -> Forall laid_out (first_st sts).
Proof. intros H. destruct H; [constructor|assumption]. Qed.
Lemma laid_non k t : laid_out (INon k t). Proof. apply lo_leaf. reflexivity. Qed.

Lemma args_loop_laid rec : laid_rec rec -> forall fuel nxt i fitems args lft,
  Forall laid_out fitems -> placed fitems 2 args -> endk 2 args <= length fitems ->
  match fst (args_loop rec fuel nxt i fitems args lft) with
  | ADone _ f a true => Forall laid_out f /\ placed f 2 a
  | _ => True
  end.
Proof.
  intros Hrec. induction fuel as [|fuel IH]; intros nxt i fitems args lft Hl Hp He; cbn [args_loop]; [exact I|].
  destruct (length nxt <=? i); [exact I|].
  pose proof (Hrec func_flags (skipn i nxt) lft) as Hr. destruct (rec func_flags (skipn i nxt) lft) as [[sts len rf|sts next| | |] l]; cbn [fst laid_pout] in *; try exact I.
  apply laid_first in Hr. set (inner := first_st sts) in *.
  set (args' := match inner with [] => args | _ => args ++ [inner] end).
  assert (K : forall x, Forall laid_out (fitems ++ inner ++ [INon x c_comma]) /\ placed (fitems ++ inner ++ [INon x c_comma]) 2 args' /\
      endk 2 args' <= length (fitems ++ inner ++ [INon x c_comma]) /\ Forall laid_out (fitems ++ inner ++ [INon x c_close]) /\ placed (fitems ++ inner ++ [INon x c_close]) 2 args').
  { intros x. rewrite !app_length. cbn [length].
    assert (F : forall t, Forall laid_out (fitems ++ inner ++ [INon x t])). { intros t. rewrite !Forall_app. split; [exact Hl|]. split; [exact Hr|]. constructor; [apply laid_non|constructor]. }
    assert (Q : forall t, placed (fitems ++ inner ++ [INon x t]) 2 args').
    { intros t. unfold args'. destruct inner as [|y inner'] eqn:Ei; [apply placed_extend; exact Hp|]. eapply placed_snoc; [apply placed_extend; exact Hp|reflexivity|exact He]. }
    split; [apply F|]. split; [apply Q|]. split; [|split; [apply F|apply Q]].
    unfold args'. destruct inner as [|y inner']; [cbn [length]; lia|]. rewrite endk_snoc. cbn [length]. lia. }
  assert (D : match fst (args_loop rec fuel nxt (i + len + 1) (fitems ++ inner ++ [INon NFuncParam c_comma]) args' l) with
    | ADone _ f a true => Forall laid_out f /\ placed f 2 a | _ => True end) by (apply IH; apply K).
  destruct rf as [[]|]; try exact D. cbn [fst]. split; apply K.
Qed.
Lemma parse_call_laid rec nxt head hlen name mk lft : laid_rec rec -> Forall laid_out head -> 2 <= length head ->
  (forall t f a, Forall laid_out f -> placed f 2 a -> laid_out (mk t f a)) -> laid_pres (fst (parse_call rec nxt head hlen name mk lft)).
Proof.
  intros Hrec Hh Hl Hmk. unfold parse_call.
  pose proof (args_loop_laid rec Hrec (S (length nxt)) nxt hlen head [] lft Hh (pl_nil _ _) Hl) as H.
  destruct (args_loop rec (S (length nxt)) nxt hlen head [] lft) as [[i f a [|]|its next| | |] l]; cbn [fst laid_pres] in *; try exact I.
  - constructor; [|constructor]. apply Hmk; apply H.
  - destruct (truncate nxt [its] (Some next)); exact I.
Qed.

Definition parts_of (es : list (elem item)) : list (list item) := flat_map elem_parts es.
Lemma parts_snoc es e : parts_of (es ++ [e]) = parts_of es ++ elem_parts e.
Proof. unfold parts_of. rewrite flat_map_app. cbn [flat_map]. rewrite app_nil_r. reflexivity. Qed.
Definition arr_inv (ai : list item) (es : list (elem item)) (slack : nat) : Prop :=
  Forall laid_out ai /\ placed ai 1 (parts_of es) /\ endk 1 (parts_of es) <= length ai + slack.
Lemma arr_elem_laid C k rec nxt i ai es lft : goodrec C k rec -> laid_rec rec -> arr_inv ai es 0 ->
  match fst (arr_elem rec (pc_arr C) nxt i ai es lft) with
  | EOk _ ai1 es1 rf => arr_inv ai1 es1 1 /\ match rf with Some e => allowed arr_flags e = true | None => True end
  | _ => True
  end.
Proof.
  intros Hg Hrec [I1 [I2 I3]]. unfold arr_elem. rewrite Nat.add_0_r in I3.
  assert (R : forall t l sts len rf, fst (rec arr_flags t l) = POk sts len rf -> Forall laid_out (first_st sts) /\ match rf with Some e => allowed arr_flags e = true | None => True end).
  { intros t l sts len rf E. pose proof (Hg arr_flags t l) as G. pose proof (Hrec arr_flags t l) as L. rewrite E in G, L. split; [apply laid_first, L|].
    cbn [pgood] in G. destruct G as [body [rest [_ [_ [_ [_ [G _]]]]]]]. destruct rf; [apply G|exact I]. }
  assert (N : forall x t, laid_out (INon x t)) by (intros; apply laid_non).
  assert (N1 : forall x t, Forall laid_out [INon x t]) by (intros; constructor; [apply N|constructor]).
  pose proof (R (skipn i nxt) lft) as R1.
  destruct (rec arr_flags (skipn i nxt) lft) as [[sts len rf|sts next| | |] l1]; cbn [fst] in *; try exact I.
  destruct (R1 _ _ _ eq_refl) as [L1 A1]. clear R1. set (s1 := first_st sts) in *.
  assert (J0 : arr_inv (ai ++ s1) es 1).
  { split; [apply Forall_app; auto|]. split; [apply placed_extend, I2|]. rewrite app_length. lia. }
  assert (P1 : placed (ai ++ s1) 1 (parts_of es ++ [s1])).
  { apply (placed_snoc _ _ _ _ ai []); [apply placed_extend, I2|rewrite app_nil_r; reflexivity|exact I3]. }
  assert (E1 : endk 1 (parts_of es ++ [s1]) <= length (ai ++ s1) + 1) by (rewrite endk_snoc, app_length; lia).
  assert (J1 : forall rf, match rf with Some e => allowed arr_flags e = true | None => True end ->
    arr_inv (ai ++ s1) (es ++ [mkElem s1 None None]) 1 /\ match rf with Some e => allowed arr_flags e = true | None => True end).
  { intros rf' A'. split; [|exact A']. split; [apply Forall_app; auto|]. rewrite parts_snoc. split; [exact P1|exact E1]. }
  destruct (is_nil s1). { destruct (len =? 0); cbn [fst]; [exact I|]. split; assumption. }
  destruct rf as [[]|]; cbn [fst]; try exact (J1 None I); try exact (J1 (Some _) A1).
  set (rg := [INon NArrRange (as_range (pc_arr C))]).
  match goal with |- context [rec arr_flags ?t l1] => pose proof (R t l1) as R2; destruct (rec arr_flags t l1) as [[sts2 len2 rf2|sts2 next2| | |] l2] end; cbn [fst] in *; try exact I.
  destruct (R2 _ _ _ eq_refl) as [L2 A2]. clear R2. set (s2 := first_st sts2) in *.
  assert (F2 : Forall laid_out (((ai ++ s1) ++ rg) ++ s2)). { rewrite !Forall_app. repeat split; auto. apply N1. }
  assert (P2 : placed (((ai ++ s1) ++ rg) ++ s2) 1 (parts_of es ++ [s1])) by (apply placed_extend, placed_extend, P1).
  assert (P3 : placed (((ai ++ s1) ++ rg) ++ s2) 1 ((parts_of es ++ [s1]) ++ [s2])).
  { apply (placed_snoc _ _ _ _ ((ai ++ s1) ++ rg) []); [exact P2|rewrite app_nil_r; reflexivity|]. rewrite app_length. cbn [length rg]. lia. }
  assert (E3 : endk 1 ((parts_of es ++ [s1]) ++ [s2]) <= length (((ai ++ s1) ++ rg) ++ s2) + 1).
  { rewrite endk_snoc. rewrite (app_length _ s2), (app_length _ rg). cbn [length rg]. lia. }
  destruct (is_nil s2).
  { destruct (len2 =? 0); cbn [fst]; [exact I|]. split; [|exact A2]. split; [exact F2|]. rewrite parts_snoc. split; [exact P2|].
    unfold elem_parts; cbn [e_start e_end]. rewrite (app_length _ s2), (app_length _ rg). lia. }
  assert (J3 : forall rf, match rf with Some e => allowed arr_flags e = true | None => True end ->
    arr_inv (((ai ++ s1) ++ rg) ++ s2) (es ++ [mkElem s1 (Some s2) None]) 1 /\ match rf with Some e => allowed arr_flags e = true | None => True end).
  { intros rf' A'. split; [|exact A']. split; [exact F2|]. rewrite parts_snoc. unfold elem_parts; cbn [e_start e_end e_step].
    change [s1; s2] with ([s1] ++ [s2]). rewrite app_assoc. split; [exact P3|exact E3]. }
  destruct rf2 as [[]|]; cbn [fst]; try exact (J3 None I); try exact (J3 (Some _) A2).
  set (sg := [INon NArrStep (as_step (pc_arr C))]). set (w := ((ai ++ s1) ++ rg) ++ s2) in *.
  match goal with |- context [rec arr_flags ?t l2] => pose proof (R t l2) as R3; destruct (rec arr_flags t l2) as [[sts3 len3 rf3|sts3 next3| | |] l3] end; cbn [fst] in *; try exact I.
  destruct (R3 _ _ _ eq_refl) as [L3 A3]. clear R3. set (s3 := first_st sts3) in *.
  assert (F3 : Forall laid_out ((w ++ sg) ++ s3)). { rewrite !Forall_app. repeat split; auto. apply N1. }
  assert (P4 : placed ((w ++ sg) ++ s3) 1 ((parts_of es ++ [s1]) ++ [s2])) by (apply placed_extend, placed_extend, P3).
  destruct (is_nil s3); cbn [fst]; (split; [|exact A3]); (split; [exact F3|]); rewrite parts_snoc; unfold elem_parts; cbn [e_start e_end e_step].
  - change [s1; s2] with ([s1] ++ [s2]). rewrite app_assoc. split; [exact P4|]. rewrite (app_length _ s3), (app_length _ sg). lia.
  - change [s1; s2; s3] with ([s1] ++ [s2] ++ [s3]). rewrite !app_assoc. split.
    + apply (placed_snoc _ _ _ _ (w ++ sg) []); [exact P4|rewrite app_nil_r; reflexivity|]. rewrite app_length. cbn [length sg]. lia.
    + rewrite endk_snoc, (app_length _ s3), (app_length _ sg). cbn [length sg]. lia.
Qed.
Definition stops (C : pcfg) (rec : prec) : Prop := forall m r l, m = as_range (pc_arr C) \/ m = as_step (pc_arr C) ->
  match fst (rec arr_flags (m ++ r) l) with POk sts len _ => first_st sts = [] | _ => True end.
Definition not_ended (e : eres) : Prop := match e with EOk _ _ _ (Some AEnd) => False | _ => True end.
Lemma stray_fails C k rec fuel nxt i ai es lft rf : goodrec C k rec -> stops C rec -> at_pos nxt i ai -> rf = None \/ rf = Some ARange \/ rf = Some AStep ->
  match rf with None => nxt = items_text ai | Some e => exists r, nxt = items_text ai ++ mark (pc_arr C) e ++ r end ->
  not_ended (fst (arr_loop rec fuel (pc_arr C) nxt i ai es lft)).
Proof.
  intros Hg Hst Hp Hrf Hr. destruct fuel as [|fuel]; cbn [arr_loop]; [exact I|]. destruct (length nxt <=? i) eqn:El; [exact I|].
  pose proof (arr_parse C k rec nxt i ai lft Hg Hp) as P. destruct Hp as [_ [Ei _]].
  assert (Hm : exists m r, skipn i nxt = m ++ r /\ (m = as_range (pc_arr C) \/ m = as_step (pc_arr C))).
  { destruct Hrf as [->|[->| ->]]; cbn [mark] in Hr.
    - exfalso. rewrite Hr, <- Ei, Nat.leb_refl in El. discriminate.
    - destruct Hr as [r ->]. exists (as_range (pc_arr C)), r. rewrite (skipn_app_len _ _ _ Ei). auto.
    - destruct Hr as [r ->]. exists (as_step (pc_arr C)), r. rewrite (skipn_app_len _ _ _ Ei). auto. }
  destruct Hm as [m [r [Em Hm]]]. unfold arr_elem. pose proof (Hst m r lft Hm) as S. rewrite <- Em in S.
  destruct (rec arr_flags (skipn i nxt) lft) as [[sts len rf'|sts next| | |] l1]; cbn [fst] in *; try exact I.
  rewrite S in P |- *. cbn [is_nil]. destruct P as [_ [_ [P _]]]. rewrite (P eq_refl). exact I.
Qed.
Lemma arr_loop_laid C k rec : goodrec C k rec -> laid_rec rec -> stops C rec -> forall fuel nxt i ai es lft, at_pos nxt i ai ->
  (as_open (pc_arr C) <> [] -> 1 <= i) -> arr_inv ai es 0 ->
  match fst (arr_loop rec fuel (pc_arr C) nxt i ai es lft) with
  | EOk _ ai1 es1 (Some AEnd) => Forall laid_out ai1 /\ placed ai1 1 (parts_of es1)
  | _ => True
  end.
Proof.
  intros Hg Hrec Hst. induction fuel as [|fuel IH]; intros nxt i ai es lft Hp Hi Hinv; cbn [arr_loop]; [exact I|].
  destruct (Nat.leb_spec (length nxt) i) as [Hl|Hl]; [exact I|].
  pose proof (arr_elem_laid C k rec nxt i ai es lft Hg Hrec Hinv) as L. pose proof (arr_elem_good C k rec nxt i ai es lft Hg Hp Hi Hl) as G.
  destruct (arr_elem rec (pc_arr C) nxt i ai es lft) as [[i1 ai1 es1 rf|its next el| | |] l1]; cbn [fst] in *; try exact I. cbn [egood] in G.
  destruct L as [[L1 [L2 L3]] A], G as [G1 [G2 G3]].
  assert (Hle : i1 <= length nxt) by (destruct G2 as [[r E] [Ei _]]; rewrite E, app_length; lia).
  assert (D : rf = None \/ rf = Some ARange \/ rf = Some AStep -> match fst (arr_loop rec fuel (pc_arr C) nxt i1 ai1 es1 l1) with
    | EOk _ ai2 es2 (Some AEnd) => Forall laid_out ai2 /\ placed ai2 1 (parts_of es2) | _ => True end).
  { intros Hrf. pose proof (stray_fails C k rec fuel nxt i1 ai1 es1 l1 rf Hg Hst G2 Hrf G3) as N.
    destruct (fst (arr_loop rec fuel (pc_arr C) nxt i1 ai1 es1 l1)) as [? ? ? [[]|]|? ? ?| | |]; try exact I. destruct N. }
  assert (N1 : forall x t, Forall laid_out (ai1 ++ [INon x t])). { intros. apply Forall_app. split; [exact L1|]. constructor; [apply laid_non|constructor]. }
  destruct rf as [[]|]; try discriminate A; try (apply D; auto; fail).
  - apply IH.
    + exact (at_pos_mark C nxt _ _ AParam (as_param (pc_arr C)) NArrParam G2 G3 eq_refl).
    + lia.
    + split; [apply N1|]. split; [apply placed_extend, L2|]. rewrite app_length. cbn [length]. lia.
  - cbn [fst]. split; [apply N1|apply placed_extend, L2].
Qed.
Lemma parse_array_laid C k rec nxt lft : goodrec C k rec -> laid_rec rec -> stops C rec -> prefixb (as_open (pc_arr C)) nxt = true ->
  laid_pres (fst (parse_array rec (pc_arr C) nxt lft)).
Proof.
  intros Hg Hrec Hst Hpre. apply prefixb_iff in Hpre. destruct Hpre as [r Er]. unfold parse_array.
  assert (Hp : at_pos nxt (length (as_open (pc_arr C))) [INon NArrStart (as_open (pc_arr C))]).
  { repeat split; [exists r; rewrite items_text_one; exact Er|rewrite items_text_one; reflexivity|].
    constructor; [apply spelled_leaf; reflexivity|constructor]. }
  assert (Hl : length (as_open (pc_arr C)) <= length nxt) by (rewrite Er, app_length; lia).
  pose proof (arr_loop_laid C k rec Hg Hrec Hst (S (length nxt)) nxt (length (as_open (pc_arr C))) _ [] lft Hp
    ltac:(intros Ho; destruct (as_open (pc_arr C)); [congruence|cbn; lia])) as H.
  destruct (arr_loop rec (S (length nxt)) (pc_arr C) nxt (length (as_open (pc_arr C))) [INon NArrStart (as_open (pc_arr C))] [] lft)
    as [[i items elems rf|items next elems| | |] l]; cbn [fst] in *; try exact I.
  - destruct rf as [[]|]; try exact I. cbn [fst laid_pres]. constructor; [|constructor].
    assert (K : arr_inv [INon NArrStart (as_open (pc_arr C))] [] 0).
    { split; [constructor; [apply laid_non|constructor]|]. split; [constructor|cbn; lia]. }
    destruct (H K) as [K1 K2]. apply lo_arr; assumption.
  - destruct (truncate nxt [items] (Some next)); exact I.
Qed.
Lemma parse_inner_laid rec fl nxt lft : laid_rec rec -> laid_pres (fst (parse_inner rec fl nxt lft)).
Proof.
  intros Hrec. unfold parse_inner. pose proof (Hrec (inner_flags fl) (skipn 1 nxt) lft) as H.
  destruct (rec (inner_flags fl) (skipn 1 nxt) lft) as [[sts len rf|sts next| | |] l]; cbn [fst laid_pout] in *; try exact I.
  - destruct rf as [[]|]; try exact I. cbn [fst laid_pres]. constructor; [|constructor]. apply lo_inner. constructor; [apply laid_non|apply laid_first, H].
  - destruct (truncate nxt (insert_last (INon NInnerStart ($"(")) sts) (Some next)); exact I.
Qed.
Lemma parse_inline_laid rec fl nxt lft : laid_rec rec -> laid_pres (fst (parse_inline rec fl nxt lft)).
Proof.
  intros Hrec. unfold parse_inline. pose proof (Hrec (inline_flags fl) (skipn 1 nxt) lft) as H.
  destruct (rec (inline_flags fl) (skipn 1 nxt) lft) as [[sts len rf|sts next| | |] l]; cbn [fst laid_pout] in *; try exact I.
  - destruct rf as [[]|]; try exact I. cbn [fst laid_pres]. constructor; [|constructor]. apply lo_inline. constructor; [apply laid_non|apply forall_concat, H].
  - destruct (truncate nxt (insert_first (INon NInlineStart ($"{")) sts) (Some next)); exact I.
Qed.
Lemma laid_one x n b : isub x = None -> laid_pres (PRitems [x] n b).
Proof. intros H. constructor; [apply lo_leaf, H|constructor]. Qed.
Lemma run_parser_laid C k rec p fl cur nxt lft : goodrec C k rec -> laid_rec rec -> stops C rec -> laid_pres (fst (run_parser C rec p fl cur nxt lft)).
Proof.
  intros Hg Hrec Hst. destruct p; cbn [run_parser fst]; unfold found; cbv zeta.
  - destruct nxt as [|c r]; [exact I|]. destruct (is_space c); [apply laid_one; reflexivity|exact I].
  - destruct (seq_eqb _ _); [apply laid_one; reflexivity|exact I].
  - unfold parse_term. destruct (fl_ign fl); [exact I|]. destruct (prefixb _ _); [|exact I]. cbv zeta. destruct (match lft with Some _ => _ | None => _ end); [exact I|].
    destruct (negb _); [exact I|]. destruct (incomplete _ _ _); [exact I|]. apply laid_one. reflexivity.
  - destruct (negb _ || _); [|exact I]. destruct (f nxt) as [[[n v]|]| |]; try exact I. apply laid_one. reflexivity.
  - destruct nxt as [|c r]; [exact I|]. destruct (ceq c q); [|exact I]. destruct (str_scan _ _ _ _ _ _) as [[s n]|]; [|exact I]. apply laid_one. reflexivity.
  - destruct (match_op _ _); [|exact I]. apply laid_one. reflexivity.
  - destruct (match_alpha nxt); [|exact I]. destruct (assoc _ _) as [[v u]|]; [|exact I]. apply laid_one. reflexivity.
  - destruct (f nxt) as [[[n v]|]| |]; try exact I. apply laid_one. reflexivity.
  - destruct (match_word _ _); [|exact I]. apply laid_one. reflexivity.
  - destruct (match_name nxt); [|exact I]. apply laid_one. reflexivity.
  - destruct (match_name nxt); [|exact I]. destruct (_ && _); [|exact I]. apply parse_call_laid; [exact Hrec| |cbn; lia|].
    + repeat (constructor; [apply laid_non|]). constructor.
    + intros. apply lo_func; assumption.
  - destruct (_ && _); [constructor|exact I].
  - destruct (_ && _); [constructor|exact I].
  - destruct (prefixb sym nxt); [|exact I]. destruct (match_name _); [|exact I]. destruct (prefixb _ _); [|exact I]. apply parse_call_laid; [exact Hrec| |cbn; lia|].
    + repeat (constructor; [apply laid_non|]). constructor.
    + intros. apply lo_ptr; assumption.
  - destruct (prefixb _ _); [apply parse_inner_laid, Hrec|exact I].
  - destruct (prefixb _ _); [|exact I]. destruct (fl_inner fl); [|exact I]. constructor; [apply laid_non|constructor].
  - destruct (prefixb _ _); [apply parse_inline_laid, Hrec|exact I].
  - destruct (prefixb _ _); [|exact I]. destruct (fl_inline fl); [|exact I]. constructor; [apply laid_non|constructor].
  - destruct (prefixb (as_open (pc_arr C)) nxt) eqn:E; [eapply parse_array_laid; eassumption|exact I].
  - destruct (_ && _); [constructor|exact I].
  - destruct (_ && _); [constructor|exact I].
  - destruct (_ && _); [constructor|exact I].
  - destruct (_ && _); [constructor|exact I].
Qed.
Lemma try_parsers_laid C k rec fl cur nxt : goodrec C k rec -> laid_rec rec -> stops C rec -> forall ps lft, laid_pres (fst (try_parsers C rec ps fl cur nxt lft)).
Proof.
  intros Hg Hrec Hst. induction ps as [|p ps IH]; intros lft; cbn [try_parsers]; [exact I|].
  pose proof (run_parser_laid C k rec p fl cur nxt lft Hg Hrec Hst) as H. destruct (run_parser C rec p fl cur nxt lft) as [[| | | | | |] l]; try exact H. apply IH.
Qed.
Lemma parse_loop_laid C k rec : goodrec C k rec -> laid_rec rec -> stops C rec -> forall fuel fl done cur n rest lft,
  Forall (Forall laid_out) done -> Forall laid_out cur -> laid_pout (fst (parse_loop C rec fuel fl done cur n rest lft)).
Proof.
  intros Hg Hrec Hst. induction fuel as [|fuel IH]; intros fl done cur n rest lft Hd Hc; cbn [parse_loop]; [exact I|].
  assert (Hdc : forall items, Forall laid_out items -> Forall (Forall laid_out) (done ++ [cur ++ items])).
  { intros items Hi. apply Forall_app. split; [exact Hd|]. constructor; [apply Forall_app; auto|constructor]. }
  destruct rest as [|c rest]. { cbn [fst laid_pout]. specialize (Hdc [] (Forall_nil _)). rewrite app_nil_r in Hdc. exact Hdc. }
  pose proof (try_parsers_laid C k rec fl cur (c :: rest) Hg Hrec Hst (pc_parsers C) lft) as H.
  destruct (try_parsers C rec (pc_parsers C) fl cur (c :: rest) lft) as [[|items len endst|items e|items next| | |] l]; cbn [fst laid_pres] in *; try exact I.
  - cbv zeta. destruct (len =? 0); [exact I|]. apply IH.
    + destruct endst; [apply Hdc, H|exact Hd].
    + destruct endst; [constructor|apply Forall_app; auto].
  - apply Hdc, H.
Qed.
Lemma array_stops C k rec : goodrec C k rec -> array_symbols C -> forall fuel n l t m r, t = m ++ r -> m = as_range (pc_arr C) \/ m = as_step (pc_arr C) ->
  match fst (parse_loop C rec fuel arr_flags [] [] n t l) with POk sts len _ => first_st sts = [] | _ => True end.
Proof.
  intros Hg Hs fuel n l t m r Et Hm. destruct (Hs m rec r l Hm) as [Hne H]. rewrite <- Et in H. destruct fuel as [|fuel]; cbn [parse_loop]; [exact I|].
  destruct t as [|c t]; [destruct m; [congruence|discriminate]|].
  destruct (try_parsers C rec (pc_parsers C) arr_flags [] (c :: t) l) as [[|items len endst|items e|items next| | |] l']; cbn [fst] in *; try exact I; [destruct H|].
  rewrite H. reflexivity.
Qed.
Lemma parse_stops C : array_symbols C -> forall k, stops C (parse C k).
Proof.
  intros Hs k m r l Hm. destruct k as [|k]; cbn [parse]; [exact I|]. eapply array_stops; [apply parse_good|exact Hs|reflexivity|exact Hm].
Qed.
Lemma parse_laid C : array_symbols C -> forall k, laid_rec (parse C k).
Proof.
  intros Hs. induction k as [|k IH]; intros fl t l; cbn [parse]; [exact I|].
  apply (parse_loop_laid C k); [apply parse_good|exact IH|apply parse_stops, Hs|constructor|constructor].
Qed.
