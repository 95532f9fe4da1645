(** No plain exception comes out of a statement. *)
From Coq Require Import ZArith QArith Ascii String List Bool Lia.
From Verif Require Import Base Dec Num Bases Units Syntax Pos PosSpec PosProofs Call Loop Parse Exec ExecSpec ExecProofs2 ExecProofs3 UnitsProofs5 InstallProofs
  ErrorSpec ErrorProofs ErrorProofs2 ContainSpec ContainProofs.
Import ListNotations.
Open Scope nat_scope.

(** * The position of an error in a call or array is found *)
Lemma parts_extend2 ps t rest g : parts_in ps t rest -> exists rest' e, parts_in ps (g ++ t) rest' /\ rest' = e ++ rest.
Proof.
  intros H. destruct H as [t|gap p ps t rest H].
  - exists (g ++ t), g. split; [constructor|reflexivity].
  - exists rest, []. split; [rewrite app_assoc; constructor; exact H|reflexivity].
Qed.
Lemma find_items_reach : forall l pre t rest, parts_in (map itext l) t rest -> exists mid rest' e,
  find_items (pre ++ t) l (length pre) = Some (length pre + length mid) /\ t = mid ++ rest' /\ rest' = e ++ rest.
Proof.
  induction l as [|x r IH]; intros pre t rest H; cbn [find_items].
  - inversion H; subst. exists [], rest, []. cbn [length app]. rewrite Nat.add_0_r. auto.
  - cbn [map] in H. apply parts_all_inv in H. destruct H as (gap & u & Ht & H). subst t.
    destruct (greedy_step (itext x) gap u pre) as (k & v & H1 & (g & H2 & H3) & e & He). rewrite H1, H2.
    destruct (parts_extend2 _ _ _ e H) as (rest' & e' & H4 & H5). rewrite <- He in H4.
    destruct (IH (pre ++ g ++ itext x) v rest' H4) as (mid & rest2 & e2 & Hi & E1 & E2). rewrite <- !app_assoc, !app_length in Hi.
    exists (g ++ itext x ++ mid), rest2, (e2 ++ e'). rewrite !app_length. split; [|split].
    + replace (length pre + k + length (itext x)) with (length pre + (length g + length (itext x))) by lia. rewrite Hi. f_equal. lia.
    + rewrite E1, <- !app_assoc. reflexivity.
    + rewrite E2, H5, app_assoc. reflexivity.
Qed.
Lemma find_pos_reach text l nx rest : parts_in (map itext l) text rest -> (forall t, nx = Some t -> exists more, rest = t ++ more) ->
  exists i, find_pos text [l] nx = Some i.
Proof.
  intros H Hn. unfold find_pos. cbn [fold_left]. destruct (find_items_reach l [] text rest H) as (mid & rest' & e & E1 & E2 & E3).
  cbn [app length plus] in E1. rewrite E1. destruct nx as [t|]; [|eauto]. destruct (Hn t eq_refl) as [more ->].
  rewrite E2, E3. destruct (sfind_from_complete t mid e more) as [k [K _]]. eauto.
Qed.
Lemma parts_here : forall ps X, parts_in ps (concat ps ++ X) X.
Proof. induction ps as [|p ps IH]; intros X; cbn [concat app]; [constructor|]. rewrite <- app_assoc. apply (parts_cons [] p ps _ X (IH X)). Qed.
Lemma truncate_reach text items k a g b its nx : items_text items = text -> items = a ++ g ++ b -> k <= length a -> points_into g its nx ->
  exists t, truncate text [firstn k items ++ its] nx = Some t.
Proof.
  intros Et Ei Hk [rest [Eg Hn]]. unfold truncate.
  assert (Ea : firstn k items = firstn k a). { rewrite Ei, firstn_app. replace (k - length a) with 0 by lia. rewrite firstn_O, app_nil_r. reflexivity. }
  assert (Ex : text = concat (map itext (firstn k a)) ++ items_text (skipn k a) ++ concat (map itext its) ++ rest ++ items_text b).
  { rewrite <- Et, Ei, !items_text_app, Eg. rewrite <- (firstn_skipn k a) at 1. rewrite items_text_app. unfold items_text at 1 3. rewrite <- !app_assoc. reflexivity. }
  destruct (parts_extend2 (map itext its) (concat (map itext its) ++ rest ++ items_text b) (rest ++ items_text b) (items_text (skipn k a)) (parts_here _ _)) as (rest' & e & P & E).
  assert (P2 : parts_in (map itext (firstn k items ++ its)) text rest').
  { rewrite Ea, map_app, Ex. eapply parts_app; [apply parts_here|exact P]. }
  assert (P3 : exists i, find_pos text [firstn k items ++ its] nx = Some i).
  { unfold find_pos. cbn [fold_left]. destruct (find_items_reach _ [] text rest' P2) as (mid & r2 & e2 & E1 & E2 & E3). cbn [app length plus] in E1. rewrite E1.
    destruct nx as [t|]; [|eauto]. destruct (Hn t eq_refl) as [more ->]. rewrite E2, E3, E, <- !app_assoc.
    rewrite (app_assoc e2). destruct (sfind_from_complete t mid (e2 ++ e) (more ++ items_text b)) as [j [K _]]. eauto. }
  destruct P3 as [i ->]. cbn [option_map]. eauto.
Qed.

Definition outcome_ok (u : bool) (items : list item) (o : oc result) : Prop :=
  match o with
  | OOk r => sane_res u r /\ (is_exc (rval r) = false \/ (exists m its nx tr, rval r = VExc (XExec m its nx tr) /\ points_into items its nx))
  | OErr e => exists m its nx tr, e = XExec m its nx tr /\ points_into items its nx
  | OPy => False
  | OFuel => True
  end.
Lemma sane_list u l : sane u (VList l) <-> Forall (sane_res u) l.
Proof.
  cbn [sane]. split.
  - induction l as [|r l IH]; intros H; constructor; [apply H|apply IH, H].
  - induction 1 as [|r l Hr Hl IH]; [exact I|split; [exact Hr|exact IH]].
Qed.
Definition sound_item (u : bool) (okop okfn : str -> Prop) (i : item) : Prop := spelled i /\ laid_out i /\ tame u okop okfn i.
Definition rec_contained (u : bool) (okop okfn : str -> Prop) (run : list item -> M result) : Prop := forall items s o s',
  Forall (sound_item u okop okfn) items -> usable_vars u s -> run items s = (o, s') -> usable_vars u s' /\ outcome_ok u items o.
Lemma Forall_mid A (P : A -> Prop) l a g b : l = a ++ g ++ b -> Forall P l -> Forall P g.
Proof. intros ->. rewrite !Forall_app. tauto. Qed.
Lemma sound_sub u okop okfn i l : sound_item u okop okfn i -> isub i = Some l -> (match i with IInline _ _ _ => False | _ => True end) -> Forall (sound_item u okop okfn) l /\ items_text l = itext i.
Proof.
  intros [H1 [H2 H3]] E Hi. destruct (spelled_inv _ _ H1 E) as [E1 E2]. split; [|exact E1].
  assert (L : Forall laid_out l) by (inversion H2; subst; cbn [isub] in *; try congruence; inversion E; subst; assumption).
  assert (T : Forall (tame u okop okfn) l) by (inversion H3; subst; cbn [isub] in *; try congruence; try destruct Hi; inversion E; subst; assumption).
  clear -E2 L T. induction E2 as [|x l Hx E2 IH]; constructor; inversion L; inversion T; subst; [repeat split; assumption|auto].
Qed.

Lemma args_contained u okop okfn (rec : exec) stl allow text items mk : rec_contained u okop okfn (rec stl) -> Forall (sound_item u okop okfn) items -> items_text items = text ->
  forall args k acc s o s', placed items k args -> usable_vars u s ->
  Forall (fun x => sane_res u x /\ (allow = true \/ is_exc (rval x) = false)) acc ->
  eval_args rec stl allow text items mk args k acc s = (o, s') ->
  usable_vars u s' /\ match o with OOk rs => Forall (fun x => sane_res u x /\ (allow = true \/ is_exc (rval x) = false)) rs | OPy => False | _ => True end.
Proof.
  intros Hrec Hit Ht. induction args as [|arg args IH]; intros k acc s o s' Hp Hs Ha H; cbn [eval_args] in H.
  - injection H as <- <-. split; assumption.
  - inversion Hp as [|k0 g gs a b E1 E2 E3]. subst k0 g gs.
    destruct (rec stl arg s) as [o1 s1] eqn:Er. destruct (Hrec arg s o1 s1 (Forall_mid _ _ _ _ _ _ E1 Hit) Hs Er) as [Hs1 Ho].
    assert (F : forall A m its nx, points_into arg its nx -> forall (mk' : str -> item) o2 s2, @reraise A text mk' m (firstn k items ++ its) nx s1 = (o2, s2) ->
      s2 = s1 /\ match o2 with OErr _ => True | _ => False end).
    { intros A m its nx Hpt mk' o2 s2 Hr. unfold reraise in Hr. destruct (truncate_reach _ _ _ _ _ _ _ _ Ht E1 E2 Hpt) as [t Et]. rewrite Et in Hr.
      injection Hr as <- <-. split; [reflexivity|exact I]. }
    destruct o1 as [r|e| |]; cbn [outcome_ok] in Ho.
    + destruct Ho as [Hsn Ho]. destruct Ho as [Ho|[m [its [nx [tr0 [Er1 Hpt]]]]]].
      * assert (Hn : eval_args rec stl allow text items mk args (k + length arg + 1) (acc ++ [r]) s1 = (o, s')).
        { destruct (rval r) as [| | | | | |e|]; try exact H. discriminate Ho. }
        eapply IH; [exact E3|exact Hs1| |exact Hn]. apply Forall_app. split; [exact Ha|]. constructor; [split; [exact Hsn|right; exact Ho]|constructor].
      * rewrite Er1 in H. destruct allow.
        -- eapply IH; [exact E3|exact Hs1| |exact H]. apply Forall_app. split; [exact Ha|]. constructor; [split; [exact Hsn|left; reflexivity]|constructor].
        -- cbv zeta in H. destruct (F _ _ _ _ Hpt _ _ _ H) as [-> K]. split; [exact Hs1|]. destruct o; try destruct K. exact I.
    + destruct Ho as [m [its [nx [tr0 [-> Hpt]]]]]. cbv zeta in H. destruct (F _ _ _ _ Hpt _ _ _ H) as [-> K]. split; [exact Hs1|]. destruct o; try destruct K. exact I.
    + destruct Ho.
    + injection H as <- <-. split; [exact Hs1|exact I].
Qed.
Lemma placed_next items k e es : e_end e = None -> placed items k (flat_map elem_parts (e :: es)) ->
  (exists a b, items = a ++ e_start e ++ b /\ k <= length a) /\ placed items (k + length (e_start e) + 1) (flat_map elem_parts es).
Proof.
  intros E H. cbn [flat_map] in H. unfold elem_parts at 1 in H. rewrite E in H. cbn [app] in H. inversion H; subst. split; [eauto|assumption].
Qed.
Lemma elements_contained G u okop okfn (rec : exec) stl items : rec_contained u okop okfn (rec stl) -> Forall (sound_item u okop okfn) items ->
  forall es n acc s o k s', Forall (fun e => e_end e = None) es -> placed items (n + 1) (flat_map elem_parts es) -> usable_vars u s ->
  Forall (sane_res u) acc -> eval_elements G rec stl es n acc s = ((o, k), s') ->
  usable_vars u s' /\ match o with
    | OErr e => exists m its nx tr a g b, e = XExec m its nx tr /\ items = a ++ g ++ b /\ k <= length a /\ points_into g its nx
    | OOk rs => Forall (sane_res u) rs | OPy => False | OFuel => True end.
Proof.
  intros Hrec Hit. induction es as [|e es IH]; intros n acc s o k s' He Hp Hs Hacc H; cbn [eval_elements] in H.
  - injection H as <- _ <-. split; [exact Hs|exact Hacc].
  - inversion He as [|? ? He1 He2]; subst. destruct (placed_next _ _ _ _ He1 Hp) as [[a [b [E1 E2]]] E3].
    unfold eval_element in H. cbv zeta in H. rewrite He1 in H. unfold count_bind, eval_part, bind in H.
    destruct (rec stl (e_start e) s) as [o1 s1] eqn:Er. destruct (Hrec _ s o1 s1 (Forall_mid _ _ _ _ _ _ E1 Hit) Hs Er) as [Hs1 Ho].
    destruct o1 as [r|x| |]; cbn [outcome_ok] in Ho.
    + destruct Ho as [Hsn Ho]. destruct Ho as [Ho|[m [its [nx [tr0 [Er1 Hpt]]]]]].
      * assert (Hn : eval_elements G rec stl es (n + 1 + length (e_start e)) (acc ++ [r]) s1 = ((o, k), s')).
        { destruct (rval r) as [| | | | | |x|]; try exact H. discriminate Ho. }
        eapply IH; [exact He2| |exact Hs1| |exact Hn]; [exact E3|]. apply Forall_app. split; [exact Hacc|]. constructor; [exact Hsn|constructor].
      * rewrite Er1 in H. injection H as <- <- <-. split; [exact Hs1|]. exists m, its, nx, tr0, a, (e_start e), b. auto.
    + injection H as <- <- <-. split; [exact Hs1|]. destruct Ho as [m [its [nx [tr0 [-> Hpt]]]]]. exists m, its, nx, tr0, a, (e_start e), b. auto.
    + destruct Ho.
    + injection H as <- <- <-. split; [exact Hs1|exact I].
Qed.

(** * Operands *)
Lemma item_contained G u okop okfn (rec : exec) stl i s o s' : rec_contained u okop okfn (rec stl) -> fns_contained G u stl okfn ->
  sound_item u okop okfn i -> is_operand i = true -> usable_vars u s -> eval_item G rec stl i s = (o, s') ->
  usable_vars u s' /\ match o with OOk r => sane_res u r /\ is_exc (rval r) = false | OPy => False | _ => True end.
Proof.
  intros Hrec Hfn Hi Hop Hs H. destruct i; cbn [eval_item] in H; try discriminate Hop.
  - injection H as <- <-. split; [exact Hs|]. destruct v; repeat split.
  - destruct (assoc name (s_vars s)) as [[v w]|] eqn:E; injection H as <- <-; (split; [exact Hs|]); [|repeat split]. destruct (Hs _ _ _ (assoc_some_in _ _ _ E)) as [K1 K2].
    split; [split; [exact K1|exact I]|exact K2].
  - injection H as <- <-. split; [exact Hs|]. destruct v; repeat split.
  - injection H as <- <-. split; [exact Hs|]. destruct Hi as [_ [_ Hi]]. inversion Hi. repeat split. assumption.
  - injection H as <- <-. split; [exact Hs|repeat split].
  - destruct (sound_sub _ _ _ _ items Hi eq_refl I) as [Hit Ht]. cbn [itext] in Ht. unfold eval_inner in H.
    destruct (rec stl items s) as [o1 s1] eqn:Er. destruct (Hrec items s o1 s1 Hit Hs Er) as [Hs1 Ho].
    assert (F : forall A m its nx, points_into items its nx -> forall (mk' : str -> item) o2 s2, @reraise A text mk' m its nx s1 = (o2, s2) ->
      s2 = s1 /\ match o2 with OErr _ => True | _ => False end).
    { intros A m its nx Hpt mk' o2 s2 Hr. unfold reraise in Hr.
      destruct (truncate_reach text items 0 [] items [] its nx Ht (eq_sym (app_nil_r _)) (le_n 0) Hpt) as [t Et].
      cbn [firstn app] in Et. rewrite Et in Hr. injection Hr as <- <-. split; [reflexivity|exact I]. }
    destruct o1 as [r|e| |]; cbn [outcome_ok] in Ho.
    + destruct Ho as [Hsn Ho]. destruct Ho as [Ho|[m [its [nx [tr0 [Er1 Hpt]]]]]].
      * destruct r as [v w f oo]. cbn [rval] in *. destruct Hsn as [Hsn _]. destruct v as [| | | | | |e|]; try (injection H as <- <-; split; [exact Hs1|split; [split; [exact Hsn|exact I]|reflexivity]]). discriminate Ho.
      * rewrite Er1 in H. cbv zeta in H. destruct (F _ _ _ _ Hpt _ _ _ H) as [-> K]. split; [exact Hs1|]. destruct o; try destruct K. exact I.
    + destruct Ho as [m [its [nx [tr0 [-> Hpt]]]]]. cbv zeta in H. destruct (F _ _ _ _ Hpt _ _ _ H) as [-> K]. split; [exact Hs1|]. destruct o; try destruct K. exact I.
    + destruct Ho.
    + injection H as <- <-. split; [exact Hs1|exact I].
  - injection H as <- <-. split; [exact Hs|repeat split].
  - destruct (sound_sub _ _ _ _ items Hi eq_refl I) as [Hit Ht]. cbn [itext] in Ht.
    destruct Hi as [_ [Hl Hi]]. assert (H6 : okfn name) by (inversion Hi; assumption).
    assert (H8 : placed items 2 args) by (inversion Hl; [discriminate|assumption]). subst text.
    destruct (Hfn name H6) as [d [Ed Hd]]. unfold eval_func in H. rewrite Ed in H. unfold bind in H.
    destruct (eval_args rec stl (o_excs d) _ items _ args 2 [] s) as [o1 s1] eqn:Ea.
    destruct (args_contained _ _ _ _ _ _ _ _ _ Hrec Hit eq_refl _ _ _ _ _ _ H8 Hs (Forall_nil _) Ea) as [Hs1 Ho].
    destruct o1 as [ins|e| |]; [|injection H as <- <-; split; [exact Hs1|exact I]|destruct Ho|injection H as <- <-; split; [exact Hs1|exact I]].
    eapply Hd; [eapply Forall_impl; [|exact Ho]; intros x [Hx _]; exact Hx| |exact Hs1|exact H].
    destruct (o_excs d); [left; reflexivity|right]. eapply Forall_impl; [|exact Ho]. intros x [_ [Hx|Hx]]; [discriminate|exact Hx].
  - destruct Hi as [_ [_ Hi]]. inversion Hi.
  - destruct (sound_sub _ _ _ _ items Hi eq_refl I) as [Hit Ht]. cbn [itext] in Ht.
    destruct Hi as [_ [Hl Hi]].
    assert (H5 : Forall (fun e => e_end e = None) elements) by (inversion Hi; assumption).
    assert (H7 : placed items (0 + 1) (flat_map elem_parts elements)) by (inversion Hl; [discriminate|assumption]).
    subst text. unfold eval_arr in H.
    destruct (eval_elements G rec stl elements 0 [] s) as [[o1 k] s1] eqn:Ee.
    destruct (elements_contained _ _ _ _ _ _ _ Hrec Hit _ _ _ _ _ _ _ H5 H7 Hs (Forall_nil _) Ee) as [Hs1 Ho].
    destruct o1 as [l|e| |].
    + injection H as <- <-. split; [exact Hs1|]. split; [|reflexivity]. split; [|exact I]. apply sane_list. exact Ho.
    + destruct Ho as [m [its [nx [tr0 [a [g [b [-> [E1 [E2 E3]]]]]]]]]]. cbv zeta in H. unfold reraise in H.
      destruct (truncate_reach _ _ _ _ _ _ _ _ eq_refl E1 E2 E3) as [t Et]. rewrite Et in H. injection H as <- <-. split; [exact Hs1|exact I].
    + destruct Ho.
    + injection H as <- <-. split; [exact Hs1|exact I].
Qed.

Definition pslot (u : bool) (okop : str -> Prop) (x : slot) : Prop := match x with SOp t _ => okop t | SRes r _ => sane_res u r end.
Lemma operands_contained G u okop okfn (rec : exec) stl : rec_contained u okop okfn (rec stl) -> fns_contained G u stl okfn ->
  forall items k sl orig s o s', Forall (sound_item u okop okfn) items -> usable_vars u s -> Forall (pslot u okop) sl ->
  eval_operands G rec stl items k sl orig s = (o, s') ->
  usable_vars u s' /\ match o with OOk (sl', _) => Forall (pslot u okop) sl' /\ (functional_items items <> [] \/ sl <> [] -> sl' <> []) | OFuel => True | _ => False end.
Proof.
  intros Hrec Hfn. induction items as [|i items IH]; intros k sl orig s o s' Hit Hs Hsl H; cbn [eval_operands] in H.
  - injection H as <- <-. split; [exact Hs|]. split; [exact Hsl|]. intros [K|K]; [destruct K; reflexivity|exact K].
  - inversion Hit as [|? ? Hi Hit2]; subst.
    assert (Hstep : forall x k2 orig2 s2, pslot u okop x -> usable_vars u s2 -> eval_operands G rec stl items k2 (sl ++ [x]) orig2 s2 = (o, s') ->
      usable_vars u s' /\ match o with OOk (sl', _) => Forall (pslot u okop) sl' /\ (functional_items (i :: items) <> [] \/ sl <> [] -> sl' <> []) | OFuel => True | _ => False end).
    { intros x k2 orig2 s2 Hx Hs2 H2. destruct (IH _ _ _ _ _ _ Hit2 Hs2 (proj2 (Forall_app _ _ _) (conj Hsl (Forall_cons _ Hx (Forall_nil _)))) H2) as [K1 K2].
      split; [exact K1|]. destruct o as [[sl' orig']|e| |]; try exact K2. destruct K2 as [K2 K3]. split; [exact K2|]. intros _. apply K3. right. destruct sl; discriminate. }
    assert (L : is_operand i = true -> (if ifunc i then let* p := eval_operand G rec stl (firstn k orig) i in
       eval_operands G rec stl items (S k) (sl ++ [SRes (fst p) k]) (orig ++ [snd p]) else eval_operands G rec stl items k sl (orig ++ [i])) s = (o, s') ->
      usable_vars u s' /\ match o with OOk (sl', _) => Forall (pslot u okop) sl' /\ (functional_items (i :: items) <> [] \/ sl <> [] -> sl' <> []) | OFuel => True | _ => False end).
    { intros Hop H2. assert (Ef : ifunc i = true) by (destruct i; try reflexivity; discriminate). rewrite Ef in H2. unfold bind, eval_operand in H2.
      destruct (eval_item G rec stl i s) as [oi s1] eqn:Ei. destruct (item_contained _ _ _ _ _ _ _ _ _ _ Hrec Hfn Hi Hop Hs Ei) as [Hs1 Ho].
      destruct oi as [r|[w m|m its nx tr]| |]; cbn [fst snd] in H2.
      - eapply Hstep; [|exact Hs1|exact H2]. exact (proj1 Ho).
      - eapply Hstep; [|exact Hs1|exact H2]. repeat split.
      - eapply Hstep; [|exact Hs1|exact H2]. repeat split.
      - destruct Ho.
      - injection H2 as <- <-. split; [exact Hs1|exact I]. }
    destruct i; try (apply L; [reflexivity|exact H]).
    + eapply Hstep; [|exact Hs|exact H]. destruct Hi as [_ [_ Hi]]. inversion Hi. assumption.
    + cbn [ifunc] in H. eapply IH in H; [|exact Hit2|exact Hs|exact Hsl]. exact H.
Qed.
Lemma in_order_contained G u okop okfn (rec : exec) stl : rec_contained u okop okfn (rec stl) -> fns_contained G u stl okfn ->
  forall l s outs s', in_order (eval_item G rec stl) l s outs s' -> Forall (sound_item u okop okfn) l -> Forall (fun i => is_operand i = true) l -> usable_vars u s ->
  Forall value_clean outs.
Proof.
  intros Hrec Hfn l s outs s' H. induction H as [s|i r s o s1 os s2 E _ _ IH]; intros F1 F2 Hs; [constructor|]. apply Forall_cons_iff in F1. apply Forall_cons_iff in F2.
  destruct F1 as [F1 F3], F2 as [F2 F4]. destruct (item_contained _ _ _ _ _ _ _ _ _ _ Hrec Hfn F1 F2 Hs E) as [Hs1 Ho]. constructor; [|auto].
  destruct o as [r0|e| |]; try exact I. intros e K. destruct Ho as [_ Ho]. rewrite K in Ho. discriminate Ho.
Qed.

(** * Statements *)
Lemma restore_all : forall items n, functional_items items = [] -> restore_loop n false n items items = items.
Proof.
  induction items as [|i items IH]; intros n H; [reflexivity|]. unfold functional_items in H. cbn [filter] in H. destruct (ifunc i) eqn:E; [discriminate|].
  cbn [restore_loop]. rewrite Nat.ltb_irrefl, E, Nat.leb_refl. cbn [andb negb app]. f_equal. apply IH. exact H.
Qed.
Lemma body_contained G u okop okfn (rec : exec) stl : proper_table u (g_ops G) -> ops_contained G u stl okop -> fns_contained G u stl okfn ->
  rec_contained u okop okfn (rec stl) -> rec_contained u okop okfn (execute_body G rec stl).
Proof.
  intros HT [HP Hop] Hfn Hrec items s o s' Hit Hs H. unfold execute_body in H. destruct (is_nil (functional_items items)) eqn:En.
  - assert (E : functional_items items = []) by (destruct (functional_items items); [reflexivity|discriminate]).
    cbn [restore_items] in H. injection H as <- <-. split; [exact Hs|]. cbn [outcome_ok]. rewrite (restore_all items 0 E).
    exists MEmpty, items, None, false. split; [reflexivity|]. exists []. rewrite app_nil_r. split; [reflexivity|discriminate].
  - unfold bind in H. destruct (eval_operands G rec stl items 0 [] [] s) as [o1 s1] eqn:Eo.
    destruct (operands_contained _ _ _ _ _ _ Hrec Hfn _ _ _ _ _ _ _ Hit Hs (Forall_nil _) Eo) as [Hs1 Ho].
    destruct o1 as [[sl orig]|e| |]; try (destruct Ho; fail).
    2: { injection H as <- <-. split; [exact Hs1|exact I]. }
    destruct Ho as [Hps Hne]. 
    assert (Hsn : sl <> []). { apply Hne. left. clear -En. intros K. rewrite K in En. discriminate En. } clear Hne.
    set (ev := eval_item G rec stl).
    edestruct (operands_slots _ _ _ items [] [] [] _ _ _ _ (fun _ => False) Eo) as [Ha Hsl]; [constructor|constructor| |].
    { intros outs s2 Hio. assert (Hc : Forall value_clean outs).
      { eapply in_order_contained; [exact Hrec|exact Hfn|exact Hio| | |exact Hs].
        - apply Forall_forall. intros i Hi. apply filter_In in Hi. rewrite Forall_forall in Hit. apply Hit, Hi.
        - apply Forall_forall. intros i Hi. apply filter_In in Hi. apply Hi. }
      eapply Forall_impl; [|exact Hc]. intros [x|x| |] Hx; try exact I. exact Hx. }
    cbn [app] in Ha, Hsl. fold ev in Hsl.
    assert (Hcs : Forall (cslot u okop items (own_error items ev orig)) sl).
    { clear -Hsl Hps. induction Hsl as [|x sl Hx Hsl IH]; constructor; inversion Hps; subst; [|auto]. split; [|assumption].
      eapply good_slot_mono; [|exact Hx]. intros e [[]|K]. exact K. }
    destruct (run_slots (g_ops G) orig (callop G stl) sl s1) as [o2 s2] eqn:Er.
    destruct (run_slots_contained u (g_ops G) okop items orig (callop G stl) (own_error items ev orig) HT (alike_length _ _ Ha)
      (fun e0 => at_error_own _ _ _ e0 (alike_length _ _ Ha)) HP Hop sl s1 o2 s2 Hcs Hsn Hs1 Er) as [Hs2 K].
    assert (Hpt : forall e0, own_error items ev orig e0 -> exists m its nx tr, restore_items e0 orig items = XExec m its nx tr /\ points_into items its nx).
    { intros e0 E0. destruct (own_error_restored _ _ _ _ Ha E0) as [m [its [nx [tr0 [E1 E2]]]]]. exists m, its, nx, tr0. split; [exact E1|].
      destruct E2 as [[_ E2]|[_ E2]]; [apply before_points, E2|eapply within_points, E2]. }
    destruct o2 as [r|e| |].
    + destruct K as [Kf KR]. destruct (rval r) as [| | | | | |[w m|m its nx tr]|] eqn:Ev;
        try (injection H as <- <-; split; [exact Hs2|]; split; [exact Kf|left; rewrite Ev; reflexivity]).
      * exfalso. destruct (Hpt _ (KR _ eq_refl)) as [m' [its [nx [tr0 [E1 _]]]]]. discriminate E1.
      * injection H as <- <-. split; [exact Hs2|]. split; [destruct r as [v w f oo]; split; [exact I|exact (proj2 Kf)]|right]. destruct (Hpt _ (KR _ eq_refl)) as [m' [its' [nx' [tr' [E1 E2]]]]]. cbn [restore_items] in E1. injection E1 as <- <- <- <-.
        destruct r as [v w f oo]. cbn [with_value rval]. eexists _, _, _, _. split; [reflexivity|exact E2].
    + injection H as <- <-. split; [exact Hs2|]. cbn [outcome_ok]. apply (at_error_own _ ev _ _ (alike_length _ _ Ha)) in K.
      destruct (Hpt _ K) as [m' [its' [nx' [tr' [E1 E2]]]]]. eauto 8.
    + destruct K.
    + injection H as <- <-. split; [exact Hs2|exact I].
Qed.
Theorem execute_contained : forall G u okop okfn stl, proper_table u (g_ops G) -> ops_contained G u stl okop -> fns_contained G u stl okfn ->
  forall n, rec_contained u okop okfn (execute G n stl).
Proof.
  intros G u okop okfn stl HT Hop Hfn. induction n as [|n IH].
  - intros items s o s' _ Hs H. injection H as <- <-. split; [exact Hs|exact I].
  - cbn [execute]. apply body_contained; assumption.
Qed.
