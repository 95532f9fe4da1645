(** No plain exception comes out of the operator loop. *)
From Coq Require Import ZArith QArith Ascii String List Bool Lia.
From Verif Require Import Base Dec Num Bases Units Syntax Pos PosSpec PosProofs Call Loop Parse Exec ExecSpec ExecProofs2 ExecProofs3 UnitsProofs5 InstallProofs
  ErrorSpec ErrorProofs ErrorProofs2 ContainSpec.
Import ListNotations.
Open Scope nat_scope.

Lemma in_level_some o l : in_level o l = true -> exists s, o = Some s /\ In s (map fst l).
Proof. destruct o as [s|]; [|discriminate]. cbn [in_level]. rewrite mem_str_iff. eauto. Qed.
Lemma action_in T l sl i sym w : action T l sl i = Some (sym, w) -> In sym (map fst l).
Proof.
  unfold action. destruct (nth_error sl i) as [x|]; [|discriminate]. cbv zeta. intros H.
  repeat match type of H with (if ?b then _ else _) = _ => destruct b eqn:?B end;
    repeat match goal with B : _ && _ = true |- _ => apply andb_prop in B; destruct B end.
  1-4: injection H as <- _; match goal with B : in_level ?o _ = true |- _ => destruct (in_level_some _ _ B) as [s [-> Hs]]; exact Hs end.
  destruct x as [t j|]; [|discriminate]. match type of H with (if ?b then _ else _) = _ => destruct b eqn:Bx end; [|discriminate].
  injection H as <- _. repeat (apply andb_prop in Bx; destruct Bx as [Bx ?]). apply mem_str_iff. exact Bx.
Qed.
Lemma find_op_in T l s : In l (t_levels T) -> In s (map fst l) -> exists o, find_op T s = Some o.
Proof.
  intros Hl Hs. unfold find_op. destruct (assoc s (rev (concat (t_levels T)))) as [o|] eqn:E; [eauto|]. exfalso.
  apply assoc_none in E. apply E. apply in_map_iff in Hs. destruct Hs as [p [<- Hp]]. apply in_map_iff. exists p. split; [reflexivity|].
  rewrite <- in_rev. apply in_concat. eauto.
Qed.
Lemma scan_none T l sl : forall is, scan T l sl is = None -> forall i, In i is -> action T l sl i = None.
Proof.
  induction is as [|k is IH]; intros H i Hi; [destruct Hi|]. cbn [scan] in H. destruct (action T l sl k) as [[s w]|] eqn:E; [discriminate|].
  destruct Hi as [<-|Hi]; [exact E|auto].
Qed.
Lemma scan_some T l sl : forall is i sym w, scan T l sl is = Some (i, sym, w) -> action T l sl i = Some (sym, w).
Proof.
  induction is as [|k is IH]; intros i sym w H; [discriminate|]. cbn [scan] in H. destruct (action T l sl k) as [[s0 w0]|] eqn:E; [|auto].
  injection H as <- <- <-. exact E.
Qed.
(** Two results next to each other *)
Definition apart (sl : list slot) : Prop := forall k a i b j, nth_error sl k = Some (SRes a i) -> nth_error sl (S k) = Some (SRes b j) -> False.
Definition quiet_level (T : optable) (sl : list slot) (l : level) : Prop := forall i, i < length sl -> action T l sl i = None.
Lemma scan_levels_cases T : (forall l, In l (t_levels T) -> l <> []) -> forall ls sl, (forall l, In l ls -> In l (t_levels T)) ->
  match scan_levels T ls sl with
  | Ok None => forall l, In l ls -> quiet_level T sl l
  | Ok (Some (i, sym, w)) => exists a l b, ls = a ++ l :: b /\ (forall l', In l' a -> quiet_level T sl l') /\ action T l sl i = Some (sym, w)
  | _ => False
  end.
Proof.
  intros Hne. induction ls as [|l ls IH]; intros sl Hin; cbn [scan_levels]; [intros l []|].
  assert (Hl : In l (t_levels T)) by (apply Hin; left; reflexivity).
  assert (Hr : exists b, level_rtl T l = Ok b).
  { unfold level_rtl. destruct l as [|[s o] l']; [exfalso; eapply Hne; [exact Hl|reflexivity]|].
    destruct (find_op_in T _ s Hl) as [o' ->]; [left; reflexivity|]. eauto. }
  destruct Hr as [rtl ->]. cbn [obind]. cbv zeta.
  destruct (scan T l sl (if rtl : bool then rev (seq 0 (length sl)) else seq 0 (length sl))) as [[[i sym] w]|] eqn:E.
  - apply scan_some in E. exists [], l, ls. split; [reflexivity|]. split; [intros l' []|exact E].
  - assert (Q : quiet_level T sl l).
    { intros i Hi. eapply scan_none; [exact E|]. destruct rtl; [apply in_rev; rewrite rev_involutive|]; apply in_seq; lia. }
    specialize (IH sl (fun l' K => Hin l' (or_intror K))). destruct (scan_levels T ls sl) as [[[[i sym] w]|]| |]; try exact IH.
    + destruct IH as [a [l0 [b [-> [K1 K2]]]]]. exists (l :: a), l0, b. split; [reflexivity|]. split; [|exact K2].
      intros l' [<-|Hl']; auto.
    + intros l' [<-|Hl']; auto.
Qed.

(** Slots with usable values *)
Definition cslot (u : bool) (P : str -> Prop) (items : list item) (R : exc -> Prop) (x : slot) : Prop :=
  good_slot items R x /\ match x with SOp t _ => P t | SRes r _ => sane_res u r end.
Definition fit_slot (u : bool) (x : slot) : Prop := match x with SRes r _ => sane_res u r | _ => True end.
Lemma cslot_good u P items R l : Forall (cslot u P items R) l -> Forall (good_slot items R) l.
Proof. apply Forall_impl. intros x [H _]. exact H. Qed.
Lemma fit_unit u x : fit_slot u x -> slot_unit x = true -> u = true.
Proof. destruct x as [t i|r i]; [discriminate|]. cbn [fit_slot slot_unit]. destruct r as [v w f o]. cbn [rval]. destruct v; try discriminate. intros [H _] _. exact H. Qed.

Lemma joined u T sl : joining u T -> (forall before after, t_levels T = before ++ after ->
   (exists l, In l before /\ in_level (t_imul T) l = true) ->
   (u = true -> (exists l, In l before /\ in_level (t_uassign T) l = true) /\ (exists l, In l before /\ in_level (t_umul T) l = true)) ->
   Forall (fit_slot u) sl -> (forall l, In l before -> quiet_level T sl l) -> apart sl).
Proof.
  intros _ before after _ Himul Hu Hf Hq k a i b j Ha Hb.
  assert (Hlen : S k < length sl) by (apply nth_error_Some; rewrite Hb; discriminate).
  assert (Fb : fit_slot u (SRes b j)) by (rewrite Forall_forall in Hf; apply Hf; eapply nth_error_In, Hb).
  assert (K : forall l, action T l sl (S k) = None -> in_level (t_imul T) l = true -> slot_unit (SRes b j) = true).
  { intros l Hn Hi. unfold action in Hn. rewrite Hb in Hn. cbv zeta in Hn. unfold at_slot at 1 2 in Hn. rewrite Ha in Hn.
    destruct (slot_unit (SRes b j)) eqn:Eu; [reflexivity|]. exfalso. rewrite Hi in Hn. cbn [slot_op negb andb] in Hn.
    rewrite !andb_false_r in Hn. cbn [andb] in Hn. unfold at_slot in Hn. rewrite ?Ha in Hn. cbn [slot_op negb andb] in Hn. discriminate. }
  destruct Himul as [l [Hl Hi]]. specialize (K l (Hq l Hl _ Hlen) Hi).
  destruct (Hu (fit_unit _ _ Fb K)) as [[l1 [Hl1 H1]] [l2 [Hl2 H2]]].
  pose proof (Hq l1 Hl1 _ Hlen) as Q1. pose proof (Hq l2 Hl2 _ Hlen) as Q2.
  unfold action in Q1, Q2. rewrite Hb in Q1, Q2. cbv zeta in Q1, Q2. unfold at_slot in Q1, Q2. rewrite Ha in Q1, Q2. rewrite K in *. rewrite H1 in Q1. rewrite H2 in Q2.
  cbn [slot_op negb andb] in *. destruct (slot_unit (SRes a i)) eqn:Ea; cbn [negb andb] in *.
  - destruct (in_level (t_uassign T) l2); discriminate.
  - discriminate.
Qed.

(** Taking the inputs *)
Lemma take_left orig sym prev : forall want have s, no_symbols want -> match take_inputs orig sym prev want have s with (OPy, _) => False | (OFuel, _) => False | _ => True end.
Proof.
  induction want as [|w want IH]; intros have s Hn; cbn [take_inputs]; [exact I|].
  rewrite (Hn w (or_introl eq_refl)). destruct have as [|[t i|r i] have]; try exact I. unfold bind.
  specialize (IH have s (fun x K => Hn x (or_intror K))). destruct (take_inputs orig sym prev want have s) as [[rs|e| |] s1]; exact IH.
Qed.
Lemma take_right orig sym prev : forall want b have s, after_operands b want -> apart have ->
  (b = true -> match have with SRes _ _ :: _ => False | _ => True end) ->
  match take_inputs orig sym prev want have s with (OPy, _) => False | (OFuel, _) => False | _ => True end.
Proof.
  induction want as [|w want IH]; intros b have s Hn Ha Hb; cbn [take_inputs]; [exact I|].
  assert (Ht : forall x t, have = x :: t -> apart t).
  { intros x t -> k c i d j K1 K2. apply (Ha (S k) c i d j); assumption. }
  destruct w as [t|], have as [|[t' i|r i] have]; try exact I; cbn [after_operands] in Hn.
  - destruct Hn as [_ Hn]. destruct (seq_eqb t' t); [|exact I]. eapply IH; [exact Hn|eapply Ht; reflexivity|discriminate].
  - destruct Hn as [-> _]. exact (Hb eq_refl).
  - unfold bind. specialize (IH true have s Hn (Ht _ _ eq_refl)). 
    destruct (take_inputs orig sym prev want have s) as [[rs|e| |] s1]; try exact I; apply IH; intros _; destruct have as [|[t2 j|r2 j] have]; try exact I;
      apply (Ha 0 r i r2 j); reflexivity.
Qed.
Lemma take_app orig sym prev : forall a b h1 h2 s, length a = length h1 -> no_symbols a ->
  (match take_inputs orig sym prev b h2 s with (OPy, _) => False | (OFuel, _) => False | _ => True end) ->
  match take_inputs orig sym prev (a ++ b) (h1 ++ h2) s with (OPy, _) => False | (OFuel, _) => False | _ => True end.
Proof.
  induction a as [|w a IH]; intros b h1 h2 s Hl Hn H; destruct h1 as [|x h1]; try discriminate; [exact H|].
  cbn [app take_inputs]. rewrite (Hn w (or_introl eq_refl)). destruct x as [t i|r i]; [exact I|]. unfold bind. injection Hl as Hl.
  specialize (IH b h1 h2 s Hl (fun x K => Hn x (or_intror K)) H). destruct (take_inputs orig sym prev (a ++ b) (h1 ++ h2) s) as [[rs|e| |] s1]; exact IH.
Qed.
Lemma nth_skipn A n : forall (l : list A) k, nth_error (skipn n l) k = nth_error l (n + k).
Proof. induction n as [|n IH]; intros l k; [reflexivity|]. destruct l as [|x l]; [destruct k; reflexivity|]. cbn [skipn plus nth_error]. apply IH. Qed.
Lemma apart_part n m sl : apart sl -> apart (firstn n (skipn m sl)).
Proof.
  intros H k a i b j Ha Hb. 
  assert (K : forall q x, nth_error (firstn n (skipn m sl)) q = Some x -> nth_error sl (m + q) = Some x).
  { intros q x E. rewrite <- nth_skipn. rewrite <- (firstn_skipn n (skipn m sl)). rewrite nth_error_app1; [exact E|]. apply nth_error_Some. rewrite E. discriminate. }
  apply K in Ha. apply K in Hb. rewrite Nat.add_succ_r in Hb. exact (H (m + k) a i b j Ha Hb).
Qed.

(** One operator *)
Lemma run_op_contained u T (P : str -> Prop) items orig call sl i sym w s (R : exc -> Prop) l o s' : proper_table u T -> In l (t_levels T) ->
  action T l sl i = Some (sym, w) -> ((exists op, find_op T sym = Some op /\ no_symbols (op_r op)) \/ apart sl) ->
  length orig = length items -> Forall (cslot u P items R) sl -> usable_vars u s ->
  (forall e, at_error items orig e -> R e) -> (forall t, unwritten T t -> P t) -> (forall t, P t -> contained_op u (call t)) ->
  run_op T orig call sl i sym w s = (o, s') ->
  usable_vars u s' /\
  match o with OOk sl' => Forall (cslot u P items R) sl' /\ sl' <> [] | OErr e => at_error items orig e | OPy => False | OFuel => True end.
Proof.
  intros [HT [_ [Hsym _]]] Hl Hact Hap Hlen Hc Hs HR HP Hcall H.
  pose proof (cslot_good _ _ _ _ _ Hc) as Hg. 
  pose proof (run_op_error T items orig call sl i sym w s (fun _ => True) l o s' HT Hact Hlen) as Herr.
  assert (Hg' : Forall (good_slot items (fun _ => True)) sl).
  { eapply Forall_impl; [|exact Hg]. intros x. apply good_slot_mono. auto. }
  specialize (Herr Hg' (fun _ _ => I) (or_intror (fun _ => I)) H).
  destruct (find_op_in T l sym Hl (action_in _ _ _ _ _ _ Hact)) as [op Eop].
  apply action_kind in Hact. unfold run_op in H. rewrite Eop in H.
  assert (Ex : exists x, nth_error sl i = Some x).
  { destruct Hact as [[_ [j E]]|[_ [_ [[_ [r [j E]]]|[_ [[t [j E]] _]]]]]]; eauto. }
  destruct Ex as [x Ex]. rewrite Ex in H.
  assert (Hi : i < length sl) by (apply nth_error_Some; rewrite Ex; discriminate).
  assert (Hx : cslot u P items R x) by (rewrite Forall_forall in Hc; apply Hc; eapply nth_error_In, Ex).
  assert (Hsy : P sym).
  { destruct Hact as [[_ [j Hj]]|[Hun _]]; [|apply HP; exact Hun]. rewrite Ex in Hj. injection Hj as ->. apply Hx. }
  destruct (Hsym _ _ Eop) as [HL HRr].
  destruct (i <? length (op_l op)) eqn:E1; [injection H as <- <-; split; [exact Hs|exact Herr]|]. apply Nat.ltb_ge in E1.
  destruct (length sl <? i + length (op_r op) + w) eqn:E2; [injection H as <- <-; split; [exact Hs|exact Herr]|]. apply Nat.ltb_ge in E2.
  cbv zeta in H. 
  assert (Htake : match take_inputs orig sym (firstn (slot_idx x) orig) (op_l op ++ op_r op)
     (firstn (length (op_l op)) (skipn (i - length (op_l op)) sl) ++ firstn (length (op_r op)) (skipn (i + w) sl)) s with (OPy, _) => False | (OFuel, _) => False | _ => True end).
  { apply take_app; [rewrite firstn_length, skipn_length; lia|exact HL|]. destruct Hap as [[op' [Eo Hn]]|Hap].
    - rewrite Eop in Eo. injection Eo as <-. apply take_left. exact Hn.
    - eapply take_right; [exact HRr|apply apart_part, Hap|discriminate]. }
  unfold bind at 1 in H.
  destruct (take_inputs _ _ _ _ _ s) as [[ins|e| |] s1] eqn:Et; try destruct Htake.
  2: { injection H as <- <-. split; [|exact Herr]. 
       assert (Hst : forall want have st o2 s2, take_inputs orig sym (firstn (slot_idx x) orig) want have st = (o2, s2) -> s2 = st).
       { clear. induction want as [|w want IH]; intros have st o2 s2 H; cbn [take_inputs] in H; [injection H as _ <-; reflexivity|].
         destruct w as [t|], have as [|[t' k|r k] have]; try (injection H as _ <-; reflexivity).
         - destruct (seq_eqb t' t); [eauto|injection H as _ <-; reflexivity].
         - unfold bind in H. destruct (take_inputs _ _ _ want have st) as [[rs|e| |] s3] eqn:E; injection H as _ <-; apply IH in E; congruence. }
       apply Hst in Et. subst s1. exact Hs. }
  apply take_inputs_results in Et; [|rewrite !app_length, !firstn_length, !skipn_length; lia]. destruct Et as [-> Eins].
  assert (Hins : Forall (sane_res u) ins).
  { rewrite Eins. apply Forall_forall. intros r Hr. apply results_in in Hr. destruct Hr as [k Hk].
    assert (Hh : Forall (cslot u P items R) (firstn (length (op_l op)) (skipn (i - length (op_l op)) sl) ++ firstn (length (op_r op)) (skipn (i + w) sl)))
      by (apply Forall_app; split; apply Forall_firstn, Forall_skipn, Hc).
    rewrite Forall_forall in Hh. apply (Hh _ Hk). }
  assert (G : forall r, sane_res u r -> (forall e, rval r = VExc e -> R e) ->
      Forall (cslot u P items R) (firstn (i - length (op_l op)) sl ++ [SRes r (slot_idx x)] ++ skipn (i + w + length (op_r op)) sl) /\
      firstn (i - length (op_l op)) sl ++ [SRes r (slot_idx x)] ++ skipn (i + w + length (op_r op)) sl <> []).
  { intros r Hf Hr. split; [|destruct (firstn (i - length (op_l op)) sl); discriminate].
    apply Forall_app. split; [apply Forall_firstn, Hc|]. apply Forall_app. split; [|apply Forall_skipn, Hc].
    constructor; [|constructor]. split; [split; [eapply good_slot_idx, (proj1 Hx)|exact Hr]|exact Hf]. }
  unfold bind in H. destruct (call sym ins s) as [oc s2] eqn:Ec.
  destruct (Hcall _ Hsy ins s oc s2 Hins Hs Ec) as [Hs2 Ho]. destruct oc as [r|e| |].
  - injection H as <- <-. split; [exact Hs2|]. apply G.
    + exact (proj1 Ho).
    + intros e Ee. destruct Ho as [_ Ho]. rewrite Ee in Ho. destruct (Ho eq_refl) as [y [Hy Ey]]. rewrite Eins in Hy. apply results_in in Hy. destruct Hy as [k Hk].
      assert (Hh : Forall (good_slot items R) (firstn (length (op_l op)) (skipn (i - length (op_l op)) sl) ++ firstn (length (op_r op)) (skipn (i + w) sl)))
        by (apply Forall_app; split; apply Forall_firstn, Forall_skipn, Hg).
      rewrite Forall_forall in Hh. specialize (Hh _ Hk). cbn [good_slot] in Hh. apply Hh. congruence.
  - injection H as <- <-. split; [exact Hs2|]. apply G; [split; exact I|]. intros e' Ee. cbn [mkRes rval] in Ee. injection Ee as <-. apply HR.
    destruct (good_slot_idx _ _ _ (proj1 Hx)) as [it Hit]. destruct x as [t j|r j]; cbn [slot_idx] in *.
    + destruct (w =? 1); [eexists _, j, (IOp t), _; split; [reflexivity|]; split; [exact (proj1 Hx)|right; reflexivity]|].
      eexists _, j, (IOp t), _. split; [reflexivity|]. split; [exact (proj1 Hx)|left; reflexivity].
    + eexists _, j, it, _. split; [reflexivity|]. split; [exact Hit|left; reflexivity].
  - destruct Ho.
  - injection H as <- <-. split; [exact Hs2|exact I].
Qed.
Lemma cslot_fit u P items R sl : Forall (cslot u P items R) sl -> Forall (fit_slot u) sl.
Proof. apply Forall_impl. intros [t i|r i] [_ H]; [exact I|exact H]. Qed.
Lemma op_loop_contained u T (P : str -> Prop) items orig call (R : exc -> Prop) : proper_table u T -> length orig = length items ->
  (forall e, at_error items orig e -> R e) -> (forall t, unwritten T t -> P t) -> (forall t, P t -> contained_op u (call t)) ->
  forall n sl s o s', Forall (cslot u P items R) sl -> sl <> [] -> usable_vars u s -> op_loop n T orig call sl s = (o, s') ->
  usable_vars u s' /\
  match o with OOk sl' => Forall (cslot u P items R) sl' /\ sl' <> [] /\ apart sl' | OErr e => at_error items orig e | OPy => False | OFuel => True end.
Proof.
  intros HT Hlen HR HP Hcall. induction n as [|n IH]; intros sl s o s' Hc Hne Hs H; cbn [op_loop] in H; [injection H as <- <-; split; [exact Hs|exact I]|].
  pose proof HT as [_ [Hlev [_ [before [after [El [Hsy [Himul Hu]]]]]]]].
  assert (Hj : forall sl0, Forall (cslot u P items R) sl0 -> (forall l, In l before -> quiet_level T sl0 l) -> apart sl0).
  { intros sl0 Hc0 Hq. eapply (joined u T); [exact (proj2 (proj2 (proj2 HT)))|exact El|exact Himul|exact Hu|eapply cslot_fit, Hc0|exact Hq]. }
  pose proof (scan_levels_cases T Hlev (t_levels T) sl (fun l K => K)) as Hsc.
  destruct (scan_levels T (t_levels T) sl) as [[[[i sym] w]|]| |]; try destruct Hsc.
  - destruct H0 as [l [b [E1 [E2 E3]]]]. unfold bind in H. destruct (run_op T orig call sl i sym w s) as [o1 s1] eqn:Er.
    assert (Hin : In l (t_levels T)) by (rewrite E1; apply in_or_app; right; left; reflexivity).
    assert (Hcase : (exists op, find_op T sym = Some op /\ no_symbols (op_r op)) \/ apart sl).
    { assert (Hbef : In l before \/ (forall l', In l' before -> In l' x)).
      { rewrite El in E1. clear -E1. revert x E1. induction before as [|y before IH]; intros x E1; [right; intros l' []|]. destruct x as [|z x]; cbn [app] in E1.
        - injection E1 as -> _. left. left. reflexivity.
        - injection E1 as -> E1. destruct (IH _ E1) as [K|K]; [left; right; exact K|right]. intros l' [<-|K']; [left; reflexivity|right; auto]. }
      destruct Hbef as [Hb|Hb].
      - left. destruct (find_op_in T l sym Hin (action_in _ _ _ _ _ _ E3)) as [op Eop]. exists op. split; [exact Eop|]. eapply Hsy; [exact Hb|eapply action_in, E3|exact Eop].
      - right. apply Hj; [exact Hc|]. intros l' Hl'. apply E2, Hb, Hl'. }
    destruct (run_op_contained _ _ _ _ _ _ _ _ _ _ _ _ _ _ _ HT Hin E3 Hcase Hlen Hc Hs HR HP Hcall Er) as [Hs1 K].
    destruct o1 as [sl'|e| |]; [eapply IH; [apply K|apply K|exact Hs1|exact H]| | |]; injection H as <- <-; split; auto.
  - injection H as <- <-. split; [exact Hs|]. split; [exact Hc|]. split; [exact Hne|]. apply Hj; [exact Hc|]. intros l Hl. apply Hsc. rewrite El. apply in_or_app. left. exact Hl.
Qed.
Lemma run_slots_contained u T (P : str -> Prop) items orig call (R : exc -> Prop) : proper_table u T -> length orig = length items ->
  (forall e, at_error items orig e -> R e) -> (forall t, unwritten T t -> P t) -> (forall t, P t -> contained_op u (call t)) ->
  forall sl s o s', Forall (cslot u P items R) sl -> sl <> [] -> usable_vars u s -> run_slots T orig call sl s = (o, s') ->
  usable_vars u s' /\
  match o with OOk r => sane_res u r /\ (forall e, rval r = VExc e -> R e) | OErr e => at_error items orig e | OPy => False | OFuel => True end.
Proof.
  intros HT Hlen HR HP Hcall sl s o s' Hc Hne Hs H. unfold run_slots, bind in H.
  destruct (op_loop (loop_fuel sl) T orig call sl s) as [o1 s1] eqn:E.
  destruct (op_loop_contained _ _ _ _ _ _ _ HT Hlen HR HP Hcall _ _ _ _ _ Hc Hne Hs E) as [Hs1 K].
  destruct o1 as [sl'|e| |]; try (injection H as <- <-; split; auto; fail). destruct K as [K1 [K2 K3]].
  assert (F : forall x, In x sl' -> forall m, at_error items orig (XExec m (firstn (slot_idx x) orig) None false)).
  { intros x Hx m. rewrite Forall_forall in K1. destruct (good_slot_idx _ _ _ (proj1 (K1 _ Hx))) as [it Hit]. exists m, (slot_idx x), it, None.
    split; [reflexivity|]. split; [exact Hit|left; reflexivity]. }
  unfold ends in H. destruct sl' as [|x [|y l]]; [congruence| |].
  - inversion K1 as [|? ? Kx _]. subst. destruct x as [t i|r i]; injection H as <- <-; (split; [exact Hs1|]).
    + apply (F (SOp t i)). left. reflexivity.
    + split; [apply Kx|]. intros e He. apply (proj1 Kx). exact He.
  - assert (H' : (match filter slot_op (x :: y :: l) with z :: _ => raise (XExec MStuck (firstn (slot_idx z) orig) None false) | [] => pyerr end : M result) s1 = (o, s')) by (destruct x; exact H).
    destruct (filter slot_op (x :: y :: l)) as [|z zs] eqn:Ef.
    + exfalso. assert (Hall : forall z, In z (x :: y :: l) -> slot_op z = false).
      { intros z Hz. destruct (slot_op z) eqn:Ez; [|reflexivity]. assert (In z (filter slot_op (x :: y :: l))) by (apply filter_In; auto). rewrite Ef in H0. destruct H0. }
      pose proof (Hall x (or_introl eq_refl)) as Hx. pose proof (Hall y (or_intror (or_introl eq_refl))) as Hy.
      destruct x as [t i|r i]; [discriminate|]. destruct y as [t j|r' j]; [discriminate|]. apply (K3 0 r i r' j); reflexivity.
    + injection H' as <- <-. split; [exact Hs1|]. apply F. eapply proj1, filter_In. rewrite Ef. left. reflexivity.
Qed.
