(** Looking up unit names, and finding them in a text. *)
From Coq Require Import ZArith QArith Ascii String List Bool Lia.
From Verif Require Import Base BaseProofs Bases Units UnitsProofs5 UnitReg UnitCalc Syntax InstallProofs NameSpec.
Import ListNotations.
Open Scope nat_scope.

(** * Looking up *)
Lemma fold_dset_assoc {A} (f : str -> str) (d : A) k : forall names t,
  assoc k (fold_left (fun t n => dset (f n) d t) names t) = if mem_str k (map f names) then Some d else assoc k t.
Proof.
  induction names as [|n names IH]; intros t; cbn [fold_left map]; [reflexivity|]. rewrite IH. unfold mem_str. cbn [existsb].
  fold (mem_str k (map f names)). destruct (mem_str k (map f names)); [rewrite orb_true_r; reflexivity|]. rewrite orb_false_r.
  rewrite assoc_dset. rewrite seq_eqb_sym. reflexivity.
Qed.
Definition all_added (us : list unit) (r : unitreg) : unitreg := fold_left (fun r u => reg_add_unit u r) us r.
Lemma last_with_app P us u v : last_with P (us ++ [v]) u <-> (P v /\ u = v) \/ (~ P v /\ last_with P us u).
Proof.
  split.
  - intros [a [b [E [Hu Hb]]]]. destruct b as [|w b _] using rev_ind.
    + apply app_inj_tail in E. destruct E as [_ ->]. left. auto.
    + rewrite app_comm_cons, app_assoc in E. apply app_inj_tail in E. destruct E as [-> ->]. apply Forall_app in Hb. destruct Hb as [H1 H2].
      right. split; [inversion H2; assumption|]. exists a, b. auto.
  - intros [[Hv ->]|[Hv [a [b [-> [Hu Hb]]]]]].
    + exists us, []. auto.
    + exists a, (b ++ [v]). rewrite <- app_assoc. split; [reflexivity|]. split; [exact Hu|]. apply Forall_app. auto.
Qed.
Lemma names_added us k : forall d, assoc k (rnames (all_added us (mkReg [] [] []))) = Some d <->
  exists u, d = UDef u /\ last_with (fun u => In k (map lower (unames u))) us u.
Proof.
  induction us as [|v us IH] using rev_ind; intros d.
  - split; [discriminate|]. intros [u [_ [a [b [E _]]]]]. destruct a; discriminate.
  - unfold all_added. rewrite fold_left_app. cbn [fold_left]. fold (all_added us (mkReg [] [] [])). unfold reg_add_unit, reg_names. cbn [rnames].
    rewrite fold_dset_assoc. destruct (mem_str k (map lower (unames v))) eqn:E.
    + apply UnitsProofs5.mem_str_iff in E. split.
      * intros H. injection H as <-. exists v. split; [reflexivity|]. apply last_with_app. auto.
      * intros [u [-> H]]. apply last_with_app in H. destruct H as [[_ ->]|[H _]]; [reflexivity|contradiction].
    + apply mem_false in E. rewrite IH. split.
      * intros [u [-> H]]. exists u. split; [reflexivity|]. apply last_with_app. auto.
      * intros [u [-> H]]. exists u. split; [reflexivity|]. apply last_with_app in H. destruct H as [[H _]|[_ H]]; [contradiction|exact H].
Qed.
Lemma syms_added us k : forall d, assoc k (rsyms (all_added us (mkReg [] [] []))) = Some d <->
  exists u, d = UDef u /\ last_with (fun u => In k (usyms u)) us u.
Proof.
  induction us as [|v us IH] using rev_ind; intros d.
  - split; [discriminate|]. intros [u [_ [a [b [E _]]]]]. destruct a; discriminate.
  - unfold all_added. rewrite fold_left_app. cbn [fold_left]. fold (all_added us (mkReg [] [] [])). unfold reg_add_unit, reg_names. cbn [rsyms].
    rewrite (fold_dset_assoc (fun x => x)), map_id. destruct (mem_str k (usyms v)) eqn:E.
    + apply UnitsProofs5.mem_str_iff in E. split.
      * intros H. injection H as <-. exists v. split; [reflexivity|]. apply last_with_app. auto.
      * intros [u [-> H]]. apply last_with_app in H. destruct H as [[_ ->]|[H _]]; [reflexivity|contradiction].
    + apply mem_false in E. rewrite IH. split.
      * intros [u [-> H]]. exists u. split; [reflexivity|]. apply last_with_app. auto.
      * intros [u [-> H]]. exists u. split; [reflexivity|]. apply last_with_app in H. destruct H as [[H _]|[_ H]]; [contradiction|exact H].
Qed.
Lemma no_ambigs us : forall r, ambigs (all_added us r) = ambigs r.
Proof. induction us as [|u us IH]; intros r; [reflexivity|]. unfold all_added in *. cbn [fold_left]. rewrite IH. reflexivity. Qed.
Lemma last_with_some P us : (forall u, P u \/ ~ P u) -> (exists u, last_with P us u) \/ Forall (fun u => ~ P u) us.
Proof.
  intros D. induction us as [|v us IH] using rev_ind; [right; constructor|]. destruct (D v) as [Hv|Hv].
  - left. exists v. apply last_with_app. auto.
  - destruct IH as [[u H]|H]; [left; exists u; apply last_with_app; auto|right; apply Forall_app; auto].
Qed.
Lemma last_with_none P us u : Forall (fun u => ~ P u) us -> ~ last_with P us u.
Proof. intros H [a [b [-> [Hu _]]]]. apply Forall_app in H. destruct H as [_ H]. inversion H. contradiction. Qed.
Theorem lookup_added : forall prefs us name,
  (forall u, last_with (has_name name) us u -> get_unit prefs (all_added us (mkReg [] [] [])) name = Ok (Some (UDef u))) /\
  (Forall (fun u => ~ has_name name u) us ->
    (forall u, last_with (has_symbol name) us u -> get_unit prefs (all_added us (mkReg [] [] [])) name = Ok (Some (UDef u))) /\
    (Forall (fun u => ~ has_symbol name u) us -> get_unit prefs (all_added us (mkReg [] [] [])) name = Ok None)).
Proof.
  intros prefs us name. unfold get_unit. rewrite no_ambigs. cbn [ambigs find_ambig]. split.
  - intros u H. assert (E : assoc (lower name) (rnames (all_added us (mkReg [] [] []))) = Some (UDef u)) by (apply names_added; eauto).
    rewrite E. reflexivity.
  - intros Hn. destruct (assoc (lower name) (rnames (all_added us (mkReg [] [] [])))) as [d|] eqn:E.
    { apply names_added in E. destruct E as [u [_ H]]. exfalso. eapply last_with_none; [exact Hn|exact H]. }
    split.
    + intros u H. f_equal. apply syms_added. eauto.
    + intros H. f_equal. destruct (assoc name (rsyms (all_added us (mkReg [] [] [])))) as [d|] eqn:E1; [|reflexivity].
      apply syms_added in E1. destruct E1 as [u [_ K]]. exfalso. eapply last_with_none; [exact H|exact K].
Qed.

(** * Names fit *)
Definition names_fit (N : normaliser) : Prop := forall k d, In (k, d) (rnames (n_reg N)) -> length k <= n_maxlen N.
Lemma lower_length s : length (lower s) = length s.
Proof. unfold lower. apply map_length. Qed.
Lemma In_dset {A} k (v : A) l k' v' : In (k', v') (dset k v l) -> (k' = k /\ v' = v) \/ In (k', v') l \/ (k' = k).
Proof.
  induction l as [|[a b] l IH]; cbn [dset]; [intros [H|[]]; injection H as <- <-; auto|].
  destruct (seq_eqb a k) eqn:E; cbn [In].
  - intros [H|H]; [|auto]. injection H as <- <-. apply seq_eqb_iff in E. auto.
  - intros [H|H]; [auto|]. destruct (IH H) as [K|[K|K]]; auto.
Qed.
Lemma max_len_ge names : forall n, n <= max_len names n /\ forall s, In s names -> length s <= max_len names n.
Proof.
  unfold max_len. induction names as [|x names IH]; intros n; cbn [fold_left]; [split; [lia|intros s []]|].
  destruct (IH (Nat.max n (length x))) as [H1 H2]. split; [lia|]. intros s [->|H]; [lia|auto].
Qed.
Lemma fit_names names syms d r n : (forall k d, In (k, d) (rnames r) -> length k <= n) ->
  forall k d', In (k, d') (rnames (reg_names names syms d r)) -> length k <= max_len names n.
Proof.
  intros H. unfold reg_names. cbn [rnames].
  assert (K : forall l t, (forall s, In s l -> length s <= max_len names n) -> (forall k d', In (k, d') t -> length k <= max_len names n) ->
    forall k d', In (k, d') (fold_left (fun t n => dset (lower n) d t) l t) -> length k <= max_len names n).
  { induction l as [|x l IH]; intros t Hl Ht; cbn [fold_left]; [exact Ht|]. apply IH; [intros s Hs; apply Hl; right; exact Hs|].
    assert (Hx : length (lower x) <= max_len names n) by (rewrite lower_length; apply Hl; left; reflexivity).
    intros k d' Hk. apply In_dset in Hk. destruct Hk as [[-> _]|[Hk| ->]]; [exact Hx|eapply Ht, Hk|exact Hx]. }
  apply K; [apply max_len_ge|]. intros k d' Hk. destruct (max_len_ge names n) as [Hm _]. specialize (H _ _ Hk). lia.
Qed.
Lemma fit_step s N N' : names_fit N -> reg_step N s = Ok N' -> names_fit N'.
Proof.
  assert (A : forall dim mk N N', names_fit N -> add_unit dim mk N = Ok N' -> names_fit N').
  { intros dim mk M M' H E. unfold add_unit in E. destruct (mem_str _ _); [|discriminate]. injection E as <-. unfold names_fit. cbn [n_reg n_maxlen].
    apply (fit_names _ _ (UDef (c_unit (mk (n_next M))))). exact H. }
  intros H E. destruct s; cbn [reg_step] in E.
  - unfold add_dimension in E. destruct rel as [l|]; [destruct (forallb _ l); [|discriminate]|]; injection E as <-; exact H.
  - eapply A; eassumption.
  - revert E. generalize (n_prefixes N). intros ps. revert H. generalize N. clear N. induction ps as [|p ps IH]; intros M H E; cbn [add_prefixed] in E; [injection E as <-; exact H|].
    destruct (within lo hi (p_scale p)).
    + destruct (add_unit _ _ M) as [M1| |] eqn:E1; try discriminate. cbn [obind] in E. eapply IH; [eapply A; eassumption|exact E].
    + cbn [obind] in E. eapply IH; eassumption.
  - unfold add_ambiguous, reg_add_ambiguous in E. destruct (ambig_fill _ _ _ _) as [a| |] eqn:E1; try discriminate. cbn [obind] in E. injection E as <-.
    unfold names_fit. cbn [n_reg n_maxlen].
    assert (Ea : forall units a0 a, ambig_fill (n_prefs N) (n_reg N) units a0 = Ok a -> anames a = anames a0).
    { clear. induction units as [|u units IH]; intros a0 a H; cbn [ambig_fill] in H; [injection H as <-; reflexivity|].
      destruct (get_unit _ _ u) as [[[v|x]|]| |]; try discriminate. cbn [obind] in H. destruct (ambig_add a0 v) as [a1|] eqn:E; [|discriminate].
      rewrite (IH _ _ H). unfold ambig_add in E. revert E.
      assert (K : forall l acc, (match acc with Some x => anames x = anames a0 | None => True end) ->
        match fold_left (fun acc s => match acc with None => None | Some a => match assoc s (aunits a) with Some _ => None | None => Some (mkAmbig (anames a) (asyms a) (aunits a ++ [(s, v)])) end end) l acc with Some x => anames x = anames a0 | None => True end).
      { induction l as [|s l IHl]; intros acc Ha; cbn [fold_left]; [exact Ha|]. apply IHl. destruct acc as [x|]; [|exact I]. destruct (assoc s (aunits x)); [exact I|exact Ha]. }
      specialize (K (usystems v) (Some a0) eq_refl). intros E. rewrite E in K. exact K. }
    try rewrite (Ea _ _ _ E1). cbn [anames]. eapply (fit_names names _ _ (mkReg _ _ _)). exact H.
  - unfold add_multiunit in E. destruct (make_multiunit N l); try discriminate. cbn [obind] in E. injection E as <-. exact H.
  - unfold add_system in E. destruct (get_unit _ _ _) as [[[v|x]|]| |]; try discriminate. cbn [obind] in E. injection E as <-.
    intros k d Hk. cbn [n_reg rnames n_maxlen] in *. apply in_map_iff in Hk. destruct Hk as [[k' d'] [E1 E2]]. cbn [fst] in E1. injection E1 as <- _. eapply H, E2.
  - injection E as <-. exact H.
  - injection E as <-. exact H.
Qed.
Theorem steps_fit : forall l N N', names_fit N -> reg_steps l N = Ok N' -> names_fit N'.
Proof.
  induction l as [|s l IH]; intros N N' H E; cbn [reg_steps] in E; [injection E as <-; exact H|].
  destruct (reg_step N s) as [M| |] eqn:E1; try discriminate. cbn [obind] in E. eapply IH; [eapply fit_step; eassumption|exact E].
Qed.
Lemma init_fit : names_fit norm_init.
Proof. intros k d []. Qed.

(** * Finding them in a text *)
Lemma bound_in_iff {A} k (l : list (str * A)) : bound_in k l = true <-> exists d, In (k, d) l.
Proof.
  unfold bound_in. induction l as [|[a b] l IH]; cbn [assoc In]; [split; [discriminate|intros [d []]]|]. destruct (seq_eqb a k) eqn:E.
  - apply seq_eqb_iff in E. subst. split; [eauto|reflexivity].
  - rewrite IH. split; intros [d H]; exists d; [auto|]. destruct H as [H|H]; [|exact H]. injection H as -> _. rewrite seq_eqb_refl in E. discriminate.
Qed.
Lemma unit_end_iff s n : unit_end s n = true <-> forall c, nth_error s n = Some c -> unit_char c = false.
Proof.
  unfold unit_end. destruct (nth_error s n) as [c|]; split; intros H.
  - intros c' E. injection E as <-. apply negb_true_iff. exact H.
  - apply negb_true_iff. apply H. reflexivity.
  - discriminate.
  - reflexivity.
Qed.
Lemma lex_unit_spec N syms s : forall n, n <= length s -> n <= n_maxlen N ->
  (lex_unit N syms s n = Ok None /\ forall m, m <= n -> ~ unit_here N syms s m) \/
  exists m, m <= n /\ unit_here N syms s m /\ (forall k, m < k <= n -> ~ unit_here N syms s k) /\
    lex_unit N syms s n = the_unit N (firstn m s).
Proof.
  induction n as [|n IH]; intros Hl Hm.
  - left. split; [reflexivity|]. intros m H [H1 _]. lia.
  - cbn [lex_unit]. cbv zeta.
    assert (D : (bound_in (lower (firstn (S n) s)) (rnames (n_reg N)) && unit_end s (S n) = true \/ syms && bound_in (firstn (S n) s) (rsyms (n_reg N)) && unit_end s (S n) = true)
      <-> unit_here N syms s (S n)).
    { unfold unit_here. rewrite !andb_true_iff, !bound_in_iff, unit_end_iff. split.
      - intros [[H1 H2]|[[H0 H1] H2]]; repeat split; auto; lia.
      - intros [_ [_ [H1 [H2|[H2 [_ H3]]]]]]; auto. }
    destruct (bound_in (lower (firstn (S n) s)) (rnames (n_reg N)) && unit_end s (S n)) eqn:E1.
    { right. exists (S n). split; [lia|]. split; [apply D; auto|]. split; [lia|reflexivity]. }
    destruct (syms && bound_in (firstn (S n) s) (rsyms (n_reg N)) && unit_end s (S n)) eqn:E2.
    { right. exists (S n). split; [lia|]. split; [apply D; auto|]. split; [lia|reflexivity]. }
    assert (ND : ~ unit_here N syms s (S n)) by (intros H; apply D in H; destruct H; discriminate).
    destruct IH as [[H1 H2]|[m [H1 [H2 [H3 H4]]]]]; [lia|lia| |].
    + left. split; [exact H1|]. intros m Hm'. destruct (Nat.eq_dec m (S n)) as [->|Hne]; [exact ND|]. apply H2. lia.
    + right. exists m. split; [lia|]. split; [exact H2|]. split; [|exact H4]. intros k Hk. destruct (Nat.eq_dec k (S n)) as [->|Hne]; [exact ND|]. apply H3. lia.
Qed.
Theorem parse_units_longest : forall U s, names_fit (u_norm U) ->
  (parse_units U s = Ok None /\ forall m, ~ unit_here (u_norm U) (u_syms U) s m) \/
  exists m, unit_here (u_norm U) (u_syms U) s m /\ (forall k, m < k -> ~ unit_here (u_norm U) (u_syms U) s k) /\
    parse_units U s = the_unit (u_norm U) (firstn m s).
Proof.
  intros U s Hf. unfold parse_units.
  assert (B : forall m, unit_here (u_norm U) (u_syms U) s m -> m <= Nat.min (n_maxlen (u_norm U)) (length s)).
  { intros m [_ [H1 [_ [[d H2]|[_ [H2 _]]]]]]; [|lia]. apply Hf in H2. rewrite lower_length, firstn_length in H2. lia. }
  destruct (lex_unit_spec (u_norm U) (u_syms U) s (Nat.min (n_maxlen (u_norm U)) (length s))) as [[H1 H2]|[m [H1 [H2 [H3 H4]]]]]; [lia|lia| |].
  - left. split; [exact H1|]. intros m H. apply (H2 m); [apply B, H|exact H].
  - right. exists m. split; [exact H2|]. split; [|exact H4]. intros k Hk H. apply (H3 k); [specialize (B _ H); lia|exact H].
Qed.
