(** Running programs of arithmetic. *)
From Coq Require Import ZArith QArith Qpower Ascii String List Bool Lia.
From Verif Require Import Base BaseProofs Dec DecProofs Num NumSpec NumProofs NumProofs2 NumProofs3 Lex LexSpec Bases BasesProofs Formats Units UnitsProofs5 Install InstallProofs Syntax Pos Call CallSpec Loop LoopSpec LoopProofs Parse Exec ExecSpec Std StdSpec StdProofs StdProofs2 StdProofs4 ArithSpec ArithProofs VarNameSpec ArithTextSpec ArithRunSpec ArithTextProofs ArithTextProofs2 ArithTextProofs3 ArithTextProofs4 ArithTextProofs5 ArithTextProofs6.
Import ListNotations.
Open Scope nat_scope.

(** * An assignment *)
Lemma set_rank L k o j : rank (g_ops (std L)) (gap_of o j) < rank (g_ops (std L)) (GOp ($"=") k).
Proof. destruct o; apply Nat.ltb_lt; vm_compute; reflexivity. Qed.
Lemma set_good L k : good_gap (g_ops (std L)) (GOp ($"=") k).
Proof.
  split; [apply mem_str_iff; reflexivity|]. split; [eexists; split; [apply find_set|]; split; reflexivity|repeat split; discriminate].
Qed.
Lemma set_execute L s m w1 n w2 w3 its w4 q c : blanks w1 -> blanks w2 -> blanks w3 -> blanks w4 -> all_ordinary s -> runs_to L false s m 4 its q c ->
  exists x, execute (std L) (S m) false (w1 ++ [IVar n] ++ w2 ++ [IOp ($"=")] ++ w3 ++ its ++ w4) s =
    (OOk (mkRes (VNum x) None None), mkSt (dset n (VNum x, None) (s_vars s)) (s_lft s)) /\ good x /\ lowest x /\ (val x == q)%Q /\ ncast x <> Some CPct /\ ncast x = c.
Proof.
  intros B1 B2 B3 B4 Ho H. destruct (H 2) as (t & (T1 & T2 & T3 & T4) & E).
  assert (V : exists x, refers x n /\ is_unit_val x = false /\ eval_item (std L) (execute (std L) m) false (IVar n) s = (OOk x, s)).
  { cbn [eval_item]. destruct (assoc n (s_vars s)) as [[xv xu]|] eqn:Ea; eexists; (split; [|split; [|reflexivity]]); try split; try reflexivity.
    all: specialize (Ho n xv xu Ea); cbn [rval mkRes is_unit_val]; destruct xv; try reflexivity; destruct Ho. }
  destruct V as (x & Rx & Ux & Ex). set (orig := ((((((w1 ++ [IVar n]) ++ w2) ++ [IOp ($"=")]) ++ w3) ++ its) ++ w4)).
  destruct (T4 orig) as [[(y & Ry & Uy & Gy & Ly & Vy & Py) Fy] A]. specialize (Fy y Ry). set (v := tree_value (g_ops (std L)) orig (real_interp L false s) t) in *.
  set (s' := mkSt (dset n (VNum y, None) (s_vars s)) (s_lft s)).
  assert (C : callop (std L) false ($"=") [x; v] s = (OOk (mkRes (VNum y) None None), s')).
  { rewrite (callop_set L false n x v s Rx); [rewrite Ry, Uy; reflexivity|unfold usable; rewrite Ry; reflexivity]. }
  assert (I : real_interp L false s ($"=") [x; v] = inl (mkRes (VNum y) None None)).
  { unfold real_interp. rewrite C. reflexivity. }
  assert (K : run_slots (g_ops (std L)) orig (callop (std L) false) (slots_of (chain_of (Node (GOp ($"=") 1) (Leaf (x, 0)) t))) s = (OOk (mkRes (VNum y) None None), s')).
  { rewrite (loop_runs_end (g_ops (std L)) orig (callop (std L) false) (real_interp L false s) (Node (GOp ($"=") 1) (Leaf (x, 0)) t) s s').
    - cbn [tree_value fst gap_sym]. fold v. rewrite I. reflexivity.
    - apply std_good.
    - cbn [chain_of fst snd app]. destruct T2 as [T2 T2']. split; [exact Ux|]. constructor; [split; [apply set_good|exact T2]|exact T2'].
    - apply real_no_units.
    - cbn [grouped]. split; [exact Logic.I|]. split; [exact T1|]. split; [exact Logic.I|]. destruct t as [z|g l r]; [exact Logic.I|]. destruct T3 as (o & j & -> & _). left. apply set_rank.
    - split.
      + intros g l r [Hs|[Hs|Hs]] Hne; [congruence| |apply A, Hs]. destruct Hs as [Hs|[]]. discriminate Hs.
      + cbn [tree_value fst gap_sym]. fold v. unfold interp_call. rewrite I, C. reflexivity. }
  exists y. split; [|auto 7]. cbn [execute]. unfold execute_body. rewrite (functional_in _ (IVar n)); [|rewrite !in_app_iff; cbn [In]; tauto|reflexivity].
  unfold bind. rewrite (operands_blank _ _ _ w1) by exact B1. cbn [app].
  rewrite (operands_item _ _ _ _ _ _ _ _ x s s); [|reflexivity|reflexivity|exact Ex]. rewrite (operands_blank _ _ _ w2) by exact B2. rewrite operands_op.
  rewrite (operands_blank _ _ _ w3) by exact B3. cbn [app]. rewrite E, operands_end by exact B4.
  fold orig. replace ([SRes x 0; SOp ($"=") 1] ++ slots_of (chain_of t)) with (slots_of (chain_of (Node (GOp ($"=") 1) (Leaf (x, 0)) t))) by (rewrite tree_slots; reflexivity).
  rewrite K. reflexivity.
Qed.

(** * All lines *)
Lemma hold_then vars s n e q x : vars_hold vars s -> avalue vars e = Some q -> good x -> lowest x -> (val x == q)%Q -> ncast x <> Some CPct ->
  vars_hold (vars_then vars (LSet n e)) (mkSt (dset n (VNum x, None) (s_vars s)) (s_lft s)).
Proof.
  intros H Hq G Lo V Pc m z. cbn [vars_then s_vars]. rewrite assoc_dset. destruct (seq_eqb n m).
  - rewrite Hq. intros E. injection E as <-. exists x. auto.
  - intros E. exact (H m z E).
Qed.
Lemma ordinary_then s n x : all_ordinary s -> all_ordinary (mkSt (dset n (VNum x, None) (s_vars s)) (s_lft s)).
Proof.
  intros H m v u. cbn [s_vars]. rewrite assoc_dset. destruct (seq_eqb n m); [|apply H]. intros E. injection E as <- _. exact I.
Qed.
Lemma aformat_ext f g e : (forall n, f n = g n) -> aformat f e = aformat g e.
Proof. intros H. induction e as [l|n|o a IHa b IHb|h a IHa|h a IHa b IHb]; cbn [aformat]; try rewrite IHa; try rewrite IHb; auto. Qed.
Lemma lines_run L k m fl : pow_ok (l_prec L) (f_pow (l_fmt L)) -> (0 <= k)%Z -> (3 * k + 1 <= l_prec L)%Z -> cf_parse_only fl = false -> cf_stl fl = false ->
  forall sts ls, Forall2 (line_shape (l_prec L) m) sts ls -> forall vars fmts s before rs, vars_hold vars s -> (forall n, fmts n = shown_as s n) -> all_ordinary s -> all_stay vars (l_prec L) k ls ->
  exists rs' s', run_statements (std L) (execute (std L) (S m) (cf_stl fl)) fl before sts rs s = (CDone (rs ++ rs'), s') /\
    Forall2 answers_with (answers vars ls) rs' /\ vars_hold (vars_end vars ls) s' /\ all_ordinary s' /\ s_lft s' = s_lft s /\
    (forall n, (forall e, ~ In (LSet n e) ls) -> assoc n (s_vars s') = assoc n (s_vars s)) /\ Forall2 answers_as (formats_along fmts ls) rs'.
Proof.
  intros Hpow Hk Hp Hpo Hst sts ls H. induction H as [|its l sts ls Hl Hls IH]; intros vars fmts s before rs Hv Hf Ho Hs.
  - exists [], s. cbn [run_statements]. rewrite app_nil_r. repeat split; auto; try constructor.
  - cbn [all_stay] in Hs. destruct Hs as [Hs1 Hs2]. cbn [run_statements]. set (before' := before ++ [its]).
    assert (G : forall ans s1, answers_with (line_value vars l) (mkCR its ans (if cf_state fl then Some (s_vars s1) else None)) -> vars_hold (vars_then vars l) s1 -> all_ordinary s1 -> s_lft s1 = s_lft s ->
      (forall n, (forall e, l <> LSet n e) -> assoc n (s_vars s1) = assoc n (s_vars s)) ->
      answers_as (line_format fmts l) (mkCR its ans (if cf_state fl then Some (s_vars s1) else None)) -> (forall n, fmts_then fmts l n = shown_as s1 n) ->
      exists rs' s', run_statements (std L) (execute (std L) (S m) (cf_stl fl)) fl before' sts (rs ++ [mkCR its ans (if cf_state fl then Some (s_vars s1) else None)]) s1 = (CDone (rs ++ rs'), s') /\
        Forall2 answers_with (answers vars (l :: ls)) rs' /\ vars_hold (vars_end vars (l :: ls)) s' /\ all_ordinary s' /\ s_lft s' = s_lft s /\
        (forall n, (forall e, ~ In (LSet n e) (l :: ls)) -> assoc n (s_vars s') = assoc n (s_vars s)) /\ Forall2 answers_as (formats_along fmts (l :: ls)) rs').
    { intros ans s1 A1 A2 A3 A4 A5 A6 A7. destruct (IH (vars_then vars l) (fmts_then fmts l) s1 before' (rs ++ [mkCR its ans (if cf_state fl then Some (s_vars s1) else None)]) A2 A7 A3 Hs2) as (rs' & s' & R & F & V & O & Lf & N & K).
      exists (mkCR its ans (if cf_state fl then Some (s_vars s1) else None) :: rs'), s'. split; [rewrite R, <- app_assoc; reflexivity|].
      split; [cbn [answers]; constructor; assumption|]. split; [exact V|]. split; [exact O|]. split; [congruence|]. split; [|cbn [formats_along]; constructor; assumption]. intros n Hn. rewrite N, A5; [reflexivity| |].
      - intros e E. apply (Hn e). left. exact E.
      - intros e E. apply (Hn e). right. exact E. }
    destruct Hl as [w Hw|w1 its w2 e B1 B2 Hsh|w1 n w2 w3 its w4 e B1 B2 B3 B4 Hsh].
    + rewrite functional_blanks by exact Hw. cbn [is_nil orb]. apply G; auto.
    + rewrite !functional_app, (functional_blanks w1 B1), (functional_blanks w2 B2), app_nil_r. cbn [app]. rewrite (shape_functional _ _ _ _ _ Hsh), Hpo. cbn [orb].
      destruct (stays_value _ _ _ _ Hs1) as (q & Q1 & _).
      destruct (runs_execute L (cf_stl fl) s m 4 w1 its w2 q (aformat (shown_as s) e) B1 B2 (shape_functional _ _ _ _ _ Hsh) (shape_runs L (cf_stl fl) s vars k Hpow Hk Hp Hv _ _ _ _ Hsh m q (le_n _) Hs1 Q1)) as (r & R & [(x & Rx & Ux & Gx & Lx & Vx & _) Fx]).
      rewrite R, Rx. change (g_final (std L) r) with (Ok r). cbn match. rewrite Rx, Ux. apply G; auto; [unfold answers_with; cbn [line_value cr_answer]; rewrite Q1; auto|].
      unfold answers_as. cbn [line_format cr_answer]. rewrite (Fx x Rx). symmetry. exact (aformat_ext _ _ e Hf).
    + rewrite (functional_in _ (IVar n)); [|rewrite !in_app_iff; cbn [In]; tauto|reflexivity]. rewrite Hpo, Hst. cbn [orb].
      destruct (stays_value _ _ _ _ Hs1) as (q & Q1 & _).
      destruct (set_execute L s m w1 n w2 w3 its w4 q (aformat (shown_as s) e) B1 B2 B3 B4 Ho (shape_runs L false s vars k Hpow Hk Hp Hv _ _ _ _ Hsh m q (le_n _) Hs1 Q1)) as (x & R & Gx & Lx & Vx & Px & Fx).
      rewrite Hst in G. rewrite R. cbn [rval mkRes]. change (g_final (std L) ?r) with (Ok r). cbn match. cbn [rval runit mkRes]. apply G.
      * unfold answers_with. cbn [line_value cr_answer]. rewrite Q1. auto.
      * exact (hold_then vars s n e q x Hv Q1 Gx Lx Vx Px).
      * apply ordinary_then, Ho.
      * reflexivity.
      * intros j Hj. cbn [s_vars]. rewrite assoc_dset. destruct (seq_eqb n j) eqn:Ej; [|reflexivity]. apply seq_eqb_iff in Ej. subst j. destruct (Hj e eq_refl).
      * unfold answers_as. cbn [line_format cr_answer]. rewrite Fx. symmetry. exact (aformat_ext _ _ e Hf).
      * intros j. unfold shown_as. cbn [fmts_then s_vars]. rewrite assoc_dset. destruct (seq_eqb n j); [rewrite Fx; exact (aformat_ext _ _ e Hf)|exact (Hf j)].
Qed.
Lemma stay_fits vars p k ls : all_stay vars p k ls -> Forall (line_fits p) ls.
Proof.
  revert vars. induction ls as [|l ls IH]; intros vars; [constructor|]. cbn [all_stay]. intros [H1 H2]. constructor; [|exact (IH _ H2)]. destruct l as [|e|n e]; [exact I| |]; exact (stays_fit _ _ _ _ H1).
Qed.
Lemma program_runs L vars k texts ls n fl s : exp_letter L -> pow_ok (l_prec L) (f_pow (l_fmt L)) -> (0 <= k)%Z -> (3 * k + 1 <= l_prec L)%Z ->
  Forall2 line_reads texts ls -> lines_text texts <> [] -> vars_hold vars s -> all_ordinary s -> s_lft s = None -> all_stay vars (l_prec L) k ls ->
  length (lines_text texts) < n -> cf_parse_only fl = false -> cf_stl fl = false ->
  exists rs s', calculate (std L) n fl (lines_text texts) s = (CDone rs, s') /\ Forall2 answers_with (answers vars ls) rs /\
    vars_hold (vars_end vars ls) s' /\ all_ordinary s' /\ s_lft s' = None /\ (forall n, (forall e, ~ In (LSet n e) ls) -> assoc n (s_vars s') = assoc n (s_vars s)) /\ Forall2 answers_as (formats_along (shown_as s) ls) rs.
Proof.
  intros He Hpow Hk Hp Ht Hne Hv Ho Hl Hs Hn Hpo Hst. assert (Hls : ls <> []) by (intros ->; inversion Ht; subst; apply Hne; reflexivity).
  destruct (lines_parse L texts ls He ltac:(lia) Ht (stay_fits _ _ _ _ Hs) Hls) as (sts & Ss & P). unfold calculate, calculate_with.
  destruct (lines_text texts) as [|c t] eqn:Et; [congruence|]. rewrite <- Et in *. rewrite Hl. change (g_parse (std L)) with (std_pcfg L). rewrite P.
  replace (mkSt (s_vars s) None) with s by (clear - Hl; destruct s as [sv sl]; cbn [s_lft] in Hl; rewrite Hl; reflexivity). destruct n as [|m]; [lia|].
  assert (Sm : Forall2 (line_shape (l_prec L) m) sts ls).
  { clear - Ss Hn. induction Ss as [|a b A B H _ IH]; constructor; [apply (line_deeper _ _ _ _ _ H); lia|exact IH]. }
  destruct (lines_run L k m fl Hpow Hk Hp Hpo Hst sts ls Sm vars (shown_as s) s [] [] Hv (fun _ => eq_refl) Ho Hs) as (rs & s' & R & F & V & O & Lf & N & K).
  exists rs, s'. repeat split; auto. congruence.
Qed.
