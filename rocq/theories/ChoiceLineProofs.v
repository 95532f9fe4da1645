(** Running programs of choices. *)
From Coq Require Import ZArith QArith Qpower Ascii String List Bool Lia.
From Verif Require Import Base BaseProofs Dec DecProofs Num NumSpec NumProofs NumProofs2 NumProofs3 NumProofs4 Lex LexSpec Bases BasesProofs Formats Units UnitsProofs5 Install InstallProofs Syntax Pos PosSpec PosProofs Call CallSpec Loop LoopSpec LoopProofs Parse Prop_Parse Exec ExecSpec ErrorSpec ErrorProofs ErrorProofs2 ErrorProofs3 ContainSpec ContainProofs2 Std StdSpec StdProofs StdProofs2 StdProofs4 StdProofs5 ArithSpec ArithProofs VarNameSpec ArithTextSpec ArithRunSpec ArithTextProofs ArithTextProofs2 ArithTextProofs3 ArithTextProofs4 ArithFunProofs ArithTextProofs5 ArithTextProofs6 ArithTextProofs7 ArithErrSpec ArithErrProofs ArithErrProofs2 ArithErrFun ArithErrProofs3 ArithErrProofs4 CondTextSpec CondTextProofs CondTextProofs2 ChoiceTextSpec ChoiceTextProofs ChoiceTextProofs2 ChoiceLineSpec ChoiceLineParse ChoiceLineRun.
Import ListNotations.
Open Scope nat_scope.

Definition assigns (l : cline) (n : str) : Prop := match l with KSet _ m _ | KStep _ m => m = n | _ => False end.
Lemma cthen_set vars l n : assigns l n -> cvars_then vars l = (fun m => if seq_eqb n m then cline_value vars l else vars m).
Proof. destruct l; cbn [assigns cvars_then]; intros H; try destruct H; reflexivity. Qed.
Lemma cexactly_set vars s l n q x : assigns l n -> vars_exactly vars s -> cline_value vars l = Some q -> good x -> lowest x -> (val x == q)%Q -> ncast x = None ->
  vars_exactly (cvars_then vars l) (mkSt (dset n (VNum x, None) (s_vars s)) (s_lft s)).
Proof.
  intros Hl [H1 H2] Hq G Lo V C. rewrite (cthen_set vars l n Hl). split.
  - intros m z. cbn [s_vars]. rewrite assoc_dset. destruct (seq_eqb n m).
    + rewrite Hq. intros E. injection E as <-. exists x. repeat split; auto; try apply G; rewrite C; discriminate.
    + intros E. exact (H1 m z E).
  - intros m. cbn [s_vars]. rewrite assoc_dset. destruct (seq_eqb n m).
    + rewrite Hq. split; [discriminate|exact C].
    + exact (H2 m).
Qed.
Lemma value_meant vars l : cline_value vars l <> None -> exists a q, meant vars l = Some a /\ cline_value vars l = Some q /\ judge vars a = Worth q.
Proof.
  unfold cline_value. destruct (meant vars l) as [a|]; [|congruence]. intros H. destruct (avalue vars a) as [q|] eqn:E; [|congruence]. exists a, q. split; [reflexivity|]. split; [reflexivity|]. apply judge_value, E.
Qed.
Lemma sized_meant vars p k l a : cline_sized vars p k l -> meant vars l = Some a -> sized vars p k a.
Proof. intros [_ H] E. rewrite E in H. exact H. Qed.
Lemma meant_set vars h n e a : meant vars (KSet h n e) = Some a -> exists b, chosen vars e = Some b /\ a = computed h n b.
Proof. cbn [meant]. destruct (chosen vars e) as [b|]; [|discriminate]. cbn [option_map]. intros E. injection E as <-. eauto. Qed.
Lemma clines_exact L k m fl : pow_ok (l_prec L) (f_pow (l_fmt L)) -> showable L k -> (3 * k + 1 <= l_prec L)%Z -> cf_parse_only fl = false -> cf_stl fl = false ->
  forall sts ls, Forall2 (cline_shape (l_prec L) m) sts ls -> Forall (Forall spelled) sts -> forall vars s before rs, vars_exactly vars s -> call_stay vars (l_prec L) k ls ->
  exists rs' s', run_statements (std L) (execute (std L) (S m) (cf_stl fl)) fl before sts rs s = (CDone (rs ++ rs'), s') /\
    Forall2 answers_with (canswers vars ls) rs' /\ vars_exactly (cvars_end vars ls) s' /\ s_lft s' = s_lft s.
Proof.
  intros Hpow Hk Hp Hpo Hst sts ls H. induction H as [|its l sts ls Hl Hls IH]; intros Sp vars s before rs Hv Hs.
  - exists [], s. cbn [run_statements]. rewrite app_nil_r. repeat split; auto; try constructor; apply Hv.
  - cbn [call_stay] in Hs. destruct Hs as (Hz & Hq & Hs2). apply Forall_cons_iff in Sp as [Sp1 Sp2]. cbn [run_statements]. set (before' := before ++ [its]).
    assert (G : forall ans s1, answers_with (cline_value vars l) (mkCR its ans (if cf_state fl then Some (s_vars s1) else None)) -> vars_exactly (cvars_then vars l) s1 -> s_lft s1 = s_lft s ->
      exists rs' s', run_statements (std L) (execute (std L) (S m) (cf_stl fl)) fl before' sts (rs ++ [mkCR its ans (if cf_state fl then Some (s_vars s1) else None)]) s1 = (CDone (rs ++ rs'), s') /\
        Forall2 answers_with (canswers vars (l :: ls)) rs' /\ vars_exactly (cvars_end vars (l :: ls)) s' /\ s_lft s' = s_lft s).
    { intros ans s1 A1 A2 A4. destruct (IH Sp2 (cvars_then vars l) s1 before' (rs ++ [mkCR its ans (if cf_state fl then Some (s_vars s1) else None)]) A2 Hs2) as (rs' & s' & R & F & V & Lf).
      exists (mkCR its ans (if cf_state fl then Some (s_vars s1) else None) :: rs'), s'. split; [rewrite R, <- app_assoc; reflexivity|].
      split; [cbn [canswers]; constructor; assumption|]. split; [exact V|congruence]. }
    destruct Hl as [w Hw|w1 its w2 e B1 B2 Hsh|h w1 n w2 w3 its w4 e Hh B1 B2 B3 B4 Hsh|up w1 n w2 w3 B1 B2 B3].
    + rewrite functional_blanks by exact Hw. cbn [is_nil orb]. apply G; [exact I|exact Hv|reflexivity].
    + rewrite !functional_app, (functional_blanks w1 B1), (functional_blanks w2 B2), app_nil_r. cbn [app]. rewrite (cshape_functional _ _ _ _ _ Hsh), Hpo. cbn [orb].
      destruct (value_meant vars _ Hq) as (a & q & Ha & Q1 & J). cbn [meant] in Ha. rewrite !Forall_app in Sp1. destruct Sp1 as (_ & Sp1 & _).
      destruct (cshape_runs L (cf_stl fl) s vars k Hpow Hk Hp Hv _ _ _ _ Hsh m (le_n _) Sp1 (proj1 Hz)) as (R0 & _).
      unfold cjudge in R0. rewrite Ha, J in R0. destruct (R0 w1 w2 B1 B2) as (r & R & (x & Rx & Ux & Gx & Lx & Vx & _)).
      rewrite R, Rx. change (g_final (std L) r) with (Ok r). cbn match. rewrite Rx, Ux. apply G; auto. unfold answers_with. cbn [cr_answer]. rewrite Q1. auto.
    + rewrite (functional_in _ (IVar n)); [|rewrite !in_app_iff; cbn [In]; tauto|reflexivity]. rewrite Hpo, Hst. cbn [orb].
      destruct (value_meant vars _ Hq) as (a & q & Ha & Q1 & J). pose proof (sized_meant _ _ _ _ a Hz Ha) as Sz. destruct (meant_set _ _ _ _ _ Ha) as (b & Hb & ->). rewrite !Forall_app in Sp1. destruct Sp1 as (_ & _ & _ & _ & _ & Sp1 & _).
      destruct (cset_runs L s vars k Hpow Hk Hp Hv _ _ _ Hsh m h n b (le_n _) Sp1 (proj1 Hz) Hb Sz (or_introl (ex_intro _ q J)) Hh w1 w2 w3 w4 B1 B2 B3 B4) as (r & s1 & R & Gr & Es).
      rewrite J in Gr. destruct Gr as (x & Rx & Ux & Gx & Lx & Vx & Cx).
      rewrite Rx in Es. subst s1. rewrite Hst in G. rewrite R, Rx. change (g_final (std L) r) with (Ok r). cbn match. rewrite Rx, Ux. apply G.
      * unfold answers_with. cbn [cr_answer]. rewrite Q1. auto.
      * exact (cexactly_set vars s (KSet h n e) n q x eq_refl Hv Q1 Gx Lx Vx Cx).
      * reflexivity.
    + rewrite (functional_in _ (IVar n)); [|rewrite !in_app_iff; cbn [In]; tauto|reflexivity]. rewrite Hpo, Hst. cbn [orb].
      destruct (value_meant vars _ Hq) as (a & q & Ha & Q1 & J). pose proof (sized_meant _ _ _ _ a Hz Ha) as Sz. change (Some (computed (Some (step_op up)) n one_more) = Some a) in Ha. assert (Ea : a = computed (Some (step_op up)) n one_more) by congruence. subst a.
      destruct (step_runs L s vars k up n Hpow Hk Hp Hv Sz m w1 w2 w3 B1 B2 B3) as (r & s1 & R & Gr & Es).
      rewrite J in Gr. destruct Gr as (x & Rx & Ux & Gx & Lx & Vx & Cx).
      rewrite Rx in Es. subst s1. rewrite Hst in G. rewrite R, Rx. change (g_final (std L) r) with (Ok r). cbn match. rewrite Rx, Ux. apply G.
      * unfold answers_with. cbn [cr_answer]. rewrite Q1. auto.
      * exact (cexactly_set vars s (KStep up n) n q x eq_refl Hv Q1 Gx Lx Vx Cx).
      * reflexivity.
Qed.
Lemma cstay_fits vars p k ls : call_stay vars p k ls -> Forall (cline_fits p) ls.
Proof.
  revert vars. induction ls as [|l ls IH]; intros vars; [constructor|]. cbn [call_stay]. intros ([H1 _] & _ & H2). constructor; [|exact (IH _ H2)]. destruct l as [|e|h n e|up n]; [exact I| | |exact I]; exact (csized_fit _ _ _ _ H1).
Qed.
Lemma bnumerals_literals p e : bnumerals_fit p e -> bliterals_fit p e.
Proof. induction e as [b|c a b|j a IHa b IHb|a IHa]; cbn; [trivial| | |exact IHa]; intros [H1 H2]; split; auto using numerals_literals. Qed.
Lemma cnumerals_literals p e : cnumerals_fit p e -> cliterals_fit p e.
Proof. induction e as [a|c x IHx y IHy]; cbn; [apply numerals_literals|]. intros (H & Hx & Hy). split; [apply bnumerals_literals, H|auto]. Qed.
Lemma choice_not_nil t e : choice_text t e -> t <> [].
Proof.
  intros (b1 & u & b2 & -> & _ & _ & Hr) K. apply (chooses_first _ _ _ Hr). destruct b1; [|discriminate K]. destruct u; [reflexivity|discriminate K].
Qed.
Lemma cprogram_runs L vars k texts ls n fl s : exp_letter L -> pow_ok (l_prec L) (f_pow (l_fmt L)) -> showable L k -> (3 * k + 1 <= l_prec L)%Z ->
  Forall2 cline_reads texts ls -> lines_text texts <> [] -> vars_exactly vars s -> s_lft s = None -> call_stay vars (l_prec L) k ls ->
  length (lines_text texts) < n -> cf_parse_only fl = false -> cf_stl fl = false ->
  exists rs s', calculate (std L) n fl (lines_text texts) s = (CDone rs, s') /\ Forall2 answers_with (canswers vars ls) rs /\ vars_exactly (cvars_end vars ls) s' /\ s_lft s' = None.
Proof.
  intros He Hpow Hk Hp Ht Hne Hv Hl Hs Hn Hpo Hst. assert (Hls : ls <> []) by (intros ->; inversion Ht; subst; apply Hne; reflexivity).
  destruct (clines_parse L texts ls He ltac:(destruct Hk; lia) Ht (cstay_fits _ _ _ _ Hs) Hls) as (sts & Ss & P). unfold calculate, calculate_with.
  destruct (lines_text texts) as [|c t] eqn:Et; [congruence|]. rewrite <- Et in *. rewrite Hl. change (g_parse (std L)) with (std_pcfg L). rewrite P.
  replace (mkSt (s_vars s) None) with s by (clear - Hl; destruct s as [sv sl]; cbn [s_lft] in Hl; rewrite Hl; reflexivity). destruct n as [|m]; [lia|].
  assert (Sm : Forall2 (cline_shape (l_prec L) m) sts ls).
  { clear - Ss Hn. induction Ss as [|a b A B H _ IH]; constructor; [apply (cline_deeper _ _ _ _ _ H); lia|exact IH]. }
  assert (Sp : Forall (Forall spelled) sts).
  { destruct (c20_lossless (std_pcfg L) (lines_text texts) None sts (length (lines_text texts)) None) as (_ & _ & _ & Sp); [rewrite P; reflexivity|exact Sp]. }
  destruct (clines_exact L k m fl Hpow Hk Hp Hpo Hst sts ls Sm Sp vars s [] [] Hv Hs) as (rs & s' & R & F & V & Lf).
  exists rs, s'. repeat split; auto; try apply V. congruence.
Qed.
Lemma cprogram_wrong L vars k texts ls1 l ls2 n fl s : exp_letter L -> pow_ok (l_prec L) (f_pow (l_fmt L)) -> showable L k -> (3 * k + 1 <= l_prec L)%Z ->
  Forall2 cline_reads texts (ls1 ++ l :: ls2) -> vars_exactly vars s -> s_lft s = None -> call_stay vars (l_prec L) k ls1 ->
  cline_wrong (cvars_end vars ls1) (l_prec L) k l -> Forall (cline_numerals (l_prec L)) ls2 ->
  length (lines_text texts) < n -> cf_parse_only fl = false -> cf_stl fl = false ->
  exists rs its nx tr s', calculate (std L) n fl (lines_text texts) s = (CFail false rs its nx tr, s') /\ Forall2 answers_with (canswers vars ls1) rs /\
    length its = S (length ls1) /\ vars_exactly (cvars_end vars ls1) s' /\ s_lft s' = None.
Proof.
  intros He Hpow Hk Hp Ht Hv Hl Hs Hw Hls2 Hn Hpo Hst.
  assert (Hf : Forall (cline_fits (l_prec L)) (ls1 ++ l :: ls2)).
  { apply Forall_app. split; [exact (cstay_fits _ _ _ _ Hs)|]. constructor.
    - destruct Hw as [[Hw _] _]. destruct l as [|e|h m e|up m]; [exact I| | |exact I]; exact (csized_fit _ _ _ _ Hw).
    - eapply Forall_impl; [|exact Hls2]. intros [|e|h m e|up m]; cbn; [trivial| | |trivial]; apply cnumerals_literals. }
  destruct (clines_parse L texts _ He ltac:(destruct Hk; lia) Ht Hf) as (sts & Ss & P); [destruct ls1; discriminate|].
  assert (Hne : lines_text texts <> []).
  { destruct (Forall2_app_inv_r _ _ Ht) as (a & b & _ & Hb & ->). inversion Hb as [|t y u w Hx _ E1 E2]; subst. apply (lines_not_nil t); [apply in_elt|].
    destruct Hx as [b0 _|t e Hx|h b1 m b2 t e Hh _ _ _ _ _|up b1 m b2 b3 _ _ _ _ _]; [destruct Hw as [_ (z & Hw & _)]; discriminate Hw|exact (choice_not_nil _ _ Hx)| |destruct b1, m, b2, up; discriminate]. destruct (up_first h Hh) as (c0 & r0 & -> & _). destruct b1, m, b2; discriminate. }
  unfold calculate, calculate_with. destruct (lines_text texts) as [|c t] eqn:Et; [congruence|]. rewrite <- Et in *. rewrite Hl. change (g_parse (std L)) with (std_pcfg L). rewrite P.
  replace (mkSt (s_vars s) None) with s by (clear - Hl; destruct s as [sv sl]; cbn [s_lft] in Hl; rewrite Hl; reflexivity). destruct n as [|m]; [lia|].
  assert (Sm : Forall2 (cline_shape (l_prec L) m) sts (ls1 ++ l :: ls2)).
  { clear - Ss Hn. induction Ss as [|a b A B H _ IH]; constructor; [apply (cline_deeper _ _ _ _ _ H); lia|exact IH]. }
  assert (Sp : Forall (Forall spelled) sts).
  { destruct (c20_lossless (std_pcfg L) (lines_text texts) None sts (length (lines_text texts)) None) as (_ & _ & _ & Sp); [rewrite P; reflexivity|exact Sp]. }
  destruct (Forall2_app_inv_r _ _ Sm) as (sa & sb & Sa & Sb & ->). apply Forall_app in Sp as [Spa Spb]. inversion Sb as [|st l0 sc ls0 Hst1 Sc]; subst. apply Forall_cons_iff in Spb as [Spb _].
  destruct (clines_exact L k m fl Hpow Hk Hp Hpo Hst sa ls1 Sa Spa vars s [] [] Hv Hs) as (rs & s1 & R & F & V & Lf). cbn [app] in R.
  rewrite (run_app _ _ _ sa (st :: sc) [] [] s rs s1 R). cbn [app].
  assert (X : exists r, execute (std L) (S m) (cf_stl fl) st s1 = (OOk r, s1) /\ gives r Wrong /\ is_nil (functional_items st) = false).
  { destruct Hw as [Hz (a & Ha & Ja)]. destruct Hst1 as [w Hw0|w1 its w2 e B1 B2 Hsh|h w1 x w2 w3 its w4 e Hh B1 B2 B3 B4 Hsh|up w1 x w2 w3 B1 B2 B3]; [discriminate Ha| | |].
    - cbn [meant] in Ha. rewrite !Forall_app in Spb. destruct Spb as (_ & Spb & _).
      destruct (cshape_runs L (cf_stl fl) s1 _ k Hpow Hk Hp V _ _ _ _ Hsh m (le_n _) Spb (proj1 Hz)) as (R0 & _). unfold cjudge in R0. rewrite Ha, Ja in R0.
      destruct (R0 w1 w2 B1 B2) as (r & R1 & G). exists r. split; [exact R1|]. split; [exact G|].
      rewrite !functional_app, (functional_blanks w1 B1), (functional_blanks w2 B2), app_nil_r. cbn [app]. exact (cshape_functional _ _ _ _ _ Hsh).
    - rewrite !Forall_app in Spb. destruct Spb as (_ & _ & _ & _ & _ & Spb & _). rewrite Hst. pose proof (sized_meant _ _ _ _ a Hz Ha) as Sz. destruct (meant_set _ _ _ _ _ Ha) as (b & Hb & ->).
      destruct (cset_runs L s1 _ k Hpow Hk Hp V _ _ _ Hsh m h x b (le_n _) Spb (proj1 Hz) Hb Sz (or_intror Ja) Hh w1 w2 w3 w4 B1 B2 B3 B4) as (r & s2 & R1 & G & Es). rewrite Ja in G. exists r.
      pose proof G as (mm & i & nx & tr & Rx). rewrite Rx in Es. subst s2.
      split; [exact R1|]. split; [exact G|]. apply (functional_in _ (IVar x)); [rewrite !in_app_iff; cbn [In]; tauto|reflexivity].
    - rewrite Hst. pose proof (sized_meant _ _ _ _ a Hz Ha) as Sz. change (Some (computed (Some (step_op up)) x one_more) = Some a) in Ha. assert (Ea : a = computed (Some (step_op up)) x one_more) by congruence. subst a.
      destruct (step_runs L s1 _ k up x Hpow Hk Hp V Sz m w1 w2 w3 B1 B2 B3) as (r & s2 & R1 & G & Es). rewrite Ja in G. exists r.
      pose proof G as (mm & i & nx & tr & Rx). rewrite Rx in Es. subst s2.
      split; [exact R1|]. split; [exact G|]. apply (functional_in _ (IVar x)); [rewrite !in_app_iff; cbn [In]; tauto|reflexivity]. }
  destruct X as (r & R1 & (mm & i & nx & tr & Rx) & Fn). exists rs, (sa ++ [i]), nx, tr, s1. split; [|split; [exact F|split; [|split; [exact V|congruence]]]].
  - cbn [run_statements]. rewrite Fn, Hpo. cbn [orb]. rewrite R1, Rx. reflexivity.
  - rewrite app_length. cbn [length]. apply Forall2_length' in Sa. lia.
Qed.
