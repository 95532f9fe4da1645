(** Texts and programs of arithmetic that go wrong: whole texts. *)
From Coq Require Import ZArith QArith Qpower Ascii String List Bool Lia.
From Verif Require Import Base BaseProofs Dec DecProofs Num NumSpec NumProofs NumProofs2 NumProofs3 NumProofs4 Lex LexSpec Bases BasesProofs Formats Units UnitsProofs5 Install InstallProofs Syntax Pos PosSpec PosProofs Call CallSpec Loop LoopSpec LoopProofs Parse Prop_Parse Exec ExecSpec ErrorSpec ErrorProofs ErrorProofs2 ErrorProofs3 ContainSpec ContainProofs2 Std StdSpec StdProofs StdProofs2 StdProofs4 StdProofs5 ArithSpec ArithProofs VarNameSpec ArithTextSpec ArithRunSpec ArithTextProofs ArithTextProofs2 ArithTextProofs3 ArithTextProofs4 ArithTextProofs5 ArithTextProofs6 ArithTextProofs7 ArithErrSpec ArithErrProofs ArithErrProofs2 ArithErrProofs3.
Import ListNotations.
Open Scope nat_scope.

(** * One text *)
Lemma text_shape L text e lft : exp_letter L -> (1 <= l_prec L)%Z -> arithmetic_text text e -> literals_fit (l_prec L) e ->
  exists w1 its w2, parse_text (std_pcfg L) text lft = (POk [w1 ++ its ++ w2] (length text) None, lft) /\ blanks w1 /\ blanks w2 /\ shape (l_prec L) (length text) 4 its e /\
    Forall spelled its.
Proof.
  intros Hx Hp Ht Hf. destruct (text_parse L text e lft Hx Hp Ht Hf) as (w1 & its & w2 & P & B1 & B2 & Hs). exists w1, its, w2. repeat (split; [assumption|]).
  destruct (c20_lossless (std_pcfg L) text lft [w1 ++ its ++ w2] (length text) None) as (_ & _ & _ & Sp); [rewrite P; reflexivity|].
  apply Forall_cons_iff in Sp as [Sp _]. rewrite !Forall_app in Sp. tauto.
Qed.
Lemma text_not_nil text e : arithmetic_text text e -> text <> [].
Proof.
  intros (b1 & t & b2 & E & _ & _ & Hr) K. rewrite K in E. destruct (reads_first _ _ _ Hr) as (c & rr & Et & _). subst t. destruct b1; discriminate E.
Qed.
Lemma text_judged L vars k text e n fl s : exp_letter L -> pow_ok (l_prec L) (f_pow (l_fmt L)) -> showable L k -> (3 * k + 1 <= l_prec L)%Z -> vars_exactly vars s ->
  arithmetic_text text e -> sized vars (l_prec L) k e -> length text < n -> cf_parse_only fl = false ->
  (judge vars e = Wrong -> exists its nx tr, calculate (std L) n fl text s = (CFail false [] [its] nx tr, s)) /\
  (judge vars e = Unset -> exists items, calculate (std L) n fl text s = (CDone [mkCR items (Some (VNone, None)) (if cf_state fl then Some (s_vars s) else None)], s)).
Proof.
  intros Hx Hpow Hk Hp Hv Ht Hs Hn Hfl. destruct (text_shape L text e (s_lft s) Hx ltac:(destruct Hk; lia) Ht (sized_fit _ _ _ _ Hs)) as (w1 & its & w2 & P & B1 & B2 & Sh & Sp).
  assert (K : judge vars e <> Open -> exists r, execute (std L) n (cf_stl fl) (w1 ++ its ++ w2) s = (OOk r, s) /\ gives r (judge vars e)).
  { intros Ho. destruct n as [|n]; [lia|]. destruct (shape_fair L (cf_stl fl) s vars k Hpow Hk Hp Hv _ _ _ _ Sh n ltac:(lia) Sp Hs Ho) as (R & _).
    exact (fair_execute L (cf_stl fl) s n 4 w1 its w2 _ B1 B2 (shape_functional _ _ _ _ _ Sh) R). }
  assert (C : forall x, run_statements (std L) (execute (std L) n (cf_stl fl)) fl [] [w1 ++ its ++ w2] [] s = x -> calculate (std L) n fl text s = x).
  { intros x E. unfold calculate, calculate_with. pose proof (text_not_nil _ _ Ht). destruct text as [|c text]; [congruence|]. change (g_parse (std L)) with (std_pcfg L). rewrite P.
    replace (mkSt (s_vars s) (s_lft s)) with s by (destruct s; reflexivity). exact E. }
  assert (F : is_nil (functional_items (w1 ++ its ++ w2)) = false).
  { rewrite !functional_app, (functional_blanks w1 B1), (functional_blanks w2 B2), app_nil_r. cbn [app]. exact (shape_functional _ _ _ _ _ Sh). }
  split; intros Ej; rewrite Ej in K; destruct (K ltac:(discriminate)) as (r & R & G); cbn [gives] in G.
  - destruct G as (m & i & nx & tr & Rx). exists i, nx, tr. apply C. cbn [run_statements]. rewrite F, Hfl. cbn [orb]. rewrite R, Rx. reflexivity.
  - destruct G as [Rx Ux]. exists (w1 ++ its ++ w2). apply C. cbn [run_statements]. rewrite F, Hfl. cbn [orb]. rewrite R, Rx. change (g_final (std L) r) with (Ok r). cbn match. rewrite Rx, Ux. reflexivity.
Qed.

(** * Assignments *)
Lemma set_error L stl x v s : is_list (rval x) = false -> is_exc (rval x) = false -> is_list (rval v) = false -> is_exc (rval v) = true ->
  callop (std L) stl ($"=") [x; v] s = (OOk v, s).
Proof.
  intros Lx Ex Lv Ev. rewrite callop_eq, find_set. cbn [op_def]. rewrite call_scalars; [|cbn [forallb]; rewrite Lx, Lv; reflexivity|reflexivity].
  unfold call_plain. match goal with |- context [o_excs ?d] => replace (o_excs d) with false by reflexivity end. unfold find_exc. cbn [find]. rewrite Ex, Ev. reflexivity.
Qed.
Lemma set_judged L vars s m w1 n w2 w3 its w4 v : blanks w1 -> blanks w2 -> blanks w3 -> blanks w4 -> vars_exactly vars s -> fair_run L false s m 4 its v ->
  (exists q, v = Worth q) \/ v = Wrong ->
  exists r s', execute (std L) (S m) false (w1 ++ [IVar n] ++ w2 ++ [IOp ($"=")] ++ w3 ++ its ++ w4) s = (OOk r, s') /\ gives r v /\
    s' = match rval r with VNum x => mkSt (dset n (VNum x, None) (s_vars s)) (s_lft s) | _ => s end.
Proof.
  intros B1 B2 B3 B4 Hv H Hq.
  assert (V : exists x, refers x n /\ is_unit_val x = false /\ is_list (rval x) = false /\ eval_item (std L) (execute (std L) m) false (IVar n) s = (OOk x, s)).
  { cbn [eval_item]. destruct Hv as [_ Hv]. specialize (Hv n). destruct (assoc n (s_vars s)) as [[xv xu]|] eqn:Ea; eexists; (split; [|split; [|split; [|reflexivity]]]); try split; try reflexivity.
    all: cbn [rval mkRes is_unit_val]; destruct xv; try reflexivity; destruct Hv. }
  destruct V as (x & Rx & Ux & Lx & Ex). destruct (H 2 w4 [SRes x 0; SOp ($"=") 1] (((([] ++ w1) ++ [IVar n]) ++ w2) ++ [IOp ($"=")] ++ w3)) as (t & its' & (T1 & T2 & T3 & T4) & E).
  set (orig := ((((((w1 ++ [IVar n]) ++ w2) ++ [IOp ($"=")]) ++ w3) ++ its') ++ w4)).
  destruct (T4 orig) as [Gv A]. set (y := tree_value (g_ops (std L)) orig (real_interp L false s) t) in *.
  assert (C : exists r s', callop (std L) false ($"=") [x; y] s = (OOk r, s') /\ is_unit_val r = false /\ gives r v /\ s' = match rval r with VNum x => mkSt (dset n (VNum x, None) (s_vars s)) (s_lft s) | _ => s end).
  { destruct Hq as [(q & ->)| ->]; cbn [gives] in Gv.
    - destruct Gv as (b & Rb & Ub & Gb). exists (mkRes (VNum b) None None), (mkSt (dset n (VNum b, None) (s_vars s)) (s_lft s)). split; [|repeat split].
      + rewrite (callop_set L false n x y s Rx); [rewrite Rb, Ub; reflexivity|unfold usable; rewrite Rb; reflexivity].
      + exists b. auto.
    - destruct Gv as (mm & i & nx & tr & Rb). exists y, s. split; [|split; [|split]].
      + apply set_error; [exact Lx|exact (proj2 Rx)|rewrite Rb; reflexivity|rewrite Rb; reflexivity].
      + unfold is_unit_val. rewrite Rb. reflexivity.
      + exists mm, i, nx, tr. exact Rb.
      + rewrite Rb. reflexivity. }
  destruct C as (r & s' & C & Ur & Gr & Es).
  assert (I : real_interp L false s ($"=") [x; y] = inl r).
  { unfold real_interp. rewrite C, Ur. reflexivity. }
  assert (K : run_slots (g_ops (std L)) orig (callop (std L) false) (slots_of (chain_of (Node (GOp ($"=") 1) (Leaf (x, 0)) t))) s = (OOk r, s')).
  { rewrite (loop_runs_end (g_ops (std L)) orig (callop (std L) false) (real_interp L false s) (Node (GOp ($"=") 1) (Leaf (x, 0)) t) s s').
    - cbn [tree_value fst gap_sym]. fold y. rewrite I. reflexivity.
    - apply std_good.
    - cbn [chain_of fst snd app]. destruct T2 as [T2 T2']. split; [exact Ux|]. constructor; [split; [apply set_good|exact T2]|exact T2'].
    - apply real_no_units.
    - cbn [grouped]. split; [exact Logic.I|]. split; [exact T1|]. split; [exact Logic.I|]. destruct t as [z|g l rr]; [exact Logic.I|]. destruct T3 as (o & j & -> & _). left. apply set_rank.
    - split.
      + intros g l rr [Hs|[Hs|Hs]] Hne; [congruence| |apply A, Hs]. destruct Hs as [Hs|[]]. discriminate Hs.
      + cbn [tree_value fst gap_sym]. fold y. unfold interp_call. rewrite I, C. reflexivity. }
  assert (Z : eval_operands (std L) (execute (std L) m) false (w1 ++ [IVar n] ++ w2 ++ [IOp ($"=")] ++ w3 ++ its ++ w4) 0 [] [] s =
              (OOk (slots_of (chain_of (Node (GOp ($"=") 1) (Leaf (x, 0)) t)), orig), s)).
  { rewrite (operands_blank _ _ _ w1) by exact B1. cbn [app].
    rewrite (operands_item _ _ _ _ _ _ _ _ x s s); [|reflexivity|reflexivity|exact Ex]. rewrite (operands_blank _ _ _ w2) by exact B2. rewrite operands_op.
    rewrite (operands_blank _ _ _ w3) by exact B3. cbn [app] in *. replace ((((w1 ++ [IVar n]) ++ w2) ++ [IOp ($"=")]) ++ w3) with (((w1 ++ [IVar n]) ++ w2) ++ IOp ($"=") :: w3) by (rewrite <- !app_assoc; reflexivity).
    rewrite E, operands_end by exact B4. unfold orig. rewrite tree_slots. cbn [app]. rewrite <- !app_assoc. reflexivity. }
  cbn [execute]. unfold execute_body. rewrite (functional_in _ (IVar n)); [|rewrite !in_app_iff; cbn [In]; tauto|reflexivity].
  unfold bind. rewrite Z, K. destruct Hq as [(q & ->)| ->]; cbn [gives] in Gr.
  - pose proof Gr as (b & Rb & _). rewrite Rb. exists r, s'. split; [reflexivity|]. split; [exact Gr|]. exact Es.
  - destruct Gr as (mm & i & nx & tr & Rb). rewrite Rb in *. eexists _, _. split; [reflexivity|]. destruct r as [rv ru rf ro]. cbn [with_value rval] in *. split; [eexists _, _, _, _; reflexivity|exact Es].
Qed.

(** * Programs *)
Lemma Forall2_length' (A B : Type) (R : A -> B -> Prop) a b : Forall2 R a b -> length a = length b.
Proof. induction 1; cbn; congruence. Qed.
Lemma lines_not_nil t texts : In t texts -> t <> [] -> lines_text texts <> [].
Proof.
  induction texts as [|u texts IH]; intros H Ht; [destruct H|]. cbn [lines_text]. destruct texts as [|u' texts]; [destruct H as [->|[]]; exact Ht|]. intros E.
  apply app_eq_nil in E as [_ E]. discriminate E.
Qed.
Lemma exactly_set vars s n e q x : vars_exactly vars s -> avalue vars e = Some q -> good x -> lowest x -> (val x == q)%Q -> ncast x = None ->
  vars_exactly (vars_then vars (LSet n e)) (mkSt (dset n (VNum x, None) (s_vars s)) (s_lft s)).
Proof.
  intros [H1 H2] Hq G Lo V C. split; [exact (hold_then vars s n e q x H1 Hq G Lo V ltac:(rewrite C; discriminate))|]. intros m. cbn [s_vars vars_then]. rewrite assoc_dset. destruct (seq_eqb n m).
  - rewrite Hq. split; [discriminate|exact C].
  - exact (H2 m).
Qed.
Lemma run_app G run fl : forall a b before rs s rs1 s1, run_statements G run fl before a rs s = (CDone rs1, s1) ->
  run_statements G run fl before (a ++ b) rs s = run_statements G run fl (before ++ a) b rs1 s1.
Proof.
  induction a as [|x a IH]; intros b before rs s rs1 s1 H.
  - cbn [run_statements] in H. injection H as -> ->. rewrite app_nil_r. reflexivity.
  - cbn [run_statements app] in *. replace (before ++ x :: a) with ((before ++ [x]) ++ a) by (rewrite <- app_assoc; reflexivity).
    destruct (is_nil (functional_items x) || cf_parse_only fl); [exact (IH _ _ _ _ _ _ H)|].
    destruct (run x s) as [[r|e| |] s2]; try discriminate H; [|destruct e; discriminate H].
    destruct (rval r) eqn:Er; try (destruct (g_final G r) as [f| |]; try discriminate H; exact (IH _ _ _ _ _ _ H)). destruct e; discriminate H.
Qed.
Lemma lines_exact L k m fl : pow_ok (l_prec L) (f_pow (l_fmt L)) -> showable L k -> (3 * k + 1 <= l_prec L)%Z -> cf_parse_only fl = false -> cf_stl fl = false ->
  forall sts ls, Forall2 (line_shape (l_prec L) m) sts ls -> Forall (Forall spelled) sts -> forall vars s before rs, vars_exactly vars s -> all_stay vars (l_prec L) k ls ->
  exists rs' s', run_statements (std L) (execute (std L) (S m) (cf_stl fl)) fl before sts rs s = (CDone (rs ++ rs'), s') /\
    Forall2 answers_with (answers vars ls) rs' /\ vars_exactly (vars_end vars ls) s' /\ s_lft s' = s_lft s.
Proof.
  intros Hpow Hk Hp Hpo Hst sts ls H. induction H as [|its l sts ls Hl Hls IH]; intros Sp vars s before rs Hv Hs.
  - exists [], s. cbn [run_statements]. rewrite app_nil_r. repeat split; auto; try constructor; apply Hv.
  - cbn [all_stay] in Hs. destruct Hs as [Hs1 Hs2]. apply Forall_cons_iff in Sp as [Sp1 Sp2]. cbn [run_statements]. set (before' := before ++ [its]).
    assert (G : forall ans s1, answers_with (line_value vars l) (mkCR its ans (if cf_state fl then Some (s_vars s1) else None)) -> vars_exactly (vars_then vars l) s1 -> s_lft s1 = s_lft s ->
      exists rs' s', run_statements (std L) (execute (std L) (S m) (cf_stl fl)) fl before' sts (rs ++ [mkCR its ans (if cf_state fl then Some (s_vars s1) else None)]) s1 = (CDone (rs ++ rs'), s') /\
        Forall2 answers_with (answers vars (l :: ls)) rs' /\ vars_exactly (vars_end vars (l :: ls)) s' /\ s_lft s' = s_lft s).
    { intros ans s1 A1 A2 A4. destruct (IH Sp2 (vars_then vars l) s1 before' (rs ++ [mkCR its ans (if cf_state fl then Some (s_vars s1) else None)]) A2 Hs2) as (rs' & s' & R & F & V & Lf).
      exists (mkCR its ans (if cf_state fl then Some (s_vars s1) else None) :: rs'), s'. split; [rewrite R, <- app_assoc; reflexivity|].
      split; [cbn [answers]; constructor; assumption|]. split; [exact V|congruence]. }
    destruct Hl as [w Hw|w1 its w2 e B1 B2 Hsh|w1 n w2 w3 its w4 e B1 B2 B3 B4 Hsh].
    + rewrite functional_blanks by exact Hw. cbn [is_nil orb]. apply G; auto.
    + rewrite !functional_app, (functional_blanks w1 B1), (functional_blanks w2 B2), app_nil_r. cbn [app]. rewrite (shape_functional _ _ _ _ _ Hsh), Hpo. cbn [orb].
      destruct (stays_value _ _ _ _ Hs1) as (q & Q1 & _). rewrite !Forall_app in Sp1. destruct Sp1 as (_ & Sp1 & _).
      destruct (shape_fair L (cf_stl fl) s vars k Hpow Hk Hp Hv _ _ _ _ Hsh m (le_n _) Sp1 (stays_sized _ _ _ _ Hs1)) as (R0 & _); [rewrite (judge_value _ _ _ Q1); discriminate|].
      rewrite (judge_value _ _ _ Q1) in R0.
      destruct (fair_execute L (cf_stl fl) s m 4 w1 its w2 _ B1 B2 (shape_functional _ _ _ _ _ Hsh) R0) as (r & R & (x & Rx & Ux & Gx & Lx & Vx & _)).
      rewrite R, Rx. change (g_final (std L) r) with (Ok r). cbn match. rewrite Rx, Ux. apply G; auto. unfold answers_with. cbn [line_value cr_answer]. rewrite Q1. auto.
    + rewrite (functional_in _ (IVar n)); [|rewrite !in_app_iff; cbn [In]; tauto|reflexivity]. rewrite Hpo, Hst. cbn [orb].
      destruct (stays_value _ _ _ _ Hs1) as (q & Q1 & _). rewrite !Forall_app in Sp1. destruct Sp1 as (_ & _ & _ & _ & _ & Sp1 & _).
      destruct (shape_fair L false s vars k Hpow Hk Hp Hv _ _ _ _ Hsh m (le_n _) Sp1 (stays_sized _ _ _ _ Hs1)) as (R0 & _); [rewrite (judge_value _ _ _ Q1); discriminate|].
      rewrite (judge_value _ _ _ Q1) in R0.
      destruct (set_judged L vars s m w1 n w2 w3 its w4 _ B1 B2 B3 B4 Hv R0) as (r & s1 & R & (x & Rx & Ux & Gx & Lx & Vx & Cx) & Es); [left; eauto|].
      rewrite Rx in Es. subst s1. rewrite Hst in G. rewrite R, Rx. change (g_final (std L) r) with (Ok r). cbn match. rewrite Rx, Ux. apply G.
      * unfold answers_with. cbn [line_value cr_answer]. rewrite Q1. auto.
      * exact (exactly_set vars s n e q x Hv Q1 Gx Lx Vx Cx).
      * reflexivity.
Qed.
Lemma program_wrong L vars k texts ls1 l ls2 n fl s : exp_letter L -> pow_ok (l_prec L) (f_pow (l_fmt L)) -> showable L k -> (3 * k + 1 <= l_prec L)%Z ->
  Forall2 line_reads texts (ls1 ++ l :: ls2) -> vars_exactly vars s -> s_lft s = None -> all_stay vars (l_prec L) k ls1 ->
  line_wrong (vars_end vars ls1) (l_prec L) k l -> Forall (line_numerals (l_prec L)) ls2 ->
  length (lines_text texts) < n -> cf_parse_only fl = false -> cf_stl fl = false ->
  exists rs its nx tr s', calculate (std L) n fl (lines_text texts) s = (CFail false rs its nx tr, s') /\ Forall2 answers_with (answers vars ls1) rs /\
    length its = S (length ls1) /\ vars_exactly (vars_end vars ls1) s' /\ s_lft s' = None.
Proof.
  intros He Hpow Hk Hp Ht Hv Hl Hs Hw Hls2 Hn Hpo Hst.
  assert (Hf : Forall (line_fits (l_prec L)) (ls1 ++ l :: ls2)).
  { apply Forall_app. split; [exact (stay_fits _ _ _ _ Hs)|]. constructor.
    - destruct l as [|e|m e]; [destruct Hw| |]; destruct Hw as [_ Hw]; exact (sized_fit _ _ _ _ Hw).
    - eapply Forall_impl; [|exact Hls2]. intros [|e|m e]; cbn; [trivial| |]; apply numerals_literals. }
  destruct (lines_parse L texts _ He ltac:(destruct Hk; lia) Ht Hf) as (sts & Ss & P); [destruct ls1; discriminate|].
  assert (Hne : lines_text texts <> []).
  { destruct (Forall2_app_inv_r _ _ Ht) as (a & b & _ & Hb & ->). inversion Hb as [|t y u w Hx _ E1 E2]; subst. apply (lines_not_nil t); [apply in_elt|].
    destruct Hx as [b0 _|t e Hx|b1 m b2 t e _ _ _ _ _]; [destruct Hw|exact (text_not_nil _ _ Hx)|]. destruct b1, m, b2; discriminate. }
  unfold calculate, calculate_with. destruct (lines_text texts) as [|c t] eqn:Et; [congruence|]. rewrite <- Et in *. rewrite Hl. change (g_parse (std L)) with (std_pcfg L). rewrite P.
  replace (mkSt (s_vars s) None) with s by (clear - Hl; destruct s as [sv sl]; cbn [s_lft] in Hl; rewrite Hl; reflexivity). destruct n as [|m]; [lia|].
  assert (Sm : Forall2 (line_shape (l_prec L) m) sts (ls1 ++ l :: ls2)).
  { clear - Ss Hn. induction Ss as [|a b A B H _ IH]; constructor; [apply (line_deeper _ _ _ _ _ H); lia|exact IH]. }
  assert (Sp : Forall (Forall spelled) sts).
  { destruct (c20_lossless (std_pcfg L) (lines_text texts) None sts (length (lines_text texts)) None) as (_ & _ & _ & Sp); [rewrite P; reflexivity|exact Sp]. }
  destruct (Forall2_app_inv_r _ _ Sm) as (sa & sb & Sa & Sb & ->). apply Forall_app in Sp as [Spa Spb]. inversion Sb as [|st l0 sc ls0 Hst1 Sc]; subst. apply Forall_cons_iff in Spb as [Spb _].
  destruct (lines_exact L k m fl Hpow Hk Hp Hpo Hst sa ls1 Sa Spa vars s [] [] Hv Hs) as (rs & s1 & R & F & V & Lf). cbn [app] in R.
  rewrite (run_app _ _ _ sa (st :: sc) [] [] s rs s1 R). cbn [app].
  assert (X : exists r, execute (std L) (S m) (cf_stl fl) st s1 = (OOk r, s1) /\ gives r Wrong /\ is_nil (functional_items st) = false).
  { destruct Hst1 as [w Hw0|w1 its w2 e B1 B2 Hsh|w1 x w2 w3 its w4 e B1 B2 B3 B4 Hsh]; [destruct Hw| |]; destruct Hw as [Hw Hz].
    - rewrite !Forall_app in Spb. destruct Spb as (_ & Spb & _).
      destruct (shape_fair L (cf_stl fl) s1 _ k Hpow Hk Hp V _ _ _ _ Hsh m (le_n _) Spb Hz) as (R0 & _); [rewrite Hw; discriminate|]. rewrite Hw in R0.
      destruct (fair_execute L (cf_stl fl) s1 m 4 w1 its w2 _ B1 B2 (shape_functional _ _ _ _ _ Hsh) R0) as (r & R1 & G). exists r. split; [exact R1|]. split; [exact G|].
      rewrite !functional_app, (functional_blanks w1 B1), (functional_blanks w2 B2), app_nil_r. cbn [app]. exact (shape_functional _ _ _ _ _ Hsh).
    - rewrite !Forall_app in Spb. destruct Spb as (_ & _ & _ & _ & _ & Spb & _). rewrite Hst.
      destruct (shape_fair L false s1 _ k Hpow Hk Hp V _ _ _ _ Hsh m (le_n _) Spb Hz) as (R0 & _); [rewrite Hw; discriminate|]. rewrite Hw in R0.
      destruct (set_judged L _ s1 m w1 x w2 w3 its w4 _ B1 B2 B3 B4 V R0 (or_intror eq_refl)) as (r & s2 & R1 & G & Es). exists r. pose proof G as (mm & i & nx & tr & Rx). rewrite Rx in Es. subst s2.
      split; [exact R1|]. split; [exact G|]. apply (functional_in _ (IVar x)); [rewrite !in_app_iff; cbn [In]; tauto|reflexivity]. }
  destruct X as (r & R1 & (mm & i & nx & tr & Rx) & Fn). exists rs, (sa ++ [i]), nx, tr, s1. split; [|split; [exact F|split; [|split; [exact V|congruence]]]].
  - cbn [run_statements]. rewrite Fn, Hpo. cbn [orb]. rewrite R1, Rx. reflexivity.
  - rewrite app_length. cbn [length]. apply Forall2_length' in Sa. lia.
Qed.
