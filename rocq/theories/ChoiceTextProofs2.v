(** Running the items of choices. *)
From Coq Require Import ZArith QArith Qpower Ascii String List Bool Lia.
From Verif Require Import Base BaseProofs Dec DecProofs Num NumSpec NumProofs NumProofs2 NumProofs3 NumProofs4 Lex LexSpec Bases BasesProofs Formats Units UnitsProofs5 Install InstallProofs Syntax Pos PosSpec PosProofs Call CallSpec Loop LoopSpec LoopProofs Parse Prop_Parse Exec ExecSpec ErrorSpec ErrorProofs ErrorProofs2 ErrorProofs3 ContainSpec ContainProofs2 Std StdSpec StdProofs StdProofs2 StdProofs4 StdProofs5 ArithSpec ArithProofs VarNameSpec ArithTextSpec ArithRunSpec ArithTextProofs ArithTextProofs2 ArithTextProofs3 ArithTextProofs4 ArithFunProofs ArithTextProofs5 ArithTextProofs6 ArithTextProofs7 ArithErrSpec ArithErrProofs ArithErrProofs2 ArithErrFun ArithErrProofs3 CondTextSpec CondTextProofs CondTextProofs2 LoopWalls ChoiceLoopProofs ChoiceTextSpec ChoiceTextProofs.
Import ListNotations.
Open Scope nat_scope.

(** * Operators that pass errors on *)
Definition calm_items (its : list item) : Prop := forall sym, In (IOp sym) its -> ~ In sym computing_assignments.
Lemma calm_app a b : calm_items a -> calm_items b -> calm_items (a ++ b).
Proof. intros H1 H2 sym H. apply in_app_or in H as [H|H]; auto. Qed.
Lemma calm_blanks w : blanks w -> calm_items w.
Proof. intros H sym Hi. unfold blanks in H. rewrite Forall_forall in H. specialize (H _ Hi). discriminate H. Qed.
Lemma calm_plain its : plain_items its -> calm_items its.
Proof. intros H sym Hi. destruct (H _ Hi) as [o ->]. destruct o; cbn; intuition discriminate. Qed.
Lemma calm_passes L stl its sym : calm_items its -> used_in (g_ops (std L)) its sym -> passes_errors (callop (std L) stl) sym.
Proof.
  intros H U. apply std_passes. destruct U as [U|U]; [exact (H _ U)|].
  destruct U as [U|[U|[U|U]]]; try discriminate U; injection U as <-; cbn; intuition discriminate.
Qed.
Lemma calm_points L stl s m its r mm i nx tr : clean_items L stl s m its -> calm_items its -> execute (std L) (S m) stl its s = (OOk r, s) -> rval r = VExc (XExec mm i nx tr) -> points_into its i nx.
Proof.
  intros C' P' Er Rn. destruct (execute_value_items (std L) m stl _ s r _ s (std_unwritten_infix L) (fun sym => calm_passes L stl _ sym P') (clean_order L stl s m _ C') Er Rn) as (m1 & i1 & nx1 & tr1 & E1 & E2).
  assert (Ei : i = i1 /\ nx = nx1) by (split; congruence). destruct Ei as [-> ->]. destruct E2 as [[_ E2]|[_ E2]]; [exact (before_points _ _ _ E2)|exact (within_points _ _ _ _ _ E2)].
Qed.
Lemma calm_framed L stl s m w1 its w2 : blanks w1 -> blanks w2 -> clean_items L stl s m its -> calm_items its -> clean_items L stl s m (w1 ++ its ++ w2) /\ calm_items (w1 ++ its ++ w2).
Proof.
  intros B1 B2 C P. split; [unfold clean_items; rewrite !Forall_app; repeat split; [apply clean_blanks, B1|exact C|apply clean_blanks, B2]|].
  apply calm_app; [apply calm_blanks, B1|apply calm_app; [exact P|apply calm_blanks, B2]].
Qed.
Lemma op_clean L stl s m sym : clean_items L stl s m [IOp sym].
Proof. constructor; [|constructor]. intros K. discriminate K. Qed.
Lemma op_calm sym : ~ In sym computing_assignments -> calm_items [IOp sym].
Proof. intros H q [E|[]]. injection E as <-. exact H. Qed.

(** * Conditions *)
Lemma bshape_clean L stl s vars k : pow_ok (l_prec L) (f_pow (l_fmt L)) -> showable L k -> (3 * k + 1 <= l_prec L)%Z -> vars_exactly vars s ->
  forall d lev its e, bshape (l_prec L) d lev its e -> forall m b, d <= m -> Forall spelled its -> bstays vars (l_prec L) k e -> bvalue vars e = Some b ->
  clean_items L stl s m its /\ calm_items its.
Proof.
  intros Hpow Hk Hp Hv. induction 1 as [d t b|d d' text w1 w2 its e Hd B1 B2 Hs IH|d c i1 w1 w2 i2 a b B1 B2 H1 H2|d lev its e Hs IH|d j i1 w1 w2 i2 a b B1 B2 H1 IH1 H2 IH2|d w i e B Hs IH]; intros m v Hm Sp St Hq.
  - split; [constructor; [|constructor]; intros _; eexists; (split; [reflexivity|]); intros e; discriminate|]. intros sym [K|[]]. discriminate K.
  - destruct m as [|m]; [lia|]. split; [|intros sym [K|[]]; discriminate K]. constructor; [|constructor]. intros _.
    destruct (bruns_execute L stl s m w1 its w2 v B1 B2 (bshape_functional _ _ _ _ _ Hs)) as (r & R & V).
    { apply (bshape_runs L stl s vars k Hpow (proj1 Hk) Hp (proj1 Hv) _ _ _ _ Hs); [lia|exact St|exact Hq]. }
    destruct V as [Rn Un]. eexists. split; [cbn [eval_item]; unfold eval_inner; rewrite R, Rn, Un; reflexivity|]. intros e0. discriminate.
  - cbn [bstays] in St. destruct St as (S1 & S2). rewrite !Forall_app in Sp. destruct Sp as (Sp1 & _ & _ & _ & Sp2).
    assert (J : forall x, stays vars (l_prec L) k x -> judge vars x <> Open) by (intros x Hx; destruct (stays_value _ _ _ _ Hx) as (q & Q & _); rewrite (judge_value _ _ _ Q); discriminate).
    destruct (shape_fair L stl s vars k Hpow Hk Hp Hv _ _ _ _ H1 m Hm Sp1 (stays_sized _ _ _ _ S1) (J _ S1)) as (_ & C1 & P1).
    destruct (shape_fair L stl s vars k Hpow Hk Hp Hv _ _ _ _ H2 m Hm Sp2 (stays_sized _ _ _ _ S2) (J _ S2)) as (_ & C2 & P2). split.
    + unfold clean_items. rewrite !Forall_app. repeat split; [exact C1|apply clean_blanks, B1|apply op_clean|apply clean_blanks, B2|exact C2].
    + apply calm_app; [apply calm_plain, P1|]. apply calm_app; [apply calm_blanks, B1|]. apply calm_app; [apply op_calm; destruct c; cbn; intuition discriminate|]. apply calm_app; [apply calm_blanks, B2|apply calm_plain, P2].
  - exact (IH m v Hm Sp St Hq).
  - cbn [bstays] in St. destruct St as (S1 & S2). rewrite !Forall_app in Sp. destruct Sp as (Sp1 & _ & _ & _ & Sp2).
    cbn [bvalue] in Hq. destruct (bvalue vars a) as [x|] eqn:Qa; [|discriminate]. destruct (bvalue vars b) as [y|] eqn:Qb; [|discriminate].
    destruct (IH1 m x Hm Sp1 S1 eq_refl) as (C1 & P1). destruct (IH2 m y Hm Sp2 S2 eq_refl) as (C2 & P2). split.
    + unfold clean_items. rewrite !Forall_app. repeat split; [exact C1|apply clean_blanks, B1|apply op_clean|apply clean_blanks, B2|exact C2].
    + apply calm_app; [exact P1|]. apply calm_app; [apply calm_blanks, B1|]. apply calm_app; [apply op_calm; destruct j; cbn; intuition discriminate|]. apply calm_app; [apply calm_blanks, B2|exact P2].
  - cbn [bvalue] in Hq. destruct (bvalue vars e) as [x|] eqn:Qx; [|discriminate Hq]. rewrite !Forall_app in Sp. destruct Sp as (_ & _ & Sp). destruct (IH m x Hm Sp St eq_refl) as (C1 & P1). split.
    + unfold clean_items. rewrite !Forall_app. repeat split; [apply op_clean|apply clean_blanks, B|exact C1].
    + apply calm_app; [apply op_calm; cbn; intuition discriminate|]. apply calm_app; [apply calm_blanks, B|exact P1].
Qed.
Lemma bstays_value vars p k e : bstays vars p k e -> exists b, bvalue vars e = Some b.
Proof.
  induction e as [b|c a b|j a IHa b IHb|a IHa]; cbn [bstays bvalue]; [eauto| | |intros H; destruct (IHa H) as [x ->]; cbn [option_map]; eauto].
  - intros [H1 H2]. destruct (stays_value _ _ _ _ H1) as (x & -> & _). destruct (stays_value _ _ _ _ H2) as (y & -> & _). eauto.
  - intros [H1 H2]. destruct (IHa H1) as [x ->]. destruct (IHb H2) as [y ->]. eauto.
Qed.

(** * Choices *)
Definition cjudge (vars : str -> option Q) (e : cexp) : verdict := match chosen vars e with Some a => judge vars a | None => Open end.
Lemma gives_scalar r v : gives r v -> is_list (rval r) = false.
Proof. destruct v; cbn [gives]; [intros (n & -> & _)|intros [-> _]|intros (a & b & c & d & ->)|intros []]; reflexivity. Qed.
Lemma fair_tighter L stl s t v : fair_tree L stl s 4 t v -> all_tighter L t.
Proof. intros (_ & _ & H & _). destruct t as [x|g l r]; [exact I|]. cbn [all_tighter]. destruct H as (o & k & -> & _). pose proof (arith_rank L o k Less) as K. replace (rank_of L (csym Less)) with 6 in K by reflexivity. lia. Qed.
Lemma if_execute L stl s m u1 i1 w1 w2 i2 w3 w4 i3 u2 a v2 v3 : blanks u1 -> blanks u2 -> blanks w1 -> blanks w2 -> blanks w3 -> blanks w4 -> is_nil (functional_items i1) = false ->
  bruns_to L stl s m 2 i1 a -> fair_run L stl s m 4 i2 v2 -> fair_run L stl s m 4 i3 v3 ->
  exists r, execute (std L) (S m) stl (u1 ++ (i1 ++ w1 ++ [IOp ($"then")] ++ w2 ++ i2 ++ w3 ++ [IOp ($"else")] ++ w4 ++ i3) ++ u2) s = (OOk r, s) /\ gives r (if a then v2 else v3).
Proof.
  intros U1 U2 B1 B2 B3 B4 Hf R1 R2 R3. destruct (R1 0) as (X1 & T1 & E1). set (j1 := 0 + length (functional_items i1)) in *.
  set (orig1 := ((((u1 ++ i1) ++ w1) ++ [IOp ($"then")]) ++ w2)).
  destruct (R2 (S j1) (w3 ++ [IOp ($"else")] ++ w4 ++ i3 ++ u2) (X1 ++ [SOp ($"then") j1]) orig1) as (t2 & i2' & T2 & E2). set (j2 := S j1 + length (functional_items i2)) in *.
  set (orig2 := ((((orig1 ++ i2') ++ w3) ++ [IOp ($"else")]) ++ w4)).
  destruct (R3 (S j2) u2 (((X1 ++ [SOp ($"then") j1]) ++ slots_of (chain_of t2)) ++ [SOp ($"else") j2]) orig2) as (t3 & i3' & T3 & E3).
  cbn [execute]. unfold execute_body. assert (Nf : is_nil (functional_items (u1 ++ (i1 ++ w1 ++ [IOp ($"then")] ++ w2 ++ i2 ++ w3 ++ [IOp ($"else")] ++ w4 ++ i3) ++ u2)) = false).
  { rewrite !functional_app, (functional_blanks u1 U1). cbn [app]. destruct (functional_items i1); [discriminate Hf|reflexivity]. }
  rewrite Nf. unfold bind. rewrite (operands_blank _ _ _ u1) by exact U1. rewrite <- !app_assoc. rewrite E1, (operands_blank _ _ _ w1) by exact B1. cbn [app]. rewrite operands_op, (operands_blank _ _ _ w2) by exact B2.
  fold orig1. cbn [app] in E2, E3. fold j1. rewrite E2. fold j2. rewrite (operands_blank _ _ _ w3) by exact B3. rewrite operands_op, (operands_blank _ _ _ w4) by exact B4. fold orig2. rewrite E3, operands_end by exact U2.
  set (orig := (orig2 ++ i3') ++ u2).
  destruct (slots_all _ _ _ _ _ _ (T1 orig)) as (n1 & x & jx & N1 & A1 & V1). pose proof T2 as (C1 & C2 & _ & C4). destruct (C4 orig) as [V2 Ag2]. pose proof T3 as (D1 & D2 & _ & D4). destruct (D4 orig) as [V3 Ag3].
  set (y := tree_value (g_ops (std L)) orig (real_interp L stl s) t2) in *. set (z := tree_value (g_ops (std L)) orig (real_interp L stl s) t3) in *.
  set (r := mkRes (rval (if a then y else z)) (runit (if a then y else z)) (rref (if a then y else z))).
  assert (Gr : gives r (if a then v2 else v3)).
  { unfold r. destruct a; [destruct v2|destruct v3]; cbn [gives rval runit] in *; assumption. }
  set (rr := run_slots _ _ _ _ s).
  assert (Er : rr = (OOk r, s)).
  { unfold rr. rewrite <- !app_assoc. cbn [app]. apply (choice_slots L stl orig (real_interp L stl s) X1 x n1 jx t2 t3 j1 j2 s r N1 A1 (says_no_unit _ _ V1)).
    - intros t [<-|[<-|[]]]; (split; [assumption|]); (split; [assumption|]).
      + split; [exact (fair_tighter _ _ _ _ _ T2)|]. split; [exact Ag2|exact (gives_no_unit _ _ V2)].
      + split; [exact (fair_tighter _ _ _ _ _ T3)|]. split; [exact Ag3|exact (gives_no_unit _ _ V3)].
    - apply real_no_units.
    - apply (then_call L stl x y z a s); [exact (proj1 V1)|exact (gives_scalar _ _ V2)|exact (gives_scalar _ _ V3)].
    - exact (gives_no_unit _ _ Gr). }
  rewrite Er. clearbody r. destruct (if a then v2 else v3) as [q| | |]; cbn [gives] in Gr.
  - pose proof Gr as (n & Rn & _). rewrite Rn. eexists. split; [reflexivity|exact Gr].
  - pose proof Gr as [Rn _]. rewrite Rn. eexists. split; [reflexivity|exact Gr].
  - destruct Gr as (mm & i & nx & tr & Rn). rewrite Rn. eexists. split; [reflexivity|]. cbn [restore_items]. destruct r as [xv xu xf xo]. cbn [with_value gives rval]. eexists _, _, _, _. reflexivity.
  - destruct Gr.
Qed.
Lemma csized_open vars p k e : csized vars p k e -> cjudge vars e <> Open.
Proof.
  unfold cjudge. induction e as [a|c x IHx y IHy]; cbn [csized chosen]; [intros [_ H]; exact H|]. intros (H & Hx & Hy). destruct (bstays_value _ _ _ _ H) as [b ->]. destruct b; auto.
Qed.
Lemma cjudge_if vars c x y b : bvalue vars c = Some b -> cjudge vars (CIf c x y) = if b then cjudge vars x else cjudge vars y.
Proof. intros H. unfold cjudge. cbn [chosen]. rewrite H. destruct b; reflexivity. Qed.
Definition cruns (L : lib) (stl : bool) (s : st) (m lev : nat) (its : list item) (v : verdict) : Prop :=
  match lev with
  | 0 => fair_run L stl s m 4 its v
  | _ => forall u1 u2, blanks u1 -> blanks u2 -> exists r, execute (std L) (S m) stl (u1 ++ its ++ u2) s = (OOk r, s) /\ gives r v
  end.
Lemma cshape_runs L stl s vars k : pow_ok (l_prec L) (f_pow (l_fmt L)) -> showable L k -> (3 * k + 1 <= l_prec L)%Z -> vars_exactly vars s ->
  forall d lev its e, cshape (l_prec L) d lev its e -> forall m, d <= m -> Forall spelled its -> csized vars (l_prec L) k e ->
  cruns L stl s m lev its (cjudge vars e) /\ clean_items L stl s m its /\ calm_items its.
Proof.
  intros Hpow Hk Hp Hv. induction 1 as [d its e H|d d' text w1 w2 its e Hd B1 B2 Hs IH|d its e Hs IH|d i1 w1 w2 i2 w3 w4 i3 c x y B1 B2 B3 B4 H1 H2 IH2 H3 IH3]; intros m Hm Sp St.
  - cbn [csized] in St. destruct St as [S1 S2]. destruct (shape_fair L stl s vars k Hpow Hk Hp Hv _ _ _ _ H m Hm Sp S1 S2) as (R & C & P). split; [exact R|]. split; [exact C|apply calm_plain, P].
  - apply Forall_cons_iff in Sp as [Sp _]. destruct (spelled_inv _ _ Sp eq_refl) as [Tx Sp']. cbn [itext] in Tx. pose proof Sp' as Sp2. rewrite !Forall_app in Sp2. destruct Sp2 as (_ & Sp2 & _).
    destruct m as [|m]; [lia|]. destruct (IH m ltac:(lia) Sp2 St) as (R & C & P). destruct (R w1 w2 B1 B2) as (r & Er & Gr). pose proof (csized_open _ _ _ _ St) as Ho.
    destruct (calm_framed L stl s m w1 its w2 B1 B2 C P) as [C' P'].
    assert (G : item_gives L stl s (S m) (IInner text false (w1 ++ its ++ w2)) (cjudge vars e)).
    { unfold item_gives. cbn [eval_item]. unfold eval_inner. rewrite Er. destruct (cjudge vars e) as [q| | |] eqn:Ej; cbn [gives] in Gr.
      - destruct Gr as (n & Rn & Un & Gn). left. rewrite Rn, Un. eexists. split; [reflexivity|]. split; [exists n; auto|]. intros x. discriminate.
      - destruct Gr as [Rn Un]. left. rewrite Rn, Un. eexists. split; [reflexivity|]. split; [split; reflexivity|]. intros x. discriminate.
      - destruct Gr as (mm & i & nx & tr & Rn). right. split; [reflexivity|]. rewrite Rn. pose proof (calm_points L stl s m _ r mm i nx tr C' P' Er Rn) as Pt.
        destruct (truncate_reach text (w1 ++ its ++ w2) 0 [] (w1 ++ its ++ w2) [] i nx Tx) as [t Et]; [rewrite app_nil_r; reflexivity|lia|exact Pt|]. cbn [firstn app] in Et.
        unfold reraise. rewrite Et. eexists. reflexivity.
      - destruct Gr. }
    destruct (item_fair L stl s (S m) 4 (IInner text false (w1 ++ its ++ w2)) _ eq_refl ltac:(discriminate) G) as (F & C1 & P1). split; [exact F|]. split; [exact C1|apply calm_plain, P1].
  - destruct (IH m Hm Sp St) as (R & C & P). split; [|auto]. intros u1 u2 U1 U2. exact (fair_execute L stl s m 4 u1 its u2 _ U1 U2 (cshape_functional _ _ _ _ _ Hs) R).
  - cbn [csized] in St. destruct St as (Sc & Sx & Sy). rewrite !Forall_app in Sp. destruct Sp as (Sp1 & _ & _ & _ & Sp2 & _ & _ & _ & Sp3). destruct (bstays_value _ _ _ _ Sc) as [b Qb].
    destruct (IH2 m Hm Sp2 Sx) as (R2 & C2 & P2). destruct (IH3 m Hm Sp3 Sy) as (R3 & C3 & P3). destruct (bshape_clean L stl s vars k Hpow Hk Hp Hv _ _ _ _ H1 m b Hm Sp1 Sc Qb) as (C1 & P1).
    pose proof (bshape_runs L stl s vars k Hpow (proj1 Hk) Hp (proj1 Hv) _ _ _ _ H1 m b Hm Sc Qb) as R1. rewrite (cjudge_if _ _ _ _ _ Qb). split; [|split].
    + intros u1 u2 U1 U2. apply if_execute; try assumption. exact (bshape_functional _ _ _ _ _ H1).
    + unfold clean_items. rewrite !Forall_app. repeat split; try (apply clean_blanks; assumption); try apply op_clean; assumption.
    + repeat apply calm_app; try (apply calm_blanks; assumption); try assumption; apply op_calm; cbn; intuition discriminate.
Qed.

(** * From the text to the answer *)
Lemma csized_fit vars p k e : csized vars p k e -> cliterals_fit p e.
Proof. induction e as [a|c x IHx y IHy]; cbn [csized cliterals_fit]; [intros [H _]; exact (sized_fit _ _ _ _ H)|]. intros (H & Hx & Hy). split; [exact (bstays_fit _ _ _ _ H)|auto]. Qed.
Lemma chooses_first k t e : chooses k t e -> t <> [].
Proof.
  induction 1 as [t e H|b1 t b2 e _ _ _ _|t e _ IH|t1 b1 b2 t2 b3 b4 t3 c x y _ _ _ _ _ _ _ _ H1 _ _ _ _]; try discriminate.
  - destruct (reads_first _ _ _ H) as (c & r & -> & _). discriminate.
  - exact IH.
  - pose proof (decides_first _ _ _ H1). destruct t1; [congruence|discriminate].
Qed.
Lemma choice_judged L vars k text e n fl s : exp_letter L -> pow_ok (l_prec L) (f_pow (l_fmt L)) -> showable L k -> (3 * k + 1 <= l_prec L)%Z -> vars_exactly vars s ->
  choice_text text e -> csized vars (l_prec L) k e -> length text < n -> cf_parse_only fl = false ->
  match cjudge vars e with
  | Worth q => exists items x, calculate (std L) n fl text s = (CDone [mkCR items (Some (VNum x, None)) (if cf_state fl then Some (s_vars s) else None)], s) /\ (val x == q)%Q
  | Unset => exists items, calculate (std L) n fl text s = (CDone [mkCR items (Some (VNone, None)) (if cf_state fl then Some (s_vars s) else None)], s)
  | Wrong => exists its nx tr, calculate (std L) n fl text s = (CFail false [] [its] nx tr, s)
  | Open => False
  end.
Proof.
  intros Hx Hpow Hk Hp Hv Ht Hs Hn Hfl. destruct (choice_parse L text e (s_lft s) Hx ltac:(destruct Hk; lia) Ht (csized_fit _ _ _ _ Hs)) as (w1 & its & w2 & P & B1 & B2 & Sh).
  assert (Sp : Forall spelled its).
  { destruct (c20_lossless (std_pcfg L) text (s_lft s) [w1 ++ its ++ w2] (length text) None) as (_ & _ & _ & Sp); [rewrite P; reflexivity|]. apply Forall_cons_iff in Sp as [Sp _]. rewrite !Forall_app in Sp. tauto. }
  destruct n as [|n]; [lia|]. destruct (cshape_runs L (cf_stl fl) s vars k Hpow Hk Hp Hv _ _ _ _ Sh n ltac:(lia) Sp Hs) as (R & _). destruct (R w1 w2 B1 B2) as (r & Er & Gr). clear R.
  assert (Ct : forall x, run_statements (std L) (execute (std L) (S n) (cf_stl fl)) fl [] [w1 ++ its ++ w2] [] s = x -> calculate (std L) (S n) fl text s = x).
  { intros x E. unfold calculate, calculate_with. destruct text as [|c text].
    - exfalso. destruct Ht as (b1 & t & b2 & E0 & _ & _ & Hr). apply (chooses_first _ _ _ Hr). destruct b1; [|discriminate E0]. destruct t; [reflexivity|discriminate E0].
    - change (g_parse (std L)) with (std_pcfg L). rewrite P. replace (mkSt (s_vars s) (s_lft s)) with s by (destruct s; reflexivity). exact E. }
  assert (F : is_nil (functional_items (w1 ++ its ++ w2)) = false).
  { rewrite !functional_app, (functional_blanks w1 B1), (functional_blanks w2 B2), app_nil_r. cbn [app]. exact (cshape_functional _ _ _ _ _ Sh). }
  destruct (cjudge vars e) as [q| | |]; cbn [gives] in Gr.
  - destruct Gr as (x & Rx & Ux & _ & _ & Vx & _). exists (w1 ++ its ++ w2), x. split; [|exact Vx]. apply Ct. cbn [run_statements]. rewrite F, Hfl. cbn [orb]. rewrite Er, Rx. change (g_final (std L) r) with (Ok r). cbn match. rewrite Rx, Ux. reflexivity.
  - destruct Gr as [Rx Ux]. exists (w1 ++ its ++ w2). apply Ct. cbn [run_statements]. rewrite F, Hfl. cbn [orb]. rewrite Er, Rx. change (g_final (std L) r) with (Ok r). cbn match. rewrite Rx, Ux. reflexivity.
  - destruct Gr as (m & i & nx & tr & Rx). exists i, nx, tr. apply Ct. cbn [run_statements]. rewrite F, Hfl. cbn [orb]. rewrite Er, Rx. reflexivity.
  - exact Gr.
Qed.
