(** Texts and programs of arithmetic that go wrong. *)
From Coq Require Import ZArith QArith Qpower Ascii String List Bool Lia.
From Verif Require Import Base BaseProofs Dec DecProofs Num NumSpec NumProofs NumProofs2 NumProofs3 NumProofs4 Lex LexSpec Bases BasesProofs Formats Units UnitsProofs5 Install InstallProofs Syntax Pos PosSpec PosProofs Call CallSpec Loop LoopSpec LoopProofs Parse Prop_Parse Exec ExecSpec ErrorSpec ErrorProofs ErrorProofs2 ErrorProofs3 ContainSpec ContainProofs2 Std StdSpec StdProofs StdProofs2 StdProofs4 StdProofs5 ArithSpec ArithProofs VarNameSpec ArithTextSpec ArithRunSpec ArithTextProofs ArithTextProofs2 ArithTextProofs3 ArithTextProofs4 ArithFunProofs ArithTextProofs5 ArithTextProofs6 ArithTextProofs7 ArithErrSpec ArithErrProofs ArithErrProofs2 ArithErrFun.
Import ListNotations.
Open Scope nat_scope.

Lemma decide_open o a b : decide o a b <> Open -> a <> Open /\ b <> Open.
Proof. destruct a, b; cbn; intuition congruence. Qed.
Lemma decide_fun_open f a : decide_fun f a <> Open -> a <> Open.
Proof. destruct a; cbn; congruence. Qed.
Lemma decide_fun2_open f a b : decide_fun2 f a b <> Open -> a <> Open /\ b <> Open.
Proof. destruct a, b; cbn; intuition congruence. Qed.
Lemma decide_fun2_wrong f a b : a <> Open -> b <> Open -> a = Wrong \/ b = Wrong -> decide_fun2 f a b = Wrong.
Proof. destruct a, b; cbn; intuition congruence. Qed.
Lemma sized_within vars p k e : sized vars p k e -> within k (judge vars e).
Proof. destruct e; intros [H _]; exact H. Qed.
Lemma sized_fit vars p k e : sized vars p k e -> literals_fit p e.
Proof. induction e as [l|n|o a IHa b IHb|f a IHa|f a IHa b IHb]; cbn [sized literals_fit]; [intros [_ H]; exact H|trivial| |intros (_ & _ & H); exact (IHa H)|]; intros (_ & H1 & H2); (split; [apply IHa, H1|apply IHb, H2]). Qed.
Lemma numerals_literals p e : numerals_fit p e -> literals_fit p e.
Proof. induction e; cbn [numerals_fit literals_fit]; tauto. Qed.
Lemma judge_value vars e q : avalue vars e = Some q -> judge vars e = Worth q.
Proof.
  revert q. induction e as [l|n|o a IHa b IHb|f a IHa|f a IHa b IHb]; cbn [avalue judge]; intros q H; [congruence|rewrite H; reflexivity| | |].
  2: { destruct (avalue vars a) as [x|]; [|discriminate]. rewrite (IHa x eq_refl). cbn [decide_fun]. rewrite H. reflexivity. }
  2: { destruct (avalue vars a) as [x|]; [|discriminate]. destruct (avalue vars b) as [y|]; [|discriminate]. rewrite (IHa x eq_refl), (IHb y eq_refl). cbn [decide_fun2]. rewrite H. reflexivity. }
  destruct (avalue vars a) as [x|]; [|discriminate]. destruct (avalue vars b) as [y|]; [|discriminate]. rewrite (IHa x eq_refl), (IHb y eq_refl). cbn [decide]. rewrite H.
  destruct o; try reflexivity. cbn [apply_op] in H. destruct (Qeq_bool y 0); [discriminate|reflexivity].
Qed.
Lemma stays_sized vars p k e : stays vars p k e -> sized vars p k e.
Proof.
  induction e as [l|n|o a IHa b IHb|f a IHa|f a IHa b IHb].
  - cbn [stays sized avalue judge]. trivial.
  - cbn [stays sized avalue judge]. destruct (vars n); tauto.
  - intros H. pose proof H as H'. cbn [stays] in H. destruct H as (S0 & S1 & S2). destruct (stays_value _ _ _ _ H') as (q & Q1 & D). cbn [sized]. rewrite (judge_value _ _ _ Q1). auto.
  - intros H. pose proof H as H'. cbn [stays] in H. destruct H as (S0 & S1 & S2). destruct (stays_value _ _ _ _ H') as (q & Q1 & D). cbn [sized]. rewrite (judge_value _ _ _ Q1). auto.
  - intros H. pose proof H as H'. cbn [stays] in H. destruct H as (S0 & S1 & S2). destruct (stays_value _ _ _ _ H') as (q & Q1 & D). cbn [sized]. rewrite (judge_value _ _ _ Q1). auto.
Qed.
Lemma exactly_ordinary vars s : vars_exactly vars s -> all_ordinary s.
Proof. intros [_ H] n v u E. specialize (H n). rewrite E in H. destruct v; try destruct H; exact I. Qed.
(** * One item *)
Definition item_gives (L : lib) (stl : bool) (s : st) (m : nat) (i : item) (v : verdict) : Prop :=
  (exists r, eval_item (std L) (execute (std L) m) stl i s = (OOk r, s) /\ gives r v /\ no_error r) \/
  (v = Wrong /\ exists e, eval_item (std L) (execute (std L) m) stl i s = (OErr e, s)).
Lemma item_fair L stl s m lev i v : ifunc i = true -> (forall t, i <> IOp t) -> item_gives L stl s m i v ->
  fair_run L stl s m lev [i] v /\ clean_items L stl s m [i] /\ plain_items [i].
Proof.
  intros Hf Ho X. split; [|split].
  - intros j rest sl orig. change ([i] ++ rest) with (i :: rest). assert (E : eval_operands (std L) (execute (std L) m) stl (i :: rest) j sl orig s =
      bind (eval_operand (std L) (execute (std L) m) stl (firstn j orig) i) (fun p => eval_operands (std L) (execute (std L) m) stl rest (S j) (sl ++ [SRes (fst p) j]) (orig ++ [snd p])) s).
    { cbn [eval_operands]. rewrite Hf. destruct i; try reflexivity. destruct (Ho _ eq_refl). }
    rewrite E. unfold bind, eval_operand. cbn [functional_items filter]. rewrite Hf. cbn [length]. replace (j + 1) with (S j) by lia. destruct X as [(r & E1 & G1 & _)|(Ew & e & E1)]; rewrite E1.
    + exists (Leaf (r, j)), [i]. split; [apply fair_leaf, G1|reflexivity].
    + destruct e; eexists (Leaf (_, j)), [_]; (split; [|reflexivity]); apply fair_leaf; rewrite Ew; eexists _, _, _, _; reflexivity.
  - constructor; [|constructor]. intros _. destruct X as [(r' & E1 & _ & G1)|(_ & e & E1)]; eexists; (split; [exact E1|]); [exact G1|exact I].
  - intros sym [K|[]]. destruct (Ho sym K).
Qed.
Lemma wrong_points L stl s m its r mm i nx tr : clean_items L stl s m its -> plain_items its -> execute (std L) (S m) stl its s = (OOk r, s) -> rval r = VExc (XExec mm i nx tr) -> points_into its i nx.
Proof.
  intros C' P' Er Rn. destruct (execute_value_items (std L) m stl _ s r _ s (std_unwritten_infix L) (fun sym => plain_passes L stl _ sym P') (clean_order L stl s m _ C') Er Rn) as (m1 & i1 & nx1 & tr1 & E1 & E2).
  assert (Ei : i = i1 /\ nx = nx1) by (split; congruence). destruct Ei as [-> ->]. destruct E2 as [[_ E2]|[_ E2]]; [exact (before_points _ _ _ E2)|exact (within_points _ _ _ _ _ E2)].
Qed.
Lemma framed L stl s m w1 its w2 : blanks w1 -> blanks w2 -> clean_items L stl s m its -> plain_items its -> clean_items L stl s m (w1 ++ its ++ w2) /\ plain_items (w1 ++ its ++ w2).
Proof.
  intros B1 B2 C P. split; [unfold clean_items; rewrite !Forall_app; repeat split; [apply clean_blanks, B1|exact C|apply clean_blanks, B2]|].
  apply plain_app; [apply plain_blanks, B1|apply plain_app; [exact P|apply plain_blanks, B2]].
Qed.
(** An argument: its value, or an error *)
Lemma arg_gives L stl s m text items mk a g b args n acc r v : items_text items = text -> items = a ++ g ++ b -> n <= length a -> clean_items L stl s m g -> plain_items g ->
  execute (std L) (S m) stl g s = (OOk r, s) -> gives r v ->
  (v <> Wrong -> eval_args (execute (std L) (S m)) stl false text items mk (g :: args) n acc s = eval_args (execute (std L) (S m)) stl false text items mk args (n + length g + 1) (acc ++ [r]) s) /\
  (v = Wrong -> exists e, eval_args (execute (std L) (S m)) stl false text items mk (g :: args) n acc s = (OErr e, s)).
Proof.
  intros Et Ei Hn C P Er Gr. split; intros Hv; cbn [eval_args]; rewrite Er.
  - destruct v as [q| | |]; cbn [gives] in Gr; try congruence; [destruct Gr as (x & -> & _)|destruct Gr as [-> _]|destruct Gr]; reflexivity.
  - subst v. destruct Gr as (mm & i & nx & tr & Rn). rewrite Rn. pose proof (wrong_points L stl s m g r mm i nx tr C P Er Rn) as Pt.
    destruct (truncate_reach text items n a g b i nx Et Ei Hn Pt) as [t Ht]. unfold reraise. rewrite Ht. eexists. reflexivity.
Qed.
Lemma shape_fair L stl s vars k : pow_ok (l_prec L) (f_pow (l_fmt L)) -> showable L k -> (3 * k + 1 <= l_prec L)%Z -> vars_exactly vars s ->
  forall d lev its e, shape (l_prec L) d lev its e -> forall m, d <= m -> Forall spelled its -> sized vars (l_prec L) k e -> judge vars e <> Open ->
  fair_run L stl s m lev its (judge vars e) /\ clean_items L stl s m its /\ plain_items its.
Proof.
  intros Hpow Hk Hp Hv. induction 1 as [d l n E V G Lo|d n|d d' text w1 w2 its e Hd B1 B2 Hs IH|d d' text f h1 h2 w1 its w2 tl e Hd B1 B2 Hs IH|d d' text f h1 h2 w1 i1 w2 c w3 i2 w4 tl a b Hd B1 B2 B3 B4 H1 IH1 H2 IH2|d lev its e Hs IH|d o i1 w1 w2 i2 a b B1 B2 H1 IH1 H2 IH2]; intros m Hm Sp St Hq.
  - split; [|split].
    + intros j rest sl orig. exists (Leaf (mkRes (VNum n) None (Some ROther), j)), [ILit (lit_text l) (LNum n)]. split; [apply fair_leaf; exists n; repeat split; try assumption; exact (lit_cast _ _ _ E)|].
      change ([ILit (lit_text l) (LNum n)] ++ rest) with (ILit (lit_text l) (LNum n) :: rest). erewrite operands_item; [|reflexivity|reflexivity|reflexivity].
      cbn [functional_items filter ifunc length]. replace (j + 1) with (S j) by lia. reflexivity.
    + constructor; [|constructor]. intros _. eexists. split; [reflexivity|]. intros e. discriminate.
    + intros sym [K|[]]. discriminate K.
  - assert (X : exists r, eval_item (std L) (execute (std L) m) stl (IVar n) s = (OOk r, s) /\ gives r (judge vars (AVar n))).
    { cbn [eval_item judge]. destruct Hv as [Hv1 Hv2]. specialize (Hv2 n). destruct (vars n) as [q|] eqn:En.
      - destruct (Hv1 n q En) as (x & Ea & G & Lo & V). rewrite Ea in *. eexists. split; [reflexivity|]. exists x. repeat split; try assumption; tauto.
      - destruct (assoc n (s_vars s)) as [[v u]|]; [|eexists; split; [reflexivity|split; reflexivity]]. destruct v; try destruct Hv2. congruence. }
    destruct X as (r & Er & Gr). split; [|split].
    + intros j rest sl orig. exists (Leaf (r, j)), [IVar n]. split; [apply fair_leaf, Gr|].
      change ([IVar n] ++ rest) with (IVar n :: rest). erewrite operands_item; [|reflexivity|reflexivity|exact Er].
      cbn [functional_items filter ifunc length]. replace (j + 1) with (S j) by lia. reflexivity.
    + constructor; [|constructor]. intros _. eexists. split; [exact Er|]. intros e K. cbn [judge] in Gr. destruct (vars n); cbn [gives] in Gr; [destruct Gr as (x & X & _)|destruct Gr as [X _]]; congruence.
    + intros sym [K|[]]. discriminate K.
  - apply Forall_cons_iff in Sp as [Sp _]. destruct (spelled_inv _ _ Sp eq_refl) as [Tx Sp']. cbn [itext] in Tx. pose proof Sp' as Sp2. rewrite !Forall_app in Sp2. destruct Sp2 as (_ & Sp2 & _).
    destruct m as [|m]; [lia|]. destruct (IH m ltac:(lia) Sp2 St Hq) as (R & C & P).
    destruct (fair_execute L stl s m 4 w1 its w2 (judge vars e) B1 B2 (shape_functional _ _ _ _ _ Hs) R) as (r & Er & Gr).
    destruct (framed L stl s m w1 its w2 B1 B2 C P) as [C' P']. apply item_fair; [reflexivity|discriminate|]. unfold item_gives. cbn [eval_item]. unfold eval_inner. rewrite Er. destruct (judge vars e) as [q| | |] eqn:Ej; cbn [gives] in Gr.
    + destruct Gr as (n & Rn & Un & Gn). left. rewrite Rn, Un. eexists. split; [reflexivity|]. split; [exists n; auto|]. intros x. discriminate.
    + destruct Gr as [Rn Un]. left. rewrite Rn, Un. eexists. split; [reflexivity|]. split; [split; reflexivity|]. intros x. discriminate.
    + destruct Gr as (mm & i & nx & tr & Rn). right. split; [reflexivity|]. rewrite Rn. pose proof (wrong_points L stl s m _ r mm i nx tr C' P' Er Rn) as Pt.
      destruct (truncate_reach text (w1 ++ its ++ w2) 0 [] (w1 ++ its ++ w2) [] i nx Tx) as [t Et]; [rewrite app_nil_r; reflexivity|lia|exact Pt|]. cbn [firstn app] in Et.
      unfold reraise. rewrite Et. eexists. reflexivity.
    + destruct Gr.
  - apply Forall_cons_iff in Sp as [Sp _]. destruct (spelled_inv _ _ Sp eq_refl) as [Tx Sp']. cbn [itext] in Tx. pose proof Sp' as Sp2. rewrite !Forall_app in Sp2. destruct Sp2 as (_ & (_ & Sp2 & _) & _).
    cbn [judge] in *. pose proof (decide_fun_open _ _ Hq) as Ho. cbn [sized judge] in St. destruct St as (S0 & Rm & S1).
    destruct m as [|m]; [lia|]. destruct (IH m ltac:(lia) Sp2 S1 Ho) as (R & C & P).
    destruct (fair_execute L stl s m 4 w1 its w2 (judge vars e) B1 B2 (shape_functional _ _ _ _ _ Hs) R) as (r & Er & Gr).
    destruct (framed L stl s m w1 its w2 B1 B2 C P) as [C' P']. apply item_fair; [reflexivity|discriminate|]. unfold item_gives. cbn [eval_item]. unfold eval_func. rewrite find_fun, fun_excs. unfold bind.
    set (items := [h1; h2] ++ (w1 ++ its ++ w2) ++ tl) in *.
    destruct (arg_gives L stl s m text items (fun t its0 => IFunc t true its0 (fname f) [w1 ++ its ++ w2]) [h1; h2] (w1 ++ its ++ w2) tl [] 2 [] r (judge vars e) Tx eq_refl (le_n _) C' P' Er Gr) as [A1 A2].
    assert (Dw : judge vars e = Wrong \/ judge vars e <> Wrong) by (destruct (judge vars e); auto; right; discriminate). destruct Dw as [Dw|Dw].
    + right. split; [rewrite Dw; reflexivity|]. destruct (A2 Dw) as [x Ex]. rewrite Ex. eauto.
    + rewrite (A1 Dw). cbn [eval_args app]. unfold ret. exact (fun_gives L (callop (std L) stl) stl f r (judge vars e) k s Hk Hp Rm Gr (sized_within _ _ _ _ S1) Ho Dw).
  - apply Forall_cons_iff in Sp as [Sp _]. destruct (spelled_inv _ _ Sp eq_refl) as [Tx Sp']. cbn [itext] in Tx. pose proof Sp' as Sp2. rewrite !Forall_app in Sp2. destruct Sp2 as (_ & (_ & Sp1 & _) & _ & (_ & Sp2 & _) & _).
    cbn [judge] in *. destruct (decide_fun2_open _ _ _ Hq) as [Ho1 Ho2]. cbn [sized judge] in St. destruct St as (S0 & S1 & S2).
    destruct m as [|m]; [lia|]. destruct (IH1 m ltac:(lia) Sp1 S1 Ho1) as (R1 & C1 & P1). destruct (IH2 m ltac:(lia) Sp2 S2 Ho2) as (R2 & C2 & P2).
    destruct (fair_execute L stl s m 4 w1 i1 w2 (judge vars a) B1 B2 (shape_functional _ _ _ _ _ H1) R1) as (r1 & Er1 & Gr1).
    destruct (fair_execute L stl s m 4 w3 i2 w4 (judge vars b) B3 B4 (shape_functional _ _ _ _ _ H2) R2) as (r2 & Er2 & Gr2).
    destruct (framed L stl s m w1 i1 w2 B1 B2 C1 P1) as [C1' P1']. destruct (framed L stl s m w3 i2 w4 B3 B4 C2 P2) as [C2' P2'].
    apply item_fair; [reflexivity|discriminate|]. unfold item_gives. cbn [eval_item]. unfold eval_func. rewrite find_fun2, fun2_excs. unfold bind.
    set (items := [h1; h2] ++ (w1 ++ i1 ++ w2) ++ [c] ++ (w3 ++ i2 ++ w4) ++ tl) in *. set (args := [w1 ++ i1 ++ w2; w3 ++ i2 ++ w4]).
    set (mk := fun t its0 => IFunc t true its0 (fname2 f) args).
    destruct (arg_gives L stl s m text items mk [h1; h2] (w1 ++ i1 ++ w2) ([c] ++ (w3 ++ i2 ++ w4) ++ tl) [w3 ++ i2 ++ w4] 2 [] r1 (judge vars a) Tx eq_refl (le_n _) C1' P1' Er1 Gr1) as [A1 A2].
    destruct (arg_gives L stl s m text items mk ([h1; h2] ++ (w1 ++ i1 ++ w2) ++ [c]) (w3 ++ i2 ++ w4) tl [] (2 + length (w1 ++ i1 ++ w2) + 1) ([] ++ [r1]) r2 (judge vars b) Tx) as [A3 A4]; try assumption.
    { unfold items. rewrite <- !app_assoc. reflexivity. }
    { rewrite !app_length. cbn [length]. lia. }
    assert (Dw : judge vars a = Wrong \/ judge vars a <> Wrong) by (destruct (judge vars a); auto; right; discriminate). destruct Dw as [Dw|Dw].
    { right. split; [apply decide_fun2_wrong; auto|]. destruct (A2 Dw) as [x Ex]. unfold args. rewrite Ex. eauto. }
    unfold args. rewrite (A1 Dw). assert (Dv : judge vars b = Wrong \/ judge vars b <> Wrong) by (destruct (judge vars b); auto; right; discriminate). destruct Dv as [Dv|Dv].
    { right. split; [apply decide_fun2_wrong; auto|]. destruct (A4 Dv) as [x Ex]. rewrite Ex. eauto. }
    rewrite (A3 Dv). cbn [eval_args app]. unfold ret. exact (fun2_gives L (callop (std L) stl) stl f r1 r2 _ _ k s Hk Hp Gr1 Gr2 (sized_within _ _ _ _ S1) (sized_within _ _ _ _ S2) Ho1 Dw Ho2 Dv).
  - destruct (IH m Hm Sp St Hq) as (R & C & P). split; [|auto]. intros j rest sl orig. destruct (R j rest sl orig) as (t & its' & Ht & E). exists t, its'. split; [apply fair_looser, Ht|exact E].
  - cbn [judge] in *. destruct (decide_open _ _ _ Hq) as [Ha Hb]. cbn [sized judge] in St. destruct St as (S0 & S1 & S2). rewrite !Forall_app in Sp. destruct Sp as (Sp1 & _ & _ & _ & Sp2).
    destruct (IH1 m Hm Sp1 S1 Ha) as (R1 & C1 & P1). destruct (IH2 m Hm Sp2 S2 Hb) as (R2 & C2 & P2).
    assert (Pm : plain_items (op_items o)) by (intros sym Hi; exists o; destruct o; cbn [op_items In] in Hi; destruct Hi as [Hi|[]] || destruct Hi; injection Hi as <-; reflexivity).
    split; [|split].
    + intros j rest sl orig. set (j1 := j + length (functional_items i1)).
      destruct (R1 j (w1 ++ op_items o ++ w2 ++ i2 ++ rest) sl orig) as (t1 & i1' & T1 & E1).
      destruct (R2 (j1 + length (op_items o)) rest ((sl ++ slots_of (chain_of t1)) ++ match gap_of o j1 with GOp s i => [SOp s i] | GImp => [] end) ((((orig ++ i1') ++ w1) ++ op_items o) ++ w2)) as (t2 & i2' & T2 & E2).
      exists (Node (gap_of o j1) t1 t2), (i1' ++ w1 ++ op_items o ++ w2 ++ i2').
      split; [exact (fair_bin L stl s o j1 t1 t2 _ _ k Hpow Hk Hp (sized_within _ _ _ _ S1) (sized_within _ _ _ _ S2) S0 Hq T1 T2)|].
      rewrite <- !app_assoc. rewrite E1, (operands_blank _ _ _ w1), op_items_run, (operands_blank _ _ _ w2) by assumption. fold j1. rewrite E2, tree_slots.
      rewrite !functional_app, (functional_blanks w1 B1), (functional_blanks w2 B2), <- !app_assoc. cbn [app].
      replace (functional_items (op_items o)) with (op_items o) by (destruct o; reflexivity). unfold j1. rewrite !app_length, !Nat.add_assoc. reflexivity.
    + unfold clean_items. rewrite !Forall_app. repeat split; [exact C1|apply clean_blanks, B1| |apply clean_blanks, B2|exact C2].
      destruct o; cbn [op_items]; repeat constructor; intros K; discriminate K.
    + apply plain_app; [exact P1|]. apply plain_app; [apply plain_blanks, B1|]. apply plain_app; [exact Pm|]. apply plain_app; [apply plain_blanks, B2|exact P2].
Qed.
