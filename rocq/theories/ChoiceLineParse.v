(** How programs of choices are parsed. *)
From Coq Require Import ZArith QArith Ascii String List Bool Lia.
From Verif Require Import Base BaseProofs Dec Num NumSpec Lex LexSpec LexProofs Bases Formats Units Syntax Pos Call Loop Parse Exec Std StdSpec StdProofs StdProofs2 StdProofs5 ContainProofs6 CompleteProofs ErrorSpec VarNameSpec VarNameProofs ArithTextSpec ArithRunSpec ArithTextProofs2 ArithTextProofs3 ArithTextProofs5 ArithTextProofs6 ArithErrSpec CondTextSpec CondTextProofs ChoiceTextSpec ChoiceTextProofs ChoiceLineSpec ChoiceLineComplete.
Import ListNotations.
Open Scope nat_scope.

(** * Before and after the sign = *)
Lemma decides_char k t e : decides k t e -> exists c r, t = c :: r /\ ceq c "=" = false.
Proof.
  induction 1 as [t b H|b1 t b2 e _ _ _ _|c t1 b1 b2 t2 a b _ _ H1 _|k t e _ IH|j t1 b1 b2 t2 a b _ _ _ _ _ IH1 _ _|b t e _ _ _ _]; [| | | | |eexists _, _; split; reflexivity].
  - destruct t as [|c r]; [destruct b; discriminate H|]. exists c, r. split; [reflexivity|]. destruct c as [[] [] [] [] [] [] [] []]; try reflexivity. destruct b; discriminate H.
  - eexists _, _. split; reflexivity.
  - destruct (reads_first _ _ _ H1) as (d & r & -> & Hd). eexists _, _. split; [reflexivity|]. apply operand_not_set, Hd.
  - exact IH.
  - destruct IH1 as (d & r & -> & Hd). eexists _, _. split; [reflexivity|exact Hd].
Qed.
Lemma chooses_char k t e : chooses k t e -> exists c r, t = c :: r /\ ceq c "=" = false.
Proof.
  induction 1 as [t e H|b1 t b2 e _ _ _ _|t e _ IH|t1 b1 b2 t2 b3 b4 t3 c x y _ _ _ _ _ _ _ _ H1 _ _ _ _].
  - destruct (reads_first _ _ _ H) as (d & r & -> & Hd). eexists _, _. split; [reflexivity|]. apply operand_not_set, Hd.
  - eexists _, _. split; reflexivity.
  - exact IH.
  - destruct (decides_char _ _ _ H1) as (d & r & -> & Hd). eexists _, _. split; [reflexivity|exact Hd].
Qed.
Lemma choice_first t e rest : choice_text t e -> exists d r, t ++ rest = d :: r /\ ceq d "=" = false.
Proof.
  intros (b1 & u & b2 & -> & Hb & _ & Hr). destruct (chooses_char _ _ _ Hr) as (c & r & -> & Hc). destruct Hb as [|x b [Hx _] _]; cbn [app].
  - eexists; eexists; split; [reflexivity|exact Hc].
  - eexists; eexists; split; [reflexivity|]. apply space_not_set, Hx.
Qed.

(** * The sign itself *)
Lemma up_match h d r : h <> Some Beside -> ceq d "=" = false -> match_op std_symbols (set_sym h ++ d :: r) = Some (set_sym h).
Proof.
  intros Hh H. destruct h as [o|]; [|apply set_match, H].
  destruct o; try congruence; clear; destruct d as [[] [] [] [] [] [] [] []]; lazy; reflexivity.
Qed.
Lemma up_read L rec fl cur h d r lft : h <> Some Beside -> ceq d "=" = false -> after_operand cur ->
  try_parsers (std_pcfg L) rec (pc_parsers (std_pcfg L)) fl cur (set_sym h ++ d :: r) lft = (PRitems [IOp (set_sym h)] (length (set_sym h)) false, lft).
Proof.
  intros Hh Hd Hp. pose proof (up_match h d r Hh Hd) as Hm. change (pc_parsers (std_pcfg L)) with (std_parsers L). unfold std_parsers. cbv zeta.
  assert (Gl : forall f, run_parser (std_pcfg L) rec (PLit true f) fl cur (set_sym h ++ d :: r) lft = (PRnone, lft)).
  { intros f. cbn [run_parser]. unfold after_operand in Hp. rewrite Hp. destruct (set_sym h ++ d :: r); reflexivity. }
  rewrite try_none. 2: { cbn [run_parser]. unfold parse_term. replace (prefixb [newline] _) with false by (destruct h as [[]|]; try congruence; reflexivity). destruct (fl_ign fl), h as [[]|]; try congruence; reflexivity. }
  do 3 (rewrite try_none by (destruct h as [[]|]; try congruence; reflexivity)).
  do 7 (rewrite try_none by apply Gl).
  cbn [try_parsers run_parser]. unfold std_pcfg, pc_ops. rewrite symbols_of, Hm. destruct h as [[]|]; try congruence; reflexivity.
Qed.
Lemma up_first h : h <> Some Beside -> exists c r, set_sym h = c :: r /\ is_word c = false /\ c <> "("%char.
Proof. intros Hh. destruct h as [[]|]; try congruence; eexists _, _; (split; [reflexivity|split; [reflexivity|discriminate]]). Qed.

(** * The signs ++ and -- *)
Lemma step_match up r : match_op std_symbols (step_sym up ++ r) = Some (step_sym up).
Proof. destruct up; lazy; reflexivity. Qed.
Lemma step_read L rec fl cur up r lft : after_operand cur ->
  try_parsers (std_pcfg L) rec (pc_parsers (std_pcfg L)) fl cur (step_sym up ++ r) lft = (PRitems [IOp (step_sym up)] (length (step_sym up)) false, lft).
Proof.
  intros Hp. pose proof (step_match up r) as Hm. change (pc_parsers (std_pcfg L)) with (std_parsers L). unfold std_parsers. cbv zeta.
  assert (Gl : forall f, run_parser (std_pcfg L) rec (PLit true f) fl cur (step_sym up ++ r) lft = (PRnone, lft)).
  { intros f. cbn [run_parser]. unfold after_operand in Hp. rewrite Hp. destruct (step_sym up ++ r); reflexivity. }
  rewrite try_none. 2: { cbn [run_parser]. unfold parse_term. replace (prefixb [newline] _) with false by (destruct up; reflexivity). destruct (fl_ign fl), up; reflexivity. }
  do 3 (rewrite try_none by (destruct up; reflexivity)).
  do 7 (rewrite try_none by apply Gl).
  cbn [try_parsers run_parser]. unfold std_pcfg, pc_ops. rewrite symbols_of, Hm. destruct up; reflexivity.
Qed.

(** * The items of a line *)
Inductive cline_shape (p : Z) (d : nat) : list item -> cline -> Prop :=
| kshape_blank w : blanks w -> cline_shape p d w KBlank
| kshape_exp w1 its w2 e : blanks w1 -> blanks w2 -> cshape p d 1 its e -> cline_shape p d (w1 ++ its ++ w2) (KExp e)
| kshape_set h w1 n w2 w3 its w4 e : h <> Some Beside -> blanks w1 -> blanks w2 -> blanks w3 -> blanks w4 -> cshape p d 1 its e ->
    cline_shape p d (w1 ++ [IVar n] ++ w2 ++ [IOp (set_sym h)] ++ w3 ++ its ++ w4) (KSet h n e)
| kshape_step up w1 n w2 w3 : blanks w1 -> blanks w2 -> blanks w3 -> cline_shape p d (w1 ++ [IVar n] ++ w2 ++ [IOp (step_sym up)] ++ w3) (KStep up n).
Lemma cline_more p d its l w : cline_shape p d its l -> blanks w -> cline_shape p d (its ++ w) l.
Proof. intros H Hw. destruct H; rewrite <- ?app_assoc; constructor; try assumption; apply blanks_app; assumption. Qed.
Lemma cline_deeper p d d' its l : cline_shape p d its l -> d <= d' -> cline_shape p d' its l.
Proof. intros H Hd. destruct H; constructor; try assumption; eapply cshape_deeper; eassumption. Qed.
Definition cline_fits (p : Z) (l : cline) : Prop := match l with KBlank | KStep _ _ => True | KExp e | KSet _ _ e => cliterals_fit p e end.
Lemma choice_on L t e cur m rest : exp_letter L -> (1 <= l_prec L)%Z -> choice_text t e -> cliterals_fit (l_prec L) e -> length t <= m -> follows rest -> before_operand cur ->
  exists w1 its w2, blanks w1 /\ blanks w2 /\ cshape (l_prec L) (length t) 1 its e /\ reads_on L (parse (std_pcfg L) m) no_flags t cur rest (w1 ++ its ++ w2).
Proof.
  intros He Hp (b1 & u & b2 & -> & Hb1 & Hb2 & Hr) Hf Hm Hrest Hc. rewrite !app_length in Hm.
  destruct (chooses_parse L 1 u e He Hp Hr Hf m no_flags (cur ++ blank_items b1) (b2 ++ rest)) as (its & Sh & On).
  - reflexivity.
  - lia.
  - apply blank_follow; assumption.
  - unfold before_operand. rewrite prev_blanks by apply blanks_items. exact Hc.
  - exists (blank_items b1), its, (blank_items b2). split; [apply blanks_items|]. split; [apply blanks_items|].
    split; [apply (cshape_deeper _ _ _ _ _ Sh); rewrite !app_length; lia|].
    apply on_then; [apply on_blanks, Hb1|]. apply on_then; [exact On|apply on_blanks, Hb2].
Qed.
Lemma cline_on L t l m rest : exp_letter L -> (1 <= l_prec L)%Z -> cline_reads t l -> cline_fits (l_prec L) l -> length t <= m -> follows rest ->
  exists its, cline_shape (l_prec L) (length t) its l /\ reads_on L (parse (std_pcfg L) m) no_flags t [] rest its.
Proof.
  intros He Hp H Hf Hm Hrest. destruct H as [b Hb|t e Ht|h b1 n b2 t e Hh Hb1 Hn Hk Hb2 Ht|up b1 n b2 b3 Hb1 Hn Hk Hb2 Hb3].
  - exists (blank_items b). split; [constructor; apply blanks_items|apply on_blanks, Hb].
  - destruct (choice_on L t e [] m rest He Hp Ht Hf Hm Hrest eq_refl) as (w1 & its & w2 & B1 & B2 & Sh & On). exists (w1 ++ its ++ w2). split; [constructor; assumption|exact On].
  - rewrite !app_length in Hm. set (cur := ([] ++ blank_items b1) ++ [IVar n] ++ blank_items b2).
    assert (Hcur : after_operand cur).
    { unfold cur, after_operand. rewrite app_assoc, prev_blanks by apply blanks_items. rewrite (prev_app _ [IVar n] (IVar n) eq_refl). reflexivity. }
    destruct (choice_on L t e (cur ++ [IOp (set_sym h)]) m rest He Hp Ht Hf ltac:(lia) Hrest) as (w1 & its & w2 & B1 & B2 & Sh & On).
    { unfold before_operand. rewrite (prev_app _ [IOp (set_sym h)] (IOp (set_sym h)) eq_refl). reflexivity. }
    destruct (up_first h Hh) as (c0 & r0 & Es & Ew & Ep).
    exists (blank_items b1 ++ [IVar n] ++ blank_items b2 ++ [IOp (set_sym h)] ++ w1 ++ its ++ w2). split.
    + constructor; try assumption; try apply blanks_items. apply (cshape_deeper _ _ _ _ _ Sh). rewrite !app_length. lia.
    + apply on_then; [apply on_blanks, Hb1|]. apply on_then.
      * apply on_token; [destruct Hn as (c & r & -> & _); discriminate|]. intros lft. apply name_read; try assumption.
        -- rewrite Es, <- app_assoc. destruct Hb2 as [|x b [Hx _] _]; cbn [app name_over]; apply word_not; [exact Ew|apply space_not_set, Hx].
        -- discriminate.
        -- intros [_ [x E]]. rewrite Es, <- app_assoc in E. destruct Hb2 as [|y b [Hy _] _]; cbn in E; [congruence|]. assert (y = "("%char) by congruence. subst y. discriminate Hy.
      * apply on_then; [apply on_blanks, Hb2|]. apply on_then; [|unfold cur in On; rewrite <- !app_assoc in On; rewrite <- !app_assoc; exact On].
        destruct (choice_first t e rest Ht) as (d & r & E & Hd). apply on_token; [rewrite Es; discriminate|]. intros lft. rewrite E.
        apply up_read; [exact Hh|exact Hd|]. rewrite <- app_assoc. exact Hcur.
  - set (cur := ([] ++ blank_items b1) ++ [IVar n] ++ blank_items b2).
    assert (Hcur : after_operand cur).
    { unfold cur, after_operand. rewrite app_assoc, prev_blanks by apply blanks_items. rewrite (prev_app _ [IVar n] (IVar n) eq_refl). reflexivity. }
    exists (blank_items b1 ++ [IVar n] ++ blank_items b2 ++ [IOp (step_sym up)] ++ blank_items b3). split; [constructor; apply blanks_items|].
    apply on_then; [apply on_blanks, Hb1|]. apply on_then.
    + apply on_token; [destruct Hn as (c & r & -> & _); discriminate|]. intros lft. apply name_read; try assumption.
      * destruct Hb2 as [|x b [Hx _] _]; [destruct up|]; cbn [step_sym list_ascii_of_string app name_over]; apply word_not; [reflexivity|reflexivity|apply space_not_set, Hx].
      * discriminate.
      * intros [_ [x E]]. destruct Hb2 as [|y b [Hy _] _]; [destruct up; discriminate E|]. cbn in E. assert (y = "("%char) by congruence. subst y. discriminate Hy.
    + apply on_then; [apply on_blanks, Hb2|]. apply on_then; [|apply on_blanks, Hb3].
      apply on_token; [destruct up; discriminate|]. intros lft. apply step_read. rewrite <- app_assoc. exact Hcur.
Qed.

(** * Lines are complete *)
Definition line_sym (L : lib) (t : str) : Prop := (exists a, t = osym a /\ a <> Beside) \/ (exists c, t = csym c) \/ (exists j, t = jsym j) \/ (exists h, h <> Some Beside /\ t = set_sym h) \/ unwritten (g_ops (std L)) t \/ t = $"not".
Lemma no_ops w t : blanks w -> In (IOp t) w -> False.
Proof. intros Hw Hi. unfold blanks in Hw. rewrite Forall_forall in Hw. specialize (Hw _ Hi). discriminate Hw. Qed.
Ltac find_op_in H := rewrite ?in_app_iff in H; repeat (destruct H as [H|H]); try (exfalso; eapply no_ops; [|exact H]; assumption).
Lemma bshape_ops L p d k its e : bshape p d k its e -> forall t, In (IOp t) its -> line_sym L t.
Proof.
  induction 1 as [d t b|d d' text w1 w2 its e Hd B1 B2 Hs IH|d c i1 w1 w2 i2 a b B1 B2 H1 H2|d lev its e Hs IH|d j i1 w1 w2 i2 a b B1 B2 H1 IH1 H2 IH2|d w i e B Hs IH]; intros q Hi.
  - destruct Hi as [Hi|[]]. discriminate Hi.
  - destruct Hi as [Hi|[]]. discriminate Hi.
  - find_op_in Hi; [left; exact (shape_ops _ _ _ _ _ H1 q Hi)|right; left; injection Hi as <-; eauto|destruct Hi|left; exact (shape_ops _ _ _ _ _ H2 q Hi)].
  - exact (IH q Hi).
  - find_op_in Hi; [exact (IH1 q Hi)|right; right; left; injection Hi as <-; eauto|destruct Hi|exact (IH2 q Hi)].
  - find_op_in Hi; [injection Hi as <-; do 5 right; reflexivity|destruct Hi|exact (IH q Hi)].
Qed.
Lemma cshape_ops L p d its e : cshape p d 0 its e -> forall t, In (IOp t) its -> line_sym L t.
Proof.
  intros H. inversion H as [d0 i0 e0 Hs|d0 d' text w1 w2 i0 e0 Hd B1 B2 Hs| |]; subst; intros q Hi.
  - left. exact (shape_ops _ _ _ _ _ Hs q Hi).
  - destruct Hi as [Hi|[]]. discriminate Hi.
Qed.
Lemma line_op L t o : line_sym L t -> find_op (g_ops (std L)) t = Some o -> length (op_r o) <= 1 /\ all_none o.
Proof.
  intros H Ho. assert (G : match find_op (g_ops (std L)) t with Some o => (length (op_r o) <=? 1) && forallb (fun x => match x with None => true | Some _ => false end) (op_l o ++ op_r o) | None => true end = true).
  { destruct H as [(a & -> & Ha)|[(c & ->)|[(j & ->)|[(h & Hh & ->)|[H| ->]]]]].
    - destruct a; try congruence; reflexivity.
    - destruct c; reflexivity.
    - destruct j; reflexivity.
    - destruct h as [[]|]; try congruence; reflexivity.
    - unfold unwritten in H. repeat (destruct H as [H|H]); try discriminate H; injection H as <-; reflexivity.
    - reflexivity. }
  rewrite Ho in G. apply andb_true_iff in G as [G1 G2]. split; [apply Nat.leb_le, G1|]. rewrite forallb_app in G2. apply andb_true_iff in G2 as [G2 G3]. rewrite forallb_forall in G2, G3.
  split; apply Forall_forall; intros [x|] Hx; try reflexivity; [specialize (G2 _ Hx)|specialize (G3 _ Hx)]; discriminate.
Qed.
Lemma not_line L (b : bool) : ~ line_sym L (if b then $"then" else $"else").
Proof.
  intros [(a & E & _)|[(c & E)|[(j & E)|[(h & _ & E)|[H|E]]]]]; destruct b; try discriminate E; try (destruct a; discriminate E); try (destruct c; discriminate E); try (destruct j; discriminate E); try (destruct h as [[]|]; discriminate E);
  unfold unwritten in H; repeat (destruct H as [H|H]); discriminate H.
Qed.
Lemma functional_ops t its : In (IOp t) (functional_items its) -> In (IOp t) its.
Proof. intros H. apply filter_In in H. exact (proj1 H). Qed.
Lemma choice_ends L p d its e pre w s : cshape p d 1 its e -> blanks w -> (forall t, In (IOp t) pre -> line_sym L t) -> incomplete (g_ops (std L)) (functional_items (pre ++ its ++ w)) s = false.
Proof.
  intros H Hw Hpre. rewrite !functional_app, (functional_blanks w Hw), app_nil_r. inversion H as [| |d0 i0 e0 Hs|d0 i1 w1 w2 i2 w3 w4 i3 c x y B1 B2 B3 B4 H1 H2 H3]; subst.
  - destruct (cshape_prev _ _ _ _ _ Hs) as (i & I1 & I2). destruct (last_functional its i I1) as (fs & E). rewrite E, app_assoc. apply ends_complete; [exact I2|]. intros t o Ht Ho.
    apply (line_op L t o); [|exact Ho]. destruct Ht as [Ht|Ht]; [|do 4 right; left; exact Ht]. apply in_app_or in Ht as [Ht|Ht]; [exact (Hpre t (functional_ops _ _ Ht))|].
    apply (cshape_ops L _ _ _ _ Hs). apply functional_ops. rewrite E. apply in_or_app. left. exact Ht.
  - rewrite !functional_app, (functional_blanks w1 B1), (functional_blanks w2 B2), (functional_blanks w3 B3), (functional_blanks w4 B4).
    destruct (cshape_prev _ _ _ _ _ H3) as (i & I1 & I2). destruct (last_functional i3 i I1) as (fs & E). rewrite E. cbn [app functional_items filter ifunc].
    change (filter ifunc i2) with (functional_items i2). rewrite app_assoc.
    eapply (choice_complete (g_ops (std L)) (line_sym L) ($"then") ($"else") _ (functional_items pre ++ functional_items i1) (functional_items i2) fs i s eq_refl).
    + intros t Ht. do 4 right. left. exact Ht.
    + intros t o Ht Ho. exact (line_op L t o Ht Ho).
    + apply find_then.
    + reflexivity.
    + reflexivity.
    + exact (not_line L true).
    + exact (not_line L false).
    + discriminate.
    + reflexivity.
    + intros t Ht. rewrite !in_app_iff in Ht. destruct Ht as [[Ht|Ht]|[Ht|Ht]].
      * exact (Hpre t (functional_ops _ _ Ht)).
      * exact (bshape_ops L _ _ _ _ _ H1 t (functional_ops _ _ Ht)).
      * exact (cshape_ops L _ _ _ _ H2 t (functional_ops _ _ Ht)).
      * apply (cshape_ops L _ _ _ _ H3 t). apply functional_ops. rewrite E. apply in_or_app. left. exact Ht.
    + pose proof (cshape_functional _ _ _ _ _ H2) as F. destruct (functional_items i2); [discriminate F|discriminate].
    + exact I2.
Qed.
Lemma cline_complete L p d its l s : cline_shape p d its l -> incomplete (g_ops (std L)) (functional_items its) s = false.
Proof.
  intros [w Hw|w1 i w2 e B1 B2 Hs|h w1 n w2 w3 i w4 e Hh B1 B2 B3 B4 Hs|up w1 n w2 w3 B1 B2 B3].
  - rewrite functional_blanks by assumption. reflexivity.
  - apply (choice_ends L p d i e); [exact Hs|exact B2|]. intros t Ht. destruct (no_ops _ _ B1 Ht).
  - replace (w1 ++ [IVar n] ++ w2 ++ [IOp (set_sym h)] ++ w3 ++ i ++ w4) with ((w1 ++ [IVar n] ++ w2 ++ [IOp (set_sym h)] ++ w3) ++ i ++ w4) by (rewrite <- !app_assoc; reflexivity).
    apply (choice_ends L p d i e); [exact Hs|exact B4|]. intros t Ht. find_op_in Ht; try discriminate Ht; try contradiction Ht.
    do 3 right. left. exists h. split; [exact Hh|]. injection Ht as <-. reflexivity.
  - rewrite !functional_app, (functional_blanks w1 B1), (functional_blanks w2 B2), (functional_blanks w3 B3). destruct up; reflexivity.
Qed.

(** * All lines *)
Lemma clines_on L m : exp_letter L -> (1 <= l_prec L)%Z -> forall texts ls, Forall2 cline_reads texts ls -> Forall (cline_fits (l_prec L)) ls -> ls <> [] -> length (lines_text texts) <= m ->
  exists sts, Forall2 (cline_shape (l_prec L) m) sts ls /\ forall fuel done n, length (lines_text texts) < fuel ->
    parse_loop (std_pcfg L) (parse (std_pcfg L) m) fuel no_flags done [] n (lines_text texts) None = (POk (done ++ sts) (n + length (lines_text texts)) None, None).
Proof.
  intros He Hp texts ls H. induction H as [|t l texts ls Hl Hls IH]; intros Hf Hne Hm; [congruence|]. apply Forall_cons_iff in Hf. destruct Hf as [Hf Hfs].
  destruct Hls as [|t2 l2 texts ls Hl2 Hls].
  - cbn [lines_text] in *. destruct (cline_on L t l m [] He Hp Hl Hf Hm I) as (its & Sh & On). exists [its]. split; [constructor; [exact (cline_deeper _ _ _ _ _ Sh Hm)|constructor]|].
    intros fuel done n Hfu. destruct (On fuel done n None) as (f1 & F1 & E1); [rewrite app_nil_r; exact Hfu|]. rewrite app_nil_r in E1. rewrite E1. destruct f1 as [|f1]; [cbn in F1; lia|]. reflexivity.
  - change (lines_text (t :: t2 :: texts)) with (t ++ line_end :: lines_text (t2 :: texts)) in *. rewrite app_length in *. cbn [length] in *.
    destruct (IH Hfs ltac:(discriminate) ltac:(lia)) as (sts & Ss & Ps).
    destruct (cline_on L t l m (line_end :: lines_text (t2 :: texts)) He Hp Hl Hf ltac:(lia) eq_refl) as (its & Sh & On).
    exists ((its ++ [INon NTerm [newline]]) :: sts). split.
    + constructor; [|exact Ss]. apply cline_more; [apply (cline_deeper _ _ _ _ _ Sh); lia|repeat constructor].
    + intros fuel done n Hfu. destruct (On fuel done n None) as (f1 & F1 & E1); [rewrite app_length; cbn [length]; lia|]. rewrite E1. destruct f1 as [|f1]; [cbn in F1; lia|].
      cbn [parse_loop app]. rewrite end_read by (apply (cline_complete L _ _ _ _ _ Sh)). cbn [Nat.eqb skipn].
      rewrite Ps by (cbn [length] in F1; lia). rewrite <- app_assoc. replace (n + length t + 1 + length (lines_text (t2 :: texts))) with (n + (length t + S (length (lines_text (t2 :: texts))))) by lia. reflexivity.
Qed.
Lemma clines_parse L texts ls : exp_letter L -> (1 <= l_prec L)%Z -> Forall2 cline_reads texts ls -> Forall (cline_fits (l_prec L)) ls -> ls <> [] ->
  exists sts, Forall2 (cline_shape (l_prec L) (length (lines_text texts))) sts ls /\
    parse_text (std_pcfg L) (lines_text texts) None = (POk sts (length (lines_text texts)) None, None).
Proof.
  intros He Hp H Hf Hne. destruct (clines_on L (length (lines_text texts)) He Hp texts ls H Hf Hne (le_n _)) as (sts & Ss & Ps). exists sts. split; [exact Ss|].
  unfold parse_text. cbn [parse]. rewrite Ps by lia. reflexivity.
Qed.
