(** How programs of arithmetic are parsed. *)
From Coq Require Import ZArith QArith Ascii String List Bool Lia.
From Verif Require Import Base BaseProofs Dec Num NumSpec Lex LexSpec LexProofs Bases Formats Units Syntax Pos Call Loop Parse Exec Std StdSpec StdProofs2 ContainProofs6 CompleteProofs ErrorSpec VarNameSpec VarNameProofs ArithTextSpec ArithRunSpec ArithTextProofs2 ArithTextProofs3 ArithTextProofs5.
Import ListNotations.
Open Scope nat_scope.

(** * The sign = *)
Lemma set_match d r : ceq d "=" = false -> match_op std_symbols ("="%char :: d :: r) = Some ($"=").
Proof. intros H. destruct d as [[] [] [] [] [] [] [] []]; try discriminate H; clear; lazy; reflexivity. Qed.
Lemma set_read L rec fl cur d r lft : ceq d "=" = false -> after_operand cur ->
  try_parsers (std_pcfg L) rec (pc_parsers (std_pcfg L)) fl cur ("="%char :: d :: r) lft = (PRitems [IOp ($"=")] 1 false, lft).
Proof.
  intros Hd Hp. pose proof (set_match d r Hd) as Hm. change (pc_parsers (std_pcfg L)) with (std_parsers L). unfold std_parsers. cbv zeta.
  rewrite try_none. 2: { cbn [run_parser]. unfold parse_term. replace (prefixb [newline] _) with false by reflexivity. destruct (fl_ign fl); reflexivity. }
  do 3 (rewrite try_none by reflexivity).
  assert (Gl : forall f, run_parser (std_pcfg L) rec (PLit true f) fl cur ("="%char :: d :: r) lft = (PRnone, lft)).
  { intros f. cbn [run_parser]. unfold after_operand in Hp. rewrite Hp. reflexivity. }
  do 7 (rewrite try_none by apply Gl).
  cbn [try_parsers run_parser]. unfold std_pcfg, pc_ops. rewrite symbols_of, Hm. reflexivity.
Qed.
Lemma space_not_set c : is_space c = true -> ceq c "=" = false /\ is_word c = false.
Proof. destruct c as [[] [] [] [] [] [] [] []]; intros H; try (exfalso; vm_compute in H; discriminate H); split; reflexivity. Qed.
Lemma operand_not_set c : operand_char c -> ceq c "=" = false.
Proof.
  intros [H|[->|H]]; [|reflexivity|]; destruct c as [[] [] [] [] [] [] [] []]; try (exfalso; vm_compute in H; discriminate H); reflexivity.
Qed.
Lemma arith_first t e rest : arithmetic_text t e -> exists d r, t ++ rest = d :: r /\ ceq d "=" = false.
Proof.
  intros (b1 & u & b2 & -> & Hb & _ & Hr). destruct (reads_first _ _ _ Hr) as (c & r & -> & Hc). destruct Hb as [|x b [Hx _] _]; cbn [app].
  - eexists; eexists; split; [reflexivity|]. apply operand_not_set, Hc.
  - eexists; eexists; split; [reflexivity|]. apply space_not_set, Hx.
Qed.

(** * The items of a line *)
Inductive line_shape (p : Z) (d : nat) : list item -> aline -> Prop :=
| lshape_blank w : blanks w -> line_shape p d w LBlank
| lshape_exp w1 its w2 e : blanks w1 -> blanks w2 -> shape p d 4 its e -> line_shape p d (w1 ++ its ++ w2) (LExp e)
| lshape_set w1 n w2 w3 its w4 e : blanks w1 -> blanks w2 -> blanks w3 -> blanks w4 -> shape p d 4 its e ->
    line_shape p d (w1 ++ [IVar n] ++ w2 ++ [IOp ($"=")] ++ w3 ++ its ++ w4) (LSet n e).
Lemma blanks_app a b : blanks a -> blanks b -> blanks (a ++ b). Proof. intros. apply Forall_app. split; assumption. Qed.
Lemma line_more p d its l w : line_shape p d its l -> blanks w -> line_shape p d (its ++ w) l.
Proof.
  intros H Hw. destruct H; rewrite <- ?app_assoc; constructor; try assumption; apply blanks_app; assumption.
Qed.
Lemma line_deeper p d d' its l : line_shape p d its l -> d <= d' -> line_shape p d' its l.
Proof. intros H Hd. destruct H; constructor; try assumption; eapply shape_deeper; eassumption. Qed.
Definition line_fits (p : Z) (l : aline) : Prop := match l with LBlank => True | LExp e | LSet _ e => literals_fit p e end.
Lemma arith_on L t e cur m rest : exp_letter L -> (1 <= l_prec L)%Z -> arithmetic_text t e -> literals_fit (l_prec L) e -> length t <= m -> follows rest -> before_operand cur ->
  exists w1 its w2, blanks w1 /\ blanks w2 /\ shape (l_prec L) (length t) 4 its e /\ reads_on L (parse (std_pcfg L) m) no_flags t cur rest (w1 ++ its ++ w2).
Proof.
  intros He Hp (b1 & u & b2 & -> & Hb1 & Hb2 & Hr) Hf Hm Hrest Hc. rewrite !app_length in Hm.
  destruct (reads_parse L 4 u e He Hp Hr Hf m no_flags (cur ++ blank_items b1) (b2 ++ rest)) as (its & Sh & On).
  - reflexivity.
  - lia.
  - apply blank_follow; assumption.
  - left. unfold before_operand. rewrite prev_blanks by apply blanks_items. exact Hc.
  - exists (blank_items b1), its, (blank_items b2). split; [apply blanks_items|]. split; [apply blanks_items|].
    split; [apply (shape_deeper _ _ _ _ _ Sh); rewrite !app_length; lia|].
    apply on_then; [apply on_blanks, Hb1|]. apply on_then; [exact On|apply on_blanks, Hb2].
Qed.
Lemma line_on L t l m rest : exp_letter L -> (1 <= l_prec L)%Z -> line_reads t l -> line_fits (l_prec L) l -> length t <= m -> follows rest ->
  exists its, line_shape (l_prec L) (length t) its l /\ reads_on L (parse (std_pcfg L) m) no_flags t [] rest its.
Proof.
  intros He Hp H Hf Hm Hrest. destruct H as [b Hb|t e Ht|b1 n b2 t e Hb1 Hn Hk Hb2 Ht].
  - exists (blank_items b). split; [constructor; apply blanks_items|apply on_blanks, Hb].
  - destruct (arith_on L t e [] m rest He Hp Ht Hf Hm Hrest eq_refl) as (w1 & its & w2 & B1 & B2 & Sh & On). exists (w1 ++ its ++ w2). split; [constructor; assumption|exact On].
  - rewrite !app_length in Hm. cbn [length list_ascii_of_string] in Hm. set (cur := ([] ++ blank_items b1) ++ [IVar n] ++ blank_items b2).
    assert (Hcur : after_operand cur).
    { unfold cur, after_operand. rewrite app_assoc, prev_blanks by apply blanks_items. rewrite (prev_app _ [IVar n] (IVar n) eq_refl). reflexivity. }
    destruct (arith_on L t e (cur ++ [IOp ($"=")]) m rest He Hp Ht Hf ltac:(lia) Hrest) as (w1 & its & w2 & B1 & B2 & Sh & On).
    { unfold before_operand. rewrite (prev_app _ [IOp ($"=")] (IOp ($"=")) eq_refl). reflexivity. }
    exists (blank_items b1 ++ [IVar n] ++ blank_items b2 ++ [IOp ($"=")] ++ w1 ++ its ++ w2). split.
    + constructor; try assumption; try apply blanks_items. apply (shape_deeper _ _ _ _ _ Sh). rewrite !app_length. lia.
    + apply on_then; [apply on_blanks, Hb1|]. apply on_then.
      * apply on_token; [destruct Hn as (c & r & -> & _); discriminate|]. intros lft. apply name_read; try assumption.
        -- rewrite <- app_assoc. destruct Hb2 as [|x b [Hx _] _]; cbn [app name_over]; apply word_not; [reflexivity|apply space_not_set, Hx].
        -- discriminate.
        -- intros [_ [x E]]. rewrite <- app_assoc in E. destruct Hb2 as [|y b [Hy _] _]; [discriminate E|]. cbn in E. assert (y = "("%char) by congruence. subst y. discriminate Hy.
      * apply on_then; [apply on_blanks, Hb2|]. apply on_then; [|unfold cur in On; rewrite <- !app_assoc in On; rewrite <- !app_assoc; exact On].
        destruct (arith_first t e rest Ht) as (d & r & E & Hd). cbn [list_ascii_of_string]. apply on_token; [discriminate|]. intros lft. cbn [app]. rewrite E.
        apply set_read; [exact Hd|]. rewrite <- app_assoc. exact Hcur.
Qed.

(** * Lines are complete *)
Lemma shape_ops p d k its e : shape p d k its e -> forall t, In (IOp t) its -> exists o, t = osym o /\ o <> Beside.
Proof.
  assert (B : forall w t, blanks w -> In (IOp t) w -> False).
  { intros w t Hw Hi. unfold blanks in Hw. rewrite Forall_forall in Hw. specialize (Hw _ Hi). discriminate Hw. }
  induction 1 as [d l n E V G Lo|d n|d d' text w1 w2 its e Hd B1 B2 Hs IH|d d' text f h1 h2 w1 its w2 tl e Hd B1 B2 Hs IH|d d' text f h1 h2 w1 i1 w2 c w3 i2 w4 tl a b Hd B1 B2 B3 B4 H1 IH1 H2 IH2|d lev its e Hs IH|d o i1 w1 w2 i2 a b B1 B2 H1 IH1 H2 IH2]; intros t Hi.
  - destruct Hi as [Hi|[]]. discriminate Hi.
  - destruct Hi as [Hi|[]]. discriminate Hi.
  - destruct Hi as [Hi|[]]. discriminate Hi.
  - destruct Hi as [Hi|[]]. discriminate Hi.
  - destruct Hi as [Hi|[]]. discriminate Hi.
  - exact (IH t Hi).
  - rewrite !in_app_iff in Hi. destruct Hi as [Hi|[Hi|[Hi|[Hi|Hi]]]]; [exact (IH1 t Hi)|destruct (B _ _ B1 Hi)| |destruct (B _ _ B2 Hi)|exact (IH2 t Hi)].
    exists o. destruct o; try (destruct Hi as [Hi|[]]; injection Hi as <-; split; [reflexivity|discriminate]). destruct Hi.
Qed.
Lemma right_one L t o : (exists a, t = osym a /\ a <> Beside) \/ t = $"=" \/ unwritten (g_ops (std L)) t -> find_op (g_ops (std L)) t = Some o -> length (op_r o) <= 1.
Proof.
  intros H Ho. assert (G : match find_op (g_ops (std L)) t with Some o => length (op_r o) <=? 1 | None => true end = true).
  { destruct H as [(a & -> & Ha)|[->|H]].
    - destruct a; try congruence; reflexivity.
    - reflexivity.
    - unfold unwritten in H. repeat (destruct H as [H|H]); try discriminate H; injection H as <-; reflexivity. }
  rewrite Ho in G. apply Nat.leb_le, G.
Qed.
Lemma last_functional its i : previous_functional_item its = Some i -> exists fs, functional_items its = fs ++ [i].
Proof.
  unfold previous_functional_item. intros H. destruct (rev (functional_items its)) as [|x r] eqn:E; [discriminate|]. exists (rev r).
  assert (x = i) by (cbn in H; congruence). subst x. rewrite <- (rev_involutive (functional_items its)), E. reflexivity.
Qed.
Lemma line_complete L p d its l s : line_shape p d its l -> incomplete (g_ops (std L)) (functional_items its) s = false.
Proof.
  intros H. assert (G : l = LBlank \/ exists i, previous_functional_item its = Some i /\ iisop i = false /\ forall t, In (IOp t) its -> (exists a, t = osym a /\ a <> Beside) \/ t = $"=").
  { assert (B : forall w t, blanks w -> In (IOp t) w -> False).
    { intros w t Hw Hi. unfold blanks in Hw. rewrite Forall_forall in Hw. specialize (Hw _ Hi). discriminate Hw. }
    destruct H as [w Hw|w1 its w2 e B1 B2 Hs|w1 n w2 w3 its w4 e B1 B2 B3 B4 Hs]; [left; reflexivity| |]; right; destruct (shape_prev _ _ _ _ _ Hs) as (i & I1 & I2); exists i.
    - split; [rewrite app_assoc, prev_blanks by assumption; apply prev_app, I1|]. split; [exact I2|]. intros t Hi. rewrite !in_app_iff in Hi.
      destruct Hi as [Hi|[Hi|Hi]]; [destruct (B _ _ B1 Hi)|left; exact (shape_ops _ _ _ _ _ Hs t Hi)|destruct (B _ _ B2 Hi)].
    - split; [rewrite !app_assoc, prev_blanks by assumption; apply prev_app, I1|]. split; [exact I2|]. intros t Hi. rewrite !in_app_iff in Hi.
      destruct Hi as [Hi|[[Hi|[]]|[Hi|[[Hi|[]]|[Hi|[Hi|Hi]]]]]]; try discriminate Hi; try (destruct (B _ _ B1 Hi)); try (destruct (B _ _ B2 Hi)); try (destruct (B _ _ B3 Hi)); try (destruct (B _ _ B4 Hi)).
      + right. injection Hi as <-. reflexivity.
      + left. exact (shape_ops _ _ _ _ _ Hs t Hi). }
  destruct G as [->|(i & I1 & I2 & I3)].
  - inversion H; subst. rewrite functional_blanks by assumption. reflexivity.
  - destruct (last_functional its i I1) as (fs & E). rewrite E. apply ends_complete; [exact I2|]. intros t o Ht Ho. apply (right_one L t o); [|exact Ho].
    destruct Ht as [Ht|Ht]; [|right; right; exact Ht]. assert (Hi : In (IOp t) (functional_items its)) by (rewrite E; apply in_or_app; left; exact Ht).
    apply filter_In in Hi. destruct (I3 t (proj1 Hi)) as [K|K]; [left; exact K|right; left; exact K].
Qed.

(** * All lines *)
Lemma end_read L rec cur r : incomplete (g_ops (std L)) (functional_items cur) (mkSt [] None) = false ->
  try_parsers (std_pcfg L) rec (pc_parsers (std_pcfg L)) no_flags cur (line_end :: r) None = (PRitems [INon NTerm [newline]] 1 true, None).
Proof.
  intros H. change (pc_parsers (std_pcfg L)) with (std_parsers L). unfold std_parsers. cbv zeta. cbn [try_parsers run_parser]. unfold parse_term. cbn [fl_ign no_flags].
  replace (prefixb [newline] (line_end :: r)) with true by reflexivity. change (pc_vars (std_pcfg L)) with true. cbn [negb]. change (pc_ops (std_pcfg L)) with (g_ops (std L)). rewrite H. reflexivity.
Qed.
Lemma lines_on L m : exp_letter L -> (1 <= l_prec L)%Z -> forall texts ls, Forall2 line_reads texts ls -> Forall (line_fits (l_prec L)) ls -> ls <> [] -> length (lines_text texts) <= m ->
  exists sts, Forall2 (line_shape (l_prec L) m) sts ls /\ forall fuel done n, length (lines_text texts) < fuel ->
    parse_loop (std_pcfg L) (parse (std_pcfg L) m) fuel no_flags done [] n (lines_text texts) None = (POk (done ++ sts) (n + length (lines_text texts)) None, None).
Proof.
  intros He Hp texts ls H. induction H as [|t l texts ls Hl Hls IH]; intros Hf Hne Hm; [congruence|]. apply Forall_cons_iff in Hf. destruct Hf as [Hf Hfs].
  destruct Hls as [|t2 l2 texts ls Hl2 Hls].
  - cbn [lines_text] in *. destruct (line_on L t l m [] He Hp Hl Hf Hm I) as (its & Sh & On). exists [its]. split; [constructor; [exact (line_deeper _ _ _ _ _ Sh Hm)|constructor]|].
    intros fuel done n Hfu. destruct (On fuel done n None) as (f1 & F1 & E1); [rewrite app_nil_r; exact Hfu|]. rewrite app_nil_r in E1. rewrite E1. destruct f1 as [|f1]; [cbn in F1; lia|]. reflexivity.
  - change (lines_text (t :: t2 :: texts)) with (t ++ line_end :: lines_text (t2 :: texts)) in *. rewrite app_length in *. cbn [length] in *.
    destruct (IH Hfs ltac:(discriminate) ltac:(lia)) as (sts & Ss & Ps).
    destruct (line_on L t l m (line_end :: lines_text (t2 :: texts)) He Hp Hl Hf ltac:(lia) eq_refl) as (its & Sh & On).
    exists ((its ++ [INon NTerm [newline]]) :: sts). split.
    + constructor; [|exact Ss]. apply line_more; [apply (line_deeper _ _ _ _ _ Sh); lia|repeat constructor].
    + intros fuel done n Hfu. destruct (On fuel done n None) as (f1 & F1 & E1); [rewrite app_length; cbn [length]; lia|]. rewrite E1. destruct f1 as [|f1]; [cbn in F1; lia|].
      cbn [parse_loop app]. rewrite end_read by (apply (line_complete L _ _ _ _ _ Sh)). cbn [Nat.eqb skipn].
      rewrite Ps by (cbn [length] in F1; lia). rewrite <- app_assoc. replace (n + length t + 1 + length (lines_text (t2 :: texts))) with (n + (length t + S (length (lines_text (t2 :: texts))))) by lia. reflexivity.
Qed.
Lemma lines_parse L texts ls : exp_letter L -> (1 <= l_prec L)%Z -> Forall2 line_reads texts ls -> Forall (line_fits (l_prec L)) ls -> ls <> [] ->
  exists sts, Forall2 (line_shape (l_prec L) (length (lines_text texts))) sts ls /\
    parse_text (std_pcfg L) (lines_text texts) None = (POk sts (length (lines_text texts)) None, None).
Proof.
  intros He Hp H Hf Hne. destruct (lines_on L (length (lines_text texts)) He Hp texts ls H Hf Hne (le_n _)) as (sts & Ss & Ps). exists sts. split; [exact Ss|].
  unfold parse_text. cbn [parse]. rewrite Ps by lia. reflexivity.
Qed.
