(** How conditions on arithmetic are parsed. *)
From Coq Require Import ZArith QArith Ascii String List Bool Lia.
From Verif Require Import Base BaseProofs Dec Num NumSpec Lex LexSpec LexProofs Bases Formats Units Syntax Pos Call Loop Parse Exec ExecSpec Std StdProofs2 VarNameSpec VarNameProofs ContainProofs6 ArithTextSpec ArithRunSpec ArithTextProofs2 ArithTextProofs3 CondTextSpec.
Import ListNotations.
Open Scope nat_scope.

(** * Operators *)
Definition opening (c : ascii) : Prop := is_space c = true \/ operand_char c.
Lemma opening_other d : opening d -> ceq d "=" = false /\ ceq d "<" = false /\ ceq d ">" = false /\ ceq d "$" = false /\ ceq d "~" = false.
Proof.
  intros [H|[H|[->|H]]]; [| |repeat split; reflexivity|]; destruct d as [[] [] [] [] [] [] [] []]; try (exfalso; vm_compute in H; discriminate H); clear H; repeat split; reflexivity.
Qed.
Lemma cmp_match c d r : opening d -> match_op std_symbols (csym c ++ d :: r) = Some (csym c).
Proof.
  intros H. destruct (opening_other d H) as (K1 & K2 & K3 & K4 & K5). clear H.
  destruct c; destruct d as [[] [] [] [] [] [] [] []]; try discriminate K1; try discriminate K2; try discriminate K3; try discriminate K4; try discriminate K5; clear; lazy; reflexivity.
Qed.
Lemma join_match j d r : is_space d = true -> match_op std_symbols (jsym j ++ d :: r) = Some (jsym j).
Proof. intros H. destruct j; destruct d as [[] [] [] [] [] [] [] []]; try (exfalso; vm_compute in H; discriminate H); clear; lazy; reflexivity. Qed.
Lemma sym_read L rec fl cur sym r lft : match_op std_symbols (sym ++ r) = Some sym -> lex_bool (sym ++ r) = Ok None ->
  match sym with [] => False | c :: _ => ceq newline c = false /\ is_space c = false /\ ceq c "#" = false end -> after_operand cur ->
  try_parsers (std_pcfg L) rec (pc_parsers (std_pcfg L)) fl cur (sym ++ r) lft = (PRitems [IOp sym] (length sym) false, lft).
Proof.
  intros Hm Hb Hc Hp. destruct sym as [|c sym]; [destruct Hc|]. destruct Hc as (C1 & C2 & C3). cbn [app] in *. change (pc_parsers (std_pcfg L)) with (std_parsers L). unfold std_parsers. cbv zeta.
  rewrite try_none. 2: { cbn [run_parser]. unfold parse_term. cbn [prefixb]. rewrite C1. destruct (fl_ign fl); reflexivity. }
  rewrite try_none by (cbn [run_parser]; rewrite C2; reflexivity).
  rewrite try_none. 2: { cbn [run_parser firstn length list_ascii_of_string]. cbn [seq_eqb]. rewrite ?C3. cbn. rewrite ?C3. reflexivity. }
  rewrite try_none by (cbn [run_parser]; rewrite Hb; reflexivity).
  assert (Gl : forall f, run_parser (std_pcfg L) rec (PLit true f) fl cur (c :: sym ++ r) lft = (PRnone, lft)).
  { intros f. cbn [run_parser]. rewrite Hp. reflexivity. }
  do 7 (rewrite try_none by apply Gl).
  cbn [try_parsers run_parser]. unfold std_pcfg, pc_ops. rewrite symbols_of, Hm. reflexivity.
Qed.
Lemma cmp_read L rec fl cur c d r lft : opening d -> after_operand cur ->
  try_parsers (std_pcfg L) rec (pc_parsers (std_pcfg L)) fl cur (csym c ++ d :: r) lft = (PRitems [IOp (csym c)] (length (csym c)) false, lft).
Proof. intros Hd Hp. apply sym_read; [apply cmp_match, Hd|destruct c; reflexivity|destruct c; repeat split; reflexivity|exact Hp]. Qed.
Lemma join_read L rec fl cur j d r lft : is_space d = true -> after_operand cur ->
  try_parsers (std_pcfg L) rec (pc_parsers (std_pcfg L)) fl cur (jsym j ++ d :: r) lft = (PRitems [IOp (jsym j)] (length (jsym j)) false, lft).
Proof. intros Hd Hp. apply sym_read; [apply join_match, Hd|destruct j; reflexivity|destruct j; repeat split; reflexivity|exact Hp]. Qed.

Lemma not_match d r : is_space d = true -> match_op std_symbols ($"not" ++ d :: r) = Some ($"not").
Proof. intros H. destruct d as [[] [] [] [] [] [] [] []]; try (exfalso; vm_compute in H; discriminate H); clear; lazy; reflexivity. Qed.
Lemma not_read L rec fl cur d r lft : is_space d = true ->
  try_parsers (std_pcfg L) rec (pc_parsers (std_pcfg L)) fl cur ($"not" ++ d :: r) lft = (PRitems [IOp ($"not")] 3 false, lft).
Proof.
  intros Hd. pose proof (not_match d r Hd) as Hm. change (pc_parsers (std_pcfg L)) with (std_parsers L). unfold std_parsers. cbv zeta.
  rewrite try_none. 2: { cbn [run_parser]. unfold parse_term. cbn. destruct (fl_ign fl); reflexivity. }
  do 3 (rewrite try_none by reflexivity).
  do 7 (rewrite try_none by (cbn [run_parser]; match goal with |- context [if ?c then _ else _] => destruct c end; reflexivity)).
  cbn [try_parsers run_parser]. unfold std_pcfg, pc_ops. rewrite symbols_of, Hm. reflexivity.
Qed.

(** * true and false *)
Lemma lower_first c d : lower_c c = d -> is_alpha d = true -> ceq newline c = false /\ is_space c = false /\ ceq c "#" = false.
Proof. intros <-. destruct c as [[] [] [] [] [] [] [] []]; intros H; try (exfalso; vm_compute in H; discriminate H); clear; repeat split; reflexivity. Qed.
Lemma truth_lex t (b : bool) r : map lower_c t = (if b then $"true" else $"false") -> follows r -> lex_bool (t ++ r) = Ok (Some (length t, LBool b)).
Proof.
  intros H Hr. assert (Hw : match r with [] => true | c :: _ => negb (is_word c) end = true).
  { destruct r as [|c r]; [reflexivity|]. destruct (follow_facts c Hr) as (_ & _ & _ & _ & W & _). rewrite W. reflexivity. }
  assert (El : length t = if b then 4 else 5) by (rewrite <- (map_length lower_c t), H; destruct b; reflexivity).
  unfold lex_bool, lower. rewrite map_app, H. destruct b.
  - replace (skipn (length ($"true")) (t ++ r)) with r by (change (length ($"true")) with 4; rewrite <- El, skipn_app, Nat.sub_diag, skipn_all; reflexivity).
    rewrite El. cbn [list_ascii_of_string app prefixb]. rewrite Hw. reflexivity.
  - replace (skipn (length ($"false")) (t ++ r)) with r by (change (length ($"false")) with 5; rewrite <- El, skipn_app, Nat.sub_diag, skipn_all; reflexivity).
    rewrite El. cbn [list_ascii_of_string app prefixb]. rewrite Hw. reflexivity.
Qed.
Lemma truth_first t (b : bool) : map lower_c t = (if b then $"true" else $"false") -> exists c x d, t = c :: x /\ lower_c c = d /\ is_alpha d = true.
Proof. intros H. destruct t as [|c x]; [destruct b; discriminate H|]. exists c, x, (lower_c c). split; [reflexivity|]. split; [reflexivity|]. destruct b; cbn [map list_ascii_of_string] in H; injection H as -> _; reflexivity. Qed.
Lemma truth_read L rec fl cur t (b : bool) r lft : map lower_c t = (if b then $"true" else $"false") -> follows r ->
  try_parsers (std_pcfg L) rec (pc_parsers (std_pcfg L)) fl cur (t ++ r) lft = (PRitems [ILit t (LBool b)] (length t) false, lft).
Proof.
  intros H Hr. pose proof (truth_lex t b r H Hr) as Hl. destruct (truth_first t b H) as (c & x & d & -> & Hd & Ha). destruct (lower_first c d Hd Ha) as (C1 & C2 & C3).
  cbn [app] in *. change (pc_parsers (std_pcfg L)) with (std_parsers L). unfold std_parsers. cbv zeta.
  rewrite try_none. 2: { cbn [run_parser]. unfold parse_term. cbn [prefixb]. rewrite C1. destruct (fl_ign fl); reflexivity. }
  rewrite try_none by (cbn [run_parser]; rewrite C2; reflexivity).
  rewrite try_none. 2: { cbn [run_parser firstn length list_ascii_of_string]. cbn [seq_eqb]. rewrite ?C3. cbn. rewrite ?C3. reflexivity. }
  assert (Ef : firstn (length (c :: x)) (c :: x ++ r) = c :: x).
  { change (c :: x ++ r) with ((c :: x) ++ r). rewrite firstn_app, Nat.sub_diag, firstn_all. cbn [firstn]. apply app_nil_r. }
  assert (R : run_parser (std_pcfg L) rec (PLit false lex_bool) fl cur (c :: x ++ r) lft = (PRitems [ILit (c :: x) (LBool b)] (length (c :: x)) false, lft)).
  { cbn [run_parser]. rewrite Hl. cbn [negb orb]. unfold found. rewrite Ef. reflexivity. }
  cbn [try_parsers]. rewrite R. reflexivity.
Qed.

(** * Whole conditions *)
Inductive bshape (p : Z) : nat -> nat -> list item -> bexp -> Prop :=
| bshape_truth d t b : bshape p d 0 [ILit t (LBool b)] (BTruth b)
| bshape_paren d d' text w1 w2 its e : d' < d -> blanks w1 -> blanks w2 -> bshape p d' 2 its e -> bshape p d 0 [IInner text false (w1 ++ its ++ w2)] e
| bshape_cmp d c i1 w1 w2 i2 a b : blanks w1 -> blanks w2 -> shape p d 4 i1 a -> shape p d 4 i2 b -> bshape p d 1 (i1 ++ w1 ++ [IOp (csym c)] ++ w2 ++ i2) (BCmp c a b)
| bshape_looser d k its e : bshape p d k its e -> bshape p d (S k) its e
| bshape_join d j i1 w1 w2 i2 a b : blanks w1 -> blanks w2 -> bshape p d 2 i1 a -> bshape p d 1 i2 b -> bshape p d 2 (i1 ++ w1 ++ [IOp (jsym j)] ++ w2 ++ i2) (BJoin j a b)
| bshape_not d w i e : blanks w -> bshape p d 0 i e -> bshape p d 1 ([IOp ($"not")] ++ w ++ i) (BNot e).
Lemma bshape_deeper p d k its e : bshape p d k its e -> forall d', d <= d' -> bshape p d' k its e.
Proof.
  induction 1; intros D HD; try (econstructor; eauto; fail).
  - eapply bshape_paren; [|exact H0|exact H1|exact H2]. lia.
  - constructor; try assumption; eapply shape_deeper; eauto.
Qed.
Fixpoint bliterals_fit (p : Z) (e : bexp) : Prop :=
  match e with BTruth _ => True | BCmp _ a b => literals_fit p a /\ literals_fit p b | BJoin _ a b => bliterals_fit p a /\ bliterals_fit p b | BNot a => bliterals_fit p a end.
Lemma bshape_prev p d k its e : bshape p d k its e -> exists i, previous_functional_item its = Some i /\ iisop i = false.
Proof.
  induction 1 as [d t b|d d' text w1 w2 its e Hd B1 B2 Hs IH|d c i1 w1 w2 i2 a b B1 B2 H1 H2|d k its e Hs IH|d j i1 w1 w2 i2 a b B1 B2 H1 IH1 H2 IH2|d w i e B Hs IH];
    try (eexists; split; reflexivity); [| exact IH | |].
  - destruct (shape_prev _ _ _ _ _ H2) as (i & I1 & I2). exists i. split; [|exact I2]. rewrite !app_assoc. apply prev_app, I1.
  - destruct IH2 as (i & I1 & I2). exists i. split; [|exact I2]. rewrite !app_assoc. apply prev_app, I1.
  - destruct IH as (x & I1 & I2). exists x. split; [|exact I2]. rewrite app_assoc. apply prev_app, I1.
Qed.
Lemma bshape_after p d k its e cur : bshape p d k its e -> after_operand (cur ++ its).
Proof. intros H. destruct (bshape_prev _ _ _ _ _ H) as (i & I1 & I2). unfold after_operand. rewrite (prev_app _ _ i I1). exact I2. Qed.
Lemma bshape_functional p d k its e : bshape p d k its e -> is_nil (functional_items its) = false.
Proof.
  intros H. destruct (bshape_prev _ _ _ _ _ H) as (i & I1 & _). unfold previous_functional_item in I1. destruct (functional_items its); [discriminate|reflexivity].
Qed.
Lemma before_op cur sym b : before_operand (cur ++ [IOp sym] ++ blank_items b).
Proof. unfold before_operand. rewrite app_assoc, prev_blanks by apply blanks_items. rewrite (prev_app _ [IOp sym] (IOp sym) eq_refl). reflexivity. Qed.
Lemma blank_first b t rest k e : blank_text b -> reads k t e -> exists d r, b ++ t ++ rest = d :: r /\ opening d.
Proof.
  intros Hb Hr. destruct Hb as [|c b [Hc _] _]; cbn [app].
  - destruct (reads_first _ _ _ Hr) as (c & r & -> & Hc). exists c, (r ++ rest). split; [reflexivity|right; exact Hc].
  - exists c, (b ++ t ++ rest). split; [reflexivity|left; exact Hc].
Qed.
Lemma decides_parse L k t e : exp_letter L -> (1 <= l_prec L)%Z -> decides k t e -> bliterals_fit (l_prec L) e -> forall m fl cur rest, plain_flags fl -> length t <= m -> follows rest ->
  before_operand cur -> exists its, bshape (l_prec L) (length t) k its e /\ reads_on L (parse (std_pcfg L) m) fl t cur rest its.
Proof.
  intros He Hp H. induction H as [t b Ht|b1 t b2 e Hb1 Hb2 Hd IH|c t1 b1 b2 t2 a b Hb1 Hb2 H1 H2|k t e Hd IH|j t1 b1 b2 t2 a b Hb1 Hb2 N1 N2 H1 IH1 H2 IH2|b t e Hb Nb Hd IH]; intros Hf m fl cur rest Hfl Hm Hrest Hc.
  - exists [ILit t (LBool b)]. split; [constructor|]. apply on_token; [destruct (truth_first t b Ht) as (c & x & d & -> & _); discriminate|]. intros lft. apply truth_read; assumption.
  - set (text := $"(" ++ b1 ++ t ++ b2 ++ $")") in *. assert (Lt : length text = length b1 + length t + length b2 + 2) by (unfold text; rewrite !app_length; cbn; lia).
    destruct m as [|m]; [lia|]. set (fl' := inner_flags fl). set (st := INon NInnerStart ($"(")).
    destruct (IH Hf m fl' (blank_items b1) (b2 ++ $")" ++ rest)) as (its & Sh & On).
    + exact Hfl.
    + lia.
    + apply blank_follow; [exact Hb2|reflexivity].
    + apply before_blanks.
    + set (w2 := blank_items b2 ++ [INon NInnerEnd c_close]). set (inner := st :: blank_items b1 ++ its ++ w2).
      exists [IInner text false inner]. split.
      * change inner with ((st :: blank_items b1) ++ its ++ w2). apply (bshape_paren _ _ (length t)); [lia| | |exact Sh].
        -- constructor; [reflexivity|apply blanks_items].
        -- unfold w2. apply Forall_app. split; [apply blanks_items|repeat constructor].
      * apply on_token; [discriminate|]. intros lft.
        assert (En : text ++ rest = "("%char :: (b1 ++ t ++ b2 ++ $")" ++ rest)) by (unfold text; rewrite <- !app_assoc; reflexivity).
        rewrite En, open_read. unfold parse_inner. cbn [skipn parse]. fold fl'.
        assert (G : reads_on L (parse (std_pcfg L) m) fl' (b1 ++ t ++ b2) [] ($")" ++ rest) (blank_items b1 ++ its ++ blank_items b2)).
        { apply on_then; [apply on_blanks, Hb1|]. cbn [app] in On |- *. apply on_then; [|apply on_blanks, Hb2]. cbn [app]. exact On. }
        assert (Es : b1 ++ t ++ b2 ++ $")" ++ rest = (b1 ++ t ++ b2) ++ $")" ++ rest) by (rewrite <- !app_assoc; reflexivity). rewrite Es.
        destruct (G (S (length ((b1 ++ t ++ b2) ++ $")" ++ rest))) [] 0 lft ltac:(lia)) as (f1 & F1 & E1). rewrite E1. destruct f1 as [|f1]; [cbn in F1; lia|].
        cbn [app]. cbn [list_ascii_of_string app parse_loop].
        rewrite close_read; [|reflexivity|].
        -- cbn [first_st app].
           replace (0 + length (b1 ++ t ++ b2) + 2) with (length text) by (rewrite Lt, !app_length; lia).
           replace (firstn (length text) _) with text.
           ++ unfold inner, w2. rewrite <- !app_assoc. reflexivity.
           ++ replace ("("%char :: (b1 ++ t ++ b2) ++ ")"%char :: rest) with (text ++ rest) by (rewrite En, Es; reflexivity).
              rewrite firstn_app, Nat.sub_diag, firstn_all. cbn [firstn]. rewrite app_nil_r. reflexivity.
        -- rewrite app_assoc. rewrite prev_blanks by apply blanks_items. exact (bshape_after _ _ _ _ _ (blank_items b1) Sh).
  - destruct Hf as [Hf1 Hf2]. rewrite !app_length in Hm.
    destruct (reads_parse L 4 t1 a He Hp H1 Hf1 m fl cur (b1 ++ csym c ++ b2 ++ t2 ++ rest) Hfl ltac:(lia)) as (i1 & S1 & O1).
    { apply blank_follow; [exact Hb1|]. destruct c; reflexivity. }
    { left. exact Hc. }
    destruct (reads_parse L 4 t2 b He Hp H2 Hf2 m fl (((cur ++ i1) ++ blank_items b1) ++ [IOp (csym c)] ++ blank_items b2) rest Hfl ltac:(lia) Hrest) as (i2 & S2 & O2).
    { left. apply before_op. }
    exists (i1 ++ blank_items b1 ++ [IOp (csym c)] ++ blank_items b2 ++ i2). split.
    + constructor; try apply blanks_items.
      * apply (shape_deeper _ _ _ _ _ S1). rewrite !app_length. lia.
      * apply (shape_deeper _ _ _ _ _ S2). rewrite !app_length. lia.
    + apply on_then; [rewrite <- !app_assoc; exact O1|]. apply on_then; [rewrite <- !app_assoc; apply on_blanks, Hb1|].
      apply on_then; [|apply on_then; [rewrite <- !app_assoc; apply on_blanks, Hb2|rewrite <- !app_assoc in *; exact O2]].
      apply on_token; [destruct c; discriminate|]. intros lft. rewrite <- (app_assoc b2 t2 rest). destruct (blank_first b2 t2 rest _ _ Hb2 H2) as (d & r & -> & Hd). apply cmp_read; [exact Hd|].
      unfold after_operand. rewrite prev_blanks by apply blanks_items. exact (shape_after _ _ _ _ _ cur S1).
  - destruct (IH Hf m fl cur rest Hfl Hm Hrest Hc) as (its & Sh & On). exists its. split; [constructor; exact Sh|exact On].
  - destruct Hf as [Hf1 Hf2]. rewrite !app_length in Hm.
    destruct (IH1 Hf1 m fl cur (b1 ++ jsym j ++ b2 ++ t2 ++ rest) Hfl ltac:(lia)) as (i1 & S1 & O1).
    { apply blank_follow'; assumption. }
    { exact Hc. }
    destruct (IH2 Hf2 m fl (((cur ++ i1) ++ blank_items b1) ++ [IOp (jsym j)] ++ blank_items b2) rest Hfl ltac:(lia) Hrest) as (i2 & S2 & O2).
    { apply before_op. }
    exists (i1 ++ blank_items b1 ++ [IOp (jsym j)] ++ blank_items b2 ++ i2). split.
    + apply bshape_join; try apply blanks_items.
      * apply (bshape_deeper _ _ _ _ _ S1). rewrite !app_length. lia.
      * apply (bshape_deeper _ _ _ _ _ S2). rewrite !app_length. lia.
    + apply on_then; [rewrite <- !app_assoc; exact O1|]. apply on_then; [rewrite <- !app_assoc; apply on_blanks, Hb1|].
      apply on_then; [|apply on_then; [rewrite <- !app_assoc; apply on_blanks, Hb2|rewrite <- !app_assoc in *; exact O2]].
      apply on_token; [destruct j; discriminate|]. intros lft. rewrite <- (app_assoc b2 t2 rest). destruct b2 as [|d b2]; [congruence|]. cbn [app]. inversion Hb2 as [|? ? [Hs _] _]. subst. apply join_read; [exact Hs|].
      unfold after_operand. rewrite prev_blanks by apply blanks_items. exact (bshape_after _ _ _ _ _ cur S1).
  - rewrite !app_length in Hm. cbn [length list_ascii_of_string] in Hm.
    destruct (IH Hf m fl (cur ++ [IOp ($"not")] ++ blank_items b) rest Hfl ltac:(lia) Hrest) as (i & Si & Oi); [apply before_op|].
    exists ([IOp ($"not")] ++ blank_items b ++ i). split.
    + apply bshape_not; [apply blanks_items|]. apply (bshape_deeper _ _ _ _ _ Si). rewrite !app_length. lia.
    + apply on_then; [|apply on_then; [apply on_blanks, Hb|rewrite <- !app_assoc in *; exact Oi]].
      apply on_token; [discriminate|]. intros lft. rewrite <- (app_assoc b t rest). destruct b as [|d b]; [congruence|]. cbn [app]. inversion Hb as [|? ? [Hs _] _]. subst. apply not_read. exact Hs.
Qed.
Lemma condition_parse L text e lft : exp_letter L -> (1 <= l_prec L)%Z -> condition_text text e -> bliterals_fit (l_prec L) e ->
  exists w1 its w2, parse_text (std_pcfg L) text lft = (POk [w1 ++ its ++ w2] (length text) None, lft) /\ blanks w1 /\ blanks w2 /\ bshape (l_prec L) (length text) 2 its e.
Proof.
  intros He Hp (b1 & t & b2 & -> & Hb1 & Hb2 & Hr) Hf.
  destruct (decides_parse L 2 t e He Hp Hr Hf (length (b1 ++ t ++ b2)) no_flags (blank_items b1) b2) as (its & Sh & On).
  - reflexivity.
  - rewrite !app_length. lia.
  - rewrite <- (app_nil_r b2). apply blank_follow; [exact Hb2|exact I].
  - apply before_blanks.
  - exists (blank_items b1), its, (blank_items b2).
    assert (G : reads_on L (parse (std_pcfg L) (length (b1 ++ t ++ b2))) no_flags (b1 ++ t ++ b2) [] [] (blank_items b1 ++ its ++ blank_items b2)).
    { apply on_then; [apply on_blanks, Hb1|]. cbn [app]. apply on_then; [rewrite app_nil_r; exact On|apply on_blanks, Hb2]. }
    split; [|split; [apply blanks_items|split; [apply blanks_items|]]].
    + unfold parse_text. cbn [parse]. rewrite <- (app_nil_r (b1 ++ t ++ b2)) at 2 3. 
      destruct (G (S (length ((b1 ++ t ++ b2) ++ []))) [] 0 lft ltac:(lia)) as (f1 & F1 & E1). rewrite E1. destruct f1 as [|f1]; [cbn in F1; lia|]. reflexivity.
    + apply (bshape_deeper _ _ _ _ _ Sh). rewrite !app_length. lia.
Qed.
