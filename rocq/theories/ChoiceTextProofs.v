(** How choices are parsed. *)
From Coq Require Import ZArith QArith Ascii String List Bool Lia.
From Verif Require Import Base BaseProofs Dec Num NumSpec Lex LexSpec LexProofs Bases Formats Units Syntax Pos Call Loop Parse Exec ExecSpec Std StdProofs2 VarNameSpec VarNameProofs ContainProofs6 ArithTextSpec ArithRunSpec ArithTextProofs2 ArithTextProofs3 ArithErrSpec CondTextSpec CondTextProofs ChoiceTextSpec.
Import ListNotations.
Open Scope nat_scope.

Lemma word_match (b : bool) d r : is_space d = true -> match_op std_symbols ((if b then $"then" else $"else") ++ d :: r) = Some (if b then $"then" else $"else").
Proof. intros H. destruct b; destruct d as [[] [] [] [] [] [] [] []]; try (exfalso; vm_compute in H; discriminate H); clear; lazy; reflexivity. Qed.
Lemma word_read L rec fl cur (b : bool) d r lft : is_space d = true -> after_operand cur ->
  try_parsers (std_pcfg L) rec (pc_parsers (std_pcfg L)) fl cur ((if b then $"then" else $"else") ++ d :: r) lft = (PRitems [IOp (if b then $"then" else $"else")] 4 false, lft).
Proof.
  intros Hd Hp. replace 4 with (length (if b then $"then" else $"else")) by (destruct b; reflexivity).
  apply sym_read; [apply word_match, Hd|destruct b; reflexivity|destruct b; repeat split; reflexivity|exact Hp].
Qed.

Inductive cshape (p : Z) : nat -> nat -> list item -> cexp -> Prop :=
| cshape_num d its e : shape p d 4 its e -> cshape p d 0 its (CNum e)
| cshape_paren d d' text w1 w2 its e : d' < d -> blanks w1 -> blanks w2 -> cshape p d' 1 its e -> cshape p d 0 [IInner text false (w1 ++ its ++ w2)] e
| cshape_any d its e : cshape p d 0 its e -> cshape p d 1 its e
| cshape_if d i1 w1 w2 i2 w3 w4 i3 c x y : blanks w1 -> blanks w2 -> blanks w3 -> blanks w4 -> bshape p d 2 i1 c -> cshape p d 0 i2 x -> cshape p d 0 i3 y ->
    cshape p d 1 (i1 ++ w1 ++ [IOp ($"then")] ++ w2 ++ i2 ++ w3 ++ [IOp ($"else")] ++ w4 ++ i3) (CIf c x y).
Lemma cshape_deeper p d k its e : cshape p d k its e -> forall d', d <= d' -> cshape p d' k its e.
Proof.
  induction 1 as [d its e H|d d' text w1 w2 its e Hd B1 B2 Hs IH|d its e Hs IH|d i1 w1 w2 i2 w3 w4 i3 c x y B1 B2 B3 B4 H1 H2 IH2 H3 IH3]; intros D HD.
  - constructor. eapply shape_deeper; eauto.
  - eapply cshape_paren; [|exact B1|exact B2|exact Hs]. lia.
  - constructor. auto.
  - apply cshape_if; auto. eapply bshape_deeper; eauto.
Qed.
Fixpoint cliterals_fit (p : Z) (e : cexp) : Prop :=
  match e with CNum a => literals_fit p a | CIf c x y => bliterals_fit p c /\ cliterals_fit p x /\ cliterals_fit p y end.
Lemma cshape_prev p d k its e : cshape p d k its e -> exists i, previous_functional_item its = Some i /\ iisop i = false.
Proof.
  induction 1 as [d its e H|d d' text w1 w2 its e Hd B1 B2 Hs IH|d its e Hs IH|d i1 w1 w2 i2 w3 w4 i3 c x y B1 B2 B3 B4 H1 H2 IH2 H3 IH3].
  - exact (shape_prev _ _ _ _ _ H).
  - eexists; split; reflexivity.
  - exact IH.
  - destruct IH3 as (i & I1 & I2). exists i. split; [|exact I2]. rewrite !app_assoc. apply prev_app, I1.
Qed.
Lemma cshape_after p d k its e cur : cshape p d k its e -> after_operand (cur ++ its).
Proof. intros H. destruct (cshape_prev _ _ _ _ _ H) as (i & I1 & I2). unfold after_operand. rewrite (prev_app _ _ i I1). exact I2. Qed.
Lemma cshape_functional p d k its e : cshape p d k its e -> is_nil (functional_items its) = false.
Proof.
  intros H. destruct (cshape_prev _ _ _ _ _ H) as (i & I1 & _). unfold previous_functional_item in I1. destruct (functional_items its); [discriminate|reflexivity].
Qed.
Lemma word_on L rec fl (b : bool) cur b2 rest : blank_text b2 -> b2 <> [] -> after_operand cur ->
  reads_on L rec fl (if b then $"then" else $"else") cur (b2 ++ rest) [IOp (if b then $"then" else $"else")].
Proof.
  intros Hb N Hp. apply on_token; [destruct b; discriminate|]. intros lft. destruct b2 as [|d b2]; [congruence|]. cbn [app]. inversion Hb as [|? ? [Hs _] _]. subst.
  rewrite word_read; [|exact Hs|exact Hp]. destruct b; reflexivity.
Qed.
Lemma chooses_parse L k t e : exp_letter L -> (1 <= l_prec L)%Z -> chooses k t e -> cliterals_fit (l_prec L) e -> forall m fl cur rest, plain_flags fl -> length t <= m -> follows rest ->
  before_operand cur -> exists its, cshape (l_prec L) (length t) k its e /\ reads_on L (parse (std_pcfg L) m) fl t cur rest its.
Proof.
  intros He Hp H. induction H as [t e Hr|b1 t b2 e Hb1 Hb2 Hd IH|t e Hd IH|t1 b1 b2 t2 b3 b4 t3 c x y Hb1 Hb2 Hb3 Hb4 N1 N2 N3 N4 H1 H2 IH2 H3 IH3]; intros Hf m fl cur rest Hfl Hm Hrest Hc.
  - destruct (reads_parse L 4 t e He Hp Hr Hf m fl cur rest Hfl Hm Hrest (or_introl Hc)) as (its & S1 & O1). exists its. split; [constructor; exact S1|exact O1].
  - set (text := $"(" ++ b1 ++ t ++ b2 ++ $")") in *. assert (Lt : length text = length b1 + length t + length b2 + 2) by (unfold text; rewrite !app_length; cbn; lia).
    destruct m as [|m]; [lia|]. set (fl' := inner_flags fl). set (st := INon NInnerStart ($"(")).
    destruct (IH Hf m fl' (blank_items b1) (b2 ++ $")" ++ rest)) as (its & Sh & On).
    + exact Hfl.
    + lia.
    + apply blank_follow; [exact Hb2|reflexivity].
    + apply before_blanks.
    + set (w2 := blank_items b2 ++ [INon NInnerEnd c_close]). set (inner := st :: blank_items b1 ++ its ++ w2).
      exists [IInner text false inner]. split.
      * change inner with ((st :: blank_items b1) ++ its ++ w2). apply (cshape_paren _ _ (length t)); [lia| | |exact Sh].
        -- constructor; [reflexivity|apply blanks_items].
        -- unfold w2. apply Forall_app. split; [apply blanks_items|repeat constructor].
      * apply on_token; [discriminate|]. intros lft.
        assert (En : text ++ rest = "("%char :: (b1 ++ t ++ b2 ++ $")" ++ rest)) by (unfold text; rewrite <- !app_assoc; reflexivity).
        rewrite En, open_read. unfold parse_inner. cbn [skipn parse]. fold fl'.
        assert (G : reads_on L (parse (std_pcfg L) m) fl' (b1 ++ t ++ b2) [] ($")" ++ rest) (blank_items b1 ++ its ++ blank_items b2)).
        { apply on_then; [apply on_blanks, Hb1|]. cbn [app] in On |- *. apply on_then; [|apply on_blanks, Hb2]. cbn [app]. exact On. }
        assert (Es : b1 ++ t ++ b2 ++ $")" ++ rest = (b1 ++ t ++ b2) ++ $")" ++ rest) by (rewrite <- !app_assoc; reflexivity). rewrite Es.
        destruct (G (S (length ((b1 ++ t ++ b2) ++ $")" ++ rest))) [] 0 lft ltac:(lia)) as (f1 & F1 & E1). rewrite E1. destruct f1 as [|f1]; [cbn in F1; lia|].
        cbn [app]. cbn [list_ascii_of_string app parse_loop].
        rewrite close_read; [|reflexivity|].
        -- cbn [first_st app].
           replace (0 + length (b1 ++ t ++ b2) + 2) with (length text) by (rewrite Lt, !app_length; lia).
           replace (firstn (length text) _) with text.
           ++ unfold inner, w2. rewrite <- !app_assoc. reflexivity.
           ++ replace ("("%char :: (b1 ++ t ++ b2) ++ ")"%char :: rest) with (text ++ rest) by (rewrite En, Es; reflexivity).
              rewrite firstn_app, Nat.sub_diag, firstn_all. cbn [firstn]. rewrite app_nil_r. reflexivity.
        -- rewrite app_assoc. rewrite prev_blanks by apply blanks_items. exact (cshape_after _ _ _ _ _ (blank_items b1) Sh).
  - destruct (IH Hf m fl cur rest Hfl Hm Hrest Hc) as (its & Sh & On). exists its. split; [constructor; exact Sh|exact On].
  - destruct Hf as (Hf1 & Hf2 & Hf3). rewrite !app_length in Hm.
    destruct (decides_parse L 2 t1 c He Hp H1 Hf1 m fl cur (b1 ++ $"then" ++ b2 ++ t2 ++ b3 ++ $"else" ++ b4 ++ t3 ++ rest) Hfl ltac:(lia)) as (i1 & S1 & O1).
    { apply blank_follow'; assumption. }
    { exact Hc. }
    set (cur1 := ((cur ++ i1) ++ blank_items b1) ++ [IOp ($"then")] ++ blank_items b2).
    destruct (IH2 Hf2 m fl cur1 (b3 ++ $"else" ++ b4 ++ t3 ++ rest) Hfl ltac:(lia)) as (i2 & S2 & O2).
    { apply blank_follow'; assumption. }
    { apply before_op. }
    set (cur2 := ((cur1 ++ i2) ++ blank_items b3) ++ [IOp ($"else")] ++ blank_items b4).
    destruct (IH3 Hf3 m fl cur2 rest Hfl ltac:(lia) Hrest) as (i3 & S3 & O3).
    { apply before_op. }
    exists (i1 ++ blank_items b1 ++ [IOp ($"then")] ++ blank_items b2 ++ i2 ++ blank_items b3 ++ [IOp ($"else")] ++ blank_items b4 ++ i3). split.
    + apply cshape_if; try apply blanks_items.
      * apply (bshape_deeper _ _ _ _ _ S1). rewrite !app_length. lia.
      * apply (cshape_deeper _ _ _ _ _ S2). rewrite !app_length. lia.
      * apply (cshape_deeper _ _ _ _ _ S3). rewrite !app_length. lia.
    + apply on_then; [rewrite <- !app_assoc; exact O1|]. apply on_then; [rewrite <- !app_assoc; apply on_blanks, Hb1|].
      apply on_then.
      { rewrite <- !app_assoc. apply (word_on L _ fl true); [exact Hb2|exact N2|]. unfold after_operand. rewrite app_assoc, prev_blanks by apply blanks_items. exact (bshape_after _ _ _ _ _ cur S1). }
      apply on_then; [rewrite <- !app_assoc; apply on_blanks, Hb2|].
      apply on_then; [unfold cur1 in O2; rewrite <- !app_assoc in *; exact O2|]. apply on_then; [rewrite <- !app_assoc; apply on_blanks, Hb3|].
      apply on_then.
      { rewrite <- (app_assoc b4 t3 rest). apply (word_on L _ fl false); [exact Hb4|exact N4|]. unfold after_operand. rewrite prev_blanks by apply blanks_items. exact (cshape_after _ _ _ _ _ _ S2). }
      apply on_then; [rewrite <- !app_assoc; apply on_blanks, Hb4|]. unfold cur2, cur1 in O3. rewrite <- !app_assoc in *. exact O3.
Qed.
Lemma choice_parse L text e lft : exp_letter L -> (1 <= l_prec L)%Z -> choice_text text e -> cliterals_fit (l_prec L) e ->
  exists w1 its w2, parse_text (std_pcfg L) text lft = (POk [w1 ++ its ++ w2] (length text) None, lft) /\ blanks w1 /\ blanks w2 /\ cshape (l_prec L) (length text) 1 its e.
Proof.
  intros He Hp (b1 & t & b2 & -> & Hb1 & Hb2 & Hr) Hf.
  destruct (chooses_parse L 1 t e He Hp Hr Hf (length (b1 ++ t ++ b2)) no_flags (blank_items b1) b2) as (its & Sh & On).
  - reflexivity.
  - rewrite !app_length. lia.
  - rewrite <- (app_nil_r b2). apply blank_follow; [exact Hb2|exact I].
  - apply before_blanks.
  - exists (blank_items b1), its, (blank_items b2).
    assert (G : reads_on L (parse (std_pcfg L) (length (b1 ++ t ++ b2))) no_flags (b1 ++ t ++ b2) [] [] (blank_items b1 ++ its ++ blank_items b2)).
    { apply on_then; [apply on_blanks, Hb1|]. cbn [app]. apply on_then; [rewrite app_nil_r; exact On|apply on_blanks, Hb2]. }
    split; [|split; [apply blanks_items|split; [apply blanks_items|]]].
    + unfold parse_text. cbn [parse]. rewrite <- (app_nil_r (b1 ++ t ++ b2)) at 2 3. 
      destruct (G (S (length ((b1 ++ t ++ b2) ++ []))) [] 0 lft ltac:(lia)) as (f1 & F1 & E1). rewrite E1. destruct f1 as [|f1]; [cbn in F1; lia|]. reflexivity.
    + apply (cshape_deeper _ _ _ _ _ Sh). rewrite !app_length. lia.
Qed.
