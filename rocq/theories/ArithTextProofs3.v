(** The items arithmetic is parsed into. *)
From Coq Require Import ZArith QArith Ascii String List Bool Lia.
From Verif Require Import Base BaseProofs Dec Num NumSpec Lex LexSpec LexProofs Bases Formats Units Syntax Pos Call Loop Parse Exec Std StdProofs2 VarNameSpec VarNameProofs ArithTextSpec ArrayTextSpec ArithRunSpec ArithTextProofs2.
Import ListNotations.
Open Scope nat_scope.

(** [shape p d k its e]: items of [e], parentheses nested [d] deep at most, only operators of levels up to [k] outside them *)
Definition op_items (o : aop) : list item := match o with Beside => [] | _ => [IOp (osym o)] end.
Inductive shape (p : Z) : nat -> nat -> list item -> aexp -> Prop :=
| shape_num d l n : number_of_lit p l = Some n -> (val n == spec_val l)%Q -> good n -> lowest n -> shape p d 0 [ILit (lit_text l) (LNum n)] (ANum l)
| shape_var d n : shape p d 0 [IVar n] (AVar n)
| shape_paren d d' text w1 w2 its e : d' < d -> blanks w1 -> blanks w2 -> shape p d' 4 its e -> shape p d 0 [IInner text false (w1 ++ its ++ w2)] e
| shape_call d d' text f h1 h2 w1 its w2 tl e : d' < d -> blanks w1 -> blanks w2 -> shape p d' 4 its e ->
    shape p d 0 [IFunc text false ([h1; h2] ++ (w1 ++ its ++ w2) ++ tl) (fname f) [w1 ++ its ++ w2]] (ACall f e)
| shape_call2 d d' text f h1 h2 w1 i1 w2 c w3 i2 w4 tl a b : d' < d -> blanks w1 -> blanks w2 -> blanks w3 -> blanks w4 -> shape p d' 4 i1 a -> shape p d' 4 i2 b ->
    shape p d 0 [IFunc text false ([h1; h2] ++ (w1 ++ i1 ++ w2) ++ [c] ++ (w3 ++ i2 ++ w4) ++ tl) (fname2 f) [w1 ++ i1 ++ w2; w3 ++ i2 ++ w4]] (ACall2 f a b)
| shape_looser d k its e : shape p d k its e -> shape p d (S k) its e
| shape_bin d o i1 w1 w2 i2 a b : blanks w1 -> blanks w2 -> shape p d (olevel o) i1 a -> shape p d (pred (olevel o)) i2 b ->
    shape p d (olevel o) (i1 ++ w1 ++ op_items o ++ w2 ++ i2) (ABin o a b).
Lemma shape_deeper p d k its e : shape p d k its e -> forall d', d <= d' -> shape p d' k its e.
Proof.
  induction 1; intros D HD; try (econstructor; eauto; fail).
  - eapply shape_paren; [|exact H0|exact H1|exact H2]. lia.
  - eapply shape_call; [|exact H0|exact H1|exact H2]. lia.
  - apply (shape_call2 p D d'); try assumption. lia.
Qed.
Fixpoint literals_fit (p : Z) (e : aexp) : Prop :=
  match e with
  | ANum l => match l_frac l with Some f => (Z.of_nat (length f) <= p)%Z | None => True end
  | AVar _ => True
  | ABin _ a b | ACall2 _ a b => literals_fit p a /\ literals_fit p b
  | ACall _ a => literals_fit p a
  end.

(** * What was read last *)
Definition after_operand (cur : list item) : Prop := match previous_functional_item cur with None => true | Some i => iisop i end = false.
Definition before_operand (cur : list item) : Prop := match previous_functional_item cur with None => true | Some i => iisop i end = true.
Lemma prev_app l m i : previous_functional_item m = Some i -> previous_functional_item (l ++ m) = Some i.
Proof.
  unfold previous_functional_item, functional_items. rewrite filter_app, rev_app_distr. destruct (rev (filter ifunc m)); [discriminate|]. intros H. exact H.
Qed.
Lemma prev_blanks l w : blanks w -> previous_functional_item (l ++ w) = previous_functional_item l.
Proof.
  intros H. unfold previous_functional_item, functional_items. rewrite filter_app. replace (filter ifunc w) with (@nil item); [now rewrite app_nil_r|].
  induction H as [|x w Hx Hw IH]; [reflexivity|]. cbn [filter]. rewrite Hx. exact IH.
Qed.
Lemma shape_prev p d k its e : shape p d k its e -> exists i, previous_functional_item its = Some i /\ iisop i = false.
Proof.
  induction 1; try (eexists; split; reflexivity); try assumption. destruct IHshape2 as (i & I1 & I2). exists i. split; [|exact I2]. rewrite !app_assoc. apply prev_app, I1.
Qed.
Lemma shape_after p d k its e cur : shape p d k its e -> after_operand (cur ++ its).
Proof. intros H. destruct (shape_prev _ _ _ _ _ H) as (i & I1 & I2). unfold after_operand. rewrite (prev_app cur its i I1). exact I2. Qed.

(** * Texts *)
Lemma reads_first k t e : reads k t e -> exists c r, t = c :: r /\ operand_char c.
Proof.
  induction 1 as [l Hl|n Hn _|b1 t b2 e _ _ _ _|f b1 t b2 e _ _ _ _|f b1 t1 b2 b3 t2 b4 a b _ _ _ _ _ _ _ _|k t e _ IH|o t1 b1 b2 t2 a b _ _ _ _ IH1 _ _].
  - destruct (lit_first l Hl) as (c & r & E & Hc). exists c, r. split; [exact E|left; exact Hc].
  - destruct Hn as (c & r & E & Hc & _). exists c, r. split; [exact E|right; right; apply start_iff, Hc].
  - exists "("%char. eexists. split; [reflexivity|right; left; reflexivity].
  - destruct f; eexists _, _; (split; [reflexivity|right; right; reflexivity]).
  - destruct f; eexists _, _; (split; [reflexivity|right; right; reflexivity]).
  - exact IH.
  - destruct IH1 as (c & r & -> & Hc). exists c. eexists. split; [reflexivity|exact Hc].
Qed.
Lemma blank_follow b r : blank_text b -> follows r -> follows (b ++ r).
Proof. intros H Hr. destruct H as [|c b [Hc _] _]; [exact Hr|]. cbn [app follows]. unfold follow_char. rewrite Hc. reflexivity. Qed.
Lemma blank_follow' b r : blank_text b -> b <> [] -> follows (b ++ r).
Proof. intros H Hr. destruct H as [|c b [Hc _] _]; [congruence|]. cbn [app follows]. unfold follow_char. rewrite Hc. reflexivity. Qed.

(** * Reading on *)
Definition reads_on (L : lib) (rec : prec) (fl : flags) (t : str) (cur : list item) (rest : str) (its : list item) : Prop :=
  forall fuel done n lft, length (t ++ rest) < fuel ->
  exists fuel', length rest < fuel' /\
    parse_loop (std_pcfg L) rec fuel fl done cur n (t ++ rest) lft = parse_loop (std_pcfg L) rec fuel' fl done (cur ++ its) (n + length t) rest lft.
Lemma on_nothing L rec fl cur rest : reads_on L rec fl [] cur rest [].
Proof. intros fuel done n lft H. exists fuel. split; [exact H|]. cbn [app length]. rewrite app_nil_r, Nat.add_0_r. reflexivity. Qed.
Lemma on_then L rec fl t1 t2 cur rest i1 i2 : reads_on L rec fl t1 cur (t2 ++ rest) i1 -> reads_on L rec fl t2 (cur ++ i1) rest i2 ->
  reads_on L rec fl (t1 ++ t2) cur rest (i1 ++ i2).
Proof.
  intros H1 H2 fuel done n lft Hf. rewrite <- app_assoc in *. destruct (H1 fuel done n lft Hf) as (f1 & F1 & E1). destruct (H2 f1 done (n + length t1) lft F1) as (f2 & F2 & E2).
  exists f2. split; [exact F2|]. rewrite E1, E2, <- app_assoc, app_length, Nat.add_assoc. reflexivity.
Qed.
Lemma on_token L rec fl t cur rest its : t <> [] ->
  (forall lft, try_parsers (std_pcfg L) rec (pc_parsers (std_pcfg L)) fl cur (t ++ rest) lft = (PRitems its (length t) false, lft)) -> reads_on L rec fl t cur rest its.
Proof.
  intros Ht H fuel done n lft Hf. destruct fuel as [|fuel]; [lia|]. exists fuel. rewrite app_length in Hf. destruct t as [|c t]; [congruence|].
  split; [cbn [length] in Hf; lia|]. rewrite (loop_step _ _ _ _ _ _ _ _ its (length (c :: t)) _ lft); [|discriminate|cbn; lia|apply H].
  rewrite skipn_app, Nat.sub_diag, skipn_all. reflexivity.
Qed.
Definition blank_items (b : str) : list item := map (fun c => INon NSpace [c]) b.
Lemma blanks_items b : blanks (blank_items b). Proof. induction b; constructor; [reflexivity|assumption]. Qed.
Lemma on_blanks L rec fl b cur rest : blank_text b -> reads_on L rec fl b cur rest (blank_items b).
Proof.
  intros H. revert cur. induction H as [|c b [Hc Hn] Hb IH]; intros cur; [apply on_nothing|].
  change (c :: b) with ([c] ++ b). change (blank_items ([c] ++ b)) with ([INon NSpace [c]] ++ blank_items b). apply on_then; [|apply IH].
  apply on_token; [discriminate|]. intros lft. cbn [app]. apply (blank_read L rec fl cur c (b ++ rest) lft Hc Hn).
Qed.
Lemma op_next_of o c b2 t2 rest k e : op_char o = Some c -> blank_text b2 -> joint o [] b2 t2 -> reads k t2 e -> op_next c (b2 ++ t2 ++ rest).
Proof.
  intros Ho Hb Hj Hr. destruct (reads_first _ _ _ Hr) as (d & r & -> & Hd). destruct Hb as [|x b [Hx _] _]; cbn [app op_next].
  - assert (G : ceq d "=" = false /\ ceq d "+" = false /\ ceq d "$" = false /\ ceq d "^" = false).
    { destruct Hd as [Hd|[->|Hd]]; [|repeat split; reflexivity|].
      all: clear -Hd; destruct d as [[] [] [] [] [] [] [] []]; try (exfalso; vm_compute in Hd; discriminate Hd); repeat split; reflexivity. }
    destruct G as (G1 & G2 & G3 & G4). repeat split; try assumption. intros ->.
    assert (o = Minus) by (destruct o; try discriminate Ho; reflexivity). subst o. cbn [joint] in Hj. apply not_true_iff_false. intros K. apply ceq_iff in K. subst d.
    apply Hj; [exists r; reflexivity|reflexivity].
  - clear -Hx. assert (G : ceq x "=" = false /\ ceq x "+" = false /\ ceq x "$" = false /\ ceq x "^" = false /\ ceq x "-" = false).
    { destruct x as [[] [] [] [] [] [] [] []]; try (exfalso; vm_compute in Hx; discriminate Hx); repeat split; reflexivity. } tauto.
Qed.
Definition plain_flags (fl : flags) : Prop := fl_arr fl = false.
(** One argument of a call, and all of them *)
Lemma arg_parse L m b1 t b2 its d k e stop kind rest lft : blank_text b1 -> blank_text b2 -> shape (l_prec L) d k its e ->
  reads_on L (parse (std_pcfg L) m) func_flags t (blank_items b1) (b2 ++ stop :: rest) its ->
  (forall cur, after_operand cur -> try_parsers (std_pcfg L) (parse (std_pcfg L) m) (pc_parsers (std_pcfg L)) func_flags cur (stop :: rest) lft = (PRend [] kind, lft)) ->
  parse (std_pcfg L) (S m) func_flags (b1 ++ t ++ b2 ++ stop :: rest) lft = (POk [blank_items b1 ++ its ++ blank_items b2] (length (b1 ++ t ++ b2)) (Some kind), lft).
Proof.
  intros Hb1 Hb2 Sh On Hs. cbn [parse].
  assert (G : reads_on L (parse (std_pcfg L) m) func_flags (b1 ++ t ++ b2) [] (stop :: rest) (blank_items b1 ++ its ++ blank_items b2)).
  { apply on_then; [apply on_blanks, Hb1|]. cbn [app] in On |- *. apply on_then; [|apply on_blanks, Hb2]. exact On. }
  assert (Es : b1 ++ t ++ b2 ++ stop :: rest = (b1 ++ t ++ b2) ++ stop :: rest) by (rewrite <- !app_assoc; reflexivity). rewrite Es.
  destruct (G (S (length ((b1 ++ t ++ b2) ++ stop :: rest))) [] 0 lft ltac:(lia)) as (f1 & F1 & E1). rewrite E1. destruct f1 as [|f1]; [cbn in F1; lia|].
  cbn [app parse_loop]. rewrite Hs.
  - cbn [app Nat.add]. rewrite app_nil_r. reflexivity.
  - unfold after_operand. rewrite app_assoc. rewrite prev_blanks by apply blanks_items. exact (shape_after _ _ _ _ _ (blank_items b1) Sh).
Qed.
Lemma arg_not_nil p d k its e w1 w2 : shape p d k its e -> w1 ++ its ++ w2 <> [].
Proof.
  intros H E. destruct (shape_prev _ _ _ _ _ H) as (i & I1 & _). apply app_eq_nil in E as [_ E]. apply app_eq_nil in E as [E _]. subst its. discriminate I1.
Qed.
Lemma args_last rec k nxt i fitems args inner len lft : i < length nxt -> rec func_flags (skipn i nxt) lft = (POk [inner] len (Some EFunc), lft) -> inner <> [] ->
  args_loop rec (S k) nxt i fitems args lft = (ADone (i + len + 1) (fitems ++ inner ++ [INon NFuncEnd c_close]) (args ++ [inner]) true, lft).
Proof. intros Hi Hr Hn. cbn [args_loop]. rewrite (proj2 (Nat.leb_gt _ _) Hi), Hr. cbn [first_st]. destruct inner; [congruence|reflexivity]. Qed.
Lemma args_more rec k nxt i fitems args inner len lft : i < length nxt -> rec func_flags (skipn i nxt) lft = (POk [inner] len (Some EParam), lft) -> inner <> [] ->
  args_loop rec (S k) nxt i fitems args lft = args_loop rec k nxt (i + len + 1) (fitems ++ inner ++ [INon NFuncParam c_comma]) (args ++ [inner]) lft.
Proof. intros Hi Hr Hn. cbn [args_loop]. rewrite (proj2 (Nat.leb_gt _ _) Hi), Hr. cbn [first_st]. destruct inner; [congruence|reflexivity]. Qed.
Lemma skip_app (a b : str) k : k = length a -> skipn k (a ++ b) = b.
Proof. intros ->. rewrite skipn_app, skipn_all, Nat.sub_diag. reflexivity. Qed.
Lemma first_app (a b : str) k : k = length a -> firstn k (a ++ b) = a.
Proof. intros ->. rewrite firstn_app, Nat.sub_diag, firstn_all. apply app_nil_r. Qed.
Lemma before_blanks b : before_operand (blank_items b).
Proof. unfold before_operand. rewrite <- (app_nil_l (blank_items b)), prev_blanks by apply blanks_items. reflexivity. Qed.
Lemma reads_parse_in L k t e : exp_letter L -> (1 <= l_prec L)%Z -> reads k t e -> literals_fit (l_prec L) e -> forall m fl cur rest, (fl_arr fl = true -> stepless e) -> length t <= m -> follows rest ->
  before_operand cur \/ opens_operand t ->
  exists its, shape (l_prec L) (length t) k its e /\ reads_on L (parse (std_pcfg L) m) fl t cur rest its.
Proof.
  intros He Hp H. induction H as [l Hl|n Hn Ht|b1 t b2 e Hb1 Hb2 Hr IH|f b1 t b2 e Hb1 Hb2 Hr IH|f b1 t1 b2 b3 t2 b4 a b Hb1 Hb2 Hb3 Hb4 H1 IH1 H2 IH2|k t e Hr IH|o t1 b1 b2 t2 a b Hb1 Hb2 Hj H1 IH1 H2 IH2]; intros Hf m fl cur rest Hfl Hm Hrest Hc.
  - destruct (number_of_lit_exact (l_prec L) l Hp Hl Hf) as (n & N1 & N2 & N3 & N4). exists [ILit (lit_text l) (LNum n)]. split; [constructor; assumption|].
    destruct (lit_first l Hl) as (c & x & Et & Hch). apply on_token; [rewrite Et; discriminate|]. intros lft. apply lit_read; try assumption.
    destruct Hc as [Hc|Hc]; [exact Hc|]. exfalso. rewrite Et in Hc. cbn [opens_operand] in Hc. destruct (lit_facts c Hch) as (_ & _ & _ & _ & A & P & W). destruct Hc as [->|[Hc| ->]].
    + discriminate P.
    + apply letter_iff in Hc. congruence.
    + discriminate W.
  - exists [IVar n]. split; [constructor|]. apply on_token; [destruct Hn as (c & r & -> & _); discriminate|]. intros lft. apply name_read; try assumption.
    + destruct rest as [|c rest]; [exact I|]. cbn [follows name_over] in *. apply word_not. apply (follow_facts c Hrest).
    + intros [_ [x E]]. destruct rest as [|c rest]; [discriminate E|]. assert (c = "("%char) by (cbn in E; congruence). subst c. discriminate Hrest.
  - set (text := $"(" ++ b1 ++ t ++ b2 ++ $")") in *. assert (Lt : length text = length b1 + length t + length b2 + 2) by (unfold text; rewrite !app_length; cbn; lia).
    destruct m as [|m]; [lia|]. set (fl' := inner_flags fl). set (st := INon NInnerStart ($"(")).
    destruct (IH Hf m fl' (blank_items b1) (b2 ++ $")" ++ rest)) as (its & Sh & On).
    + exact Hfl.
    + lia.
    + apply blank_follow; [exact Hb2|reflexivity].
    + left. unfold before_operand. rewrite <- (app_nil_l (blank_items b1)), prev_blanks by apply blanks_items. reflexivity.
    + set (w2 := blank_items b2 ++ [INon NInnerEnd c_close]). set (inner := st :: blank_items b1 ++ its ++ w2).
      exists [IInner text false inner]. split.
      * change inner with ((st :: blank_items b1) ++ its ++ w2). apply (shape_paren _ _ (length t)); [lia| | |exact Sh].
        -- constructor; [reflexivity|apply blanks_items].
        -- unfold w2. apply Forall_app. split; [apply blanks_items|repeat constructor].
      * apply on_token; [discriminate|]. intros lft.
        assert (En : text ++ rest = "("%char :: (b1 ++ t ++ b2 ++ $")" ++ rest)) by (unfold text; rewrite <- !app_assoc; reflexivity).
        rewrite En, open_read. unfold parse_inner. cbn [skipn parse]. fold fl'.
        assert (G : reads_on L (parse (std_pcfg L) m) fl' (b1 ++ t ++ b2) [] ($")" ++ rest) (blank_items b1 ++ its ++ blank_items b2)).
        { apply on_then; [apply on_blanks, Hb1|]. cbn [app] in On |- *. apply on_then; [|apply on_blanks, Hb2]. cbn [app]. exact On. }
        assert (Es : b1 ++ t ++ b2 ++ $")" ++ rest = (b1 ++ t ++ b2) ++ $")" ++ rest) by (rewrite <- !app_assoc; reflexivity). rewrite Es.
        destruct (G (S (length ((b1 ++ t ++ b2) ++ $")" ++ rest))) [] 0 lft ltac:(lia)) as (f1 & F1 & E1). rewrite E1. destruct f1 as [|f1]; [cbn in F1; lia|].
        cbn [app]. cbn [list_ascii_of_string app parse_loop].
        rewrite close_read; [|reflexivity|].
        -- cbn [first_st app].
           replace (0 + length (b1 ++ t ++ b2) + 2) with (length text) by (rewrite Lt, !app_length; lia).
           replace (firstn (length text) _) with text.
           ++ unfold inner, w2. rewrite <- !app_assoc. reflexivity.
           ++ replace ("("%char :: (b1 ++ t ++ b2) ++ ")"%char :: rest) with (text ++ rest) by (rewrite En, Es; reflexivity).
              rewrite firstn_app, Nat.sub_diag, firstn_all. cbn [firstn]. rewrite app_nil_r. reflexivity.
        -- rewrite app_assoc. rewrite prev_blanks by apply blanks_items. exact (shape_after _ _ _ _ _ (blank_items b1) Sh).
  - set (w := fname f) in *. assert (Hw : In w call_names) by (unfold w; destruct f; cbn; tauto). rewrite !app_length in Hm. cbn [length list_ascii_of_string] in Hm. destruct m as [|m]; [lia|].
    destruct (IH Hf m func_flags (blank_items b1) (b2 ++ ")"%char :: rest) ltac:(discriminate) ltac:(lia)) as (its & Sh & On).
    + apply blank_follow; [exact Hb2|reflexivity].
    + left. apply before_blanks.
    + pose proof (fun lft => arg_parse L m b1 t b2 its _ _ e ")"%char EFunc rest lft Hb1 Hb2 Sh On (fun c Ha => end_call_read L _ func_flags c rest lft eq_refl eq_refl Ha)) as A1.
      set (text := w ++ $"(" ++ b1 ++ t ++ b2 ++ $")") in *. set (arg := blank_items b1 ++ its ++ blank_items b2) in *.
      assert (Lt : length text = length w + 1 + length (b1 ++ t ++ b2) + 1) by (unfold text; rewrite !app_length; cbn [length list_ascii_of_string]; lia).
      assert (En : text ++ rest = w ++ "("%char :: (b1 ++ t ++ b2 ++ ")"%char :: rest)) by (unfold text; rewrite <- !app_assoc; reflexivity).
      exists [IFunc text false ([INon NFuncName w; INon NFuncStart ($"(")] ++ arg ++ [INon NFuncEnd c_close]) w [arg]]. split.
      * apply (shape_call _ _ (length t)); [unfold text; rewrite !app_length; cbn [length list_ascii_of_string]; lia|apply blanks_items|apply blanks_items|exact Sh].
      * apply on_token; [unfold text, w; destruct f; discriminate|]. intros lft. rewrite En. apply call_read; [exact Hw| |exact I]. unfold parse_call.
        rewrite (args_last _ _ _ _ _ _ arg (length (b1 ++ t ++ b2))); [| | |exact (arg_not_nil _ _ _ _ _ _ _ Sh)].
        -- cbn [app]. rewrite <- En, <- Lt, first_app by reflexivity. reflexivity.
        -- rewrite <- En, (app_length text), Lt. lia.
        -- change (w ++ "("%char :: (b1 ++ t ++ b2 ++ ")"%char :: rest)) with (w ++ $"(" ++ (b1 ++ t ++ b2 ++ ")"%char :: rest)). rewrite app_assoc, skip_app by (rewrite app_length; reflexivity). apply A1.
  - set (w := fname2 f) in *. assert (Hw : In w call_names) by (unfold w; destruct f; cbn; tauto). rewrite !app_length in Hm. cbn [length list_ascii_of_string] in Hm. destruct m as [|m]; [lia|]. destruct Hf as [Hf1 Hf2].
    destruct (IH1 Hf1 m func_flags (blank_items b1) (b2 ++ ","%char :: (b3 ++ t2 ++ b4 ++ ")"%char :: rest)) ltac:(discriminate) ltac:(lia)) as (i1 & Sh1 & On1); [apply blank_follow; [exact Hb2|reflexivity]|left; apply before_blanks|].
    destruct (IH2 Hf2 m func_flags (blank_items b3) (b4 ++ ")"%char :: rest) ltac:(discriminate) ltac:(lia)) as (i2 & Sh2 & On2); [apply blank_follow; [exact Hb4|reflexivity]|left; apply before_blanks|].
    pose proof (fun lft => arg_parse L m b1 t1 b2 i1 _ _ a ","%char EParam (b3 ++ t2 ++ b4 ++ ")"%char :: rest) lft Hb1 Hb2 Sh1 On1 (fun c Ha => comma_read L _ func_flags c _ lft eq_refl Ha)) as A1.
    pose proof (fun lft => arg_parse L m b3 t2 b4 i2 _ _ b ")"%char EFunc rest lft Hb3 Hb4 Sh2 On2 (fun c Ha => end_call_read L _ func_flags c rest lft eq_refl eq_refl Ha)) as A2.
    set (text := w ++ $"(" ++ b1 ++ t1 ++ b2 ++ $"," ++ b3 ++ t2 ++ b4 ++ $")") in *. set (arg1 := blank_items b1 ++ i1 ++ blank_items b2) in *. set (arg2 := blank_items b3 ++ i2 ++ blank_items b4) in *.
    assert (Lt : length text = length w + 1 + length (b1 ++ t1 ++ b2) + 1 + length (b3 ++ t2 ++ b4) + 1) by (unfold text; rewrite !app_length; cbn [length list_ascii_of_string]; lia).
    assert (En : text ++ rest = w ++ "("%char :: (b1 ++ t1 ++ b2 ++ ","%char :: (b3 ++ t2 ++ b4 ++ ")"%char :: rest))) by (unfold text; rewrite <- !app_assoc; reflexivity).
    exists [IFunc text false ([INon NFuncName w; INon NFuncStart ($"(")] ++ arg1 ++ [INon NFuncParam c_comma] ++ arg2 ++ [INon NFuncEnd c_close]) w [arg1; arg2]]. split.
    + apply (shape_call2 _ _ (length t1 + length t2)); try apply blanks_items; [unfold text; rewrite !app_length; cbn [length list_ascii_of_string]; lia| |].
      * apply (shape_deeper _ _ _ _ _ Sh1). lia.
      * apply (shape_deeper _ _ _ _ _ Sh2). lia.
    + apply on_token; [unfold text, w; destruct f; discriminate|]. intros lft. rewrite En. apply call_read; [exact Hw| |exact I]. unfold parse_call.
      assert (Lx : exists k, S (length (w ++ "("%char :: (b1 ++ t1 ++ b2 ++ ","%char :: (b3 ++ t2 ++ b4 ++ ")"%char :: rest)))) = S (S k)).
      { rewrite <- En, app_length, Lt. exists (length w + length (b1 ++ t1 ++ b2) + 1 + length (b3 ++ t2 ++ b4) + 1 + length rest). lia. }
      destruct Lx as [kk Ek]. rewrite Ek. rewrite (args_more _ _ _ _ _ _ arg1 (length (b1 ++ t1 ++ b2))); [| | |exact (arg_not_nil _ _ _ _ _ _ _ Sh1)].
      * rewrite (args_last _ _ _ _ _ _ arg2 (length (b3 ++ t2 ++ b4))); [| | |exact (arg_not_nil _ _ _ _ _ _ _ Sh2)].
        -- cbn [app]. rewrite <- En, <- Lt, first_app by reflexivity. rewrite <- !app_assoc. reflexivity.
        -- rewrite <- En, (app_length text), Lt. lia.
        -- replace (w ++ "("%char :: (b1 ++ t1 ++ b2 ++ ","%char :: (b3 ++ t2 ++ b4 ++ ")"%char :: rest))) with ((w ++ $"(" ++ (b1 ++ t1 ++ b2) ++ $",") ++ (b3 ++ t2 ++ b4 ++ ")"%char :: rest)) by (rewrite <- !app_assoc; reflexivity).
           rewrite skip_app by (rewrite !app_length; cbn [length list_ascii_of_string]; lia). apply A2.
      * rewrite <- En, (app_length text), Lt. lia.
      * change ("("%char :: (b1 ++ t1 ++ b2 ++ ","%char :: (b3 ++ t2 ++ b4 ++ ")"%char :: rest))) with ($"(" ++ (b1 ++ t1 ++ b2 ++ ","%char :: (b3 ++ t2 ++ b4 ++ ")"%char :: rest))). rewrite app_assoc, skip_app by (rewrite app_length; reflexivity). apply A1.
  - destruct (IH Hf m fl cur rest Hfl Hm Hrest Hc) as (its & Sh & On). exists its. split; [constructor; exact Sh|exact On].
  - destruct Hf as [Hf1 Hf2]. rewrite !app_length in Hm. destruct (reads_first _ _ _ H2) as (c2 & r2 & E2 & _). destruct (reads_first _ _ _ H1) as (c1 & r1 & E1 & _).
    destruct (op_char o) as [oc|] eqn:Eo.
    + pose proof (osym_char o oc Eo) as Es.
      destruct (IH1 Hf1 m fl cur (b1 ++ osym o ++ b2 ++ t2 ++ rest) (fun E => proj1 (Hfl E)) ltac:(lia)) as (i1 & S1 & O1).
      { apply blank_follow; [exact Hb1|]. rewrite Es. destruct o; try discriminate Eo; injection Eo as <-; reflexivity. }
      { destruct Hc as [Hc|Hc]; [left; exact Hc|right]. rewrite E1 in *. exact Hc. }
      destruct (IH2 Hf2 m fl (((cur ++ i1) ++ blank_items b1) ++ [IOp (osym o)] ++ blank_items b2) rest (fun E => proj2 (Hfl E)) ltac:(lia) Hrest) as (i2 & S2 & O2).
      { left. unfold before_operand. rewrite app_assoc, prev_blanks by apply blanks_items. rewrite (prev_app _ [IOp (osym o)] (IOp (osym o)) eq_refl). reflexivity. }
      exists (i1 ++ blank_items b1 ++ op_items o ++ blank_items b2 ++ i2).
      replace (op_items o) with [IOp (osym o)] by (destruct o; try discriminate Eo; reflexivity). split.
      * replace [IOp (osym o)] with (op_items o) by (destruct o; try discriminate Eo; reflexivity). constructor; try apply blanks_items.
        -- apply (shape_deeper _ _ _ _ _ S1). rewrite !app_length. lia.
        -- apply (shape_deeper _ _ _ _ _ S2). rewrite !app_length. lia.
      * apply on_then; [rewrite <- !app_assoc; exact O1|]. apply on_then; [rewrite <- !app_assoc; apply on_blanks, Hb1|].
        apply on_then; [|apply on_then; [rewrite <- !app_assoc; apply on_blanks, Hb2|rewrite <- !app_assoc in *; exact O2]].
        rewrite Es. apply on_token; [discriminate|]. intros lft. cbn [app length]. rewrite <- app_assoc. rewrite <- Es. apply (op_read L _ fl _ o oc); [exact Eo| |].
        -- rewrite <- ?app_assoc. apply (op_next_of o oc b2 t2 rest (pred (olevel o)) b Eo Hb2); [|exact H2]. destruct o; try exact I; [exact Hj|discriminate Eo].
        -- rewrite ?app_assoc, prev_blanks by apply blanks_items. exact (shape_after _ _ _ _ _ cur S1).
    + assert (o = Beside) by (destruct o; try discriminate Eo; reflexivity). subst o. cbn [joint osym] in *. destruct Hj as (J1 & J2 & J3). subst b2.
      destruct (IH1 Hf1 m fl cur (b1 ++ t2 ++ rest) (fun E => proj1 (Hfl E)) ltac:(lia)) as (i1 & S1 & O1).
      { apply blank_follow'; assumption. }
      { destruct Hc as [Hc|Hc]; [left; exact Hc|right]. rewrite E1 in *. exact Hc. }
      destruct (IH2 Hf2 m fl ((cur ++ i1) ++ blank_items b1) rest (fun E => proj2 (Hfl E)) ltac:(cbn in Hm; lia) Hrest) as (i2 & S2 & O2); [right; exact J3|].
      exists (i1 ++ blank_items b1 ++ op_items Beside ++ [] ++ i2). split.
      * apply (shape_bin _ _ Beside); [apply blanks_items|constructor| |].
        -- apply (shape_deeper _ _ _ _ _ S1). rewrite !app_length. lia.
        -- apply (shape_deeper _ _ _ _ _ S2). rewrite !app_length. lia.
      * cbn [app op_items]. apply on_then; [rewrite <- !app_assoc; exact O1|]. apply on_then; [apply on_blanks, Hb1|exact O2].
Qed.
Lemma reads_parse L k t e : exp_letter L -> (1 <= l_prec L)%Z -> reads k t e -> literals_fit (l_prec L) e -> forall m fl cur rest, plain_flags fl -> length t <= m -> follows rest ->
  before_operand cur \/ opens_operand t ->
  exists its, shape (l_prec L) (length t) k its e /\ reads_on L (parse (std_pcfg L) m) fl t cur rest its.
Proof. intros He Hp Hr Hf m fl cur rest Hfl. apply reads_parse_in; try assumption. rewrite Hfl. discriminate. Qed.

(** * The whole text *)
Lemma text_parse L text e lft : exp_letter L -> (1 <= l_prec L)%Z -> arithmetic_text text e -> literals_fit (l_prec L) e ->
  exists w1 its w2, parse_text (std_pcfg L) text lft = (POk [w1 ++ its ++ w2] (length text) None, lft) /\ blanks w1 /\ blanks w2 /\ shape (l_prec L) (length text) 4 its e.
Proof.
  intros He Hp (b1 & t & b2 & -> & Hb1 & Hb2 & Hr) Hf.
  destruct (reads_parse L 4 t e He Hp Hr Hf (length (b1 ++ t ++ b2)) no_flags (blank_items b1) b2) as (its & Sh & On).
  - reflexivity.
  - rewrite !app_length. lia.
  - rewrite <- (app_nil_r b2). apply blank_follow; [exact Hb2|exact I].
  - left. unfold before_operand. rewrite <- (app_nil_l (blank_items b1)), prev_blanks by apply blanks_items. reflexivity.
  - exists (blank_items b1), its, (blank_items b2).
    assert (G : reads_on L (parse (std_pcfg L) (length (b1 ++ t ++ b2))) no_flags (b1 ++ t ++ b2) [] [] (blank_items b1 ++ its ++ blank_items b2)).
    { apply on_then; [apply on_blanks, Hb1|]. cbn [app]. apply on_then; [rewrite app_nil_r; exact On|apply on_blanks, Hb2]. }
    split; [|split; [apply blanks_items|split; [apply blanks_items|]]].
    + unfold parse_text. cbn [parse]. rewrite <- (app_nil_r (b1 ++ t ++ b2)) at 2 3. 
      destruct (G (S (length ((b1 ++ t ++ b2) ++ []))) [] 0 lft ltac:(lia)) as (f1 & F1 & E1). rewrite E1. destruct f1 as [|f1]; [cbn in F1; lia|]. reflexivity.
    + apply (shape_deeper _ _ _ _ _ Sh). rewrite !app_length. lia.
Qed.
