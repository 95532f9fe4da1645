(** How arrays of arithmetic are read. *)
From Coq Require Import ZArith QArith Ascii String List Bool Lia.
From Verif Require Import Base BaseProofs Dec Num NumSpec Lex LexSpec LexProofs Bases Formats Units Syntax Pos Call Loop Parse Exec Std StdProofs2 VarNameSpec VarNameProofs ContainProofs6 ArithTextSpec ArrayTextSpec ArithRunSpec ArithTextProofs2 ArithTextProofs3.
Import ListNotations.
Open Scope nat_scope.

(** * Commas and brackets *)
Lemma array_end_read L rec cur c kind r lft : (c, kind) = (","%char, AParam) \/ (c, kind) = ("]"%char, AEnd) -> after_operand cur ->
  try_parsers (std_pcfg L) rec (pc_parsers (std_pcfg L)) arr_flags cur (c :: r) lft = (PRend [] kind, lft).
Proof.
  intros Hc Hp. unfold after_operand in Hp. change (pc_parsers (std_pcfg L)) with (std_parsers L). unfold std_parsers. cbv zeta.
  assert (Gl : forall f, run_parser (std_pcfg L) rec (PLit true f) arr_flags cur (c :: r) lft = (PRnone, lft)).
  { intros f. cbn [run_parser]. rewrite Hp. reflexivity. }
  assert (Go : run_parser (std_pcfg L) rec POp arr_flags cur (c :: r) lft = (PRnone, lft)).
  { cbn [run_parser]. unfold std_pcfg, pc_ops. rewrite symbols_of. replace (match_op std_symbols (c :: r)) with (@None str); [reflexivity|]. destruct Hc as [E|E]; assert (Ec : c = fst (c, kind)) by reflexivity; rewrite Ec, E; clear; lazy; reflexivity. }
  destruct Hc as [E|E]; assert (Ec : c = fst (c, kind)) by reflexivity; assert (Ek : kind = snd (c, kind)) by reflexivity; rewrite E in Ec, Ek; cbn [fst snd] in Ec, Ek; subst c kind.
  - do 4 (rewrite try_none by reflexivity). do 7 (rewrite try_none by apply Gl). rewrite try_none by exact Go. do 14 (rewrite try_none by reflexivity). reflexivity.
  - do 4 (rewrite try_none by reflexivity). do 7 (rewrite try_none by apply Gl). rewrite try_none by exact Go. do 15 (rewrite try_none by reflexivity). reflexivity.
Qed.
Lemma array_read L rec fl cur r lft : 
  try_parsers (std_pcfg L) rec (pc_parsers (std_pcfg L)) fl cur ("["%char :: r) lft = 
  match parse_array rec std_arr ("["%char :: r) lft with (PRnone, l) => (PRnone, l) | x => x end.
Proof.
  change (pc_parsers (std_pcfg L)) with (std_parsers L). unfold std_parsers. cbv zeta.
  rewrite try_none. 2: { cbn [run_parser]. unfold parse_term. replace (prefixb [newline] _) with false by reflexivity. destruct (fl_ign fl); reflexivity. }
  do 3 (rewrite try_none by reflexivity).
  assert (Gl : forall f, f ("["%char :: r) = Ok None -> run_parser (std_pcfg L) rec (PLit true f) fl cur ("["%char :: r) lft = (PRnone, lft)).
  { intros f Hf. cbn [run_parser]. rewrite Hf. destruct (negb true || _); reflexivity. }
  do 7 (rewrite try_none by (apply Gl; reflexivity)).
  rewrite try_none. 2: { cbn [run_parser]. unfold std_pcfg, pc_ops. rewrite symbols_of. replace (match_op std_symbols ("["%char :: r)) with (@None str) by (clear; lazy; reflexivity). reflexivity. }
  do 11 (rewrite try_none by reflexivity).
  cbn [try_parsers run_parser]. change (pc_arr (std_pcfg L)) with std_arr. replace (prefixb (as_open std_arr) ("["%char :: r)) with true by reflexivity. 
  destruct (parse_array rec std_arr ("["%char :: r) lft) as [x l] eqn:E. destruct x; try reflexivity. exfalso. clear - E. unfold parse_array in E.
  destruct (arr_loop _ _ _ _ _ _ _ _) as [[i items elems rf|items next elems| | |] l0]; try discriminate E; [destruct rf as [[]|]; discriminate E|]. destruct (truncate _ _ _); discriminate E.
Qed.

Lemma range_read L rec cur r lft : after_operand cur ->
  try_parsers (std_pcfg L) rec (pc_parsers (std_pcfg L)) arr_flags cur ("."%char :: "."%char :: r) lft = (PRend [] ARange, lft).
Proof.
  intros Hp. unfold after_operand in Hp. change (pc_parsers (std_pcfg L)) with (std_parsers L). unfold std_parsers. cbv zeta.
  assert (Gl : forall f, run_parser (std_pcfg L) rec (PLit true f) arr_flags cur ("."%char :: "."%char :: r) lft = (PRnone, lft)).
  { intros f. cbn [run_parser]. rewrite Hp. reflexivity. }
  do 4 (rewrite try_none by reflexivity). do 7 (rewrite try_none by apply Gl).
  rewrite try_none. 2: { cbn [run_parser]. unfold std_pcfg, pc_ops. rewrite symbols_of. replace (match_op std_symbols _) with (@None str) by (clear; lazy; reflexivity). reflexivity. }
  do 12 (rewrite try_none by reflexivity). reflexivity.
Qed.
Lemma step_read L rec cur c r lft : is_space c = true -> after_operand cur ->
  try_parsers (std_pcfg L) rec (pc_parsers (std_pcfg L)) arr_flags cur ($"step" ++ c :: r) lft = (PRend [] AStep, lft).
Proof.
  intros Hc Hp. unfold after_operand in Hp. change (pc_parsers (std_pcfg L)) with (std_parsers L). unfold std_parsers. cbv zeta.
  assert (Gl : forall f, run_parser (std_pcfg L) rec (PLit true f) arr_flags cur ($"step" ++ c :: r) lft = (PRnone, lft)).
  { intros f. cbn [run_parser]. rewrite Hp. reflexivity. }
  assert (Wc : is_word c = false /\ is_alpha c = false /\ ceq "(" c = false) by (clear - Hc; destruct c as [[] [] [] [] [] [] [] []]; try (exfalso; vm_compute in Hc; discriminate Hc); repeat split). destruct Wc as (W & A & P).
  do 4 (rewrite try_none by reflexivity). do 7 (rewrite try_none by apply Gl).
  rewrite try_none. 2: { cbn [run_parser]. unfold std_pcfg, pc_ops. rewrite symbols_of. replace (match_op std_symbols _) with (@None str) by (clear; lazy; reflexivity). reflexivity. }
  do 2 (rewrite try_none by reflexivity).
  rewrite try_none. 2: { cbn [run_parser]. replace (match_name ($"step" ++ c :: r)) with (Some ($"step")) by (unfold match_name; cbn; rewrite W; reflexivity). cbn [list_ascii_of_string app length skipn prefixb]. rewrite P. reflexivity. }
  do 6 (rewrite try_none by reflexivity).
  rewrite try_none. 2: { cbn [run_parser]. replace (match_alpha ($"step" ++ c :: r)) with (Some ($"step")) by (unfold match_alpha; cbn; rewrite A; reflexivity). reflexivity. }
  do 3 (rewrite try_none by reflexivity). reflexivity.
Qed.

(** * The parts of an element *)
Definition part_shape (p : Z) (d : nat) (its : list item) (e : aexp) : Prop :=
  exists w1 i w2, blanks w1 /\ blanks w2 /\ shape p d 4 i e /\ its = w1 ++ i ++ w2.
Lemma part_deeper p d d' its e : part_shape p d its e -> d <= d' -> part_shape p d' its e.
Proof. intros (w1 & i & w2 & B1 & B2 & S1 & E) H. exists w1, i, w2. repeat split; auto. exact (shape_deeper _ _ _ _ _ S1 _ H). Qed.
Lemma part_not_nil p d its e : part_shape p d its e -> its <> [].
Proof. intros (w1 & i & w2 & _ & _ & S1 & ->). exact (arg_not_nil _ _ _ _ _ _ _ S1). Qed.
Definition ended (L : lib) (m : nat) (stop : str) (kind : ekind) : Prop :=
  stop <> [] /\ forall lft cur, after_operand cur -> try_parsers (std_pcfg L) (parse (std_pcfg L) m) (pc_parsers (std_pcfg L)) arr_flags cur stop lft = (PRend [] kind, lft).
Lemma framed_parse L m b1 u b2 e stop kind : exp_letter L -> (1 <= l_prec L)%Z -> blank_text b1 -> blank_text b2 -> reads 4 u e -> stepless e -> literals_fit (l_prec L) e -> length (b1 ++ u ++ b2) <= m ->
  follows (b2 ++ stop) -> ended L m stop kind ->
  exists its, part_shape (l_prec L) (length (b1 ++ u ++ b2)) its e /\
    forall lft, parse (std_pcfg L) (S m) arr_flags ((b1 ++ u ++ b2) ++ stop) lft = (POk [its] (length (b1 ++ u ++ b2)) (Some kind), lft).
Proof.
  intros He Hp Hb1 Hb2 Hr Hs Hf Hm Hst [Hne Hstop]. rewrite !app_length in Hm.
  destruct (reads_parse_in L 4 u e He Hp Hr Hf m arr_flags (blank_items b1) (b2 ++ stop)) as (its & Sh & On).
  - intros _. exact Hs.
  - lia.
  - exact Hst.
  - left. apply before_blanks.
  - exists (blank_items b1 ++ its ++ blank_items b2). split.
    { exists (blank_items b1), its, (blank_items b2). split; [apply blanks_items|]. split; [apply blanks_items|]. split; [apply (shape_deeper _ _ _ _ _ Sh); rewrite !app_length; lia|reflexivity]. }
    intros lft. cbn [parse].
    assert (G : reads_on L (parse (std_pcfg L) m) arr_flags (b1 ++ u ++ b2) [] stop (blank_items b1 ++ its ++ blank_items b2)).
    { apply on_then; [apply on_blanks, Hb1|]. cbn [app] in On |- *. apply on_then; [|apply on_blanks, Hb2]. exact On. }
    destruct (G (S (length ((b1 ++ u ++ b2) ++ stop))) [] 0 lft ltac:(lia)) as (f1 & F1 & E1). rewrite E1. destruct f1 as [|f1]; [lia|].
    cbn [parse_loop]. destruct stop as [|c stop]; [congruence|]. rewrite Hstop.
    + cbn [app Nat.add]. rewrite app_nil_r. reflexivity.
    + unfold after_operand. cbn [app]. rewrite app_assoc. rewrite prev_blanks by apply blanks_items. exact (shape_after _ _ _ _ _ (blank_items b1) Sh).
Qed.
Lemma part_parse L m t e stop kind : exp_letter L -> (1 <= l_prec L)%Z -> part_text t e -> literals_fit (l_prec L) e -> length t <= m -> follows stop -> ended L m stop kind ->
  exists its, part_shape (l_prec L) (length t) its e /\ forall lft, parse (std_pcfg L) (S m) arr_flags (t ++ stop) lft = (POk [its] (length t) (Some kind), lft).
Proof. intros He Hp [(b1 & u & b2 & -> & Hb1 & Hb2 & Hr) Hs] Hf Hm Hst Hen. apply framed_parse; try assumption. apply blank_follow; assumption. Qed.
Lemma spaced_parse L m t e stop kind : exp_letter L -> (1 <= l_prec L)%Z -> spaced_text t e -> literals_fit (l_prec L) e -> length t <= m -> ended L m stop kind ->
  exists its, part_shape (l_prec L) (length t) its e /\ forall lft, parse (std_pcfg L) (S m) arr_flags (t ++ stop) lft = (POk [its] (length t) (Some kind), lft).
Proof. intros He Hp [(b1 & u & b2 & -> & Hb1 & Hb2 & Hn & Hr) Hs] Hf Hm Hen. apply framed_parse; try assumption. apply blank_follow'; assumption. Qed.
Lemma part_later b t e : blank_text b -> part_text t e -> part_text (b ++ t) e.
Proof.
  intros Hb [(b1 & u & b2 & -> & Hb1 & Hb2 & Hr) Hs]. split; [|exact Hs]. exists (b ++ b1), u, b2. split; [rewrite <- app_assoc; reflexivity|]. split; [apply Forall_app; split; assumption|]. split; assumption.
Qed.

(** * Elements *)
Definition elem_shape (p : Z) (d : nat) (el : elem item) (e : aelem) : Prop :=
  match e with
  | One a => exists i, part_shape p d i a /\ el = mkElem i None None
  | Range a b => exists i j, part_shape p d i a /\ part_shape p d j b /\ el = mkElem i (Some j) None
  | Stepped a b c => exists i j l, part_shape p d i a /\ part_shape p d j b /\ part_shape p d l c /\ el = mkElem i (Some j) (Some l)
  end.
Lemma elem_deeper p d d' el e : elem_shape p d el e -> d <= d' -> elem_shape p d' el e.
Proof.
  intros H Hd. destruct e; cbn [elem_shape] in *.
  - destruct H as (i & H1 & H2). exists i. split; [exact (part_deeper _ _ _ _ _ H1 Hd)|exact H2].
  - destruct H as (i & j & H1 & H2 & H3). exists i, j. split; [exact (part_deeper _ _ _ _ _ H1 Hd)|]. split; [exact (part_deeper _ _ _ _ _ H2 Hd)|exact H3].
  - destruct H as (i & j & l & H1 & H2 & H3 & H4). exists i, j, l. split; [exact (part_deeper _ _ _ _ _ H1 Hd)|]. split; [exact (part_deeper _ _ _ _ _ H2 Hd)|]. split; [exact (part_deeper _ _ _ _ _ H3 Hd)|exact H4].
Qed.
Definition elem_fits (p : Z) (e : aelem) : Prop :=
  match e with One a => literals_fit p a | Range a b => literals_fit p a /\ literals_fit p b | Stepped a b c => literals_fit p a /\ literals_fit p b /\ literals_fit p c end.
Definition closes (kind : ekind) : Prop := kind = AParam \/ kind = AEnd.
Lemma element_parse L m t e stop kind : exp_letter L -> (1 <= l_prec L)%Z -> element_text t e -> elem_fits (l_prec L) e -> length t <= m -> follows stop -> ended L m stop kind -> closes kind ->
  exists el ai', elem_shape (l_prec L) (length t) el e /\
    forall pre ai elems lft, arr_elem (parse (std_pcfg L) (S m)) std_arr (pre ++ t ++ stop) (length pre) ai elems lft = (EOk (length pre + length t) (ai ++ ai') (elems ++ [el]) (Some kind), lft).
Proof.
  intros He Hp Ht Hf Hm Hst Hen Hk. destruct Ht as [t e Ht|t1 t2 a b H1 H2|t1 t2 b0 t3 a b c H1 H2 Hb0 Hn0 H3]; cbn [elem_fits] in Hf.
  - destruct (part_parse L m t e stop kind He Hp Ht Hf Hm Hst Hen) as (its & Sh & P). exists (mkElem its None None), its. split; [exists its; auto|]. intros pre ai elems lft.
    pose proof (part_not_nil _ _ _ _ Sh) as Ne. unfold arr_elem. rewrite skip_app by reflexivity. rewrite P. cbn [first_st]. destruct its as [|i0 its]; [congruence|]. cbn [is_nil]. destruct Hk as [-> | ->]; reflexivity.
  - destruct Hf as [Hf1 Hf2]. rewrite !app_length in Hm. cbn [length list_ascii_of_string] in Hm.
    destruct (spaced_parse L m t1 a ("."%char :: "."%char :: t2 ++ stop) ARange He Hp H1 Hf1 ltac:(lia)) as (i1 & S1 & P1).
    { split; [discriminate|]. intros lft cur Ha. apply range_read, Ha. }
    destruct (part_parse L m t2 b stop kind He Hp H2 Hf2 ltac:(lia) Hst Hen) as (i2 & S2 & P2).
    exists (mkElem i1 (Some i2) None), (i1 ++ [INon NArrRange ($"..")] ++ i2). split.
    { exists i1, i2. split; [apply (part_deeper _ _ _ _ _ S1); rewrite !app_length; lia|]. split; [apply (part_deeper _ _ _ _ _ S2); rewrite !app_length; lia|reflexivity]. }
    intros pre ai elems lft. pose proof (part_not_nil _ _ _ _ S1) as N1. pose proof (part_not_nil _ _ _ _ S2) as N2. unfold arr_elem.
    assert (E1 : skipn (length pre) (pre ++ (t1 ++ $".." ++ t2) ++ stop) = t1 ++ "."%char :: "."%char :: t2 ++ stop) by (rewrite skip_app by reflexivity; rewrite <- !app_assoc; reflexivity).
    assert (E2 : skipn (length pre + length t1 + length (as_range std_arr)) (pre ++ (t1 ++ $".." ++ t2) ++ stop) = t2 ++ stop).
    { replace (pre ++ (t1 ++ $".." ++ t2) ++ stop) with ((pre ++ t1 ++ $"..") ++ t2 ++ stop) by (rewrite <- !app_assoc; reflexivity). apply skip_app. rewrite !app_length. cbn [length list_ascii_of_string std_arr as_range]. lia. }
    rewrite E1, P1. cbn [first_st]. destruct i1 as [|x1 i1]; [congruence|]. cbn [is_nil]. rewrite E2, P2. cbn [first_st]. destruct i2 as [|x2 i2]; [congruence|]. cbn [is_nil].
    rewrite <- !app_assoc. rewrite !app_length. change (length (as_range std_arr)) with 2. change (length ($"..")) with 2. replace (length pre + length t1 + 2 + length t2) with (length pre + (length t1 + (2 + length t2))) by lia. destruct Hk as [-> | ->]; reflexivity.
  - destruct Hf as (Hf1 & Hf2 & Hf3). rewrite !app_length in Hm. cbn [length list_ascii_of_string] in Hm. pose proof (part_later b0 t3 c Hb0 H3) as H3'.
    destruct (spaced_parse L m t1 a ("."%char :: "."%char :: t2 ++ $"step" ++ (b0 ++ t3) ++ stop) ARange He Hp H1 Hf1 ltac:(lia)) as (i1 & S1 & P1).
    { split; [discriminate|]. intros lft cur Ha. apply range_read, Ha. }
    destruct (spaced_parse L m t2 b ($"step" ++ (b0 ++ t3) ++ stop) AStep He Hp H2 Hf2 ltac:(lia)) as (i2 & S2 & P2).
    { split; [discriminate|]. intros lft cur Ha. destruct Hb0 as [|x b0 [Hx _] _]; [congruence|]. cbn [app]. apply (step_read L _ cur x _ lft Hx Ha). }
    destruct (part_parse L m (b0 ++ t3) c stop kind He Hp H3' Hf3 ltac:(rewrite app_length; lia) Hst Hen) as (i3 & S3 & P3).
    exists (mkElem i1 (Some i2) (Some i3)), (i1 ++ [INon NArrRange ($"..")] ++ i2 ++ [INon NArrStep ($"step")] ++ i3). split.
    { exists i1, i2, i3. split; [apply (part_deeper _ _ _ _ _ S1); rewrite !app_length; lia|]. split; [apply (part_deeper _ _ _ _ _ S2); rewrite !app_length; lia|]. split; [apply (part_deeper _ _ _ _ _ S3); rewrite !app_length; lia|reflexivity]. }
    intros pre ai elems lft. pose proof (part_not_nil _ _ _ _ S1) as N1. pose proof (part_not_nil _ _ _ _ S2) as N2. pose proof (part_not_nil _ _ _ _ S3) as N3. unfold arr_elem.
    set (nxt := pre ++ (t1 ++ $".." ++ t2 ++ $"step" ++ b0 ++ t3) ++ stop).
    assert (E1 : skipn (length pre) nxt = t1 ++ "."%char :: "."%char :: t2 ++ $"step" ++ (b0 ++ t3) ++ stop) by (unfold nxt; rewrite skip_app by reflexivity; rewrite <- !app_assoc; reflexivity).
    assert (E2 : skipn (length pre + length t1 + length (as_range std_arr)) nxt = t2 ++ $"step" ++ (b0 ++ t3) ++ stop).
    { replace nxt with ((pre ++ t1 ++ $"..") ++ t2 ++ $"step" ++ (b0 ++ t3) ++ stop) by (unfold nxt; rewrite <- !app_assoc; reflexivity). apply skip_app. rewrite !app_length. cbn [length list_ascii_of_string std_arr as_range]. lia. }
    assert (E3 : skipn (length pre + length t1 + length (as_range std_arr) + length t2 + length (as_step std_arr)) nxt = (b0 ++ t3) ++ stop).
    { replace nxt with ((pre ++ t1 ++ $".." ++ t2 ++ $"step") ++ (b0 ++ t3) ++ stop) by (unfold nxt; rewrite <- !app_assoc; reflexivity). apply skip_app. rewrite !app_length. cbn [length list_ascii_of_string std_arr as_range as_step]. lia. }
    rewrite E1, P1. cbn [first_st]. destruct i1 as [|x1 i1]; [congruence|]. cbn [is_nil]. rewrite E2, P2. cbn [first_st]. destruct i2 as [|x2 i2]; [congruence|]. cbn [is_nil]. rewrite E3, P3. cbn [first_st]. destruct i3 as [|x3 i3]; [congruence|]. cbn [is_nil].
    rewrite <- !app_assoc. rewrite !app_length. change (length (as_range std_arr)) with 2. change (length (as_step std_arr)) with 4. change (length ($"..")) with 2. change (length ($"step")) with 4.
    replace (length pre + length t1 + 2 + length t2 + 4 + (length b0 + length t3)) with (length pre + (length t1 + (2 + (length t2 + (4 + (length b0 + length t3)))))) by lia. reflexivity.
Qed.
Lemma elements_parse L : exp_letter L -> (1 <= l_prec L)%Z -> forall t es, elements_text t es -> Forall (elem_fits (l_prec L)) es -> forall m pre rest ai elems fuel, length t <= m -> length t < fuel ->
  exists ai' els, Forall2 (elem_shape (l_prec L) (length t)) els es /\
    forall lft, arr_loop (parse (std_pcfg L) (S m)) fuel std_arr (pre ++ t ++ "]"%char :: rest) (length pre) ai elems lft = (EOk (length pre + length t + 1) (ai ++ ai') (elems ++ els) (Some AEnd), lft).
Proof.
  intros He Hp t es H. induction H as [t e Ht|t e r es Ht Hr IH]; intros Hf m pre rest ai elems fuel Hm Hfu; (destruct fuel as [|fuel]; [lia|]); apply Forall_cons_iff in Hf; destruct Hf as [Hf1 Hf2].
  - destruct (element_parse L m t e ("]"%char :: rest) AEnd He Hp Ht Hf1 Hm eq_refl) as (el & ai' & Sh & P).
    { split; [discriminate|]. intros lft cur Ha. apply array_end_read; [right; reflexivity|exact Ha]. }
    { right. reflexivity. }
    exists (ai' ++ [INon NArrEnd ($"]")]), [el]. split; [constructor; [exact Sh|constructor]|]. intros lft. cbn [arr_loop].
    replace (_ <=? _) with false by (symmetry; apply Nat.leb_gt; rewrite !app_length; cbn [length]; lia). rewrite P. cbn match. rewrite <- app_assoc. reflexivity.
  - rewrite !app_length in Hm, Hfu. cbn [length list_ascii_of_string] in Hm, Hfu.
    destruct (element_parse L m t e (","%char :: r ++ "]"%char :: rest) AParam He Hp Ht Hf1 ltac:(lia) eq_refl) as (el & a1 & Sh & P).
    { split; [discriminate|]. intros lft cur Ha. apply array_end_read; [left; reflexivity|exact Ha]. }
    { left. reflexivity. }
    destruct (IH Hf2 m (pre ++ t ++ $",") rest ((ai ++ a1) ++ [INon NArrParam ($",")]) (elems ++ [el]) fuel ltac:(lia) ltac:(lia)) as (ai' & els & Sh' & P').
    exists (a1 ++ [INon NArrParam ($",")] ++ ai'), (el :: els). split.
    + constructor; [apply (elem_deeper _ _ _ _ _ Sh); rewrite app_length; lia|].
      clear - Sh'. induction Sh' as [|a b A B X _ IH]; constructor; [|exact IH]. apply (elem_deeper _ _ _ _ _ X). rewrite !app_length. lia.
    + intros lft. cbn [arr_loop]. replace (_ <=? _) with false by (symmetry; apply Nat.leb_gt; rewrite !app_length; cbn [length]; lia).
      replace (pre ++ (t ++ $"," ++ r) ++ "]"%char :: rest) with (pre ++ t ++ ","%char :: r ++ "]"%char :: rest) by (rewrite <- !app_assoc; reflexivity). rewrite P. cbn match.
      change (as_param std_arr) with ($","). replace (length pre + length t + length ($",")) with (length (pre ++ t ++ $",")) by (rewrite !app_length; lia).
      replace (pre ++ t ++ ","%char :: r ++ "]"%char :: rest) with ((pre ++ t ++ $",") ++ r ++ "]"%char :: rest) by (rewrite <- !app_assoc; reflexivity).
      rewrite P'. rewrite <- !app_assoc. cbn [app]. rewrite !app_length. cbn [length list_ascii_of_string].
      replace (length pre + (length t + 1) + length r + 1) with (length pre + (length t + S (length r)) + 1) by lia. reflexivity.
Qed.
(** * An array *)
Definition list_shape (p : Z) (d : nat) (i : item) (es : list aelem) : Prop := exists text items els, i = IArr text false items els /\ Forall2 (elem_shape p d) els es.
Lemma array_on L t es m fl cur rest : exp_letter L -> (1 <= l_prec L)%Z -> elements_text t es -> Forall (elem_fits (l_prec L)) es -> length t < m ->
  exists i, list_shape (l_prec L) (length t) i es /\ reads_on L (parse (std_pcfg L) m) fl ($"[" ++ t ++ $"]") cur rest [i].
Proof.
  intros He Hp Ht Hf Hm. destruct m as [|m]; [lia|].
  destruct (elements_parse L He Hp t es Ht Hf m ($"[") rest [INon NArrStart ($"[")] [] (S (length ("["%char :: t ++ "]"%char :: rest))) ltac:(lia)) as (ai & els & Sh & P).
  { cbn [length]. rewrite app_length. lia. }
  set (text := $"[" ++ t ++ $"]"). exists (IArr text false ([INon NArrStart ($"[")] ++ ai) els). split; [eexists _, _, _; split; [reflexivity|exact Sh]|].
  apply on_token; [discriminate|]. intros lft. assert (En : text ++ rest = "["%char :: t ++ "]"%char :: rest) by (unfold text; rewrite <- !app_assoc; reflexivity).
  rewrite En, array_read. unfold parse_array. change (as_open std_arr) with ($"["). change ("["%char :: t ++ "]"%char :: rest) with ($"[" ++ t ++ "]"%char :: rest) in *. rewrite P. cbn [app].
  replace (length ($"[") + length t + 1) with (length text) by (unfold text; rewrite !app_length; cbn [length list_ascii_of_string]; lia). change ("["%char :: t ++ "]"%char :: rest) with ($"[" ++ t ++ "]"%char :: rest). rewrite <- En, first_app by reflexivity. reflexivity.
Qed.
