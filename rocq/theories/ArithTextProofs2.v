(** How arithmetic is parsed. *)
From Coq Require Import ZArith QArith Ascii String List Bool Lia.
From Verif Require Import Base BaseProofs Dec Num NumSpec Lex LexSpec LexProofs Bases Formats Units Syntax Pos Call Loop Parse Exec Std StdProofs2 VarNameSpec VarNameProofs ContainProofs6 ArithTextSpec ArithRunSpec.
Import ListNotations.
Open Scope nat_scope.

(** * What follows an operand *)
Definition follow_char (c : ascii) : bool := is_space c || existsb (ceq c) ["+"; "-"; "*"; "/"; "^"; ")"; "]"; ","; "<"; ">"; "="; "!"]%char.
Definition follows (r : str) : Prop := match r with [] => True | c :: _ => follow_char c = true end.
Lemma follow_facts c : follow_char c = true ->
  is_digit c = false /\ ceq c "." = false /\ ceq c "%" = false /\ is_alpha c = false /\ is_word c = false /\ ceq c "(" = false.
Proof. destruct c as [[] [] [] [] [] [] [] []]; intros H; try (exfalso; vm_compute in H; discriminate H); clear H; repeat split. Qed.
(** The first character of an operand *)
Definition lit_char (c : ascii) : bool := is_digit c || ceq c "-".
Definition operand_char (c : ascii) : Prop := lit_char c = true \/ c = "("%char \/ is_word_start c = true.
Lemma lit_facts c : lit_char c = true -> ceq newline c = false /\ is_space c = false /\ ceq c "#" = false /\ lower_c c = c /\ is_alpha c = false /\ ceq c "(" = false /\ is_word_start c = false.
Proof. destruct c as [[] [] [] [] [] [] [] []]; intros H; try (exfalso; vm_compute in H; discriminate H); clear H; repeat split. Qed.
Lemma digit_facts c : is_digit c = true -> is_alpha c = false /\ ceq c "-" = false.
Proof. destruct c as [[] [] [] [] [] [] [] []]; intros H; try (exfalso; vm_compute in H; discriminate H); clear H; repeat split. Qed.
Lemma lower_alpha c d : is_alpha c = false -> is_alpha d = true -> ceq d (lower_c c) = false /\ ceq (lower_c c) d = false.
Proof.
  intros Hc Hd. assert (E : lower_c c = c) by (unfold lower_c; destruct (is_upper c) eqn:U; [|reflexivity]; exfalso; clear Hd; destruct c as [[] [] [] [] [] [] [] []]; vm_compute in U, Hc; congruence).
  rewrite E. split; apply not_true_iff_false; intros K; apply ceq_iff in K; subst; congruence.
Qed.

(** * Literals *)
Definition not_alpha (s : str) : Prop := match s with [] => True | c :: _ => is_alpha c = false end.
Lemma no_prefixed_lit pre cls sg s1 d : pre = ["0"%char; d] -> is_alpha d = true -> (forall c r, s1 = c :: r -> not_alpha r) ->
  (let '(m, s2) := opt_minus (sg ++ s1) in s2 = s1) -> match_prefixed pre cls (sg ++ s1) = None.
Proof.
  intros -> Hd Hs Hm. unfold match_prefixed. destruct (opt_minus (sg ++ s1)) as [m s2]. subst s2. replace (prefixb _ _) with false; [reflexivity|]. symmetry.
  destruct s1 as [|a [|b r]]; [reflexivity|cbn; now rewrite andb_false_r|]. specialize (Hs a (b :: r) eq_refl). cbn [not_alpha] in Hs.
  cbn [length firstn lower map prefixb]. rewrite (proj1 (lower_alpha b d Hs Hd)), andb_false_l, andb_false_r. reflexivity.
Qed.
Lemma minus_lit l r : lit_ok l ->
  let '(m, s2) := opt_minus ((if l_neg l then ["-"%char] else []) ++ l_int l ++ r) in s2 = l_int l ++ r.
Proof.
  intros (H1 & H2 & _). destruct (l_neg l); cbn [app opt_minus]; [reflexivity|]. destruct (l_int l) as [|d ip]; [congruence|]. cbn [app opt_minus].
  cbn [forallb] in H2. apply andb_prop in H2. destruct H2 as [Hd _]. rewrite (proj2 (digit_facts d Hd)). reflexivity.
Qed.
Lemma lit_split l r : lit_text l ++ r = (if l_neg l then ["-"%char] else []) ++ l_int l ++ (match l_frac l with Some f => "."%char :: f | None => [] end) ++ r.
Proof. unfold lit_text. rewrite <- !app_assoc. reflexivity. Qed.
Lemma lit_first l : lit_ok l -> exists c r, lit_text l = c :: r /\ lit_char c = true.
Proof.
  intros (H1 & H2 & _). unfold lit_text. destruct (l_neg l); [eexists; eexists; split; [reflexivity|reflexivity]|]. destruct (l_int l) as [|d ip]; [congruence|].
  cbn [forallb] in H2. apply andb_prop in H2. destruct H2 as [Hd _]. eexists; eexists; split; [reflexivity|]. unfold lit_char. rewrite Hd. reflexivity.
Qed.
Lemma lit_stops l r : follows r -> stops_digits l r.
Proof.
  destruct r as [|c r]; [intros; exact I|]. intros H. cbn [follows] in H. destruct (follow_facts c H) as (D & P & _). split; [exact D|]. intros _ ->. discriminate P.
Qed.
Lemma after_int l r : lit_ok l -> follows r -> not_alpha ((match l_frac l with Some f => "."%char :: f | None => [] end) ++ r).
Proof.
  intros _ H. destruct (l_frac l); [reflexivity|]. destruct r as [|c r]; [exact I|]. exact (proj1 (proj2 (proj2 (proj2 (follow_facts c H))))).
Qed.
Lemma int_second l r : lit_ok l -> not_alpha r -> forall c x, l_int l ++ r = c :: x -> not_alpha x.
Proof.
  intros (H1 & H2 & _) Hr c x E. destruct (l_int l) as [|d ip]; [congruence|]. cbn [app] in E. assert (x = ip ++ r) by congruence. subst x.
  destruct ip as [|d' ip]; [exact Hr|]. cbn [forallb] in H2. rewrite !andb_true_iff in H2. cbn. apply digit_facts. tauto.
Qed.
Lemma digits_then ip r : ip <> [] -> forallb is_digit ip = true -> match r with [] => True | c :: _ => is_digit c = false end -> span is_digit (ip ++ r) = (ip, r).
Proof. intros _ H1 H2. apply span_exact; assumption. Qed.
Lemma lit_read L rec fl cur l n r lft : exp_letter L -> lit_ok l -> follows r ->
  match previous_functional_item cur with None => true | Some i => iisop i end = true -> number_of_lit (l_prec L) l = Some n ->
  try_parsers (std_pcfg L) rec (pc_parsers (std_pcfg L)) fl cur (lit_text l ++ r) lft = (PRitems [ILit (lit_text l) (LNum n)] (length (lit_text l)) false, lft).
Proof.
  intros (ec & er & Es & El) Hl Hr Hp Hn. destruct (lit_first l Hl) as (c & x & Et & Hc). destruct (lit_facts c Hc) as (C1 & C2 & C3 & C4 & C5 & C6 & C7).
  assert (Ef : lit_text l ++ r = c :: (x ++ r)) by (rewrite Et; reflexivity). pose proof (match_number_complete l r Hl (lit_stops l r Hr)) as Mn.
  pose proof (after_int l r Hl Hr) as Na. pose proof (int_second l _ Hl Na) as Ns. pose proof (minus_lit l ((match l_frac l with Some f => "."%char :: f | None => [] end) ++ r) Hl) as Mm.
  change (pc_parsers (std_pcfg L)) with (std_parsers L). unfold std_parsers. cbv zeta.
  rewrite try_none. 2: { cbn [run_parser]. unfold parse_term. rewrite Ef. cbn [prefixb]. rewrite C1. destruct (fl_ign fl); reflexivity. }
  rewrite try_none. 2: { cbn [run_parser]. rewrite Ef, C2. reflexivity. }
  rewrite try_none. 2: { cbn [run_parser]. rewrite Ef. cbn [firstn list_ascii_of_string seq_eqb]. rewrite C3. reflexivity. }
  rewrite try_none.
  2: { cbn [run_parser]. unfold lex_bool. rewrite Ef. cbn [lower map list_ascii_of_string prefixb]. 
       rewrite (proj1 (lower_alpha c "t"%char C5 eq_refl)), (proj1 (lower_alpha c "f"%char C5 eq_refl)). reflexivity. }
  assert (Gl : forall f, f (lit_text l ++ r) = Ok None -> run_parser (std_pcfg L) rec (PLit true f) fl cur (lit_text l ++ r) lft = (PRnone, lft)).
  { intros f Hf. cbn [run_parser]. rewrite Hf. destruct (negb true || _); reflexivity. }
  rewrite try_none by (apply Gl; unfold match_bin; rewrite lit_split, (no_prefixed_lit _ _ _ _ "b"%char eq_refl eq_refl Ns Mm); reflexivity).
  rewrite try_none by (apply Gl; unfold match_oct; rewrite lit_split, (no_prefixed_lit _ _ _ _ "o"%char eq_refl eq_refl Ns Mm); reflexivity).
  rewrite try_none by (apply Gl; unfold match_hex; rewrite lit_split, (no_prefixed_lit _ _ _ _ "x"%char eq_refl eq_refl Ns Mm); reflexivity).
  rewrite try_none.
  2: { apply Gl. unfold lex_arb, match_arb. rewrite lit_split. set (tail := (match l_frac l with Some f => "."%char :: f | None => [] end) ++ r) in *. destruct (opt_minus _) as [m s2]. subst s2. destruct Hl as (H1 & H2 & _).
       rewrite digits_then; [|exact H1|exact H2|].
       - destruct (l_int l); [reflexivity|]. destruct tail as [|z tail]; [reflexivity|]. cbn [not_alpha] in Na. rewrite (proj2 (lower_alpha z "z"%char Na eq_refl)). reflexivity.
       - unfold tail. destruct (l_frac l); [reflexivity|]. destruct r as [|y r]; [exact I|]. exact (proj1 (follow_facts y Hr)). }
  rewrite try_none.
  2: { apply Gl. unfold lex_exp, match_exp. rewrite Mn, Es. replace (prefixb _ _) with false; [reflexivity|]. symmetry. destruct r as [|y r]; [reflexivity|].
       cbn [follows] in Hr. destruct (follow_facts y Hr) as (_ & _ & _ & A & _). cbn [lower map prefixb].
       assert (Lc : is_alpha (lower_c ec) = true) by (apply letter_iff in El; clear -El; destruct ec as [[] [] [] [] [] [] [] []]; vm_compute in El |- *; congruence).
       rewrite (proj1 (lower_alpha y _ A Lc)). reflexivity. }
  rewrite try_none.
  2: { apply Gl. unfold lex_pct, match_pct. rewrite Mn. destruct r as [|y r]; [reflexivity|]. cbn [follows] in Hr. destruct (follow_facts y Hr) as (_ & _ & P & _). rewrite P. reflexivity. }
  cbn [try_parsers run_parser]. rewrite Hp. rewrite orb_true_r. unfold lex_dec. rewrite Mn. change (f_prec (l_fmt L)) with (l_prec L). rewrite Hn. cbn [py_opt obind].
  unfold found. rewrite app_length. replace (length (lit_text l) + length r - length r) with (length (lit_text l)) by lia.
  rewrite firstn_app, Nat.sub_diag, firstn_all. cbn [firstn]. rewrite app_nil_r. reflexivity.
Qed.

(** * Blanks, operators, parentheses *)
Lemma blank_read L rec fl cur c r lft : is_space c = true -> code c <> 10%Z ->
  try_parsers (std_pcfg L) rec (pc_parsers (std_pcfg L)) fl cur (c :: r) lft = (PRitems [INon NSpace [c]] 1 false, lft).
Proof.
  intros Hc Hn. change (pc_parsers (std_pcfg L)) with (std_parsers L). unfold std_parsers. cbv zeta.
  rewrite try_none.
  2: { cbn [run_parser]. unfold parse_term. replace (prefixb [newline] (c :: r)) with false; [destruct (fl_ign fl); reflexivity|]. symmetry. cbn [prefixb].
       replace (ceq newline c) with false; [reflexivity|]. symmetry. apply not_true_iff_false. intros E. apply ceq_iff in E. subst c. apply Hn. reflexivity. }
  cbn [try_parsers run_parser]. rewrite Hc. reflexivity.
Qed.
Definition op_char (o : aop) : option ascii :=
  match o with Plus => Some "+"%char | Minus => Some "-"%char | Times => Some "*"%char | Over => Some "/"%char | Power => Some "^"%char | Beside => None end.
Lemma osym_char o c : op_char o = Some c -> osym o = [c].
Proof. destruct o; intros E; try discriminate E; injection E as <-; reflexivity. Qed.
Definition op_next (c : ascii) (r : str) : Prop :=
  match r with [] => False | d :: _ => ceq d "=" = false /\ ceq d "+" = false /\ ceq d "$" = false /\ ceq d "^" = false /\ (c = "-"%char -> ceq d "-" = false) end.
Lemma op_match o c r : op_char o = Some c -> op_next c r -> match_op std_symbols (c :: r) = Some [c].
Proof.
  destruct r as [|d r]; [intros _ []|]. intros Ho (K1 & K2 & K3 & K4 & K5).
  destruct o; try discriminate Ho; injection Ho as <-; (specialize (K5 eq_refl) || clear K5);
    destruct d as [[] [] [] [] [] [] [] []]; try discriminate K1; try discriminate K2; try discriminate K3; try discriminate K4; try discriminate K5; clear; lazy; reflexivity.
Qed.
Lemma op_read L rec fl cur o c r lft : op_char o = Some c -> op_next c r -> match previous_functional_item cur with None => true | Some i => iisop i end = false ->
  try_parsers (std_pcfg L) rec (pc_parsers (std_pcfg L)) fl cur (c :: r) lft = (PRitems [IOp (osym o)] 1 false, lft).
Proof.
  intros Ho Hr Hp. pose proof (op_match o c r Ho Hr) as Hm. pose proof (osym_char o c Ho) as Es. change (pc_parsers (std_pcfg L)) with (std_parsers L). unfold std_parsers. cbv zeta.
  rewrite try_none. 2: { cbn [run_parser]. unfold parse_term. replace (prefixb [newline] (c :: r)) with false by (destruct o; try discriminate Ho; injection Ho as <-; reflexivity). destruct (fl_ign fl); reflexivity. }
  rewrite try_none by (cbn [run_parser]; replace (is_space c) with false by (destruct o; try discriminate Ho; injection Ho as <-; reflexivity); reflexivity).
  rewrite try_none by (cbn [run_parser firstn]; replace (seq_eqb [c] ($"#")) with false by (destruct o; try discriminate Ho; injection Ho as <-; reflexivity); reflexivity).
  rewrite try_none by (cbn [run_parser]; replace (lex_bool (c :: r)) with (@Ok (option (nat * lit)) None) by (destruct o; try discriminate Ho; injection Ho as <-; reflexivity); reflexivity).
  assert (Gl : forall f, run_parser (std_pcfg L) rec (PLit true f) fl cur (c :: r) lft = (PRnone, lft)).
  { intros f. cbn [run_parser]. rewrite Hp. reflexivity. }
  do 7 (rewrite try_none by apply Gl).
  cbn [try_parsers run_parser]. unfold std_pcfg, pc_ops. rewrite symbols_of, Hm, Es. reflexivity.
Qed.
Lemma open_read L rec fl cur r lft : 
  try_parsers (std_pcfg L) rec (pc_parsers (std_pcfg L)) fl cur ("("%char :: r) lft = 
  match parse_inner rec fl ("("%char :: r) lft with (PRnone, l) => (PRnone, l) | x => x end.
Proof.
  change (pc_parsers (std_pcfg L)) with (std_parsers L). unfold std_parsers. cbv zeta.
  rewrite try_none. 2: { cbn [run_parser]. unfold parse_term. replace (prefixb [newline] _) with false by reflexivity. destruct (fl_ign fl); reflexivity. }
  do 3 (rewrite try_none by reflexivity).
  assert (Gl : forall f, f ("("%char :: r) = Ok None -> run_parser (std_pcfg L) rec (PLit true f) fl cur ("("%char :: r) lft = (PRnone, lft)).
  { intros f Hf. cbn [run_parser]. rewrite Hf. destruct (negb true || _); reflexivity. }
  do 7 (rewrite try_none by (apply Gl; reflexivity)).
  rewrite try_none. 2: { cbn [run_parser]. unfold std_pcfg, pc_ops. rewrite symbols_of. replace (match_op std_symbols ("("%char :: r)) with (@None str) by (clear; lazy; reflexivity). reflexivity. }
  do 5 (rewrite try_none by reflexivity).
  cbn [try_parsers run_parser]. replace (prefixb ($"(") ("("%char :: r)) with true by reflexivity. unfold parse_inner.
  destruct (rec (inner_flags fl) (skipn 1 ("("%char :: r)) lft) as [[sts len [[]|]|sts next| | |] l0]; try reflexivity.
  destruct (truncate _ _ _); reflexivity.
Qed.
Lemma close_read L rec fl cur r lft : fl_inner fl = true -> match previous_functional_item cur with None => true | Some i => iisop i end = false ->
  try_parsers (std_pcfg L) rec (pc_parsers (std_pcfg L)) fl cur (")"%char :: r) lft = (PRend [INon NInnerEnd c_close] EInner, lft).
Proof.
  intros Hf Hp. change (pc_parsers (std_pcfg L)) with (std_parsers L). unfold std_parsers. cbv zeta.
  rewrite try_none. 2: { cbn [run_parser]. unfold parse_term. replace (prefixb [newline] _) with false by reflexivity. destruct (fl_ign fl); reflexivity. }
  do 3 (rewrite try_none by reflexivity).
  assert (Gl : forall f, run_parser (std_pcfg L) rec (PLit true f) fl cur (")"%char :: r) lft = (PRnone, lft)).
  { intros f. cbn [run_parser]. rewrite Hp. reflexivity. }
  do 7 (rewrite try_none by apply Gl).
  rewrite try_none. 2: { cbn [run_parser]. unfold std_pcfg, pc_ops. rewrite symbols_of. replace (match_op std_symbols (")"%char :: r)) with (@None str) by (clear; lazy; reflexivity). reflexivity. }
  do 4 (rewrite try_none by reflexivity).
  rewrite try_none by (cbn [run_parser]; rewrite Hf, andb_false_r; reflexivity).
  rewrite try_none by reflexivity.
  cbn [try_parsers run_parser]. replace (prefixb c_close (")"%char :: r)) with true by reflexivity. rewrite Hf. reflexivity.
Qed.

(** * Calls *)
Lemma comma_read L rec fl cur r lft : fl_func fl = true -> match previous_functional_item cur with None => true | Some i => iisop i end = false ->
  try_parsers (std_pcfg L) rec (pc_parsers (std_pcfg L)) fl cur (","%char :: r) lft = (PRend [] EParam, lft).
Proof.
  intros Hf Hp. change (pc_parsers (std_pcfg L)) with (std_parsers L). unfold std_parsers. cbv zeta.
  rewrite try_none. 2: { cbn [run_parser]. unfold parse_term. replace (prefixb [newline] _) with false by reflexivity. destruct (fl_ign fl); reflexivity. }
  do 3 (rewrite try_none by reflexivity).
  assert (Gl : forall f, run_parser (std_pcfg L) rec (PLit true f) fl cur (","%char :: r) lft = (PRnone, lft)).
  { intros f. cbn [run_parser]. rewrite Hp. reflexivity. }
  do 7 (rewrite try_none by apply Gl).
  rewrite try_none. 2: { cbn [run_parser]. unfold std_pcfg, pc_ops. rewrite symbols_of. replace (match_op std_symbols (","%char :: r)) with (@None str) by (clear; lazy; reflexivity). reflexivity. }
  do 3 (rewrite try_none by reflexivity).
  cbn [try_parsers run_parser]. replace (prefixb c_comma (","%char :: r)) with true by reflexivity. rewrite Hf. reflexivity.
Qed.
Lemma end_call_read L rec fl cur r lft : fl_func fl = true -> fl_inner fl = false -> match previous_functional_item cur with None => true | Some i => iisop i end = false ->
  try_parsers (std_pcfg L) rec (pc_parsers (std_pcfg L)) fl cur (")"%char :: r) lft = (PRend [] EFunc, lft).
Proof.
  intros Hf Hi Hp. change (pc_parsers (std_pcfg L)) with (std_parsers L). unfold std_parsers. cbv zeta.
  rewrite try_none. 2: { cbn [run_parser]. unfold parse_term. replace (prefixb [newline] _) with false by reflexivity. destruct (fl_ign fl); reflexivity. }
  do 3 (rewrite try_none by reflexivity).
  assert (Gl : forall f, run_parser (std_pcfg L) rec (PLit true f) fl cur (")"%char :: r) lft = (PRnone, lft)).
  { intros f. cbn [run_parser]. rewrite Hp. reflexivity. }
  do 7 (rewrite try_none by apply Gl).
  rewrite try_none. 2: { cbn [run_parser]. unfold std_pcfg, pc_ops. rewrite symbols_of. replace (match_op std_symbols (")"%char :: r)) with (@None str) by (clear; lazy; reflexivity). reflexivity. }
  do 4 (rewrite try_none by reflexivity).
  cbn [try_parsers run_parser]. replace (prefixb c_close (")"%char :: r)) with true by reflexivity. rewrite Hf, Hi. reflexivity.
Qed.
(** The names of the functions *)
Definition call_names : list str := [fname Abs; fname Floor; fname Ceil; fname Round; fname Fact; fname2 Gcd; fname2 Lcm].
Lemma call_read L rec fl cur w r lft x : In w call_names ->
  parse_call rec (w ++ "("%char :: r) [INon NFuncName w; INon NFuncStart ($"(")] (length w + 1) w (fun t its args => IFunc t false its w args) lft = x ->
  match fst x with PRitems _ _ _ => True | _ => False end ->
  try_parsers (std_pcfg L) rec (pc_parsers (std_pcfg L)) fl cur (w ++ "("%char :: r) lft = x.
Proof.
  intros Hw Hx Hi. change (pc_parsers (std_pcfg L)) with (std_parsers L). unfold std_parsers. cbv zeta.
  rewrite try_none.
  2: { cbn [run_parser]. unfold parse_term. replace (prefixb [newline] _) with false by (repeat (destruct Hw as [<-|Hw]; [reflexivity|]); destruct Hw). destruct (fl_ign fl); reflexivity. }
  do 3 (rewrite try_none by (repeat (destruct Hw as [<-|Hw]; [reflexivity|]); destruct Hw)).
  assert (Gl : forall f, f (w ++ "("%char :: r) = Ok None -> run_parser (std_pcfg L) rec (PLit true f) fl cur (w ++ "("%char :: r) lft = (PRnone, lft)).
  { intros f Hf. cbn [run_parser]. rewrite Hf. destruct (negb true || _); reflexivity. }
  do 7 (rewrite try_none by (apply Gl; repeat (destruct Hw as [<-|Hw]; [reflexivity|]); destruct Hw)).
  rewrite try_none.
  2: { cbn [run_parser]. unfold std_pcfg, pc_ops. rewrite symbols_of.
       replace (match_op std_symbols (w ++ "("%char :: r)) with (@None str) by (repeat (destruct Hw as [<-|Hw]; [clear; lazy; reflexivity|]); destruct Hw). reflexivity. }
  do 2 (rewrite try_none by (repeat (destruct Hw as [<-|Hw]; [reflexivity|]); destruct Hw)).
  cbn [try_parsers run_parser].
  replace (match_name (w ++ "("%char :: r)) with (Some w) by (repeat (destruct Hw as [<-|Hw]; [reflexivity|]); destruct Hw).
  replace (prefixb ($"(") (skipn (length w) (w ++ "("%char :: r))) with true by (rewrite skipn_app, skipn_all, Nat.sub_diag; reflexivity).
  replace (mem_str w (map fst (std_funcs L))) with true by (repeat (destruct Hw as [<-|Hw]; [clear; lazy; reflexivity|]); destruct Hw). cbn [andb]. rewrite Hx. destruct x as [[] l]; cbn [fst] in Hi; (destruct Hi; fail) || reflexivity.
Qed.
