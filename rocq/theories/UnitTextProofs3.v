(** Reading quantities. *)
From Coq Require Import ZArith QArith Ascii String List Bool Lia.
From Verif Require InstallProofs.
From Verif Require Import Base BaseProofs Dec Num NumSpec Lex LexSpec LexProofs Bases Formats Units UnitReg Syntax Pos Call Loop Parse ParseProofs2 Exec Std StdProofs2 TextSpec TextProofs VarNameSpec VarNameProofs ContainProofs6 NameSpec NameProofs UnitCalc UnitRun ArithTextSpec ArithRunSpec ArithTextProofs2 ArithTextProofs3 UnitTextSpec.
Import ListNotations.
Open Scope nat_scope.

(** * Blanks and numerals, whatever parsers come later *)
Lemma blank_read_any C L more rec fl cur c r lft : is_space c = true -> code c <> 10%Z ->
  try_parsers C rec (firstn 11 (std_parsers L) ++ more) fl cur (c :: r) lft = (PRitems [INon NSpace [c]] 1 false, lft).
Proof.
  intros Hc Hn. unfold std_parsers. cbv zeta. cbn [firstn app].
  rewrite try_none.
  2: { cbn [run_parser]. unfold parse_term. replace (prefixb [newline] (c :: r)) with false; [destruct (fl_ign fl); reflexivity|]. symmetry. cbn [prefixb].
       replace (ceq newline c) with false; [reflexivity|]. symmetry. apply not_true_iff_false. intros E. apply ceq_iff in E. subst c. apply Hn. reflexivity. }
  cbn [try_parsers run_parser]. rewrite Hc. reflexivity.
Qed.
Lemma lit_read_any C L more rec fl cur l n r lft : exp_letter L -> lit_ok l -> follows r ->
  match previous_functional_item cur with None => true | Some i => iisop i end = true -> number_of_lit (l_prec L) l = Some n ->
  try_parsers C rec (firstn 11 (std_parsers L) ++ more) fl cur (lit_text l ++ r) lft = (PRitems [ILit (lit_text l) (LNum n)] (length (lit_text l)) false, lft).
Proof.
  intros (ec & er & Es & El) Hl Hr Hp Hn. destruct (lit_first l Hl) as (c & x & Et & Hc). destruct (lit_facts c Hc) as (C1 & C2 & C3 & C4 & C5 & C6 & C7).
  assert (Ef : lit_text l ++ r = c :: (x ++ r)) by (rewrite Et; reflexivity). pose proof (match_number_complete l r Hl (lit_stops l r Hr)) as Mn.
  pose proof (after_int l r Hl Hr) as Na. pose proof (int_second l _ Hl Na) as Ns. pose proof (minus_lit l ((match l_frac l with Some f => "."%char :: f | None => [] end) ++ r) Hl) as Mm.
  unfold std_parsers. cbv zeta. cbn [firstn app].
  rewrite try_none. 2: { cbn [run_parser]. unfold parse_term. rewrite Ef. cbn [prefixb]. rewrite C1. destruct (fl_ign fl); reflexivity. }
  rewrite try_none. 2: { cbn [run_parser]. rewrite Ef, C2. reflexivity. }
  rewrite try_none. 2: { cbn [run_parser]. rewrite Ef. cbn [firstn list_ascii_of_string seq_eqb]. rewrite C3. reflexivity. }
  rewrite try_none.
  2: { cbn [run_parser]. unfold lex_bool. rewrite Ef. cbn [lower map list_ascii_of_string prefixb]. 
       rewrite (proj1 (lower_alpha c "t"%char C5 eq_refl)), (proj1 (lower_alpha c "f"%char C5 eq_refl)). reflexivity. }
  assert (Gl : forall f, f (lit_text l ++ r) = Ok None -> run_parser (C) rec (PLit true f) fl cur (lit_text l ++ r) lft = (PRnone, lft)).
  { intros f Hf. cbn [run_parser]. rewrite Hf. destruct (negb true || _); reflexivity. }
  rewrite try_none by (apply Gl; unfold match_bin; rewrite lit_split, (no_prefixed_lit _ _ _ _ "b"%char eq_refl eq_refl Ns Mm); reflexivity).
  rewrite try_none by (apply Gl; unfold match_oct; rewrite lit_split, (no_prefixed_lit _ _ _ _ "o"%char eq_refl eq_refl Ns Mm); reflexivity).
  rewrite try_none by (apply Gl; unfold match_hex; rewrite lit_split, (no_prefixed_lit _ _ _ _ "x"%char eq_refl eq_refl Ns Mm); reflexivity).
  rewrite try_none.
  2: { apply Gl. unfold lex_arb, match_arb. rewrite lit_split. set (tail := (match l_frac l with Some f => "."%char :: f | None => [] end) ++ r) in *. destruct (opt_minus _) as [m s2]. subst s2. destruct Hl as (H1 & H2 & _).
       rewrite digits_then; [|exact H1|exact H2|].
       - destruct (l_int l); [reflexivity|]. destruct tail as [|z tail]; [reflexivity|]. cbn [not_alpha] in Na. rewrite (proj2 (lower_alpha z "z"%char Na eq_refl)). reflexivity.
       - unfold tail. destruct (l_frac l); [reflexivity|]. destruct r as [|y r]; [exact I|]. exact (proj1 (follow_facts y Hr)). }
  rewrite try_none.
  2: { apply Gl. unfold lex_exp, match_exp. rewrite Mn, Es. replace (prefixb _ _) with false; [reflexivity|]. symmetry. destruct r as [|y r]; [reflexivity|].
       cbn [follows] in Hr. destruct (follow_facts y Hr) as (_ & _ & _ & A & _). cbn [lower map prefixb].
       assert (Lc : is_alpha (lower_c ec) = true) by (apply letter_iff in El; clear -El; destruct ec as [[] [] [] [] [] [] [] []]; vm_compute in El |- *; congruence).
       rewrite (proj1 (lower_alpha y _ A Lc)). reflexivity. }
  rewrite try_none.
  2: { apply Gl. unfold lex_pct, match_pct. rewrite Mn. destruct r as [|y r]; [reflexivity|]. cbn [follows] in Hr. destruct (follow_facts y Hr) as (_ & _ & P & _). rewrite P. reflexivity. }
  cbn [try_parsers run_parser]. rewrite Hp. rewrite orb_true_r. unfold lex_dec. rewrite Mn. change (f_prec (l_fmt L)) with (l_prec L). rewrite Hn. cbn [py_opt obind].
  unfold found. rewrite app_length. replace (length (lit_text l) + length r - length r) with (length (lit_text l)) by lia.
  rewrite firstn_app, Nat.sub_diag, firstn_all. cbn [firstn]. rewrite app_nil_r. reflexivity.
Qed.


Definition unit_pcfg (U : ucfg) : pcfg := mkPC (unit_parsers U) (unit_table U) std_arr true.
Definition later (U : ucfg) : list parser :=
  [POp; PString "'"%char "\"%char; PPtr ($"@"); PFunc (map fst (unit_funcs U)); PFuncParam; PFuncEnd; PInner; PInnerEnd; PInline; PInlineEnd;
   PConst (unit_consts U); PUnit (parse_units U); PWord true (n_systems (u_norm U)); PWord false number_types; PArr; PArrRange; PArrStep; PArrParam; PArrEnd; PVar].
Lemma uparsers_split U : pc_parsers (unit_pcfg U) = firstn 11 (std_parsers (u_lib U)) ++ later U.
Proof. reflexivity. Qed.

(** * Operators *)
Definition usymbols : list str := Eval vm_compute in op_symbols (unit_table (demo_units norm_init)).
Lemma usymbols_of U : op_symbols (pc_ops (unit_pcfg U)) = usymbols.
Proof. lazy. reflexivity. Qed.
Lemma sign_match m d r : is_space d = true -> match_op usymbols (sign_char m :: d :: r) = Some [sign_char m].
Proof. intros H. destruct d as [[] [] [] [] [] [] [] []]; try discriminate H; clear; destruct m; lazy; reflexivity. Qed.
Lemma to_match d r : is_space d = true -> match_op usymbols ($"to" ++ d :: r) = Some ($"to").
Proof. intros H. destruct d as [[] [] [] [] [] [] [] []]; try discriminate H; clear; lazy; reflexivity. Qed.
Lemma uop_read U rec fl cur op d r lft : (exists m, op = [sign_char m]) \/ op = $"to" -> is_space d = true -> after_operand cur ->
  try_parsers (unit_pcfg U) rec (pc_parsers (unit_pcfg U)) fl cur (op ++ d :: r) lft = (PRitems [IOp op] (length op) false, lft).
Proof.
  intros Ho Hd Hp. assert (Hm : match_op usymbols (op ++ d :: r) = Some op) by (destruct Ho as [[m ->]| ->]; [apply sign_match, Hd|apply to_match, Hd]).
  rewrite uparsers_split. unfold std_parsers. cbv zeta. cbn [firstn app].
  rewrite try_none.
  2: { cbn [run_parser]. unfold parse_term. replace (prefixb [newline] _) with false by (destruct Ho as [[[] ->]| ->]; reflexivity). destruct (fl_ign fl); reflexivity. }
  rewrite try_none by (destruct Ho as [[[] ->]| ->]; reflexivity).
  rewrite try_none by (destruct Ho as [[[] ->]| ->]; reflexivity).
  rewrite try_none.
  2: { cbn [run_parser]. replace (lex_bool (op ++ d :: r)) with (@Ok (option (nat * lit)) None); [reflexivity|].
       destruct Ho as [[[] ->]| ->]; [reflexivity|reflexivity|]. clear -Hd. destruct d as [[] [] [] [] [] [] [] []]; try discriminate Hd; clear; lazy; reflexivity. }
  assert (Gl : forall f, run_parser (unit_pcfg U) rec (PLit true f) fl cur (op ++ d :: r) lft = (PRnone, lft)).
  { intros f. cbn [run_parser]. unfold after_operand in Hp. rewrite Hp. reflexivity. }
  do 7 (rewrite try_none by apply Gl).
  unfold later. cbn [try_parsers run_parser]. rewrite usymbols_of, Hm. reflexivity.
Qed.
Lemma ublank_read U rec fl cur c r lft : is_space c = true -> code c <> 10%Z ->
  try_parsers (unit_pcfg U) rec (pc_parsers (unit_pcfg U)) fl cur (c :: r) lft = (PRitems [INon NSpace [c]] 1 false, lft).
Proof. rewrite uparsers_split. apply blank_read_any. Qed.
Lemma ulit_read U rec fl cur l n r lft : exp_letter (u_lib U) -> lit_ok l -> follows r -> before_operand cur -> number_of_lit (l_prec (u_lib U)) l = Some n ->
  try_parsers (unit_pcfg U) rec (pc_parsers (unit_pcfg U)) fl cur (lit_text l ++ r) lft = (PRitems [ILit (lit_text l) (LNum n)] (length (lit_text l)) false, lft).
Proof. rewrite uparsers_split. apply lit_read_any. Qed.

(** * Names of units *)
Lemma usorted : forallb (fun op => match op with [] => false | c :: _ => negb (is_alpha c) || mem_str op (($"to") :: operator_words) || existsb (fun c => negb (is_alpha c)) op end) usymbols = true.
Proof. vm_compute. reflexivity. Qed.
Lemma letters_alpha n : Forall letter n -> Forall (fun c => is_alpha c = true) n.
Proof. intros H. eapply Forall_impl; [|exact H]. intros c. apply letter_iff. Qed.
Lemma word_name n : n <> [] -> Forall letter n -> is_name n.
Proof.
  intros H F. destruct n as [|c n]; [congruence|]. apply Forall_cons_iff in F. destruct F as [Fc F]. exists c, n. split; [reflexivity|]. split; [left; exact Fc|].
  eapply Forall_impl; [|exact F]. intros d Hd. left. exact Hd.
Qed.
Lemma no_uoperator n rest : n <> [] -> Forall letter n -> name_over rest -> ~ In n operator_words -> n <> $"to" -> match_op usymbols (n ++ rest) = None.
Proof.
  intros Hn F Ho H1 H2. apply match_op_none. intros op Hop (r & E & W). pose proof usorted as A. rewrite forallb_forall in A. specialize (A op Hop).
  destruct op as [|c op]; [discriminate|]. pose proof (letters_alpha n F) as Fa.
  destruct n as [|d n']; [congruence|]. assert (c = d) by (cbn [app] in E; congruence). subst d. set (n := c :: n') in *.
  assert (Hc : is_alpha c = true) by (apply Forall_inv in Fa; exact Fa). rewrite Hc in A. cbn [negb orb] in A.
  remember (c :: op) as w eqn:Ew. assert (P : prefixb w (n ++ rest) = true) by (apply prefixb_iff; exists r; exact E).
  apply orb_prop in A. destruct A as [A|A].
  - apply UnitsProofs5.mem_str_iff in A. assert (Wa : w <> [] /\ Forall (fun c => is_alpha c = true) w).
    { destruct A as [<-|A]; [split; [discriminate|repeat constructor]|exact (words_alpha w A)]. }
    destruct Wa as [Ne Wa]. destruct (word_inside w n rest (alpha_words w Wa) Ho P) as [x Ex]. specialize (W Ne Wa). destruct x as [|d x].
    + rewrite app_nil_r in Ex. destruct A as [A|A]; [apply H2; congruence|apply H1; rewrite Ex; exact A].
    + rewrite Ex, <- app_assoc in E. apply app_inv_head in E. subst r. cbn [app] in W. rewrite Ex, Forall_app in Fa. destruct Fa as [_ Fa]. apply Forall_inv in Fa. unfold is_word in W. rewrite Fa in W. discriminate W.
  - apply existsb_exists in A. destruct A as (d & Hd & Nd). destruct (prefix_split w n rest P) as [[x Ex]|(d' & y & Ew' & z & Er)].
    + rewrite Ex, Forall_app in Fa. destruct Fa as [Fa _]. rewrite Forall_forall in Fa. rewrite (Fa d Hd) in Nd. discriminate Nd.
    + exfalso. assert (Wd : forallb is_word w = true -> False).
      { rewrite forallb_forall. intros K. subst rest. cbn [name_over] in Ho. apply Ho, word_iff, K. rewrite Ew'. apply in_or_app. right. left. reflexivity. }
      assert (G : forallb (fun op => match op with [] => true | c :: _ => negb (is_alpha c) || forallb is_word op end) usymbols = true) by (vm_compute; reflexivity).
      rewrite forallb_forall in G. specialize (G w Hop). rewrite Ew in G at 1. rewrite Hc in G. cbn [negb orb] in G. apply Wd. exact G.
Qed.

Lemma before_ops C L more rec fl cur n rest lft : is_name n -> name_over rest -> ~ caseless n ($"true") -> ~ caseless n ($"false") ->
  try_parsers C rec (firstn 11 (std_parsers L) ++ more) fl cur (n ++ rest) lft = try_parsers C rec more fl cur (n ++ rest) lft.
Proof.
  intros Hn Ho H2 H3. destruct n as [|c n'] eqn:En; [destruct Hn as (? & ? & ? & _); discriminate|]. rewrite <- En in *.
  assert (Hc : is_word_start c = true) by (destruct Hn as (d & r & E & Hd & _); apply start_iff; congruence).
  assert (Et : n ++ rest = c :: (n' ++ rest)) by (rewrite En; reflexivity).
  unfold std_parsers. cbv zeta. cbn [firstn app].
  rewrite try_none. 2: { cbn [run_parser]. unfold parse_term. rewrite Et, (no_start newline c) by (exact Hc || reflexivity). destruct (fl_ign fl); reflexivity. }
  rewrite try_none. 2: { cbn [run_parser]. rewrite Et, (start_space c Hc). reflexivity. }
  rewrite try_none.
  2: { cbn [run_parser]. rewrite Et. cbn [firstn]. replace (seq_eqb [c] ($"#")) with false; [reflexivity|]. symmetry. apply not_true_iff_false. intros E. apply seq_eqb_iff in E.
       assert (c = "#"%char) by (injection E as ->; reflexivity). subst c. discriminate Hc. }
  rewrite try_none. 2: { cbn [run_parser]. rewrite (no_bool n rest Hn Ho H2 H3). reflexivity. }
  assert (Gl : forall f, f (n ++ rest) = Ok None -> run_parser (C) rec (PLit true f) fl cur (n ++ rest) lft = (PRnone, lft)).
  { intros f Hf. cbn [run_parser]. rewrite Hf. destruct (negb true || _); reflexivity. }
  rewrite try_none by (apply Gl; rewrite Et; unfold match_bin; rewrite (no_prefixed bin_pre _ c _ Hc eq_refl); reflexivity).
  rewrite try_none by (apply Gl; rewrite Et; unfold match_oct; rewrite (no_prefixed oct_pre _ c _ Hc eq_refl); reflexivity).
  rewrite try_none by (apply Gl; rewrite Et; unfold match_hex; rewrite (no_prefixed hex_pre _ c _ Hc eq_refl); reflexivity).
  rewrite try_none by (apply Gl; rewrite Et; unfold lex_arb; rewrite (no_arb c _ Hc); reflexivity).
  rewrite try_none by (apply Gl; rewrite Et; unfold lex_exp, match_exp; rewrite (no_number c _ Hc); reflexivity).
  rewrite try_none by (apply Gl; rewrite Et; unfold lex_pct, match_pct; rewrite (no_number c _ Hc); reflexivity).
  rewrite try_none by (apply Gl; rewrite Et; unfold lex_dec; rewrite (no_number c _ Hc); reflexivity).
  reflexivity.
Qed.
(** What may come after the name of a unit *)
Definition name_end (rest : str) : Prop :=
  exists b r, rest = b ++ r /\ blank_text b /\ (r = [] \/ (exists m d x, r = sign_char m :: d :: x /\ is_space d = true) \/ (b <> [] /\ exists d x, r = $"to" ++ d :: x /\ is_space d = true)).
Definition over_char (c : ascii) : bool := is_space c || ceq c "+" || ceq c "-".
Lemma over_facts c : over_char c = true -> is_word c = false /\ is_alpha c = false /\ ceq "(" c = false /\ unit_char c = false.
Proof. destruct c as [[] [] [] [] [] [] [] []]; intros H; try (exfalso; vm_compute in H; discriminate H); clear H; repeat split. Qed.
Lemma end_first rest c r : name_end rest -> rest = c :: r -> over_char c = true.
Proof.
  intros (b & x & -> & Hb & Hx) E. unfold over_char. destruct Hb as [|d b [Hd _] _]; cbn [app] in E.
  - destruct Hx as [->|[(m & d' & y & -> & _)|[K _]]]; [discriminate E| |congruence]. assert (Ec : c = sign_char m) by congruence. subst c. destruct m; reflexivity.
  - assert (c = d) by congruence. subst d. rewrite Hd. reflexivity.
Qed.
Lemma end_over rest : name_end rest -> name_over rest.
Proof. intros H. destruct rest as [|c r]; [exact I|]. apply word_not. apply (over_facts c), (end_first _ _ _ H eq_refl). Qed.
Lemma space_lower c : is_space c = true -> lower_c c = c.
Proof. destruct c as [[] [] [] [] [] [] [] []]; intros H; try (exfalso; vm_compute in H; discriminate H); reflexivity. Qed.
Lemma first_more (n rest : str) m : length n < m -> m <= length (n ++ rest) -> exists x y d, firstn m (n ++ rest) = n ++ d :: x /\ rest = d :: x ++ y /\ nth_error (n ++ rest) m = nth_error y 0.
Proof.
  intros H1 H2. rewrite app_length in H2. destruct rest as [|d rest]; [cbn [length] in H2; lia|]. exists (firstn (m - S (length n)) rest), (skipn (m - S (length n)) rest), d.
  split; [|split; [rewrite firstn_skipn; reflexivity|]].
  - rewrite firstn_app. rewrite firstn_all2 by lia. f_equal. replace (m - length n) with (S (m - S (length n))) by lia. reflexivity.
  - rewrite nth_error_app2 by lia. replace (m - length n) with (S (m - S (length n))) by lia. cbn [nth_error]. set (k := m - S (length n)). clear. revert rest. induction k as [|k IH]; intros rest; [reflexivity|].
    destruct rest as [|c rest]; [destruct k; reflexivity|]. apply IH.
Qed.
(** No key is longer *)
Lemma sign_lower m : lower_c (sign_char m) = sign_char m. Proof. destruct m; reflexivity. Qed.
Lemma key_cases (f : str -> str) (n rest x y : str) d : (f = lower \/ f = fun t => t) -> name_end rest -> rest = d :: x ++ y ->
  (forall c, nth_error y 0 = Some c -> unit_char c = false) -> key_apart (f (n ++ d :: x)) -> False.
Proof.
  intros Hf (b & r & E & Hb & Hr) Ex Hy (K3 & K1 & K4).
  assert (Fa : forall a b, f (a ++ b) = f a ++ f b) by (intros a c; destruct Hf as [->| ->]; [apply map_app|reflexivity]).
  assert (Fc : forall c t, f (c :: t) = f [c] ++ f t) by (intros c t; apply (Fa [c] t)).
  assert (Fs : forall c, lower_c c = c -> f [c] = [c]) by (intros c Hc; destruct Hf as [->| ->]; [cbn; rewrite Hc; reflexivity|reflexivity]).
  (* how far the key reaches *)
  assert (P : exists z, b ++ r = (d :: x) ++ z /\ z = y) by (exists y; split; [rewrite <- E, Ex; reflexivity|reflexivity]). destruct P as (z & P & ->).
  remember (d :: x) as w eqn:Ew. assert (Wn : w <> []) by (rewrite Ew; discriminate). clear Ew Ex E rest.
  destruct (Nat.le_gt_cases (length w) (length b)) as [L|L].
  - (* in the blanks *)
    assert (Q : exists b', b = w ++ b').
    { exists (skipn (length w) b). rewrite <- (firstn_skipn (length w) b) at 1. f_equal. assert (G : firstn (length w) (b ++ r) = firstn (length w) (w ++ y)) by congruence.
      rewrite !firstn_app, Nat.sub_diag, firstn_all in G. replace (length w - length b) with 0 in G by lia. cbn [firstn] in G. rewrite !app_nil_r in G. exact G. }
    destruct Q as [b' ->]. apply Forall_app in Hb. destruct Hb as [Hb _].
    destruct (exists_last Wn) as (w' & c & ->). apply Forall_app in Hb. destruct Hb as [_ Hb]. apply Forall_inv in Hb. destruct Hb as [Hc _].
    specialize (K3 (f n ++ f w') c). rewrite K3 in Hc; [discriminate Hc|]. rewrite !Fa, (Fs c (space_lower c Hc)), app_assoc. reflexivity.
  - (* beyond them *)
    assert (Q : exists e v, w = b ++ e :: v /\ r = e :: v ++ y).
    { assert (G : firstn (length b) (b ++ r) = firstn (length b) (w ++ y)) by congruence. rewrite !firstn_app, Nat.sub_diag, firstn_all in G. replace (length b - length w) with 0 in G by lia. cbn [firstn] in G. rewrite !app_nil_r in G.
      assert (Gw : w = b ++ skipn (length b) w) by (rewrite G at 1; symmetry; apply firstn_skipn). destruct (skipn (length b) w) as [|e v]; [rewrite app_nil_r in Gw; subst w; lia|].
      exists e, v. split; [exact Gw|]. rewrite Gw, <- app_assoc in P. apply app_inv_head in P. exact P. }
    assert (Stop : forall v' d' t', v' ++ y = d' :: t' -> is_space d' = true -> ~ goes_on (f v')).
    { intros v' d' t' E' Hd (c' & x' & Eg & Hc'). destruct v' as [|e' v'].
      - destruct Hf as [->| ->]; discriminate Eg.
      - cbn [app] in E'. assert (e' = d') by congruence. subst e'. rewrite Fc, (Fs d' (space_lower d' Hd)) in Eg. cbn [app] in Eg. congruence. }
    destruct Q as (e & v & -> & ->). destruct Hr as [Hr|[(m & d' & t & Hr & Hd)|(Nb & d' & t & Hr & Hd)]]; [discriminate Hr| |].
    + assert (e = sign_char m) by congruence. subst e. apply (Stop v d' t); [congruence|exact Hd|]. apply (K1 (f n ++ f b) m (f v)).
      rewrite !Fa, (Fc (sign_char m)), (Fs _ (sign_lower m)), <- app_assoc. reflexivity.
    + cbn [list_ascii_of_string app] in Hr. assert (e = "t"%char) by congruence. subst e. destruct v as [|o v].
      * cbn [app] in Hr. assert (Hy0 : nth_error y 0 = Some "o"%char) by (destruct y; [discriminate Hr|]; cbn; congruence). specialize (Hy _ Hy0). discriminate Hy.
      * assert (o = "o"%char) by (cbn [app] in Hr; congruence). subst o. destruct (exists_last Nb) as (b' & c & ->). apply Forall_app in Hb. destruct Hb as [_ Hb]. apply Forall_inv in Hb. destruct Hb as [Hc _].
        apply (Stop v d' t); [cbn [app] in Hr; congruence|exact Hd|]. apply (K4 (f n ++ f b') c (f v)); [|exact Hc].
        rewrite <- !app_assoc. cbn [app]. rewrite !Fa, (Fc c), (Fs c (space_lower c Hc)), (Fc "t"%char), (Fc "o"%char), (Fs "t"%char eq_refl), (Fs "o"%char eq_refl). cbn [list_ascii_of_string app]. reflexivity.
Qed.
Lemma unit_found U us n u rest : names_fit (u_norm U) -> keys_apart (u_norm U) -> unit_for U us n u -> name_end rest -> parse_units U (n ++ rest) = Ok (Some (length n, mkEU (ulist u) false)).
Proof.
  intros Hf (A1 & A2) (_ & Hg & (H0 & _ & _ & Hk) & _) He. rewrite firstn_all in Hk.
  assert (Here : unit_here (u_norm U) (u_syms U) (n ++ rest) (length n)).
  { split; [exact H0|]. split; [rewrite app_length; lia|]. split.
    - intros c. rewrite nth_error_app2, Nat.sub_diag by lia. destruct rest as [|d r]; [discriminate|]. cbn [nth_error]. intros E. injection E as <-. apply over_facts, (end_first _ _ _ He eq_refl).
    - rewrite firstn_app, Nat.sub_diag, firstn_all. cbn [firstn]. rewrite app_nil_r. exact Hk. }
  assert (Most : forall m, length n < m -> ~ unit_here (u_norm U) (u_syms U) (n ++ rest) m).
  { intros m Hm (_ & Hl & Hy & Hw). destruct (first_more n rest m Hm Hl) as (x & y & d & E1 & E2 & E3). rewrite E1 in Hw. rewrite E3 in Hy. destruct Hw as [[k Hw]|(_ & _ & k & Hw)].
    - apply (key_cases lower n rest x y d (or_introl eq_refl) He E2 Hy). exact (A1 _ _ Hw).
    - apply (key_cases (fun t => t) n rest x y d (or_intror eq_refl) He E2 Hy). exact (A2 _ _ Hw). }
  destruct (parse_units_longest U (n ++ rest) Hf) as [[_ K]|(m & M1 & M2 & M3)]; [destruct (K _ Here)|].
  assert (m = length n).
  { destruct (Nat.lt_trichotomy m (length n)) as [L|[L|L]]; [destruct (M2 _ L Here)|exact L|destruct (Most m L M1)]. }
  subst m. rewrite M3. rewrite firstn_app, Nat.sub_diag, firstn_all. cbn [firstn]. rewrite app_nil_r. unfold the_unit. rewrite Hg. reflexivity.
Qed.
Lemma uconsts_names U w : assoc w (unit_consts U) <> None -> In w constant_names \/ In w more_constants.
Proof.
  intros H. destruct (assoc w (unit_consts U)) as [p|] eqn:E; [|congruence]. apply InstallProofs.assoc_some_in in E. unfold unit_consts in E. rewrite !in_app_iff in E.
  assert (G : forall n t l, In (w, p) (unit_const U n t l) -> w = n).
  { intros n t l K. unfold unit_const in K. destruct (make_multiunit (u_norm U) l); [|destruct K|destruct K]. destruct K as [K|[]]. congruence. }
  destruct E as [E|[E|[E|[E|E]]]].
  - left. unfold std_consts in E. cbn [In] in E. unfold constant_names. cbn [map In]. destruct E as [E|[E|[E|[]]]]; [left|right; left|right; right; left]; congruence.
  - right. left. symmetry. exact (G _ _ _ E).
  - right. right. left. symmetry. exact (G _ _ _ E).
  - right. right. right. left. symmetry. exact (G _ _ _ E).
  - right. right. right. right. left. symmetry. exact (G _ _ _ E).
Qed.
Lemma uname_read U us rec fl cur n u rest lft : names_fit (u_norm U) -> keys_apart (u_norm U) -> unit_for U us n u -> name_end rest ->
  try_parsers (unit_pcfg U) rec (pc_parsers (unit_pcfg U)) fl cur (n ++ rest) lft = (PRitems [IUnit n (mkEU (ulist u) false)] (length n) false, lft).
Proof.
  intros Hf Ha Hu He. pose proof (unit_found U us n u rest Hf Ha Hu He) as Hp. pose proof (end_over rest He) as Ho. destruct Hu as ((W1 & W2 & W3 & W4 & W5 & W6 & W7 & W8) & _).
  pose proof (word_name n W1 W2) as Hn. rewrite uparsers_split, before_ops by assumption. unfold later.
  destruct n as [|c n'] eqn:En; [congruence|]. rewrite <- En in *.
  assert (Hc : is_word_start c = true) by (destruct Hn as (d & r & E & Hd & _); apply start_iff; congruence).
  assert (Et : n ++ rest = c :: (n' ++ rest)) by (rewrite En; reflexivity).
  rewrite try_none. 2: { cbn [run_parser]. rewrite usymbols_of, (no_uoperator n rest W1 W2 Ho W3 W4). reflexivity. }
  rewrite try_none. 2: { cbn [run_parser]. rewrite Et, (proj2 (start_apart c "'"%char Hc eq_refl)). reflexivity. }
  rewrite try_none. 2: { cbn [run_parser]. rewrite Et. cbn [list_ascii_of_string]. rewrite (no_start "@"%char c) by (exact Hc || reflexivity). reflexivity. }
  rewrite try_none.
  2: { cbn [run_parser]. rewrite (name_match n rest Hn Ho), skip_app by reflexivity. replace (prefixb ($"(") rest) with false; [reflexivity|]. symmetry.
       destruct rest as [|d r]; [reflexivity|]. cbn [list_ascii_of_string prefixb]. rewrite (proj1 (proj2 (proj2 (over_facts d (end_first _ _ _ He eq_refl))))). reflexivity. }
  rewrite try_none. 2: { cbn [run_parser]. unfold c_comma. rewrite Et. cbn [list_ascii_of_string]. rewrite (no_start ","%char c) by (exact Hc || reflexivity). reflexivity. }
  rewrite try_none. 2: { cbn [run_parser]. unfold c_close. rewrite Et. cbn [list_ascii_of_string]. rewrite (no_start ")"%char c) by (exact Hc || reflexivity). reflexivity. }
  rewrite try_none. 2: { cbn [run_parser]. rewrite Et. cbn [list_ascii_of_string]. rewrite (no_start "("%char c) by (exact Hc || reflexivity). reflexivity. }
  rewrite try_none. 2: { cbn [run_parser]. unfold c_close. rewrite Et. cbn [list_ascii_of_string]. rewrite (no_start ")"%char c) by (exact Hc || reflexivity). reflexivity. }
  rewrite try_none. 2: { cbn [run_parser]. rewrite Et. cbn [list_ascii_of_string]. rewrite (no_start "{"%char c) by (exact Hc || reflexivity). reflexivity. }
  rewrite try_none. 2: { cbn [run_parser]. rewrite Et. cbn [list_ascii_of_string]. rewrite (no_start "}"%char c) by (exact Hc || reflexivity). reflexivity. }
  rewrite try_none.
  2: { cbn [run_parser]. replace (match_alpha (n ++ rest)) with (Some n).
       - destruct (assoc n (unit_consts U)) as [[v x]|] eqn:K; [|reflexivity]. exfalso. destruct (uconsts_names U n) as [Q|Q]; [congruence|apply W7, Q|apply W8, Q].
       - unfold match_alpha. rewrite (take_exact is_alpha n rest (letters_alpha n W2)); [rewrite En; reflexivity|]. destruct rest as [|d r]; [exact I|]. apply (over_facts d), (end_first _ _ _ He eq_refl). }
  cbn [try_parsers run_parser]. rewrite Hp. unfold found. rewrite firstn_app, Nat.sub_diag, firstn_all. cbn [firstn]. rewrite app_nil_r. reflexivity.
Qed.
