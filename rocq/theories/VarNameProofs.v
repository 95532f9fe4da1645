(** Reading names. *)
From Coq Require Import ZArith QArith Ascii String List Bool Lia.
From Verif Require Import Base BaseProofs Dec Num Lex LexProofs Bases Formats Units Install Syntax Pos Call CallSpec Loop LoopSpec Parse ParseSpec ParseProofs ParseProofs2 Exec ExecSpec ContainProofs6 Std StdSpec StdRun StdProofs StdProofs2 TextSpec TextProofs VarNameSpec.
Import ListNotations.
Open Scope nat_scope.

(** * Characters *)
Lemma letter_iff c : is_alpha c = true <-> letter c.
Proof. unfold is_alpha, letter. rewrite orb_true_iff, is_upper_iff, is_lower_iff. tauto. Qed.
Lemma under_iff c : ceq c "_" = true <-> code c = 95%Z.
Proof. rewrite ceq_iff. split; [intros ->; reflexivity|]. intros H. apply code_inj. rewrite H. reflexivity. Qed.
Lemma start_iff c : is_word_start c = true <-> letter c \/ code c = 95%Z.
Proof. unfold is_word_start. rewrite orb_true_iff, letter_iff, under_iff. reflexivity. Qed.
Lemma word_iff c : is_word c = true <-> name_char c.
Proof.
  unfold is_word, name_char. rewrite !orb_true_iff, letter_iff, under_iff. unfold is_digit. rewrite andb_true_iff, !Z.leb_le. tauto.
Qed.
Lemma word_not c : is_word c = false <-> ~ name_char c.
Proof. rewrite <- word_iff. destruct (is_word c); intuition congruence. Qed.
Lemma alpha_not c : is_alpha c = false <-> ~ letter c.
Proof. rewrite <- letter_iff. destruct (is_alpha c); intuition congruence. Qed.
Lemma take_exact p a r : Forall (fun c => p c = true) a -> match r with [] => True | c :: _ => p c = false end -> take_while p (a ++ r) = a.
Proof.
  intros H K. induction H as [|c a Hc _ IH]; cbn [app take_while].
  - destruct r as [|d r]; [reflexivity|]. cbn [take_while]. rewrite K. reflexivity.
  - rewrite Hc, IH. reflexivity.
Qed.
Lemma name_match n rest : is_name n -> name_over rest -> match_name (n ++ rest) = Some n.
Proof.
  intros (c & r & -> & Hc & Hr) Ho. cbn [app match_name]. rewrite (proj2 (start_iff c) Hc). do 2 f_equal. apply take_exact.
  - eapply Forall_impl; [|exact Hr]. intros d. apply word_iff.
  - destruct rest as [|d rest]; [exact I|]. apply word_not, Ho.
Qed.
Lemma name_words n : is_name n -> Forall (fun c => is_word c = true) n.
Proof.
  intros (c & r & -> & Hc & Hr). constructor; [apply word_iff; unfold name_char; tauto|]. eapply Forall_impl; [|exact Hr]. intros d. apply word_iff.
Qed.
(** The first character is none that another thing begins with *)
Lemma start_apart c d : is_word_start c = true -> is_word_start d = false -> ceq d c = false /\ ceq c d = false.
Proof. intros H K. split; apply not_true_iff_false; intros E; apply ceq_iff in E; congruence. Qed.
Lemma start_digit c : is_word_start c = true -> is_digit c = false.
Proof.
  intros H. apply start_iff in H. apply not_true_iff_false. unfold is_digit. rewrite andb_true_iff, !Z.leb_le. unfold letter in H. lia.
Qed.
Lemma start_space c : is_word_start c = true -> is_space c = false.
Proof.
  intros H. apply start_iff in H. apply not_true_iff_false. unfold is_space, letter in *. rewrite !orb_true_iff, !andb_true_iff, !Z.eqb_eq, !Z.leb_le. lia.
Qed.
Lemma no_minus c r : is_word_start c = true -> opt_minus (c :: r) = ([], c :: r).
Proof. intros H. unfold opt_minus. rewrite (proj2 (start_apart c "-"%char H eq_refl)). reflexivity. Qed.
Lemma no_number c r : is_word_start c = true -> match_number (c :: r) = None.
Proof. intros H. unfold match_number. rewrite (no_minus c r H). unfold match_digits. cbn [span]. rewrite (start_digit c H). reflexivity. Qed.
Lemma no_prefixed pre cls c r : is_word_start c = true -> prefixb ["0"%char] pre = true -> match_prefixed pre cls (c :: r) = None.
Proof.
  intros H K. destruct pre as [|p pre]; [discriminate|]. cbn [prefixb] in K. apply andb_prop in K. destruct K as [K _]. apply ceq_iff in K. subst p.
  unfold match_prefixed. rewrite (no_minus c r H). cbn [length firstn lower map prefixb].
  assert (E : ceq "0" (lower_c c) = false).
  { apply not_true_iff_false. intros E. apply ceq_iff in E. apply (f_equal code) in E. rewrite lower_code in E. apply start_iff in H. unfold letter in H. change (code "0") with 48%Z in E.
    destruct (is_upper c); lia. }
  rewrite E. reflexivity.
Qed.
Lemma no_arb c r : is_word_start c = true -> match_arb (c :: r) = None.
Proof. intros H. unfold match_arb. rewrite (no_minus c r H). cbn [span]. rewrite (start_digit c H). reflexivity. Qed.
Lemma prefix_split w n r : prefixb w (n ++ r) = true -> (exists x, n = w ++ x) \/ (exists d y, w = n ++ d :: y /\ exists z, r = d :: y ++ z).
Proof.
  revert n. induction w as [|c w IH]; intros n H; [left; exists n; reflexivity|]. destruct n as [|a n].
  - right. exists c, w. split; [reflexivity|]. apply prefixb_iff in H. destruct H as [z Hz]. exists z. exact Hz.
  - cbn [app prefixb] in H. apply andb_prop in H. destruct H as [H1 H2]. apply ceq_iff in H1. subst c. destruct (IH n H2) as [[x ->]|(d & y & -> & z & ->)].
    + left. exists x. reflexivity.
    + right. exists d, y. split; [reflexivity|]. exists z. reflexivity.
Qed.
(** A word made of name characters at the start of a text that starts with a name is in the name *)
Lemma word_inside w n r : Forall (fun c => is_word c = true) w -> name_over r -> prefixb w (n ++ r) = true -> exists x, n = w ++ x.
Proof.
  intros Hw Ho H. destruct (prefix_split w n r H) as [K|(d & y & -> & z & ->)]; [exact K|]. exfalso. apply Ho, word_iff.
  rewrite Forall_app in Hw. destruct Hw as [_ Hw]. apply Forall_inv in Hw. exact Hw.
Qed.
Lemma nth_after {A} (w x : list A) : nth_error (w ++ x) (length w) = match x with [] => None | c :: _ => Some c end.
Proof. rewrite nth_error_app2 by lia. rewrite Nat.sub_diag. destruct x; reflexivity. Qed.
Lemma no_bool n rest : is_name n -> name_over rest -> ~ caseless n ($"true") -> ~ caseless n ($"false") -> lex_bool (n ++ rest) = Ok None.
Proof.
  intros Hn Ho H1 H2. unfold lex_bool.
  assert (G : forall w, Forall (fun c => is_word c = true) w -> lower w = w -> ~ caseless n w ->
    prefixb w (lower (n ++ rest)) && match skipn (length w) (n ++ rest) with [] => true | c :: _ => negb (is_word c) end = false).
  { intros w Hw Lw Hc. destruct (prefixb w (lower (n ++ rest))) eqn:P; [|reflexivity]. cbn [andb].
    unfold lower in P. rewrite map_app in P. fold (lower n) (lower rest) in P.
    assert (Ho' : name_over (lower rest)).
    { destruct rest as [|d rest]; [exact I|]. cbn [lower map name_over] in *. intros K. apply Ho. unfold name_char, letter in *. rewrite lower_code in K.
      destruct (is_upper d) eqn:U; [apply is_upper_iff in U; lia|lia]. }
    destruct (word_inside w (lower n) (lower rest) Hw Ho' P) as [x Hx].
    assert (Ln : length n = length w + length x) by (rewrite <- app_length, <- Hx; unfold lower; rewrite map_length; reflexivity).
    assert (Ex : exists c r, skipn (length w) (n ++ rest) = c :: r /\ is_word c = true).
    { rewrite skipn_app. replace (length w - length n) with 0 by lia. cbn [skipn]. destruct (skipn (length w) n) as [|c r] eqn:S.
      - exfalso. assert (L0 : length (skipn (length w) n) = 0) by (rewrite S; reflexivity). rewrite skipn_length in L0. assert (Lx : length x = 0) by lia.
        apply length_zero_iff_nil in Lx. subst x. rewrite app_nil_r in Hx. apply Hc, caseless_iff. rewrite Lw. exact Hx.
      - exists c, (r ++ rest). split; [reflexivity|]. pose proof (name_words n Hn) as Fn. rewrite Forall_forall in Fn. apply Fn.
        rewrite <- (firstn_skipn (length w) n), S. apply in_or_app. right. left. reflexivity. }
    destruct Ex as (c & r & -> & Hc'). rewrite Hc'. reflexivity. }
  cbv zeta. change (prefixb ($"true") (lower (n ++ rest)) && match skipn 4 (n ++ rest) with [] => true | c :: _ => negb (is_word c) end)
    with (prefixb ($"true") (lower (n ++ rest)) && match skipn (length ($"true")) (n ++ rest) with [] => true | c :: _ => negb (is_word c) end).
  rewrite (G ($"true")); [|repeat constructor|reflexivity|exact H1].
  rewrite (G ($"false")); [reflexivity|repeat constructor|reflexivity|exact H2].
Qed.

(** * The symbols of the operators *)
Definition std_symbols : list str := Eval vm_compute in op_symbols (std_table demo).
Lemma symbols_of L : op_symbols (std_table L) = std_symbols.
Proof. lazy. reflexivity. Qed.

Definition sorted_out (op : str) : bool :=
  match op with [] => false | c :: _ => negb (is_word_start c) || mem_str op operator_words || seq_eqb op ($"IMPLICIT_MULTIPLY") end.
Lemma all_sorted : forallb sorted_out std_symbols = true.
Proof. vm_compute. reflexivity. Qed.
Lemma words_alpha w : In w operator_words -> w <> [] /\ Forall (fun c => is_alpha c = true) w.
Proof.
  intros H. unfold operator_words in H. cbn [map In] in H. repeat (destruct H as [<-|H]; [split; [discriminate|repeat constructor]|]). destruct H.
Qed.
Lemma alpha_words w : Forall (fun c => is_alpha c = true) w -> Forall (fun c => is_word c = true) w.
Proof. intros H. eapply Forall_impl; [|exact H]. intros c Hc. unfold is_word. rewrite Hc. reflexivity. Qed.
Lemma under_words : Forall (fun c => is_word c = true) ($"IMPLICIT_MULTIPLY"). Proof. repeat constructor. Qed.
Lemma no_operator L n rest : is_name n -> name_over rest -> ~ In n operator_words -> ~ starts ($"IMPLICIT_MULTIPLY") n ->
  match_op (op_symbols (std_table L)) (n ++ rest) = None.
Proof.
  intros Hn Ho H1 H2. rewrite symbols_of. apply match_op_none. intros op Hop (r & E & W).
  pose proof all_sorted as A. rewrite forallb_forall in A. specialize (A op Hop). unfold sorted_out in A. destruct op as [|c op]; [discriminate|].
  apply orb_prop in A. destruct A as [A|A]; [apply orb_prop in A; destruct A as [A|A]|].
  - destruct Hn as (d & n' & -> & Hd & _). assert (c = d) by (cbn [app] in E; congruence). subst d. apply start_iff in Hd. rewrite Hd in A. discriminate A.
  - apply UnitsProofs5.mem_str_iff in A. remember (c :: op) as w eqn:Ew. destruct (words_alpha w A) as [Ne Fa].
    assert (P : prefixb w (n ++ rest) = true) by (apply prefixb_iff; exists r; exact E).
    destruct (word_inside w n rest (alpha_words w Fa) Ho P) as [x Ex]. specialize (W Ne Fa). destruct x as [|d x].
    + rewrite app_nil_r in Ex. apply H1. rewrite Ex. exact A.
    + subst n. rewrite <- app_assoc in E. apply app_inv_head in E. subst r. cbn [app] in W. pose proof (name_words _ Hn) as F. rewrite Forall_app in F. destruct F as [_ F].
      apply Forall_inv in F. congruence.
  - apply seq_eqb_iff in A. assert (P : prefixb (c :: op) (n ++ rest) = true) by (apply prefixb_iff; exists r; exact E). rewrite A in P.
    destruct (word_inside _ n rest under_words Ho P) as [x Ex]. apply H2. exists x. exact Ex.
Qed.
Lemma no_format n rest : is_name n -> name_over rest -> ~ (exists w, In w format_names /\ starts_word w n) -> match_word number_types (n ++ rest) = None.
Proof.
  intros Hn Ho H. unfold match_word. destruct (find _ number_types) as [w|] eqn:F; [|reflexivity]. exfalso. apply find_some in F. destruct F as [F1 F2].
  apply andb_prop in F2. destruct F2 as [P Le].
  assert (Fw : Forall (fun c => is_alpha c = true) w).
  { unfold number_types in F1. cbn [In] in F1. repeat (destruct F1 as [<-|F1]; [repeat constructor|]). destruct F1. }
  destruct (word_inside w n rest (alpha_words w Fw) Ho P) as [x Ex]. apply H. exists w. split; [exact F1|]. exists x. split; [exact Ex|].
  destruct x as [|c x]; [exact I|]. subst n. unfold letter_end in Le. rewrite <- app_assoc, nth_after in Le. cbn [app] in Le. apply alpha_not.
  destruct (is_alpha c); [discriminate|reflexivity].
Qed.
Lemma alpha_match n rest w : name_over rest -> match_alpha (n ++ rest) = Some w -> starts_word w n.
Proof.
  intros Ho H. unfold match_alpha in H. destruct (take_while is_alpha (n ++ rest)) as [|a b] eqn:T; [discriminate|]. injection H as <-. rewrite <- T. clear T a b.
  induction n as [|c n IH].
  - exists []. split; [|exact I]. cbn [app]. rewrite app_nil_r. destruct rest as [|d rest]; [reflexivity|]. cbn [take_while].
    assert (K : is_alpha d = false) by (apply alpha_not; intros K; apply Ho; left; exact K). rewrite K. reflexivity.
  - cbn [app take_while]. destruct (is_alpha c) eqn:A.
    + destruct IH as (r & E & W). exists r. split; [cbn [app]; congruence|exact W].
    + exists (c :: n). split; [reflexivity|]. apply alpha_not, A.
Qed.
Lemma consts_names L w : assoc w (std_consts L) <> None -> In w constant_names.
Proof.
  unfold std_consts. cbn [assoc]. destruct (seq_eqb ($"e") w) eqn:E1; [apply seq_eqb_iff in E1; subst w; left; reflexivity|].
  destruct (seq_eqb ($"pi") w) eqn:E2; [apply seq_eqb_iff in E2; subst w; right; left; reflexivity|].
  destruct (seq_eqb ($"tau") w) eqn:E3; [apply seq_eqb_iff in E3; subst w; right; right; left; reflexivity|]. congruence.
Qed.
(** * A name is read *)
Lemma no_start d c r : is_word_start d = false -> is_word_start c = true -> prefixb [d] (c :: r) = false.
Proof. intros H K. cbn [prefixb]. rewrite (proj1 (start_apart c d K H)). reflexivity. Qed.
Lemma no_start' d w c r : is_word_start d = false -> is_word_start c = true -> prefixb (d :: w) (c :: r) = false.
Proof. intros H K. cbn [prefixb]. rewrite (proj1 (start_apart c d K H)). reflexivity. Qed.
Definition call_at (L : lib) (n rest : str) : Prop := In n (map fst (std_funcs L)) /\ starts ($"(") rest.
Lemma before_consts L rec ps fl cur n rest lft : is_name n -> name_over rest -> ~ In n operator_words -> ~ caseless n ($"true") -> ~ caseless n ($"false") ->
  ~ starts ($"IMPLICIT_MULTIPLY") n -> ~ call_at L n rest ->
  try_parsers (std_pcfg L) rec (firstn 21 (std_parsers L) ++ ps) fl cur (n ++ rest) lft = try_parsers (std_pcfg L) rec ps fl cur (n ++ rest) lft.
Proof.
  intros Hn Ho H1 H2 H3 H4 H5. destruct n as [|c n'] eqn:En; [destruct Hn as (? & ? & ? & _); discriminate|]. rewrite <- En in *.
  assert (Hc : is_word_start c = true) by (destruct Hn as (d & r & E & Hd & _); apply start_iff; congruence).
  assert (Et : n ++ rest = c :: (n' ++ rest)) by (rewrite En; reflexivity).
  unfold std_parsers. cbv zeta. cbn [firstn app].
  rewrite try_none. 2: { cbn [run_parser]. unfold parse_term. rewrite Et, (no_start newline c) by (exact Hc || reflexivity). destruct (fl_ign fl); reflexivity. }
  rewrite try_none. 2: { cbn [run_parser]. rewrite Et, (start_space c Hc). reflexivity. }
  rewrite try_none.
  2: { cbn [run_parser]. rewrite Et. cbn [firstn]. replace (seq_eqb [c] ($"#")) with false; [reflexivity|]. symmetry. apply not_true_iff_false. intros E. apply seq_eqb_iff in E.
       assert (c = "#"%char) by (injection E as ->; reflexivity). subst c. discriminate Hc. }
  rewrite try_none. 2: { cbn [run_parser]. rewrite (no_bool n rest Hn Ho H2 H3). reflexivity. }
  assert (Gl : forall f, f (n ++ rest) = Ok None -> run_parser (std_pcfg L) rec (PLit true f) fl cur (n ++ rest) lft = (PRnone, lft)).
  { intros f Hf. cbn [run_parser]. rewrite Hf. destruct (negb true || _); reflexivity. }
  rewrite try_none by (apply Gl; rewrite Et; unfold match_bin; rewrite (no_prefixed bin_pre _ c _ Hc eq_refl); reflexivity).
  rewrite try_none by (apply Gl; rewrite Et; unfold match_oct; rewrite (no_prefixed oct_pre _ c _ Hc eq_refl); reflexivity).
  rewrite try_none by (apply Gl; rewrite Et; unfold match_hex; rewrite (no_prefixed hex_pre _ c _ Hc eq_refl); reflexivity).
  rewrite try_none by (apply Gl; rewrite Et; unfold lex_arb; rewrite (no_arb c _ Hc); reflexivity).
  rewrite try_none by (apply Gl; rewrite Et; unfold lex_exp, match_exp; rewrite (no_number c _ Hc); reflexivity).
  rewrite try_none by (apply Gl; rewrite Et; unfold lex_pct, match_pct; rewrite (no_number c _ Hc); reflexivity).
  rewrite try_none by (apply Gl; rewrite Et; unfold lex_dec; rewrite (no_number c _ Hc); reflexivity).
  rewrite try_none. 2: { cbn [run_parser]. unfold pc_ops, std_pcfg. rewrite (no_operator L n rest Hn Ho H1 H4). reflexivity. }
  rewrite try_none. 2: { cbn [run_parser]. rewrite Et, (proj2 (start_apart c "'"%char Hc eq_refl)). reflexivity. }
  rewrite try_none. 2: { cbn [run_parser]. rewrite Et. cbn [list_ascii_of_string]. rewrite (no_start "@"%char c) by (exact Hc || reflexivity). reflexivity. }
  rewrite try_none.
  2: { cbn [run_parser]. rewrite (name_match n rest Hn Ho), skipn_app_len by reflexivity.
       destruct (prefixb ($"(") rest && mem_str n (map fst (std_funcs L))) eqn:E; [|reflexivity]. exfalso. apply andb_prop in E. destruct E as [E1 E2].
       apply H5. split; [apply UnitsProofs5.mem_str_iff, E2|apply prefixb_iff, E1]. }
  rewrite try_none. 2: { cbn [run_parser]. unfold c_comma. rewrite Et. cbn [list_ascii_of_string]. rewrite (no_start ","%char c) by (exact Hc || reflexivity). reflexivity. }
  rewrite try_none. 2: { cbn [run_parser]. unfold c_close. rewrite Et. cbn [list_ascii_of_string]. rewrite (no_start ")"%char c) by (exact Hc || reflexivity). reflexivity. }
  rewrite try_none. 2: { cbn [run_parser]. rewrite Et. cbn [list_ascii_of_string]. rewrite (no_start "("%char c) by (exact Hc || reflexivity). reflexivity. }
  rewrite try_none. 2: { cbn [run_parser]. unfold c_close. rewrite Et. cbn [list_ascii_of_string]. rewrite (no_start ")"%char c) by (exact Hc || reflexivity). reflexivity. }
  rewrite try_none. 2: { cbn [run_parser]. rewrite Et. cbn [list_ascii_of_string]. rewrite (no_start "{"%char c) by (exact Hc || reflexivity). reflexivity. }
  rewrite try_none. 2: { cbn [run_parser]. rewrite Et. cbn [list_ascii_of_string]. rewrite (no_start "}"%char c) by (exact Hc || reflexivity). reflexivity. }
  reflexivity.
Qed.
Lemma parsers_split L : std_parsers L = firstn 21 (std_parsers L) ++ [PConst (std_consts L); PWord false number_types; PArr; PArrRange; PArrStep; PArrParam; PArrEnd; PVar].
Proof. reflexivity. Qed.
Lemma name_read L rec fl cur n rest lft : is_name n -> name_over rest -> ~ taken n -> (fl_arr fl = true -> ~ starts ($"step") n) -> ~ call_at L n rest ->
  try_parsers (std_pcfg L) rec (pc_parsers (std_pcfg L)) fl cur (n ++ rest) lft = (PRitems [IVar n] (length n) false, lft).
Proof.
  intros Hn Ho Ht Hs Hf. unfold taken in Ht. change (pc_parsers (std_pcfg L)) with (std_parsers L). rewrite parsers_split, before_consts by tauto.
  destruct n as [|c n'] eqn:En; [destruct Hn as (? & ? & ? & _); discriminate|]. rewrite <- En in *.
  assert (Hc : is_word_start c = true) by (destruct Hn as (d & r & E & Hd & _); apply start_iff; congruence).
  assert (Et : n ++ rest = c :: (n' ++ rest)) by (rewrite En; reflexivity).
  rewrite try_none.
  2: { cbn [run_parser]. destruct (match_alpha (n ++ rest)) as [w|] eqn:A; [|reflexivity]. pose proof (alpha_match n rest w Ho A) as S.
       destruct (assoc w (std_consts L)) as [p|] eqn:K; [|reflexivity]. exfalso. apply Ht. do 4 right. left. exists w. split; [|exact S].
       apply (consts_names L). rewrite K. discriminate. }
  rewrite try_none. 2: { cbn [run_parser]. rewrite (no_format n rest Hn Ho) by tauto. reflexivity. }
  change (pc_arr (std_pcfg L)) with std_arr.
  rewrite try_none. 2: { cbn [run_parser]. rewrite Et. unfold std_pcfg, pc_arr, std_arr, as_open. cbn [list_ascii_of_string]. rewrite (no_start "["%char c) by (exact Hc || reflexivity). reflexivity. }
  rewrite try_none. 2: { cbn [run_parser]. rewrite Et. unfold std_pcfg, pc_arr, std_arr, as_range. cbn [list_ascii_of_string]. rewrite (no_start' "."%char _ c), andb_false_r by (exact Hc || reflexivity). reflexivity. }
  rewrite try_none.
  2: { cbn [run_parser]. unfold std_pcfg, pc_arr, std_arr, as_step. destruct (fl_arr fl); [|reflexivity]. cbn [andb].
       destruct (prefixb ($"step") (n ++ rest)) eqn:P; [|reflexivity]. exfalso. apply (Hs eq_refl).
       assert (Fs : Forall (fun c => is_word c = true) ($"step")) by repeat constructor. destruct (word_inside _ n rest Fs Ho P) as [x Ex]. exists x. exact Ex. }
  rewrite try_none. 2: { cbn [run_parser]. rewrite Et. unfold std_pcfg, pc_arr, std_arr, as_param. cbn [list_ascii_of_string]. rewrite (no_start ","%char c), andb_false_r by (exact Hc || reflexivity). reflexivity. }
  rewrite try_none. 2: { cbn [run_parser]. rewrite Et. unfold std_pcfg, pc_arr, std_arr, as_close. cbn [list_ascii_of_string]. rewrite (no_start "]"%char c), andb_false_r by (exact Hc || reflexivity). reflexivity. }
  cbn [try_parsers run_parser]. rewrite (name_match n rest Hn Ho). reflexivity.
Qed.
(** A constant followed by a digit or underscore is read, and the rest left *)
Definition apart_consts (f : str) : bool := forallb (fun w => negb (prefixb w f) || negb (letter_end f (length w)) || seq_eqb w f) constant_names.
Lemma funcs_apart L : forallb apart_consts (map fst (std_funcs L)) = true.
Proof. lazy. reflexivity. Qed.
Lemma take_rest (p : ascii -> bool) (s : str) : exists x r, s = x ++ r /\ Forall (fun c => p c = true) x /\ match r with [] => True | c :: _ => p c = false end.
Proof.
  induction s as [|c s (x & r & E & F & R)]; [exists [], []; repeat split; constructor|]. destruct (p c) eqn:P.
  - exists (c :: x), r. split; [cbn [app]; congruence|]. split; [constructor; assumption|exact R].
  - exists [], (c :: s). repeat split; [constructor|exact P].
Qed.
Lemma const_read L rec fl cur w d r lft : In w constant_names -> name_char d -> ~ letter d ->
  exists v u, assoc w (std_consts L) = Some (v, u) /\
    try_parsers (std_pcfg L) rec (pc_parsers (std_pcfg L)) fl cur (w ++ d :: r) lft = (PRitems [IConst w v u] (length w) false, lft).
Proof.
  intros Hw Hd Hl. destruct (take_rest is_word r) as (x & rest & -> & Fx & Rx).
  assert (Aw : Forall (fun c => is_alpha c = true) w /\ w <> [] /\ length w <= 3).
  { unfold constant_names in Hw. cbn [map In] in Hw. repeat (destruct Hw as [<-|Hw]; [split; [repeat constructor|split; [discriminate|cbn; lia]]|]). destruct Hw. }
  destruct Aw as (Aw & Nw & Lw). assert (Dw : is_alpha d = false) by (apply alpha_not, Hl).
  assert (Hn : is_name (w ++ d :: x)).
  { destruct w as [|a w]; [congruence|]. exists a, (w ++ d :: x). split; [reflexivity|]. rewrite Forall_cons_iff in Aw. destruct Aw as [Aa Aw]. split; [left; apply letter_iff, Aa|].
    apply Forall_app. split; [eapply Forall_impl; [|exact Aw]; intros c Hc; left; apply letter_iff, Hc|]. constructor; [exact Hd|].
    eapply Forall_impl; [|exact Fx]. intros c Hc. apply word_iff, Hc. }
  assert (Ho : name_over rest) by (destruct rest as [|c rest]; [exact I|]; apply word_not, Rx).
  assert (Na : forall y, Forall (fun c => is_alpha c = true) y -> w ++ d :: x <> y).
  { intros y Fy E. rewrite <- E, Forall_app in Fy. destruct Fy as [_ Fy]. apply Forall_inv in Fy. congruence. }
  assert (Nc : forall y, Forall (fun c => is_alpha c = true) y -> ~ caseless (w ++ d :: x) y).
  { intros y Fy C. unfold caseless in C. remember (w ++ d :: x) as n eqn:En. assert (In d n) by (rewrite En; apply in_or_app; right; left; reflexivity).
    clear -C Fy H Hl. induction C as [|a b n y Hab C IH]; [destruct H|]. rewrite Forall_cons_iff in Fy. destruct Fy as [Fb Fy]. destruct H as [->|H]; [|exact (IH Fy H)].
    apply letter_iff in Fb. apply Hl. destruct Hab as [->|(k & Hk & K)]; [exact Fb|]. unfold letter. lia. }
  replace (w ++ d :: x ++ rest) with ((w ++ d :: x) ++ rest) by (rewrite <- app_assoc; reflexivity).
  change (pc_parsers (std_pcfg L)) with (std_parsers L). rewrite parsers_split, before_consts; [|exact Hn|exact Ho| | | | |].
  - cbn [try_parsers run_parser].
    assert (M : match_alpha ((w ++ d :: x) ++ rest) = Some w).
    { unfold match_alpha. rewrite <- app_assoc, take_exact; [destruct w; [congruence|reflexivity]|exact Aw|exact Dw]. }
    rewrite M. destruct (assoc w (std_consts L)) as [[v u]|] eqn:A; [exists v, u; split; reflexivity|]. exfalso.
    unfold constant_names in Hw. cbn [map In] in Hw. repeat (destruct Hw as [<-|Hw]; [discriminate A|]). destruct Hw.
  - intros K. destruct (words_alpha _ K) as [_ Fa]. exact (Na _ Fa eq_refl).
  - apply Nc. repeat constructor.
  - apply Nc. repeat constructor.
  - intros [y E]. destruct w as [|a w]; [congruence|]. assert (Ea : a = "I"%char) by (injection E as ->; reflexivity). subst a.
    unfold constant_names in Hw. cbn [map In list_ascii_of_string] in Hw. repeat (destruct Hw as [Hw|Hw]; [discriminate Hw|]). destruct Hw.
  - intros [K _]. pose proof (funcs_apart L) as FA. rewrite forallb_forall in FA. specialize (FA _ K). unfold apart_consts in FA. rewrite forallb_forall in FA. specialize (FA w Hw).
    assert (P : prefixb w (w ++ d :: x) = true) by (apply prefixb_iff; eexists; reflexivity).
    assert (Le : letter_end (w ++ d :: x) (length w) = true) by (unfold letter_end; rewrite nth_after, Dw; reflexivity).
    rewrite P, Le in FA. cbn [negb orb] in FA. apply seq_eqb_iff in FA. apply (Na w Aw). symmetry. exact FA.
Qed.

(** * Whole texts *)
Lemma loop_step C rec k fl done cur n rest items len lft l : rest <> [] -> 1 <= len ->
  try_parsers C rec (pc_parsers C) fl cur rest lft = (PRitems items len false, l) ->
  parse_loop C rec (S k) fl done cur n rest lft = parse_loop C rec k fl done (cur ++ items) (n + len) (skipn len rest) l.
Proof.
  intros Hr Hl H. cbn [parse_loop]. rewrite H. destruct rest as [|c rest]; [congruence|]. destruct len; [lia|]. reflexivity.
Qed.
Lemma space_read L rec fl cur r lft : try_parsers (std_pcfg L) rec (pc_parsers (std_pcfg L)) fl cur (" "%char :: r) lft = (PRitems [INon NSpace ($" ")] 1 false, lft).
Proof.
  change (pc_parsers (std_pcfg L)) with (std_parsers L). unfold std_parsers. cbv zeta.
  rewrite try_none. 2: { cbn [run_parser]. unfold parse_term. replace (prefixb [newline] (" "%char :: r)) with false by reflexivity. destruct (fl_ign fl); reflexivity. }
  cbn [try_parsers run_parser]. reflexivity.
Qed.
Lemma gap_read L rec fl done lft : forall j k cur n rest,
  parse_loop (std_pcfg L) rec (j + k) fl done cur n (gap j ++ rest) lft =
  parse_loop (std_pcfg L) rec k fl done (cur ++ repeat (INon NSpace ($" ")) j) (n + j) rest lft.
Proof.
  induction j as [|j IH]; intros k cur n rest; cbn [gap repeat app Nat.add].
  - rewrite app_nil_r, Nat.add_0_r. reflexivity.
  - rewrite (loop_step _ _ _ _ _ _ _ _ [INon NSpace ($" ")] 1 _ lft); [|discriminate|lia|apply space_read]. cbn [skipn]. change (repeat " "%char j) with (gap j).
    rewrite IH, <- app_assoc. cbn [app]. replace (n + 1 + j) with (n + S j) by lia. reflexivity.
Qed.
Definition equals_then (r : str) : Prop := match r with [] => False | c :: _ => c = " "%char \/ is_word_start c = true end.
Lemma equals_match r : equals_then r -> match_op std_symbols ("="%char :: r) = Some ($"=").
Proof.
  destruct r as [|c r]; [intros []|]. intros H. assert (K : ceq c "=" = false /\ ceq c "~" = false /\ ceq c ">" = false).
  { destruct H as [->|H]; [repeat split|]. split; [|split]; [apply (proj2 (start_apart c "="%char H eq_refl))|apply (proj2 (start_apart c "~"%char H eq_refl))|apply (proj2 (start_apart c ">"%char H eq_refl))]. }
  clear H. destruct c as [[] [] [] [] [] [] [] []]; try (exfalso; destruct K as (? & ? & ?); discriminate); clear K; lazy; reflexivity.
Qed.
Lemma equals_read L rec fl cur r lft : equals_then r ->
  try_parsers (std_pcfg L) rec (pc_parsers (std_pcfg L)) fl cur ("="%char :: r) lft = (PRitems [IOp ($"=")] 1 false, lft).
Proof.
  intros H. change (pc_parsers (std_pcfg L)) with (std_parsers L). unfold std_parsers. cbv zeta.
  rewrite try_none. 2: { cbn [run_parser]. unfold parse_term. replace (prefixb [newline] ("="%char :: r)) with false by reflexivity. destruct (fl_ign fl); reflexivity. }
  rewrite try_none by reflexivity. rewrite try_none by reflexivity. rewrite try_none by reflexivity.
  assert (Gl : forall f, f ("="%char :: r) = Ok None -> run_parser (std_pcfg L) rec (PLit true f) fl cur ("="%char :: r) lft = (PRnone, lft)).
  { intros f Hf. cbn [run_parser]. rewrite Hf. destruct (negb true || _); reflexivity. }
  do 7 (rewrite try_none by (apply Gl; reflexivity)).
  cbn [try_parsers run_parser]. unfold std_pcfg, pc_ops. rewrite symbols_of, (equals_match r H). reflexivity.
Qed.
Lemma name_len n : is_name n -> 1 <= length n. Proof. intros (c & r & -> & _). cbn. lia. Qed.
Lemma no_starts_open r : ~ starts ($"(") [] /\ (forall c, c <> "("%char -> ~ starts ($"(") (c :: r)).
Proof. split; [intros [x E]; discriminate E|]. intros c Hc [x E]. cbn [list_ascii_of_string app] in E. apply Hc. congruence. Qed.
Lemma name_last L rec fl cur n lft : is_name n -> ~ taken n -> fl_arr fl = false ->
  try_parsers (std_pcfg L) rec (pc_parsers (std_pcfg L)) fl cur n lft = (PRitems [IVar n] (length n) false, lft).
Proof.
  intros Hn Ht Hf. pose proof (name_read L rec fl cur n [] lft Hn I Ht) as R. rewrite app_nil_r in R. apply R; [rewrite Hf; discriminate|]. intros [_ [x E]]. discriminate E.
Qed.
Lemma name_parse L n lft : is_name n -> ~ taken n -> parse_text (std_pcfg L) n lft = (POk [[IVar n]] (length n) None, lft).
Proof.
  intros Hn Ht. unfold parse_text. cbn [parse]. pose proof (name_len n Hn) as Ln. destruct (length n) as [|k] eqn:El; [lia|].
  rewrite (loop_step _ _ _ _ _ _ _ _ [IVar n] (length n) _ lft).
  - rewrite skipn_all. cbn [parse_loop app]. rewrite El. reflexivity.
  - intros ->. discriminate El.
  - lia.
  - apply name_last; [exact Hn|exact Ht|reflexivity].
Qed.
Lemma copy_parse L n j k m lft : is_name n -> ~ taken n -> is_name m -> ~ taken m ->
  parse_text (std_pcfg L) (n ++ gap j ++ $"=" ++ gap k ++ m) lft =
  (POk [[IVar n] ++ repeat (INon NSpace ($" ")) j ++ [IOp ($"=")] ++ repeat (INon NSpace ($" ")) k ++ [IVar m]] (length n + j + 1 + k + length m) None, lft).
Proof.
  intros Hn Ht Hm Hu. unfold parse_text. cbn [parse]. pose proof (name_len n Hn) as Ln. pose proof (name_len m Hm) as Lm.
  set (t := n ++ gap j ++ $"=" ++ gap k ++ m).
  assert (Lt : length t = length n + (j + (1 + (k + length m)))) by (unfold t, gap; rewrite !app_length, !repeat_length; reflexivity).
  set (a := length n - 1 + (length m - 1)).
  replace (S (length t)) with (S (j + S (k + S (S a)))) by (unfold a; lia).
  assert (On : name_over (gap j ++ $"=" ++ gap k ++ m) /\ ~ starts ($"(") (gap j ++ $"=" ++ gap k ++ m)).
  { assert (D : exists c r, gap j ++ $"=" ++ gap k ++ m = c :: r /\ (c = " "%char \/ c = "="%char)) by (destruct j; eexists; eexists; (split; [reflexivity|tauto])).
    destruct D as (c & r & -> & Hc). split; [destruct Hc as [->| ->]; cbn [name_over]; unfold name_char, letter; change (code " ") with 32%Z; change (code "=") with 61%Z; lia|].
    apply no_starts_open. destruct Hc as [->| ->]; discriminate. }
  rewrite (loop_step _ _ _ _ _ _ _ _ [IVar n] (length n) _ lft).
  2: { unfold t. destruct n; [cbn in Ln; lia|discriminate]. }
  2: exact Ln.
  2: { apply name_read; [exact Hn|apply On|exact Ht|discriminate|]. intros [_ K]. apply On, K. }
  unfold t. rewrite skipn_app_len by reflexivity. cbn [app]. rewrite gap_read.
  rewrite (loop_step _ _ _ _ _ _ _ _ [IOp ($"=")] 1 _ lft); [|discriminate|lia|].
  2: { apply equals_read. destruct k; cbn [gap repeat app equals_then]; [|left; reflexivity]. destruct Hm as (c & r & -> & Hc & _). right. apply start_iff, Hc. }
  cbn [skipn app list_ascii_of_string]. rewrite gap_read.
  rewrite (loop_step _ _ _ _ _ _ _ _ [IVar m] (length m) _ lft).
  2: { destruct m; [cbn in Lm; lia|discriminate]. }
  2: exact Lm.
  2: { apply name_last; [exact Hm|exact Hu|reflexivity]. }
  rewrite skipn_all. cbn [parse_loop app]. rewrite <- !app_assoc. cbn [app]. rewrite Nat.add_0_l. reflexivity.
Qed.
