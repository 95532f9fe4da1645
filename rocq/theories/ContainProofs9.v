(** What the calculators with units and dates, and with regular expressions, are assumed to be in the theorem that failures
    are contained. *)
From Coq Require Import ZArith QArith Ascii String List Bool Lia.
From Verif Require Import Base Dec Num Bases Units UnitReg Syntax Call Loop Parse Exec Formats Std UnitCalc Dates Regex InstallProofs ErrorSpec ErrorProofs3
  ContainSpec ContainSpec2 ContainProofs ContainProofs2 ContainProofs4 ContainProofs5 ContainProofs6 ContainProofs7 ContainProofs8 BaseProofs.
Import ListNotations.
Open Scope nat_scope.

(** * How the operators are declared *)
Definition row_decl (p : str * operator) : Prop := no_symbols (op_l (snd p)) /\ after_operands false (op_r (snd p)).
Definition row_plain (p : str * operator) : Prop := fst p = $"then" \/ no_symbols (op_r (snd p)).
Lemma std_rows_decl L : Forall (fun p => row_decl p /\ row_plain p) (concat (std_levels L)).
Proof.
  unfold row_decl, row_plain, std_levels. cbn [concat app].
  repeat (apply Forall_cons; [split; [cbn; split; [intros x Hx; cbn in Hx; intuition congruence|tauto]|first [left; reflexivity|right; intros x Hx; cbn in Hx; intuition congruence]]|]).
  apply Forall_nil.
Qed.
Lemma infix_decl s d : row_decl (infix s d) /\ row_plain (infix s d).
Proof. split; [split; [intros x [<-|[]]; reflexivity|cbn; tauto]|right; intros x [<-|[]]; reflexivity]. Qed.
Lemma regex_rows_decl L R : Forall (fun p => row_decl p /\ row_plain p) (concat (t_levels (regex_table L R))).
Proof.
  cbn [t_levels regex_table]. rewrite concat_app. cbn [concat]. apply Forall_app. pose proof (std_rows_decl L) as H.
  rewrite <- (firstn_skipn 2 (std_levels L)), concat_app in H. apply Forall_app in H. destruct H as [H1 H2]. split; [exact H1|]. apply Forall_app. split; [|exact H2].
  repeat (apply Forall_cons; [apply infix_decl|]). apply Forall_nil.
Qed.
Lemma date_rows_decl D : Forall (fun p => row_decl p /\ row_plain p) (concat (t_levels (date_table D))).
Proof.
  apply Forall_forall. intros p Hp. cbn [t_levels date_table] in Hp. apply date_rows in Hp. destruct Hp as [Hp|Hp].
  - pose proof (std_rows_decl (u_lib (dl_units D))) as H. rewrite Forall_forall in H. auto.
  - cbn [In] in Hp. repeat (destruct Hp as [<-|Hp]; [apply infix_decl|]). destruct Hp.
Qed.
Lemma rows_proper u T n : Forall (fun p => row_decl p /\ row_plain p) (concat (t_levels T)) ->
  unwritten_infix T -> (forall l, In l (t_levels T) -> l <> []) -> (forall l, In l (firstn n (t_levels T)) -> ~ In ($"then") (map fst l)) ->
  (exists l, In l (firstn n (t_levels T)) /\ in_level (t_imul T) l = true) ->
  (u = true -> (exists l, In l (firstn n (t_levels T)) /\ in_level (t_uassign T) l = true) /\ (exists l, In l (firstn n (t_levels T)) /\ in_level (t_umul T) l = true)) ->
  proper_table u T.
Proof.
  intros G Hu He Ht Hi Hm. rewrite Forall_forall in G. split; [exact Hu|]. split; [exact He|]. split.
  - intros s o H. unfold find_op in H. apply assoc_some_in, in_rev in H. apply (G _ H).
  - exists (firstn n (t_levels T)), (skipn n (t_levels T)). split; [symmetry; apply firstn_skipn|]. split; [|split; [exact Hi|exact Hm]].
    intros l s o Hl Hs H. unfold find_op in H. apply assoc_some_in, in_rev in H. destruct (G _ H) as [_ [K|K]]; [|exact K]. cbn [fst] in K. subst s. exfalso. exact (Ht _ Hl Hs).
Qed.
Lemma regex_proper L R : proper_table false (regex_table L R).
Proof.
  apply (rows_proper false (regex_table L R) 4); [apply regex_rows_decl| | | | |discriminate].
  - intros s o [H|[H|[H|H]]] Ho; try discriminate. assert (Es : s = $"IMPLICIT_MULTIPLY") by (injection H as <-; reflexivity). subst s.
    assert (Hin : In ($"IMPLICIT_MULTIPLY", o) (concat (t_levels (regex_table L R)))) by (unfold find_op in Ho; apply in_rev, assoc_some_in, Ho).
    cbn [t_levels regex_table] in Hin. unfold std_levels, regex_level in Hin. cbn [firstn skipn concat app] in Hin.
    repeat (destruct Hin as [Hin|Hin]; [try discriminate Hin; assert (Eo : op_l (snd ($"IMPLICIT_MULTIPLY", o)) = [None] /\ op_r (snd ($"IMPLICIT_MULTIPLY", o)) = [None]) by (rewrite <- Hin; split; reflexivity); exact Eo|]). destruct Hin.
  - intros l Hl. cbn [t_levels regex_table] in Hl. unfold std_levels, regex_level in Hl. cbn [firstn skipn app In] in Hl. repeat (destruct Hl as [<-|Hl]; [discriminate|]). destruct Hl.
  - intros l Hl Hs. cbn [t_levels regex_table] in Hl. unfold std_levels, regex_level in Hl. cbn [firstn skipn app In] in Hl.
    repeat (destruct Hl as [<-|Hl]; [cbn [map fst In infix op2] in Hs; repeat (destruct Hs as [Hs|Hs]; [discriminate Hs|]); destruct Hs|]). destruct Hl.
  - eexists. split; [right; right; right; left; reflexivity|reflexivity].
Qed.
Lemma in_names A (x : str) (l : list (str * A)) : In x (map fst l) <-> mem_str x (map fst l) = true.
Proof. symmetry. apply UnitsProofs5.mem_str_iff. Qed.
Lemma in_firstn A (d : A) : forall k n l, k < n -> k < length l -> In (nth k l d) (firstn n l).
Proof.
  induction k as [|k IH]; intros n l Hn Hl; (destruct n as [|n]; [lia|]); (destruct l as [|x l]; [cbn [length] in Hl; lia|]); cbn [firstn nth];
    [left; reflexivity|right; apply IH; cbn [length] in *; lia].
Qed.
Lemma date_proper D : proper_table true (date_table D).
Proof.
  apply (rows_proper true (date_table D) 5); [apply date_rows_decl| | | | |].
  - intros s o Hs Ho.
    assert (Hin : In (s, o) (concat (date_levels D))) by (unfold find_op in Ho; apply in_rev, assoc_some_in, Ho). apply date_rows in Hin. destruct Hin as [Hin|Hin].
    + destruct Hs as [H|[H|[H|H]]]; (assert (Es : s = $"UNIT_ASSIGNMENT" \/ s = $"UNIT_MULTIPLY" \/ s = $"UNIT_DIVIDE" \/ s = $"IMPLICIT_MULTIPLY") by (injection H as <-; auto)); clear H Ho;
      unfold std_levels in Hin; cbn [concat app] in Hin;
      repeat (destruct Hin as [Hin|Hin]; [first [assert (Eo : op_l (snd (s, o)) = [None] /\ op_r (snd (s, o)) = [None]) by (rewrite <- Hin; split; reflexivity); exact Eo
        | exfalso; apply (f_equal fst) in Hin; cbn [fst infix op2] in Hin; rewrite <- Hin in Es; destruct Es as [Es|[Es|[Es|Es]]]; discriminate Es] |]); destruct Hin.
    + cbn [In] in Hin. change o with (snd (s, o)). repeat (destruct Hin as [Hin|Hin]; [rewrite <- Hin; split; reflexivity|]). destruct Hin.
  - intros l Hl. assert (H : In (is_nil l) (map is_nil (t_levels (date_table D)))) by (apply in_map, Hl). intros ->.
    replace (map is_nil (t_levels (date_table D))) with (repeat false (length (t_levels (date_table D)))) in H by (lazy; reflexivity). apply repeat_spec in H. discriminate H.
  - intros l Hl Hs. apply in_names in Hs. assert (H : In (mem_str ($"then") (map fst l)) (map (fun l => mem_str ($"then") (map fst l)) (firstn 5 (t_levels (date_table D))))) by (apply in_map with (f := fun l => mem_str ($"then") (map fst l)), Hl).
    rewrite Hs in H. replace (map (fun l => mem_str ($"then") (map fst l)) (firstn 5 (t_levels (date_table D)))) with (repeat false 5) in H by (lazy; reflexivity). apply repeat_spec in H. discriminate H.
  - exists (nth 4 (t_levels (date_table D)) []). split; [apply in_firstn; [lia|lazy; lia]|lazy; reflexivity].
  - intros _. split; [exists (nth 3 (t_levels (date_table D)) [])|exists (nth 2 (t_levels (date_table D)) [])]; (split; [apply in_firstn; [lia|lazy; lia]|lazy; reflexivity]).
Qed.

(** * The symbols in arrays *)
Lemma no_call C rec names fl cur r lft : mem_str ($"step" ++ take_while is_word r) names = false ->
  run_parser C rec (PFunc names) fl cur ($"step" ++ r) lft = (PRnone, lft).
Proof.
  intros H. unfold run_parser. cbv zeta. change (match_name ($"step" ++ r)) with (Some ($"step" ++ take_while is_word r)). cbv iota.
  rewrite H, andb_false_r. reflexivity.
Qed.
Lemma regex_array_symbols L R : array_symbols (g_parse (with_regex L R)).
Proof.
  intros m rec r lft [->| ->]; (split; [discriminate|]); [lazy; reflexivity|].
  cbn [pc_parsers with_regex g_parse]. unfold regex_parsers, std_parsers. cbv zeta. cbn [map]. do 14 (rewrite try_none by reflexivity).
  rewrite try_none by (apply (no_call _ _ _ _ _ r); lazy; reflexivity). lazy. reflexivity.
Qed.
Lemma bound_in_iff A k (l : list (str * A)) : bound_in k l = true -> In k (map fst l).
Proof.
  unfold bound_in. induction l as [|[n x] l IH]; cbn [assoc map fst In]; [discriminate|]. destruct (seq_eqb n k) eqn:E; [|intros H; right; auto].
  intros _. left. apply seq_eqb_iff, E.
Qed.
Lemma not_bound A k (l : list (str * A)) : forallb (fun e => no_array_word (fst e)) l = true -> no_array_word k = false -> bound_in k l = false.
Proof.
  intros H K. destruct (bound_in k l) eqn:E; [|reflexivity]. apply bound_in_iff, in_map_iff in E. destruct E as [e [<- He]].
  rewrite forallb_forall in H. rewrite (H e He) in K. discriminate.
Qed.
Lemma lex_unit_range N b r : names_apart N = true -> forall n, lex_unit N b ($".." ++ r) n = Ok None.
Proof.
  intros H. unfold names_apart in H. apply andb_true_iff in H. destruct H as [H _]. apply andb_true_iff in H. destruct H as [H1 H2].
  induction n as [|n IH]; [reflexivity|]. cbn [lex_unit].
  assert (K : forall t, t = firstn (S n) ($".." ++ r) -> no_array_word (lower t) = false /\ no_array_word t = false).
  { intros t ->. destruct n; (split; reflexivity). }
  destruct (K _ eq_refl) as [K1 K2]. rewrite (not_bound _ _ _ H1 K1), (not_bound _ _ _ H2 K2), andb_false_r. exact IH.
Qed.
Lemma lex_unit_step N b r : names_apart N = true -> forall n, lex_unit N b ($"step" ++ r) n = Ok None.
Proof.
  intros H. unfold names_apart in H. apply andb_true_iff in H. destruct H as [H _]. apply andb_true_iff in H. destruct H as [H1 H2].
  induction n as [|n IH]; [reflexivity|]. cbn [lex_unit].
  assert (K : unit_end ($"step" ++ r) (S n) = false \/ forall t, t = firstn (S n) ($"step" ++ r) -> no_array_word (lower t) = false /\ no_array_word t = false).
  { destruct n as [|[|[|n]]]; [left; reflexivity..|right]. intros t ->. split; reflexivity. }
  destruct K as [K|K]; [rewrite K, !andb_false_r; exact IH|].
  destruct (K _ eq_refl) as [K1 K2]. rewrite (not_bound _ _ _ H1 K1), (not_bound _ _ _ H2 K2), andb_false_r. exact IH.
Qed.
Lemma no_word (ws : list str) s : forallb no_array_word ws = true -> (forall w, no_array_word w = true -> prefixb w s && letter_end s (length w) = false) -> match_word ws s = None.
Proof.
  intros H K. unfold match_word. induction ws as [|w ws IH]; [reflexivity|]. cbn [forallb] in H. apply andb_true_iff in H. destruct H as [H1 H2]. cbn [find].
  rewrite (K w H1). auto.
Qed.
Lemma no_word_range r w : no_array_word w = true -> prefixb w ($".." ++ r) && letter_end ($".." ++ r) (length w) = false.
Proof.
  destruct w as [|c w]; [discriminate|]. intros H. apply andb_false_intro1. cbn [prefixb app list_ascii_of_string].
  destruct (ceq c ".") eqn:E; [|reflexivity]. exfalso. apply ceq_iff in E. subst c. unfold no_array_word in H. cbn in H. discriminate H.
Qed.
Lemma no_word_step r w : no_array_word w = true -> prefixb w ($"step" ++ r) && letter_end ($"step" ++ r) (length w) = false.
Proof.
  intros H. destruct (prefixb w ($"step" ++ r)) eqn:E; [|reflexivity]. cbn [andb]. destruct w as [|c1 w]; [discriminate|].
  assert (G : forall x (a : ascii) b, prefixb (x :: w) (a :: b) = true -> x = a /\ prefixb w b = true) by
    (intros x a b K; cbn [prefixb] in K; apply andb_true_iff in K; destruct K as [K1 K2]; apply ceq_iff in K1; auto).
  cbn [app list_ascii_of_string] in E. apply G in E. destruct E as [-> E]. clear G.
  destruct w as [|c2 w]; [reflexivity|]. cbn [prefixb] in E. apply andb_true_iff in E. destruct E as [E1 E]. apply ceq_iff in E1. subst c2.
  destruct w as [|c3 w]; [reflexivity|]. cbn [prefixb] in E. apply andb_true_iff in E. destruct E as [E1 E]. apply ceq_iff in E1. subst c3.
  destruct w as [|c4 w]; [reflexivity|]. cbn [prefixb] in E. apply andb_true_iff in E. destruct E as [E1 E]. apply ceq_iff in E1. subst c4.
  exfalso. unfold no_array_word in H. cbn in H. discriminate H.
Qed.
Lemma no_unit C rec f fl cur s lft : f s = Ok None -> run_parser C rec (PUnit f) fl cur s lft = (PRnone, lft).
Proof. intros H. unfold run_parser. cbv zeta. rewrite H. reflexivity. Qed.
Lemma no_system C rec ws fl cur s lft : match_word ws s = None -> run_parser C rec (PWord true ws) fl cur s lft = (PRnone, lft).
Proof. intros H. unfold run_parser. cbv zeta. rewrite H. reflexivity. Qed.
Lemma no_const C rec cs fl cur s w lft : match_alpha s = Some w -> assoc w cs = None -> run_parser C rec (PConst cs) fl cur s lft = (PRnone, lft).
Proof. intros H K. unfold run_parser. cbv zeta. rewrite H, K. reflexivity. Qed.
Lemma const_apart U n t l w : seq_eqb n w = false -> assoc w (unit_const U n t l) = None.
Proof. intros H. unfold unit_const. destruct (make_multiunit _ _); try reflexivity. cbn [assoc]. rewrite H. reflexivity. Qed.
Lemma assoc_app_none A k (a b : list (str * A)) : assoc k a = None -> assoc k b = None -> assoc k (a ++ b) = None.
Proof. induction a as [|[n x] a IH]; cbn [assoc app]; [auto|]. destruct (seq_eqb n k); [discriminate|auto]. Qed.
Lemma step_no_const U r : assoc ($"step" ++ r) (unit_consts U) = None.
Proof.
  unfold unit_consts. apply assoc_app_none; [lazy; reflexivity|]. repeat apply assoc_app_none; apply const_apart; reflexivity.
Qed.
Lemma date_array_symbols D : names_apart (u_norm (dl_units D)) = true -> array_symbols (g_parse (with_dates D)).
Proof.
  intros HN m rec r lft Hm. assert (HW : forallb no_array_word (n_systems (u_norm (dl_units D))) = true) by (unfold names_apart in HN; apply andb_true_iff in HN; apply HN).
  destruct Hm as [-> | ->]; (split; [discriminate|]); cbn [pc_parsers with_dates g_parse]; unfold date_parsers, unit_parsers, std_parsers; cbv zeta; cbn [flat_map map app].
  - do 22 (rewrite try_none by reflexivity). rewrite try_none by (apply no_unit, lex_unit_range, HN).
    rewrite try_none by (apply no_system, no_word; [exact HW|apply no_word_range]). lazy. reflexivity.
  - do 14 (rewrite try_none by reflexivity). rewrite try_none by (apply (no_call _ _ _ _ _ r); lazy; reflexivity).
    do 6 (rewrite try_none by reflexivity). rewrite try_none by (eapply no_const; [reflexivity|apply (step_no_const _ (take_while is_alpha r))]).
    rewrite try_none by (apply no_unit, lex_unit_step, HN).
    rewrite try_none by (apply no_system, no_word; [exact HW|apply no_word_step]). lazy. reflexivity.
Qed.

(** * The calculators *)
Lemma assoc_names A name (l : list (str * A)) : In name (map fst l) -> exists d, assoc name l = Some d.
Proof.
  induction l as [|[k d] l IH]; [intros []|]. cbn [map fst In assoc]. destruct (seq_eqb k name) eqn:E; [eauto|]. intros [->|H]; [rewrite seq_eqb_refl in E; discriminate|auto].
Qed.
Theorem library_contained : forall G u n fl text s, proper_table u (g_ops G) -> array_symbols (g_parse G) ->
  env_sane u (g_env (displayed G)) -> table_ok u (g_ops G) -> Forall (fun_ok u) (g_funcs G) ->
  (forall t, unwritten (g_ops G) t -> find_op (g_ops G) t <> None) ->
  (forall r, sane_res u r -> is_exc (rval r) = false -> g_final G r <> Py) -> usable_vars u s ->
  match fst (parse_text (g_parse G) text (s_lft s)) with
  | POk sts _ _ => Forall (Forall (tame u (fun t => find_op (g_ops G) t <> None) (fun f => In f (map fst (g_funcs G)) /\ f <> $"element"))) sts
  | PCalc | PPy => False | _ => True end ->
  shown_at text (fst (calculate (displayed G) n fl text s)).
Proof.
  intros G u n fl text s HP HA HE HT HF HU HG Hs Ht.
  eapply (calculate_contained (displayed G) u (fun t => find_op (g_ops G) t <> None) (fun f => In f (map fst (g_funcs G)) /\ f <> $"element")); [exact HP|exact HA| | |exact HG|exact Hs|exact Ht].
  - split; [exact HU|]. intros t H. destruct (find_op (g_ops G) t) as [o|] eqn:E; [|contradiction]. eapply callop_contained; [exact HE|exact HT|exact E].
  - intros name [H1 H2]. destruct (assoc_names _ _ _ H1) as [d E]. exists d. split; [exact E|]. rewrite Forall_forall in HF.
    destruct (HF _ (assoc_some_in _ _ _ E)) as [K|[K1 K2]]; [contradiction|]. apply func_contained; [exact HE|exact HT|exact K1|exact K2].
Qed.
Lemma find_in T l t : In l (t_levels T) -> mem_str t (map fst l) = true -> find_op T t <> None.
Proof. intros Hl Ht. destruct (find_op_in T l t Hl) as [o E]; [apply UnitsProofs5.mem_str_iff, Ht|]. rewrite E. discriminate. Qed.
Lemma regex_unwritten L R t : unwritten (regex_table L R) t -> find_op (regex_table L R) t <> None.
Proof.
  intros [H|[H|[H|H]]]; try discriminate. assert (Et : t = $"IMPLICIT_MULTIPLY") by (injection H as <-; reflexivity). rewrite Et.
  apply (find_in _ (nth 3 (t_levels (regex_table L R)) [])); [right; right; right; left; reflexivity|reflexivity].
Qed.
Lemma date_unwritten D t : unwritten (date_table D) t -> find_op (date_table D) t <> None.
Proof.
  assert (G : forall k, k < length (t_levels (date_table D)) -> In (nth k (t_levels (date_table D)) []) (t_levels (date_table D))) by (intros k Hk; apply nth_In, Hk).
  intros [H|[H|[H|H]]]; [assert (Et : t = $"UNIT_ASSIGNMENT") by (injection H as <-; reflexivity)|assert (Et : t = $"UNIT_MULTIPLY") by (injection H as <-; reflexivity)
    |assert (Et : t = $"UNIT_DIVIDE") by (injection H as <-; reflexivity)|assert (Et : t = $"IMPLICIT_MULTIPLY") by (injection H as <-; reflexivity)]; rewrite Et; clear H.
  - apply (find_in _ (nth 3 (t_levels (date_table D)) [])); [apply G; lazy; lia|lazy; reflexivity].
  - apply (find_in _ (nth 2 (t_levels (date_table D)) [])); [apply G; lazy; lia|lazy; reflexivity].
  - apply (find_in _ (nth 2 (t_levels (date_table D)) [])); [apply G; lazy; lia|lazy; reflexivity].
  - apply (find_in _ (nth 4 (t_levels (date_table D)) [])); [apply G; lazy; lia|lazy; reflexivity].
Qed.
Lemma finalize_fine U : u_simplify U = false -> forall r, exists y, finalize U r = Ok y.
Proof.
  intros H. fix IH 1. intros [v u f o]. destruct v; try (cbn [finalize]; rewrite H; destruct u; cbn [andb]; eexists; reflexivity).
  cbn [finalize]. match goal with |- exists y, (do l' <- ?g ?l; _) = _ => assert (A : exists z, g l = Ok z) end.
  { induction l as [|x l IHl]; [eexists; reflexivity|]. destruct (IH x) as [y Hy]. rewrite Hy. cbn [obind]. destruct IHl as [z Hz]. rewrite Hz. eexists. reflexivity. }
  destruct A as [z ->]. eexists. reflexivity.
Qed.
Theorem regex_contained : forall L R n fl text s, usable_vars false s ->
  match fst (parse_text (g_parse (with_regex L R)) text (s_lft s)) with
  | POk sts _ _ => Forall (Forall (tame false (fun t => find_op (regex_table L R) t <> None) (fun f => In f (map fst (regex_funcs L R)) /\ f <> $"element"))) sts
  | PCalc | PPy => False | _ => True end ->
  shown_at text (fst (calculate (displayed (with_regex L R)) n fl text s)).
Proof.
  intros L R n fl text s. apply (library_contained (with_regex L R) false); [apply regex_proper|apply regex_array_symbols|exact (std_env_sane L)|apply regex_table_ok|apply regex_funs_ok|apply regex_unwritten|discriminate].
Qed.
Theorem dates_contained : forall D n fl text s, u_simplify (dl_units D) = false -> names_apart (u_norm (dl_units D)) = true -> usable_vars true s ->
  match fst (parse_text (g_parse (with_dates D)) text (s_lft s)) with
  | POk sts _ _ => Forall (Forall (tame true (fun t => find_op (date_table D) t <> None) (fun f => In f (map fst (date_funcs D)) /\ f <> $"element"))) sts
  | PCalc | PPy => False | _ => True end ->
  shown_at text (fst (calculate (displayed (with_dates D)) n fl text s)).
Proof.
  intros D n fl text s HS HN. apply (library_contained (with_dates D) true); [apply date_proper|apply date_array_symbols, HN| |apply date_table_ok|apply date_funs_ok|apply date_unwritten|].
  - apply (unit_env_sane _ (dl_units D)); reflexivity.
  - intros r _ _ K. destruct (finalize_fine _ HS r) as [y Hy]. cbn [with_dates g_final] in K. rewrite Hy in K. discriminate K.
Qed.

(** * Checking the condition on a text *)
Definition lib_tameb (G : ecfg) (u : bool) (i : item) : bool :=
  tameb u (fun t => match find_op (g_ops G) t with Some _ => true | None => false end)
          (fun f => mem_str f (map fst (g_funcs G)) && negb (seq_eqb f ($"element"))) i.
Definition text_tameb (G : ecfg) (u : bool) (text : str) : bool :=
  match fst (parse_text (g_parse G) text None) with POk sts _ _ => forallb (forallb (lib_tameb G u)) sts | PErr _ _ => true | _ => false end.
Lemma text_tame G u text : text_tameb G u text = true ->
  match fst (parse_text (g_parse G) text None) with
  | POk sts _ _ => Forall (Forall (tame u (fun t => find_op (g_ops G) t <> None) (fun f => In f (map fst (g_funcs G)) /\ f <> $"element"))) sts
  | PCalc | PPy => False | _ => True end.
Proof.
  unfold text_tameb. destruct (fst (parse_text (g_parse G) text None)) as [sts | | | |]; try discriminate; [|intros _; exact I].
  intros H. apply Forall_forall. intros st Hst. rewrite forallb_forall in H. specialize (H st Hst). rewrite forallb_forall in H.
  apply Forall_forall. intros i Hi. specialize (H i Hi). unfold lib_tameb in H. revert H. apply tameb_tame.
  - intros s K. destruct (find_op (g_ops G) s); [discriminate|discriminate K].
  - intros s K. apply andb_true_iff in K. destruct K as [K1 K2]. split; [apply UnitsProofs5.mem_str_iff, K1|]. intros ->. rewrite seq_eqb_refl in K2. discriminate.
Qed.
