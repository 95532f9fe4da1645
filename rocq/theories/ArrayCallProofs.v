(** Functions of arrays written out. *)
From Coq Require Import ZArith QArith Ascii String List Bool Lia Lqa.
From Verif Require Import Base BaseProofs Dec DecProofs Num NumSpec NumProofs NumProofs2 NumProofs3 NumProofs4 Lex LexSpec Bases BasesProofs Formats Units UnitsProofs5 Install Syntax Pos Call CallSpec Loop LoopSpec LoopProofs Parse Exec ExecSpec Std StdSpec StdProofs2 StdProofs4 StdProofs7 RangeSpec StatSpec StatProofs ContainProofs6 VarNameProofs ArithSpec ArithProofs ArithTextSpec ArrayTextSpec ArithRunSpec ArrayRunSpec ArrayCallSpec ArithTextProofs ArithTextProofs2 ArithTextProofs3 ArithTextProofs4 ArithFunProofs ArithTextProofs5 ArrayTextProofs ArrayTextProofs2.
Import ListNotations.
Open Scope nat_scope.

(** * Reading *)
Definition array_names : list str := $"element" :: array_functions.
Lemma array_name_read L rec fl cur w r lft x : In w array_names ->
  parse_call rec (w ++ "("%char :: r) [INon NFuncName w; INon NFuncStart ($"(")] (length w + 1) w (fun t its args => IFunc t false its w args) lft = x ->
  match fst x with PRitems _ _ _ => True | _ => False end ->
  try_parsers (std_pcfg L) rec (pc_parsers (std_pcfg L)) fl cur (w ++ "("%char :: r) lft = x.
Proof.
  intros Hw Hx Hi. change (pc_parsers (std_pcfg L)) with (std_parsers L). unfold std_parsers. cbv zeta.
  rewrite try_none.
  2: { cbn [run_parser]. unfold parse_term. replace (prefixb [newline] _) with false by (repeat (destruct Hw as [<-|Hw]; [reflexivity|]); destruct Hw). destruct (fl_ign fl); reflexivity. }
  do 3 (rewrite try_none by (repeat (destruct Hw as [<-|Hw]; [reflexivity|]); destruct Hw)).
  assert (Gl : forall f, f (w ++ "("%char :: r) = Ok None -> run_parser (std_pcfg L) rec (PLit true f) fl cur (w ++ "("%char :: r) lft = (PRnone, lft)).
  { intros f Hf. cbn [run_parser]. rewrite Hf. destruct (negb true || _); reflexivity. }
  do 7 (rewrite try_none by (apply Gl; repeat (destruct Hw as [<-|Hw]; [reflexivity|]); destruct Hw)).
  rewrite try_none.
  2: { cbn [run_parser]. unfold std_pcfg, pc_ops. rewrite symbols_of.
       replace (match_op std_symbols (w ++ "("%char :: r)) with (@None str) by (repeat (destruct Hw as [<-|Hw]; [clear; lazy; reflexivity|]); destruct Hw). reflexivity. }
  do 2 (rewrite try_none by (repeat (destruct Hw as [<-|Hw]; [reflexivity|]); destruct Hw)).
  cbn [try_parsers run_parser].
  replace (match_name (w ++ "("%char :: r)) with (Some w) by (repeat (destruct Hw as [<-|Hw]; [reflexivity|]); destruct Hw).
  replace (prefixb ($"(") (skipn (length w) (w ++ "("%char :: r))) with true by (rewrite skipn_app, skipn_all, Nat.sub_diag; reflexivity).
  replace (mem_str w (map fst (std_funcs L))) with true by (repeat (destruct Hw as [<-|Hw]; [clear; lazy; reflexivity|]); destruct Hw). cbn [andb]. rewrite Hx. destruct x as [[] l]; cbn [fst] in Hi; (destruct Hi; fail) || reflexivity.
Qed.
Lemma shape_operand p d i es : list_shape p d i es -> ifunc i = true /\ iisop i = false.
Proof. intros (x1 & x2 & x3 & -> & _). split; reflexivity. Qed.
(** The argument *)
Lemma array_arg_parse L m b1 t b2 es stop kind rest : (forall cur lft, after_operand cur -> try_parsers (std_pcfg L) (parse (std_pcfg L) m) (pc_parsers (std_pcfg L)) func_flags cur (stop :: rest) lft = (PRend [] kind, lft)) -> exp_letter L -> (1 <= l_prec L)%Z -> blank_text b1 -> blank_text b2 -> elements_text t es -> Forall (elem_fits (l_prec L)) es -> length t < m ->
  exists i, list_shape (l_prec L) (length t) i es /\ forall lft,
  parse (std_pcfg L) (S m) func_flags (b1 ++ ($"[" ++ t ++ $"]") ++ b2 ++ stop :: rest) lft = (POk [blank_items b1 ++ [i] ++ blank_items b2] (length (b1 ++ ($"[" ++ t ++ $"]") ++ b2)) (Some kind), lft).
Proof.
  intros Hst He Hp Hb1 Hb2 Ht Hf Hm. destruct (array_on L t es m func_flags (blank_items b1) (b2 ++ stop :: rest) He Hp Ht Hf Hm) as (i & Sh & On). exists i. split; [exact Sh|].
  destruct (shape_operand _ _ _ _ Sh) as [Fi Oi]. intros lft. set (a := $"[" ++ t ++ $"]") in *. cbn [parse].
  assert (G : reads_on L (parse (std_pcfg L) m) func_flags (b1 ++ a ++ b2) [] (stop :: rest) (blank_items b1 ++ [i] ++ blank_items b2)).
  { apply on_then; [apply on_blanks, Hb1|]. change ([] ++ blank_items b1) with (blank_items b1). apply on_then; [exact On|apply on_blanks, Hb2]. }
  assert (Es : b1 ++ a ++ b2 ++ stop :: rest = (b1 ++ a ++ b2) ++ stop :: rest) by (rewrite <- !app_assoc; reflexivity). rewrite Es.
  destruct (G (S (length ((b1 ++ a ++ b2) ++ stop :: rest))) [] 0 lft ltac:(lia)) as (f1 & F1 & E1). rewrite E1. destruct f1 as [|f1]; [cbn in F1; lia|].
  cbn [parse_loop]. rewrite Hst.
  - cbn [app Nat.add]. rewrite app_nil_r. reflexivity.
  - unfold after_operand. change ([] ++ blank_items b1 ++ [i] ++ blank_items b2) with (blank_items b1 ++ [i] ++ blank_items b2). rewrite app_assoc, prev_blanks by apply blanks_items. rewrite (prev_app (blank_items b1) [i] i); [exact Oi|].
    unfold previous_functional_item, functional_items. cbn [filter]. rewrite Fi. reflexivity.
Qed.
Definition call_shape (p : Z) (d : nat) (w : str) (x : item) (es : list aelem) : Prop :=
  exists text items w1 i w2, x = IFunc text false items w [w1 ++ [i] ++ w2] /\ blanks w1 /\ blanks w2 /\ list_shape p d i es.
Lemma array_call_on L w a es m fl cur rest : exp_letter L -> (1 <= l_prec L)%Z -> In w array_functions -> array_text a es -> Forall (elem_fits (l_prec L)) es -> length a < m ->
  exists d x, d + 2 <= length a /\ call_shape (l_prec L) d w x es /\ reads_on L (parse (std_pcfg L) m) fl (w ++ $"(" ++ a ++ $")") cur rest [x].
Proof.
  intros He Hp Hw (b1 & t & b2 & -> & Hb1 & Hb2 & Ht) Hf Hm. set (a := b1 ++ $"[" ++ t ++ $"]" ++ b2) in *.
  assert (La : length a = length b1 + length t + length b2 + 2) by (unfold a; rewrite !app_length; cbn [length list_ascii_of_string]; lia). destruct m as [|m]; [lia|].
  assert (Ea : a = b1 ++ ($"[" ++ t ++ $"]") ++ b2) by (unfold a; rewrite <- !app_assoc; reflexivity).
  destruct (array_arg_parse L m b1 t b2 es ")"%char EFunc rest (fun c lft Ha => end_call_read L _ func_flags c rest lft eq_refl eq_refl Ha) He Hp Hb1 Hb2 Ht Hf ltac:(lia)) as (i & Sh & A1).
  set (text := w ++ $"(" ++ a ++ $")"). set (arg := blank_items b1 ++ [i] ++ blank_items b2) in *.
  assert (Lt : length text = length w + 1 + length a + 1) by (unfold text; rewrite !app_length; cbn [length list_ascii_of_string]; lia).
  assert (En : text ++ rest = w ++ "("%char :: (a ++ ")"%char :: rest)) by (unfold text; rewrite <- !app_assoc; reflexivity).
  assert (Ear : b1 ++ ($"[" ++ t ++ $"]") ++ b2 ++ ")"%char :: rest = a ++ ")"%char :: rest) by (rewrite Ea, <- !app_assoc; reflexivity).
  rewrite Ear, <- Ea in A1.
  exists (length t), (IFunc text false ([INon NFuncName w; INon NFuncStart ($"(")] ++ arg ++ [INon NFuncEnd c_close]) w [arg]).
  split; [lia|]. split; [eexists _, _, _, i, _; split; [reflexivity|]; split; [apply blanks_items|split; [apply blanks_items|exact Sh]]|].
  apply on_token; [unfold text; destruct w; discriminate|]. intros lft. rewrite En. apply array_name_read; [right; exact Hw| |exact I]. unfold parse_call.
  rewrite (args_last _ _ _ _ _ _ arg (length a)).
  - cbn [app]. rewrite <- En, <- Lt, first_app by reflexivity. reflexivity.
  - rewrite <- En, (app_length text), Lt. lia.
  - change (w ++ "("%char :: (a ++ ")"%char :: rest)) with (w ++ $"(" ++ (a ++ ")"%char :: rest)). rewrite app_assoc, skip_app by (rewrite app_length; reflexivity). apply A1.
  - unfold arg. intros E. apply app_eq_nil in E as [_ E]. discriminate E.
Qed.
Lemma array_call_parse L w text es lft : exp_letter L -> (1 <= l_prec L)%Z -> In w array_functions -> array_call_text w text es -> Forall (elem_fits (l_prec L)) es ->
  exists w1 x w2 d, d + 4 <= length text /\ parse_text (std_pcfg L) text lft = (POk [w1 ++ [x] ++ w2] (length text) None, lft) /\ blanks w1 /\ blanks w2 /\ call_shape (l_prec L) d w x es.
Proof.
  intros He Hp Hw (b1 & a & b2 & -> & Hb1 & Hb2 & Ha) Hf. set (text := b1 ++ w ++ $"(" ++ a ++ $")" ++ b2). assert (Lt : length text = length b1 + length w + length a + length b2 + 2) by (unfold text; rewrite !app_length; cbn [length list_ascii_of_string]; lia).
  destruct (array_call_on L w a es (length text) no_flags (blank_items b1) b2 He Hp Hw Ha Hf ltac:(lia)) as (d & x & Hd & Sh & On). exists (blank_items b1), x, (blank_items b2), d.
  split; [lia|]. split; [|split; [apply blanks_items|split; [apply blanks_items|exact Sh]]].
  assert (G : reads_on L (parse (std_pcfg L) (length text)) no_flags (b1 ++ (w ++ $"(" ++ a ++ $")") ++ b2) [] [] (blank_items b1 ++ [x] ++ blank_items b2)).
  { apply on_then; [apply on_blanks, Hb1|]. change ([] ++ blank_items b1) with (blank_items b1). apply on_then; [rewrite app_nil_r; exact On|apply on_blanks, Hb2]. }
  assert (Et : text = b1 ++ (w ++ $"(" ++ a ++ $")") ++ b2) by (unfold text; rewrite <- !app_assoc; reflexivity). rewrite <- Et in G.
  unfold parse_text. cbn [parse]. destruct (G (S (length (text ++ []))) [] 0 lft ltac:(lia)) as (f1 & F1 & E1). rewrite !app_nil_r in E1. rewrite E1. destruct f1 as [|f1]; [cbn in F1; lia|]. reflexivity.
Qed.
(** * Running *)
Definition the_list (ls : list (list result)) : result := mkRes (VList (concat ls)) None (Some ROther).
Lemma array_call_answer L vars k w o text es n fl s : exp_letter L -> pow_ok (l_prec L) (f_pow (l_fmt L)) -> (0 <= k)%Z -> (6 * k + 3 <= l_prec L)%Z -> vars_hold vars s ->
  In w array_functions -> assoc w (g_funcs (std L)) = Some o ->
  array_call_text w text es -> Forall (element_stays vars (l_prec L) k) es -> length text < n -> cf_parse_only fl = false ->
  exists items ls, Forall2 (element_of vars (shown_as s)) es ls /\
    forall r, call (std_env L) (callop (std L) (cf_stl fl)) o (cf_stl fl) [the_list ls] s = (OOk r, s) -> is_unit_val r = false -> is_exc (rval r) = false ->
      calculate (std L) n fl text s = (CDone [mkCR items (Some (rval r, runit r)) (if cf_state fl then Some (s_vars s) else None)], s).
Proof.
  intros Hx Hpow Hk Hp Hv Hw Ho Ht Hs Hn Hfl. pose proof (elements_fit _ _ _ _ Hs) as Hf.
  destruct (array_call_parse L w text es (s_lft s) Hx ltac:(lia) Hw Ht Hf) as (w1 & x & w2 & d & Hd & P & B1 & B2 & (ft & fi & v1 & i & v2 & -> & C1 & C2 & Sh)).
  destruct n as [|[|[|n]]]; [lia|lia|lia|]. destruct (array_item L (cf_stl fl) s vars k n d i es Hpow Hk Hp Hv ltac:(lia) Sh Hs) as (l & E & R).
  destruct (shape_operand _ _ _ _ Sh) as [Fi Oi]. set (x := IFunc ft false fi w [v1 ++ [i] ++ v2]) in *.
  exists (w1 ++ [x] ++ w2), l. split; [exact R|]. intros r Cr Ur Er.
  assert (Ex : eval_item (std L) (execute (std L) (S (S n))) (cf_stl fl) x s = (OOk r, s)).
  { unfold x. cbn [eval_item]. unfold eval_func. rewrite Ho. unfold bind. cbn [eval_args]. rewrite (alone L (cf_stl fl) s (S n) v1 i v2 _ C1 C2 Fi Oi E eq_refl eq_refl). cbn [rval mkRes eval_args app]. unfold ret. exact Cr. }
  unfold calculate, calculate_with. destruct text as [|c text]; [cbn in Hd; lia|].
  change (g_parse (std L)) with (std_pcfg L). rewrite P. cbn [run_statements]. rewrite (functional_in _ x); [|rewrite !in_app_iff; cbn [In]; tauto|reflexivity]. rewrite Hfl. cbn [orb].
  replace (mkSt (s_vars s) (s_lft s)) with s by (destruct s; reflexivity). rewrite (alone L (cf_stl fl) s (S (S n)) w1 x w2 _ B1 B2 eq_refl eq_refl Ex Ur Er). destruct r as [v u rr orig]. cbn [rval] in Er. destruct v; try reflexivity; discriminate Er.
Qed.
(** * What the elements are *)
Lemma element_numbers vars fm e rs : element_of vars fm e rs -> forall r, In r rs -> exists x, rval r = VNum x /\ runit r = None.
Proof.
  assert (Hr : forall a b c, ranges a b c rs -> forall r, In r rs -> exists x, rval r = VNum x /\ runit r = None).
  { intros a b c [H _] r I0. apply In_nth_error in I0 as [i I0]. destruct (H i r I0) as (x & X1 & X2 & _). exists x. auto. }
  destruct e as [a|a b|a b c]; cbn [element_of].
  - intros (q & r0 & x & _ & -> & X1 & X2 & _) r [<-|[]]. exists x. auto.
  - intros (qa & qb & _ & _ & R). exact (Hr _ _ _ R).
  - intros (qa & qb & qc & _ & _ & _ & R). exact (Hr _ _ _ R).
Qed.
Lemma elements_numbers vars fm es ls : Forall2 (element_of vars fm) es ls -> forall r, In r (concat ls) -> exists x, rval r = VNum x /\ runit r = None.
Proof.
  induction 1 as [|e rs es ls H _ IH]; intros r I0; [destruct I0|]. cbn [concat] in I0. apply in_app_iff in I0 as [I0|I0]; [exact (element_numbers _ _ _ _ H r I0)|exact (IH r I0)].
Qed.
Lemma element_some vars fm p k e rs : element_stays vars p k e -> element_of vars fm e rs -> rs <> [].
Proof.
  assert (Hr : forall a b c, (0 <= (b - a) * c)%Q -> ranges a b c rs -> rs <> []).
  { intros a b c H [_ R] ->. assert (G : (0 <= (b - (a + inject_Z (Z.of_nat 0) * c)) * c)%Q) by (setoid_replace ((b - (a + inject_Z (Z.of_nat 0) * c)) * c)%Q with ((b - a) * c)%Q by (change (inject_Z (Z.of_nat 0)) with 0%Q; ring); exact H).
    apply R in G. cbn in G. lia. }
  destruct e as [a|a b|a b c]; cbn [element_of element_stays].
  - intros _ (q & r0 & x & _ & -> & _). discriminate.
  - intros _ (qa & qb & _ & _ & R). refine (Hr _ _ _ _ R).
    destruct (Qle_bool qa qb) eqn:E; [apply Qle_bool_iff in E; lra|]. assert (~ (qa <= qb)%Q) by (rewrite <- Qle_bool_iff, E; discriminate). lra.
  - intros (_ & _ & _ & S0) (qa & qb & qc & E1 & E2 & E3 & R). rewrite E1, E2, E3 in S0. apply (Hr _ _ _ (proj2 S0) R).
Qed.
Lemma elements_some vars fm p k es ls : es <> [] -> Forall (element_stays vars p k) es -> Forall2 (element_of vars fm) es ls -> concat ls <> [].
Proof.
  intros Ne Hs H. destruct H as [|e rs es ls H _]; [congruence|]. inversion Hs; subst. cbn [concat]. intros E. apply app_eq_nil in E as [E _]. exact (element_some _ _ _ _ _ _ H2 H E).
Qed.
Lemma texts_some t es : elements_text t es -> es <> [].
Proof. intros H. destruct H; discriminate. Qed.
Lemma call_texts_some w text es : array_call_text w text es -> es <> [].
Proof. intros (b1 & a & b2 & _ & _ & _ & (c1 & t & c2 & _ & _ & _ & H)). exact (texts_some _ _ H). Qed.
Lemma all_numeric L l : (forall r, In r l -> exists x, rval r = VNum x /\ runit r = None) -> numeric L l.
Proof. intros H r I0. destruct (H r I0) as (x & X & _). exists x. unfold number_at. rewrite X. reflexivity. Qed.
Lemma element_lowest vars fm e rs : element_of vars fm e rs -> forall r x, In r rs -> rval r = VNum x -> good x /\ lowest x.
Proof.
  assert (Hr : forall a b c, ranges a b c rs -> forall r x, In r rs -> rval r = VNum x -> good x /\ lowest x).
  { intros a b c [H _] r x I0 Ex. apply In_nth_error in I0 as [i I0]. destruct (H i r I0) as (y & Y1 & _ & G & Lo & _). rewrite Y1 in Ex. injection Ex as <-. auto. }
  destruct e as [a|a b|a b c]; cbn [element_of].
  - intros (q & r0 & y & _ & -> & Y1 & _ & G & Lo & _) r x [<-|[]] Ex. rewrite Y1 in Ex. injection Ex as <-. auto.
  - intros (qa & qb & _ & _ & R). exact (Hr _ _ _ R).
  - intros (qa & qb & qc & _ & _ & _ & R). exact (Hr _ _ _ R).
Qed.
Lemma elements_lowest vars fm es ls : Forall2 (element_of vars fm) es ls -> forall r x, In r (concat ls) -> rval r = VNum x -> good x /\ lowest x.
Proof.
  induction 1 as [|e rs es ls H _ IH]; intros r x I0 Ex; [destruct I0|]. cbn [concat] in I0. apply in_app_iff in I0 as [I0|I0]; [exact (element_lowest _ _ _ _ H r x I0 Ex)|exact (IH r x I0 Ex)].
Qed.
Lemma worth_all_over L d xs (l : list result) : (forall r x, In r l -> rval r = VNum x -> good x /\ lowest x) -> worth_over d xs l -> all_over L d xs l.
Proof.
  intros Hl W. induction W as [|x r xs l (n & E & V) _ IH]; constructor.
  - exists n. unfold number_at. rewrite E. split; [reflexivity|]. destruct (Hl r n (or_introl eq_refl) E) as [G Lo]. split; [exact G|]. split; [exact Lo|exact V].
  - apply IH. intros r' x' I0. apply Hl. right. exact I0.
Qed.
(** * The functions *)
Lemma sum_answer L vars k text es n fl s : exp_letter L -> pow_ok (l_prec L) (f_pow (l_fmt L)) -> (0 <= k)%Z -> (6 * k + 3 <= l_prec L)%Z -> vars_hold vars s ->
  array_call_text ($"sum") text es -> Forall (element_stays vars (l_prec L) k) es -> length text < n -> cf_parse_only fl = false ->
  exists items ls, Forall2 (element_of vars (shown_as s)) es ls /\ forall d xs,
    (0 < d < 10 ^ l_prec L)%Z -> worth_over d xs (concat ls) -> (zsum (map Z.abs xs) * d < 10 ^ l_prec L)%Z ->
    exists v, over d (zsum xs) v /\ calculate (std L) n fl text s = (CDone [mkCR items (Some (VNum v, None)) (if cf_state fl then Some (s_vars s) else None)], s).
Proof.
  intros Hx Hpow Hk Hp Hv Ht Hs Hn Hfl.
  destruct (array_call_answer L vars k ($"sum") (d_sum L) text es n fl s Hx Hpow Hk Hp Hv ltac:(cbn; tauto) (find_sum L) Ht Hs Hn Hfl) as (items & ls & R & A).
  exists items, ls. split; [exact R|]. intros d xs Hd W Sm.
  destruct (sum_call L (callop (std L) (cf_stl fl)) (cf_stl fl) (the_list ls) (concat ls) s d xs ltac:(lia) eq_refl Hd (worth_all_over L d xs _ (elements_lowest _ _ _ _ R) W) Sm) as (v & C & O).
  exists v. split; [exact O|]. exact (A _ C eq_refl eq_refl).
Qed.
Lemma count_answer L vars k text es n fl s : exp_letter L -> pow_ok (l_prec L) (f_pow (l_fmt L)) -> (0 <= k)%Z -> (6 * k + 3 <= l_prec L)%Z -> vars_hold vars s ->
  array_call_text ($"count") text es -> Forall (element_stays vars (l_prec L) k) es -> length text < n -> cf_parse_only fl = false ->
  exists items ls, Forall2 (element_of vars (shown_as s)) es ls /\
    calculate (std L) n fl text s = (CDone [mkCR items (Some (VNum (mkNum (Z.of_nat (length (concat ls))) 1 None None), None)) (if cf_state fl then Some (s_vars s) else None)], s).
Proof.
  intros Hx Hpow Hk Hp Hv Ht Hs Hn Hfl.
  destruct (array_call_answer L vars k ($"count") (d_count L) text es n fl s Hx Hpow Hk Hp Hv ltac:(cbn; tauto) (find_count L) Ht Hs Hn Hfl) as (items & ls & R & A).
  exists items, ls. split; [exact R|]. apply (A (mkRes (VNum (mkNum (Z.of_nat (length (concat ls))) 1 None None)) None None)); [|reflexivity|reflexivity]. now apply count_call.
Qed.
Lemma least_answer L vars k text es n fl s : exp_letter L -> pow_ok (l_prec L) (f_pow (l_fmt L)) -> (0 <= k)%Z -> (6 * k + 3 <= l_prec L)%Z -> vars_hold vars s ->
  array_call_text ($"min") text es -> Forall (element_stays vars (l_prec L) k) es -> length text < n -> cf_parse_only fl = false ->
  exists items ls v, Forall2 (element_of vars (shown_as s)) es ls /\ first_least L (concat ls) v /\
    calculate (std L) n fl text s = (CDone [mkCR items (Some (v, None)) (if cf_state fl then Some (s_vars s) else None)], s).
Proof.
  intros Hx Hpow Hk Hp Hv Ht Hs Hn Hfl.
  destruct (array_call_answer L vars k ($"min") (d_min L) text es n fl s Hx Hpow Hk Hp Hv ltac:(cbn; tauto) (find_min L) Ht Hs Hn Hfl) as (items & ls & R & A).
  pose proof (elements_numbers _ _ _ _ R) as N.
  destruct (min_call L (callop (std L) (cf_stl fl)) (cf_stl fl) (the_list ls) (concat ls) s eq_refl (all_numeric L _ N) (elements_some _ _ _ _ _ _ (call_texts_some _ _ _ Ht) Hs R)) as (a & r & b & v & El & C & V & M1 & M2).
  destruct (N r) as (x & Rx & Ux); [rewrite El, in_app_iff; right; left; reflexivity|]. exists items, ls, v. split; [exact R|]. split; [exists a, r, b; auto|].
  pose proof (A _ C) as A1. cbn [rval runit mkRes] in A1. rewrite Ux in A1. unfold StdSpec.same_value in V. rewrite Rx in V.
  apply A1; unfold is_unit_val; cbn [rval mkRes]; destruct v; try reflexivity; congruence.
Qed.
Lemma greatest_answer L vars k text es n fl s : exp_letter L -> pow_ok (l_prec L) (f_pow (l_fmt L)) -> (0 <= k)%Z -> (6 * k + 3 <= l_prec L)%Z -> vars_hold vars s ->
  array_call_text ($"max") text es -> Forall (element_stays vars (l_prec L) k) es -> length text < n -> cf_parse_only fl = false ->
  exists items ls v, Forall2 (element_of vars (shown_as s)) es ls /\ first_greatest L (concat ls) v /\
    calculate (std L) n fl text s = (CDone [mkCR items (Some (v, None)) (if cf_state fl then Some (s_vars s) else None)], s).
Proof.
  intros Hx Hpow Hk Hp Hv Ht Hs Hn Hfl.
  destruct (array_call_answer L vars k ($"max") (d_max L) text es n fl s Hx Hpow Hk Hp Hv ltac:(cbn; tauto) (find_max L) Ht Hs Hn Hfl) as (items & ls & R & A).
  pose proof (elements_numbers _ _ _ _ R) as N.
  destruct (max_call L (callop (std L) (cf_stl fl)) (cf_stl fl) (the_list ls) (concat ls) s eq_refl (all_numeric L _ N) (elements_some _ _ _ _ _ _ (call_texts_some _ _ _ Ht) Hs R)) as (a & r & b & v & El & C & V & M1 & M2).
  destruct (N r) as (x & Rx & Ux); [rewrite El, in_app_iff; right; left; reflexivity|]. exists items, ls, v. split; [exact R|]. split; [exists a, r, b; auto|].
  pose proof (A _ C) as A1. cbn [rval runit mkRes] in A1. rewrite Ux in A1. unfold StdSpec.same_value in V. rewrite Rx in V.
  apply A1; unfold is_unit_val; cbn [rval mkRes]; destruct v; try reflexivity; congruence.
Qed.
(** * One element *)
Lemma index_arg L m t e rest : exp_letter L -> (1 <= l_prec L)%Z -> arithmetic_text t e -> literals_fit (l_prec L) e -> length t <= m ->
  exists arg, part_shape (l_prec L) (length t) arg e /\ arg <> [] /\ forall lft, parse (std_pcfg L) (S m) func_flags (t ++ ")"%char :: rest) lft = (POk [arg] (length t) (Some EFunc), lft).
Proof.
  intros He Hp (b1 & u & b2 & -> & Hb1 & Hb2 & Hr) Hf Hm. rewrite !app_length in Hm.
  destruct (reads_parse L 4 u e He Hp Hr Hf m func_flags (blank_items b1) (b2 ++ ")"%char :: rest) eq_refl ltac:(lia)) as (its & Sh & On); [apply blank_follow; [exact Hb2|reflexivity]|left; apply before_blanks|].
  exists (blank_items b1 ++ its ++ blank_items b2). split; [|split].
  - exists (blank_items b1), its, (blank_items b2). split; [apply blanks_items|]. split; [apply blanks_items|]. split; [|reflexivity]. apply (shape_deeper _ _ _ _ _ Sh). rewrite !app_length. lia.
  - exact (arg_not_nil _ _ _ _ _ _ _ Sh).
  - intros lft. rewrite <- !app_assoc. exact (arg_parse L m b1 u b2 its _ _ e ")"%char EFunc rest lft Hb1 Hb2 Sh On (fun c Ha => end_call_read L _ func_flags c rest lft eq_refl eq_refl Ha)).
Qed.
Definition element_shape (p : Z) (d : nat) (x : item) (es : list aelem) (e : aexp) : Prop :=
  exists text items w1 i w2 arg, x = IFunc text false items ($"element") [w1 ++ [i] ++ w2; arg] /\ blanks w1 /\ blanks w2 /\ list_shape p d i es /\ part_shape p d arg e.
Lemma element_on L a es t e m fl cur rest : exp_letter L -> (1 <= l_prec L)%Z -> array_text a es -> Forall (elem_fits (l_prec L)) es -> arithmetic_text t e -> literals_fit (l_prec L) e -> length a + length t < m ->
  exists x, element_shape (l_prec L) (length a + length t) x es e /\ reads_on L (parse (std_pcfg L) m) fl ($"element" ++ $"(" ++ a ++ $"," ++ t ++ $")") cur rest [x].
Proof.
  intros He Hp (b1 & v & b2 & -> & Hb1 & Hb2 & Hv) Hf Ht Hl Hm. set (a := b1 ++ $"[" ++ v ++ $"]" ++ b2) in *.
  assert (La : length a = length b1 + length v + length b2 + 2) by (unfold a; rewrite !app_length; cbn [length list_ascii_of_string]; lia). destruct m as [|m]; [lia|].
  assert (Ea : a = b1 ++ ($"[" ++ v ++ $"]") ++ b2) by (unfold a; rewrite <- !app_assoc; reflexivity).
  destruct (array_arg_parse L m b1 v b2 es ","%char EParam (t ++ ")"%char :: rest) (fun c lft Ha => comma_read L _ func_flags c _ lft eq_refl Ha) He Hp Hb1 Hb2 Hv Hf ltac:(lia)) as (i & Sh & A1).
  destruct (index_arg L m t e rest He Hp Ht Hl ltac:(lia)) as (arg2 & Sh2 & N2 & A2).
  set (w := $"element") in *. set (text := w ++ $"(" ++ a ++ $"," ++ t ++ $")"). set (arg := blank_items b1 ++ [i] ++ blank_items b2) in *.
  assert (Lt : length text = length w + 1 + length a + 1 + length t + 1) by (unfold text; rewrite !app_length; cbn [length list_ascii_of_string]; lia).
  assert (En : text ++ rest = w ++ "("%char :: (a ++ ","%char :: t ++ ")"%char :: rest)) by (unfold text; rewrite <- !app_assoc; reflexivity).
  assert (Ear : b1 ++ ($"[" ++ v ++ $"]") ++ b2 ++ ","%char :: t ++ ")"%char :: rest = a ++ ","%char :: t ++ ")"%char :: rest) by (rewrite Ea, <- !app_assoc; reflexivity).
  rewrite Ear, <- Ea in A1.
  exists (IFunc text false ([INon NFuncName w; INon NFuncStart ($"(")] ++ arg ++ [INon NFuncParam c_comma] ++ arg2 ++ [INon NFuncEnd c_close]) w [arg; arg2]).
  split.
  { eexists _, _, _, i, _, arg2. split; [reflexivity|]. split; [apply blanks_items|]. split; [apply blanks_items|]. split; [|apply (part_deeper _ _ _ _ _ Sh2); lia].
    destruct Sh as (x1 & x2 & x3 & -> & F). exists x1, x2, x3. split; [reflexivity|]. clear - F La. induction F as [|el ae els aes X _ IH]; constructor; [apply (elem_deeper _ _ _ _ _ X); lia|exact IH]. }
  apply on_token; [unfold text; discriminate|]. intros lft. rewrite En. apply array_name_read; [left; reflexivity| |exact I]. unfold parse_call.
  assert (Ln : length (w ++ "("%char :: (a ++ ","%char :: t ++ ")"%char :: rest)) = length text + length rest) by (rewrite <- En, app_length; reflexivity).
  rewrite Ln. replace (S (length text + length rest)) with (S (S (length text + length rest - 1))) by lia.
  rewrite (args_more _ _ _ _ _ _ arg (length a)).
  - rewrite (args_last _ _ _ _ _ _ arg2 (length t)).
    + cbn [app]. rewrite <- En. replace (length w + 1 + length a + 1 + length t + 1) with (length text) by lia. rewrite first_app by reflexivity. rewrite <- !app_assoc. reflexivity.
    + rewrite Ln. lia.
    + change (w ++ "("%char :: (a ++ ","%char :: t ++ ")"%char :: rest)) with (w ++ $"(" ++ a ++ $"," ++ (t ++ ")"%char :: rest)). rewrite !app_assoc, <- (app_assoc _ t), skip_app by (rewrite !app_length; reflexivity). apply A2.
    + exact N2.
  - rewrite Ln. lia.
  - change (w ++ "("%char :: (a ++ ","%char :: t ++ ")"%char :: rest)) with (w ++ $"(" ++ (a ++ ","%char :: t ++ ")"%char :: rest)). rewrite app_assoc, skip_app by (rewrite app_length; reflexivity). apply A1.
  - unfold arg. intros E. apply app_eq_nil in E as [_ E]. discriminate E.
Qed.
Lemma element_parse_text L text es e lft : exp_letter L -> (1 <= l_prec L)%Z -> array_element_text text es e -> Forall (elem_fits (l_prec L)) es -> literals_fit (l_prec L) e ->
  exists w1 x w2 d, d + 4 <= length text /\ parse_text (std_pcfg L) text lft = (POk [w1 ++ [x] ++ w2] (length text) None, lft) /\ blanks w1 /\ blanks w2 /\ element_shape (l_prec L) d x es e.
Proof.
  intros He Hp (b1 & a & t & b2 & -> & Hb1 & Hb2 & Ha & Ht) Hf Hl. set (w := $"element"). set (text := b1 ++ w ++ $"(" ++ a ++ $"," ++ t ++ $")" ++ b2).
  assert (Lt : length text = length b1 + 7 + length a + length t + length b2 + 3) by (unfold text, w; rewrite !app_length; cbn [length list_ascii_of_string]; lia).
  destruct (element_on L a es t e (length text) no_flags (blank_items b1) b2 He Hp Ha Hf Ht Hl ltac:(lia)) as (x & Sh & On). exists (blank_items b1), x, (blank_items b2), (length a + length t).
  split; [lia|]. split; [|split; [apply blanks_items|split; [apply blanks_items|exact Sh]]].
  assert (G : reads_on L (parse (std_pcfg L) (length text)) no_flags (b1 ++ (w ++ $"(" ++ a ++ $"," ++ t ++ $")") ++ b2) [] [] (blank_items b1 ++ [x] ++ blank_items b2)).
  { apply on_then; [apply on_blanks, Hb1|]. change ([] ++ blank_items b1) with (blank_items b1). apply on_then; [rewrite app_nil_r; exact On|apply on_blanks, Hb2]. }
  assert (Et : text = b1 ++ (w ++ $"(" ++ a ++ $"," ++ t ++ $")") ++ b2) by (unfold text; rewrite <- !app_assoc; reflexivity). rewrite <- Et in G.
  unfold parse_text. cbn [parse]. destruct (G (S (length (text ++ []))) [] 0 lft ltac:(lia)) as (f1 & F1 & E1). rewrite !app_nil_r in E1. rewrite E1. destruct f1 as [|f1]; [cbn in F1; lia|]. reflexivity.
Qed.
Lemma whole_small k p x i : good x -> size_le k x -> (val x == inject_Z i)%Q -> (0 <= k <= p)%Z -> (Z.abs i <= 10 ^ p)%Z.
Proof.
  intros G Sx V Hk. destruct (size_parts k x G Sx) as (S1 & S2 & S3).
  assert (E : (nnum x = i * nden x)%Z).
  { unfold val in V. assert (D : ~ (inject_Z (nden x) == 0)%Q) by (unfold Qeq; cbn; lia).
    assert (V' : (inject_Z (nnum x) == inject_Z (i * nden x))%Q) by (rewrite inject_Z_mult, <- V; field; exact D). unfold Qeq in V'. cbn in V'. lia. }
  assert (P : (10 ^ k <= 10 ^ p)%Z) by (apply Z.pow_le_mono_r; lia). rewrite E, Z.abs_mul in S1. assert (Z.abs i * 1 <= Z.abs i * Z.abs (nden x))%Z by (apply Z.mul_le_mono_nonneg_l; lia). lia.
Qed.
Lemma py_index_of {A} (l : list A) i r : py_index l i = Some r -> In r l.
Proof. unfold py_index. destruct (0 <=? i)%Z; [apply nth_error_In|]. destruct (- i <=? _)%Z; [apply nth_error_In|discriminate]. Qed.
Lemma element_at L vars k text es e q i n fl s : exp_letter L -> pow_ok (l_prec L) (f_pow (l_fmt L)) -> (0 <= k)%Z -> (6 * k + 3 <= l_prec L)%Z -> vars_hold vars s ->
  array_element_text text es e -> Forall (element_stays vars (l_prec L) k) es -> stays vars (l_prec L) k e -> avalue vars e = Some q -> (q == inject_Z i)%Q ->
  length text < n -> cf_parse_only fl = false ->
  exists items ls, Forall2 (element_of vars (shown_as s)) es ls /\
    (forall r, py_index (concat ls) (i - 1) = Some r -> exists v, StdSpec.same_value v (rval r) /\
      calculate (std L) n fl text s = (CDone [mkCR items (Some (v, None)) (if cf_state fl then Some (s_vars s) else None)], s)).
Proof.
  intros Hx Hpow Hk Hp Hv Ht Hs He Hq Hi Hn Hfl. pose proof (elements_fit _ _ _ _ Hs) as Hf.
  destruct (element_parse_text L text es e (s_lft s) Hx ltac:(lia) Ht Hf (stays_fit _ _ _ _ He)) as (w1 & x & w2 & d & Hd & P & B1 & B2 & (ft & fi & v1 & it & v2 & arg & -> & C1 & C2 & Sh & Sh2)).
  destruct n as [|[|[|n]]]; [lia|lia|lia|]. destruct (array_item L (cf_stl fl) s vars k n d it es Hpow Hk Hp Hv ltac:(lia) Sh Hs) as (l & E & R).
  destruct (part_runs L (cf_stl fl) s vars k (S n) d arg e Hpow Hk ltac:(lia) Hv Sh2 ltac:(lia)) as (q' & r2 & y & Eq & R2 & Ry & Uy & Gy & Ly & Vy & Sy & _); [split; [exact He|rewrite Hq; discriminate]|].
  rewrite Hq in Eq. injection Eq as <-. rewrite Hi in Vy.
  destruct (shape_operand _ _ _ _ Sh) as [Fi Oi]. set (x := IFunc ft false fi ($"element") [v1 ++ [it] ++ v2; arg]) in *.
  exists (w1 ++ [x] ++ w2), l. split; [exact R|]. intros r Nr. destruct (elements_numbers _ _ _ _ R r (py_index_of _ _ _ Nr)) as (z & Rz & Uz).
  pose proof (element_call L (callop (std L) (cf_stl fl)) (cf_stl fl) (the_list l) r2 (concat l) y s eq_refl Ry) as C.
  rewrite (num_int_Z (l_prec L) y i ltac:(lia) Vy (whole_small k (l_prec L) y i Gy Sy Vy ltac:(lia))), Nr, Uz in C.
  set (v := recast (ncast y) (rval r)) in *. assert (Ev : exists z', v = VNum z' /\ nnum z' = nnum z /\ nden z' = nden z).
  { unfold v. rewrite Rz. unfold recast. destruct (ncast y); eexists; (split; [reflexivity|split; reflexivity]). }
  destruct Ev as (z' & Ev & Z1 & Z2). exists v. split; [rewrite Ev, Rz; split; assumption|].
  assert (Ex : eval_item (std L) (execute (std L) (S (S n))) (cf_stl fl) x s = (OOk (mkRes v None (rref r)), s)).
  { unfold x. cbn [eval_item]. unfold eval_func. rewrite find_element. unfold bind. cbn [eval_args]. rewrite (alone L (cf_stl fl) s (S n) v1 it v2 _ C1 C2 Fi Oi E eq_refl eq_refl). cbn [rval mkRes eval_args app]. rewrite R2, Ry. unfold ret. exact C. }
  unfold calculate, calculate_with. destruct text as [|c text]; [cbn in Hd; lia|].
  change (g_parse (std L)) with (std_pcfg L). rewrite P. cbn [run_statements]. rewrite (functional_in _ x); [|rewrite !in_app_iff; cbn [In]; tauto|reflexivity]. rewrite Hfl. cbn [orb].
  replace (mkSt (s_vars s) (s_lft s)) with s by (destruct s; reflexivity). rewrite Ev in Ex |- *. rewrite (alone L (cf_stl fl) s (S (S n)) w1 x w2 _ B1 B2 eq_refl eq_refl Ex eq_refl eq_refl). reflexivity.
Qed.
Lemma nth_some {A} (l : list A) i : i < length l -> exists r, nth_error l i = Some r.
Proof. intros H. destruct (nth_error l i) eqn:E; [eauto|]. apply nth_error_None in E. lia. Qed.
Lemma element_answer L vars k text es e q i n fl s : exp_letter L -> pow_ok (l_prec L) (f_pow (l_fmt L)) -> (0 <= k)%Z -> (6 * k + 3 <= l_prec L)%Z -> vars_hold vars s ->
  array_element_text text es e -> Forall (element_stays vars (l_prec L) k) es -> stays vars (l_prec L) k e -> avalue vars e = Some q -> (q == inject_Z i)%Q ->
  length text < n -> cf_parse_only fl = false ->
  exists items ls, Forall2 (element_of vars (shown_as s)) es ls /\
    ((1 <= i <= Z.of_nat (length (concat ls)))%Z -> exists r v, nth_error (concat ls) (Z.to_nat (i - 1)) = Some r /\ StdSpec.same_value v (rval r) /\
      calculate (std L) n fl text s = (CDone [mkCR items (Some (v, None)) (if cf_state fl then Some (s_vars s) else None)], s)).
Proof.
  intros Hx Hpow Hk Hp Hv Ht Hs He Hq Hi Hn Hfl. destruct (element_at L vars k text es e q i n fl s Hx Hpow Hk Hp Hv Ht Hs He Hq Hi Hn Hfl) as (items & ls & R & A).
  exists items, ls. split; [exact R|]. intros Hr. destruct (nth_some (concat ls) (Z.to_nat (i - 1)) ltac:(lia)) as [r Nr]. destruct (A r) as (v & V & C); [rewrite (py_index_in _ i Hr); exact Nr|]. exists r, v. auto.
Qed.
Lemma element_back L vars k text es e q i n fl s : exp_letter L -> pow_ok (l_prec L) (f_pow (l_fmt L)) -> (0 <= k)%Z -> (6 * k + 3 <= l_prec L)%Z -> vars_hold vars s ->
  array_element_text text es e -> Forall (element_stays vars (l_prec L) k) es -> stays vars (l_prec L) k e -> avalue vars e = Some q -> (q == inject_Z i)%Q ->
  length text < n -> cf_parse_only fl = false ->
  exists items ls, Forall2 (element_of vars (shown_as s)) es ls /\
    ((1 - Z.of_nat (length (concat ls)) <= i <= 0)%Z -> exists r v, nth_error (rev (concat ls)) (Z.to_nat (- i)) = Some r /\ StdSpec.same_value v (rval r) /\
      calculate (std L) n fl text s = (CDone [mkCR items (Some (v, None)) (if cf_state fl then Some (s_vars s) else None)], s)).
Proof.
  intros Hx Hpow Hk Hp Hv Ht Hs He Hq Hi Hn Hfl. destruct (element_at L vars k text es e q i n fl s Hx Hpow Hk Hp Hv Ht Hs He Hq Hi Hn Hfl) as (items & ls & R & A).
  exists items, ls. split; [exact R|]. intros Hr. destruct (nth_some (rev (concat ls)) (Z.to_nat (- i)) ltac:(rewrite rev_length; lia)) as [r Nr]. exists r.
  destruct (A r) as (v & V & C); [|exists v; auto]. unfold py_index. replace (0 <=? i - 1)%Z with false by (symmetry; apply Z.leb_gt; lia). replace (- (i - 1) <=? Z.of_nat (length (concat ls)))%Z with true by (symmetry; apply Z.leb_le; lia).
  rewrite <- Nr. generalize (concat ls) Hr. clear. intros l Hr. rewrite !(nth_error_nth' _ (mkRes (VNum (mkNum 0 1 None None)) None None)) by (rewrite ?rev_length; lia). f_equal. rewrite (rev_nth l) by lia. f_equal. lia.
Qed.
