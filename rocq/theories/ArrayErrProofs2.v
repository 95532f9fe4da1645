(** What functions of arrays with an element that goes wrong do. *)
From Coq Require Import ZArith QArith Qpower Ascii String List Bool Lia.
From Verif Require Import Base BaseProofs Dec DecProofs Num NumSpec NumProofs NumProofs2 NumProofs3 NumProofs4 Lex LexSpec Bases BasesProofs Formats Units UnitsProofs5 Install InstallProofs Syntax Pos PosSpec PosProofs Call CallSpec Loop LoopSpec LoopProofs Parse Prop_Parse Exec ExecSpec ErrorSpec ErrorProofs ErrorProofs2 ErrorProofs3 ContainSpec ContainProofs2 Std StdSpec StdProofs StdProofs2 StdProofs4 StdProofs5 StatProofs ArithSpec ArithProofs VarNameSpec ArithTextSpec ArithRunSpec ArithTextProofs ArithTextProofs2 ArithTextProofs3 ArithTextProofs4 ArithTextProofs5 ArithTextProofs6 ArithTextProofs7 ArithErrSpec ArithErrProofs ArithErrProofs2 ArithErrProofs3 ContainProofs3 ContainProofs6 ArrayTextSpec ArrayRunSpec ArrayErrSpec ArrayTextProofs ArrayTextProofs2 RangeSpec ArrayErrProofs ArrayCallSpec ArrayCallProofs.
Import ListNotations.
Open Scope nat_scope.

(** The array itself, wherever it stands *)
Lemma array_item_wrong L stl s vars k m d x es1 e es2 : pow_ok (l_prec L) (f_pow (l_fmt L)) -> showable L k -> (6 * k + 3 <= l_prec L)%Z -> vars_exactly vars s -> d <= m ->
  list_shape (l_prec L) d x (es1 ++ e :: es2) -> spelled x -> laid_out x -> Forall (element_stays vars (l_prec L) k) es1 -> element_wrong vars (l_prec L) k e ->
  item_gives L stl s (S m) x Wrong.
Proof.
  intros Hpow Hk Hp Hv Hd (x1 & items & els & -> & F) Sp La Hs Hw. destruct (spelled_inv _ _ Sp eq_refl) as [Tx Spi]. cbn [itext] in Tx.
  assert (Pl : placed items (0 + 1) (flat_map elem_parts els)) by (inversion La; [discriminate|assumption]).
  destruct (elements_raise L stl s vars k m d items e es2 Hpow Hk Hp Hv Hd Spi Hw es1 els 0 [] F Hs Pl) as (mm & ii & nx & tr & kk & E & (a & g & b & E1 & E2 & E3)).
  right. split; [reflexivity|]. cbn [eval_item]. unfold eval_arr. rewrite E. cbv zeta. destruct (truncate_reach x1 items kk a g b ii nx Tx E1 E2 E3) as [t Et]. unfold reraise. rewrite Et. eexists. reflexivity.
Qed.
Lemma array_function_known L w : In w array_functions -> exists o, assoc w (g_funcs (std L)) = Some o /\ o_excs o = false.
Proof.
  intros H. repeat (destruct H as [<-|H]; [eexists; split; [lazymatch goal with |- assoc ?n _ = _ => first [unify n ($"count"); apply StdProofs7.find_count|unify n ($"min"); apply find_min|unify n ($"max"); apply find_max|unify n ($"sum"); apply find_sum|unify n ($"mean"); apply find_mean|unify n ($"median"); apply find_median|unify n ($"mode"); apply find_mode|apply StdProofs6.find_sort] end|reflexivity]|]). destruct H.
Qed.
Lemma array_call_wrong L vars k w text es1 e es2 n fl s : exp_letter L -> pow_ok (l_prec L) (f_pow (l_fmt L)) -> showable L k -> (6 * k + 3 <= l_prec L)%Z -> vars_exactly vars s -> In w array_functions ->
  array_call_text w text (es1 ++ e :: es2) -> Forall (element_stays vars (l_prec L) k) es1 -> element_wrong vars (l_prec L) k e -> Forall (element_numerals (l_prec L)) es2 -> length text < n -> cf_parse_only fl = false ->
  exists its nx tr, calculate (std L) n fl text s = (CFail false [] [its] nx tr, s).
Proof.
  intros Hx Hpow Hk Hp Hv Hin Ht Hs Hw Hl Hn Hfl. pose proof Hk as (Hk0 & _).
  assert (Hf : Forall (elem_fits (l_prec L)) (es1 ++ e :: es2)) by (apply Forall_app; split; [exact (elements_fit _ _ _ _ Hs)|constructor; [exact (wrong_fits _ _ _ _ Hw)|exact (Forall_impl _ (numerals_fits _) Hl)]]).
  destruct (array_call_parse L w text _ (s_lft s) Hx ltac:(lia) Hin Ht Hf) as (w1 & x & w2 & d & Hd & P & B1 & B2 & (ft & fi & v1 & i & v2 & Ex & C1 & C2 & Sh)).
  destruct (c20_lossless (std_pcfg L) text (s_lft s) [w1 ++ [x] ++ w2] (length text) None) as (_ & _ & _ & Sp); [rewrite P; reflexivity|].
  apply Forall_cons_iff in Sp as [Sp _]. rewrite !Forall_app in Sp. destruct Sp as (_ & Sp & _). apply Forall_cons_iff in Sp as [Sp _].
  pose proof (parse_laid (std_pcfg L) (std_array_symbols L) (S (length text)) no_flags text (s_lft s)) as La. fold (parse_text (std_pcfg L) text (s_lft s)) in La. rewrite P in La. cbn [fst laid_pout] in La.
  apply Forall_cons_iff in La as [La _]. rewrite !Forall_app in La. destruct La as (_ & La & _). apply Forall_cons_iff in La as [La _].
  rewrite Ex in Sp, La. destruct (spelled_inv _ _ Sp eq_refl) as [Tx Spi]. cbn [itext] in Tx.
  assert (Lf : Forall laid_out fi /\ placed fi 2 [v1 ++ [i] ++ v2]) by (inversion La; [discriminate|split; assumption]). destruct Lf as [Lf Pl].
  assert (Ef : exists a b, fi = a ++ (v1 ++ [i] ++ v2) ++ b /\ 2 <= length a) by (inversion Pl; subst; eauto). destruct Ef as (a & b & Ei & Ha).
  assert (Si : spelled i /\ laid_out i). { rewrite Ei in Spi, Lf. rewrite !Forall_app in Spi, Lf. destruct Spi as (_ & (_ & Spi & _) & _), Lf as (_ & (_ & Lf & _) & _). apply Forall_cons_iff in Spi as [Spi _]. apply Forall_cons_iff in Lf as [Lf _]. split; assumption. }
  destruct n as [|[|[|n]]]; [lia|lia|lia|].
  pose proof (array_item_wrong L (cf_stl fl) s vars k n d i es1 e es2 Hpow Hk Hp Hv ltac:(lia) Sh (proj1 Si) (proj2 Si) Hs Hw) as Gi.
  destruct (shape_operand _ _ _ _ Sh) as [Fi Oi].
  destruct (item_fair L (cf_stl fl) s (S n) 4 i Wrong Fi ltac:(intros t ->; discriminate) Gi) as (Ri & Ci & Pi).
  destruct (fair_execute L (cf_stl fl) s (S n) 4 v1 [i] v2 Wrong C1 C2 ltac:(cbn [functional_items filter]; rewrite Fi; reflexivity) Ri) as (r0 & Er0 & Gr0).
  destruct (framed L (cf_stl fl) s (S n) v1 [i] v2 C1 C2 Ci Pi) as [C' P'].
  destruct (array_function_known L w Hin) as (o & Ho & Oe).
  destruct (arg_gives L (cf_stl fl) s (S n) ft fi (fun t its => IFunc t true its w [v1 ++ [i] ++ v2]) a (v1 ++ [i] ++ v2) b [] 2 [] r0 Wrong Tx Ei Ha C' P' Er0 Gr0) as [_ A2].
  destruct (A2 eq_refl) as [ee Ea].
  assert (G : item_gives L (cf_stl fl) s (S (S n)) x Wrong).
  { right. split; [reflexivity|]. rewrite Ex. cbn [eval_item]. unfold eval_func. rewrite Ho, Oe. unfold bind. rewrite Ea. eexists. reflexivity. }
  destruct (item_fair L (cf_stl fl) s (S (S n)) 4 x Wrong ltac:(rewrite Ex; reflexivity) ltac:(intros t Et; rewrite Ex in Et; discriminate) G) as (R & _).
  destruct (fair_execute L (cf_stl fl) s (S (S n)) 4 w1 [x] w2 Wrong B1 B2 ltac:(rewrite Ex; reflexivity) R) as (r & Er & (m1 & i1 & nx1 & tr1 & Rn)).
  exists i1, nx1, tr1. unfold calculate, calculate_with. destruct text as [|c text]; [cbn in Hd; lia|].
  change (g_parse (std L)) with (std_pcfg L). rewrite P. cbn [run_statements]. rewrite (functional_in _ x); [|rewrite !in_app_iff; cbn [In]; tauto|rewrite Ex; reflexivity]. rewrite Hfl. cbn [orb].
  replace (mkSt (s_vars s) (s_lft s)) with s by (destruct s; reflexivity). rewrite Er, Rn. reflexivity.
Qed.
(** * [element] *)
Lemma call_ends L text w1 x w2 n fl s : parse_text (std_pcfg L) text (s_lft s) = (POk [w1 ++ [x] ++ w2] (length text) None, s_lft s) -> text <> [] -> blanks w1 -> blanks w2 -> ifunc x = true -> (forall t, x <> IOp t) ->
  item_gives L (cf_stl fl) s n x Wrong -> cf_parse_only fl = false -> exists its nx tr, calculate (std L) (S n) fl text s = (CFail false [] [its] nx tr, s).
Proof.
  intros P Ne B1 B2 Fx Ox G Hfl. destruct (item_fair L (cf_stl fl) s n 4 x Wrong Fx Ox G) as (R & _).
  destruct (fair_execute L (cf_stl fl) s n 4 w1 [x] w2 Wrong B1 B2 ltac:(cbn [functional_items filter]; rewrite Fx; reflexivity) R) as (r & Er & (m1 & i1 & nx1 & tr1 & Rn)).
  exists i1, nx1, tr1. unfold calculate, calculate_with. destruct text as [|c text]; [congruence|].
  change (g_parse (std L)) with (std_pcfg L). rewrite P. cbn [run_statements]. rewrite (functional_in _ x); [|rewrite !in_app_iff; cbn [In]; tauto|exact Fx]. rewrite Hfl. cbn [orb].
  replace (mkSt (s_vars s) (s_lft s)) with s by (destruct s; reflexivity). rewrite Er, Rn. reflexivity.
Qed.
Lemma call_parts L text lft w1 ft fi name args w2 : parse_text (std_pcfg L) text lft = (POk [w1 ++ [IFunc ft false fi name args] ++ w2] (length text) None, lft) ->
  items_text fi = ft /\ Forall spelled fi /\ Forall laid_out fi /\ placed fi 2 args.
Proof.
  intros P. destruct (c20_lossless (std_pcfg L) text lft [w1 ++ [IFunc ft false fi name args] ++ w2] (length text) None) as (_ & _ & _ & Sp); [rewrite P; reflexivity|].
  apply Forall_cons_iff in Sp as [Sp _]. rewrite !Forall_app in Sp. destruct Sp as (_ & Sp & _). apply Forall_cons_iff in Sp as [Sp _].
  pose proof (parse_laid (std_pcfg L) (std_array_symbols L) (S (length text)) no_flags text lft) as La. fold (parse_text (std_pcfg L) text lft) in La. rewrite P in La. cbn [fst laid_pout] in La.
  apply Forall_cons_iff in La as [La _]. rewrite !Forall_app in La. destruct La as (_ & La & _). apply Forall_cons_iff in La as [La _].
  destruct (spelled_inv _ _ Sp eq_refl) as [Tx Spi]. cbn [itext] in Tx. split; [exact Tx|]. split; [exact Spi|]. inversion La; [discriminate|split; assumption].
Qed.
Lemma element_array_wrong L vars k text es1 e es2 ix n fl s : exp_letter L -> pow_ok (l_prec L) (f_pow (l_fmt L)) -> showable L k -> (6 * k + 3 <= l_prec L)%Z -> vars_exactly vars s ->
  array_element_text text (es1 ++ e :: es2) ix -> Forall (element_stays vars (l_prec L) k) es1 -> element_wrong vars (l_prec L) k e -> Forall (element_numerals (l_prec L)) es2 -> numerals_fit (l_prec L) ix ->
  length text < n -> cf_parse_only fl = false -> exists its nx tr, calculate (std L) n fl text s = (CFail false [] [its] nx tr, s).
Proof.
  intros Hx Hpow Hk Hp Hv Ht Hs Hw Hl Hix Hn Hfl. pose proof Hk as (Hk0 & _).
  assert (Hf : Forall (elem_fits (l_prec L)) (es1 ++ e :: es2)) by (apply Forall_app; split; [exact (elements_fit _ _ _ _ Hs)|constructor; [exact (wrong_fits _ _ _ _ Hw)|exact (Forall_impl _ (numerals_fits _) Hl)]]).
  destruct (element_parse_text L text _ ix (s_lft s) Hx ltac:(lia) Ht Hf (numerals_literals _ _ Hix)) as (w1 & x & w2 & d & Hd & P & B1 & B2 & (ft & fi & v1 & i & v2 & arg & -> & C1 & C2 & Sh & _)).
  destruct (call_parts _ _ _ _ _ _ _ _ _ P) as (Tx & Spi & Lf & Pl).
  assert (Ef : exists a b, fi = a ++ (v1 ++ [i] ++ v2) ++ b /\ 2 <= length a) by (inversion Pl; subst; eauto). destruct Ef as (a & b & Ei & Ha).
  assert (Si : spelled i /\ laid_out i). { rewrite Ei in Spi, Lf. rewrite !Forall_app in Spi, Lf. destruct Spi as (_ & (_ & Spi & _) & _), Lf as (_ & (_ & Lf & _) & _). apply Forall_cons_iff in Spi as [Spi _]. apply Forall_cons_iff in Lf as [Lf _]. split; assumption. }
  destruct n as [|[|[|n]]]; [lia|lia|lia|].
  pose proof (array_item_wrong L (cf_stl fl) s vars k n d i es1 e es2 Hpow Hk Hp Hv ltac:(lia) Sh (proj1 Si) (proj2 Si) Hs Hw) as Gi.
  destruct (shape_operand _ _ _ _ Sh) as [Fi Oi].
  destruct (item_fair L (cf_stl fl) s (S n) 4 i Wrong Fi ltac:(intros t ->; discriminate) Gi) as (Ri & Ci & Pi).
  destruct (fair_execute L (cf_stl fl) s (S n) 4 v1 [i] v2 Wrong C1 C2 ltac:(cbn [functional_items filter]; rewrite Fi; reflexivity) Ri) as (r0 & Er0 & Gr0).
  destruct (framed L (cf_stl fl) s (S n) v1 [i] v2 C1 C2 Ci Pi) as [C' P'].
  destruct (arg_gives L (cf_stl fl) s (S n) ft fi (fun t its => IFunc t true its ($"element") [v1 ++ [i] ++ v2; arg]) a (v1 ++ [i] ++ v2) b [arg] 2 [] r0 Wrong Tx Ei Ha C' P' Er0 Gr0) as [_ A2].
  destruct (A2 eq_refl) as [ee Ea].
  apply (call_ends L text w1 _ w2 (S (S n)) fl s P); [intros ->; cbn in Hd; lia|exact B1|exact B2|reflexivity|discriminate| |exact Hfl].
  right. split; [reflexivity|]. cbn [eval_item]. unfold eval_func. rewrite StdProofs7.find_element. change (o_excs (StdProofs7.d_element L)) with false. unfold bind. rewrite Ea. eexists. reflexivity.
Qed.
Lemma element_index_wrong L vars k text es ix n fl s : exp_letter L -> pow_ok (l_prec L) (f_pow (l_fmt L)) -> showable L k -> (6 * k + 3 <= l_prec L)%Z -> vars_exactly vars s ->
  array_element_text text es ix -> Forall (element_stays vars (l_prec L) k) es -> part_wrong vars (l_prec L) k ix ->
  length text < n -> cf_parse_only fl = false -> exists its nx tr, calculate (std L) n fl text s = (CFail false [] [its] nx tr, s).
Proof.
  intros Hx Hpow Hk Hp Hv Ht Hs [Hz Hj] Hn Hfl. pose proof Hk as (Hk0 & _).
  destruct (element_parse_text L text _ ix (s_lft s) Hx ltac:(lia) Ht (elements_fit _ _ _ _ Hs) (sized_fit _ _ _ _ Hz)) as (w1 & x & w2 & d & Hd & P & B1 & B2 & (ft & fi & v1 & i & v2 & arg & -> & C1 & C2 & Sh & (u1 & j & u2 & D1 & D2 & Sh2 & Earg))).
  destruct (call_parts _ _ _ _ _ _ _ _ _ P) as (Tx & Spi & Lf & Pl).
  set (g1 := v1 ++ [i] ++ v2) in *.
  assert (Ef : exists a b, fi = a ++ arg ++ b /\ 2 + length g1 + 1 <= length a) by (inversion Pl as [|? ? ? ? ? _ _ Pl2]; subst; inversion Pl2; subst; eauto). destruct Ef as (a & b & Ei & Ha).
  assert (Spj : Forall spelled j). { rewrite Ei, Earg in Spi. rewrite !Forall_app in Spi. tauto. }
  destruct n as [|[|[|n]]]; [lia|lia|lia|].
  destruct (array_item L (cf_stl fl) s vars k n d i es Hpow Hk0 Hp (proj1 Hv) ltac:(lia) Sh Hs) as (l & E & _).
  destruct (shape_operand _ _ _ _ Sh) as [Fi Oi].
  pose proof (alone L (cf_stl fl) s (S n) v1 i v2 _ C1 C2 Fi Oi E eq_refl eq_refl) as E1. fold g1 in E1.
  destruct (shape_fair L (cf_stl fl) s vars k Hpow Hk ltac:(lia) Hv _ _ _ _ Sh2 (S n) ltac:(lia) Spj Hz ltac:(rewrite Hj; discriminate)) as (R & C & Pi). rewrite Hj in R.
  destruct (fair_execute L (cf_stl fl) s (S n) 4 u1 j u2 Wrong D1 D2 (shape_functional _ _ _ _ _ Sh2) R) as (r0 & Er0 & Gr0).
  destruct (framed L (cf_stl fl) s (S n) u1 j u2 D1 D2 C Pi) as [C' P']. rewrite <- Earg in Er0, C', P'.
  destruct (arg_gives L (cf_stl fl) s (S n) ft fi (fun t its => IFunc t true its ($"element") [g1; arg]) a arg b [] (2 + length g1 + 1) ([] ++ [mkRes (VList (concat l)) None (Some ROther)]) r0 Wrong Tx Ei Ha C' P' Er0 Gr0) as [_ A2].
  destruct (A2 eq_refl) as [ee Ea].
  apply (call_ends L text w1 _ w2 (S (S n)) fl s P); [intros ->; cbn in Hd; lia|exact B1|exact B2|reflexivity|discriminate| |exact Hfl].
  right. split; [reflexivity|]. cbn [eval_item]. unfold eval_func. rewrite StdProofs7.find_element. change (o_excs (StdProofs7.d_element L)) with false. unfold bind.
  set (rest := [arg]) in *. cbn [eval_args]. rewrite E1. cbn [rval mkRes]. cbv zeta. rewrite Ea. eexists. reflexivity.
Qed.
