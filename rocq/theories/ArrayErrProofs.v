(** What arrays with an element that goes wrong do. *)
From Coq Require Import ZArith QArith Qpower Ascii String List Bool Lia.
From Verif Require Import Base BaseProofs Dec DecProofs Num NumSpec NumProofs NumProofs2 NumProofs3 NumProofs4 Lex LexSpec Bases BasesProofs Formats Units UnitsProofs5 Install InstallProofs Syntax Pos PosSpec PosProofs Call CallSpec Loop LoopSpec LoopProofs Parse Prop_Parse Exec ExecSpec ErrorSpec ErrorProofs ErrorProofs2 ErrorProofs3 ContainSpec ContainProofs2 Std StdSpec StdProofs StdProofs2 StdProofs4 StdProofs5 ArithSpec ArithProofs VarNameSpec ArithTextSpec ArithRunSpec ArithTextProofs ArithTextProofs2 ArithTextProofs3 ArithTextProofs4 ArithTextProofs5 ArithTextProofs6 ArithTextProofs7 ArithErrSpec ArithErrProofs ArithErrProofs2 ArithErrProofs3 ContainProofs3 ContainProofs6 ArrayTextSpec ArrayRunSpec ArrayErrSpec ArrayTextProofs ArrayTextProofs2 RangeSpec.
Import ListNotations.
Open Scope nat_scope.

(** * Parts *)
Lemma part_raises L stl s vars k m d its e : pow_ok (l_prec L) (f_pow (l_fmt L)) -> showable L k -> (3 * k + 1 <= l_prec L)%Z -> vars_exactly vars s -> part_shape (l_prec L) d its e -> d <= m -> Forall spelled its ->
  part_wrong vars (l_prec L) k e ->
  exists mm i nx tr, points_into its i nx /\ forall num, eval_part (std L) (execute (std L) (S m)) stl num its s = (OErr (XExec mm i nx tr), s).
Proof.
  intros Hpow Hk Hp Hv (w1 & i & w2 & B1 & B2 & Sh & ->) Hd Sp [Hz Hj]. pose proof Sp as Sp2. rewrite !Forall_app in Sp2. destruct Sp2 as (_ & Sp2 & _).
  destruct (shape_fair L stl s vars k Hpow Hk Hp Hv _ _ _ _ Sh m Hd Sp2 Hz ltac:(rewrite Hj; discriminate)) as (R & C & P). rewrite Hj in R.
  destruct (fair_execute L stl s m 4 w1 i w2 Wrong B1 B2 (shape_functional _ _ _ _ _ Sh) R) as (r & Er & (mm & ii & nx & tr & Rn)).
  destruct (framed L stl s m w1 i w2 B1 B2 C P) as [C' P']. exists mm, ii, nx, tr. split; [exact (wrong_points L stl s m _ r mm ii nx tr C' P' Er Rn)|].
  intros num. unfold eval_part, bind. rewrite Er, Rn. reflexivity.
Qed.
(** * Counting the items *)
Definition span (e : elem item) : nat :=
  length (e_start e) + match e_end e with Some x => 1 + length x + match e_step e with Some y => 1 + length y | None => 0 end | None => 0 end.
Lemma count_bind_ok {A B} (x : M A) n (f : A -> counted B) s r n' s' : count_bind x n f s = ((OOk r, n'), s') -> exists a s1, x s = (OOk a, s1) /\ f a s1 = ((OOk r, n'), s').
Proof. unfold count_bind. destruct (x s) as [[a|e| |] s1]; intros H; try discriminate H. eauto. Qed.
Lemma element_counts G rec stl e n s l n' s' : eval_element G rec stl e n s = ((OOk l, n'), s') -> n' = n + span e.
Proof.
  unfold eval_element, span. cbv zeta. destruct (e_end e) as [e2|].
  - intros H. do 6 (apply count_bind_ok in H as (? & ? & _ & H)). injection H as _ <- _. destruct (e_step e); lia.
  - intros H. apply count_bind_ok in H as (? & ? & _ & H). injection H as _ <- _. lia.
Qed.
Lemma placed_after items k e rest : placed items k (elem_parts e ++ rest) -> placed items (k + span e + 1) rest.
Proof.
  unfold elem_parts, span. destruct (e_end e) as [x|]; [destruct (e_step e) as [y|]|]; cbn [app]; intros H; repeat match goal with H : placed _ _ (_ :: _) |- _ => inversion H; clear H; subst end;
  match goal with H : placed _ ?a rest |- placed _ ?b rest => replace b with a by lia; exact H end.
Qed.
Definition reaches (items : list item) (k : nat) (i : list item) (nx : option str) : Prop := exists a g b, items = a ++ g ++ b /\ k <= length a /\ points_into g i nx.
Lemma spelled_within (items a g b : list item) : items = a ++ g ++ b -> Forall spelled items -> Forall spelled g.
Proof. intros -> H. rewrite !Forall_app in H. tauto. Qed.
(** * Elements *)
Lemma element_raises L stl s vars k m d items el e rest n : pow_ok (l_prec L) (f_pow (l_fmt L)) -> showable L k -> (6 * k + 3 <= l_prec L)%Z -> vars_exactly vars s -> elem_shape (l_prec L) d el e -> d <= m ->
  placed items n (elem_parts el ++ rest) -> Forall spelled items -> element_wrong vars (l_prec L) k e ->
  exists mm i nx tr kk, eval_element (std L) (execute (std L) (S m)) stl el n s = ((OErr (XExec mm i nx tr), kk), s) /\ reaches items kk i nx.
Proof.
  intros Hpow Hk Hp Hv Sh Hd Pl Sp Hw. pose proof Hk as (Hk0 & _). assert (Hp3 : (3 * k + 1 <= l_prec L)%Z) by lia.
  pose proof (fun its a H => part_number L stl s vars k m d its a Hpow Hk0 Hp3 (proj1 Hv) H Hd) as N.
  pose proof (fun its a H => part_raises L stl s vars k m d its a Hpow Hk Hp3 Hv H Hd) as W.
  destruct e as [a|a b|a b c]; cbn [elem_shape element_wrong] in *.
  - destruct Sh as (i & S1 & ->). unfold elem_parts in Pl. cbn [e_start e_end e_step app] in Pl. inversion Pl as [|k1 g1 gs1 a1 b1 E1 K1 Pl1]; subst.
    destruct (W i a S1 (spelled_within _ _ _ _ eq_refl Sp) Hw) as (mm & ii & nx & tr & Pt & Ev). exists mm, ii, nx, tr, n. split; [unfold eval_element; cbn [e_start e_end]; unfold count_bind; rewrite Ev; reflexivity|]. exists a1, i, b1. auto.
  - destruct Sh as (i & j & S1 & S2 & ->). unfold elem_parts in Pl. cbn [e_start e_end e_step app] in Pl. inversion Pl as [|k1 g1 gs1 a1 b1 E1 K1 Pl1]; subst k1 g1 gs1. inversion Pl1 as [|k2 g2 gs2 a2 b2 E2 K2 Pl2]; subst k2 g2 gs2.
    destruct Hw as [[_ Hw]|[Hw1 Hw]].
    + destruct (W i a S1 (spelled_within _ _ _ _ E1 Sp) Hw) as (mm & ii & nx & tr & Pt & Ev). exists mm, ii, nx, tr, n. split; [unfold eval_element; cbn [e_start e_end]; unfold count_bind; rewrite Ev; reflexivity|]. exists a1, i, b1. auto.
    + destruct (N i a S1 Hw1) as (qa & xa & _ & (ra & Ra & Rxa & _) & _).
      destruct (W j b S2 (spelled_within _ _ _ _ E2 Sp) Hw) as (mm & ii & nx & tr & Pt & Ev). exists mm, ii, nx, tr, (n + length i + 1). split; [unfold eval_element; cbn [e_start e_end]; unfold count_bind; rewrite Ra, Ev; reflexivity|]. exists a2, j, b2. auto.
  - destruct Sh as (i & j & l & S1 & S2 & S3 & ->). unfold elem_parts in Pl. cbn [e_start e_end e_step app] in Pl. inversion Pl as [|k1 g1 gs1 a1 b1 E1 K1 Pl1]; subst k1 g1 gs1. inversion Pl1 as [|k2 g2 gs2 a2 b2 E2 K2 Pl2]; subst k2 g2 gs2. inversion Pl2 as [|k3 g3 gs3 a3 b3 E3 K3 Pl3]; subst k3 g3 gs3.
    destruct Hw as [[_ Hw]|[(_ & Hw1 & Hw)|(Hw1 & Hw2 & Hw)]].
    + destruct (W i a S1 (spelled_within _ _ _ _ E1 Sp) Hw) as (mm & ii & nx & tr & Pt & Ev). exists mm, ii, nx, tr, n. split; [unfold eval_element; cbn [e_start e_end]; unfold count_bind; rewrite Ev; reflexivity|]. exists a1, i, b1. auto.
    + destruct (N i a S1 Hw1) as (qa & xa & _ & (ra & Ra & Rxa & _) & _).
      destruct (W j b S2 (spelled_within _ _ _ _ E2 Sp) Hw) as (mm & ii & nx & tr & Pt & Ev). exists mm, ii, nx, tr, (n + length i + 1). split; [unfold eval_element; cbn [e_start e_end]; unfold count_bind; rewrite Ra, Ev; reflexivity|]. exists a2, j, b2. auto.
    + destruct (N i a S1 Hw1) as (qa & xa & _ & (ra & Ra & Rxa & _) & _). destruct (N j b S2 Hw2) as (qb & xb & _ & (rb & Rb & Rxb & _) & _).
      destruct (W l c S3 (spelled_within _ _ _ _ E3 Sp) Hw) as (mm & ii & nx & tr & Pt & Ev). exists mm, ii, nx, tr, (n + length i + 1 + length j + 1).
      split; [unfold eval_element; cbn [e_start e_end e_step]; unfold count_bind; rewrite Ra, Rb, Rxa, Rxb; cbn [range_down lift]; rewrite Ev; reflexivity|]. exists a3, l, b3. auto.
Qed.
Lemma elements_raise L stl s vars k m d items e es2 : pow_ok (l_prec L) (f_pow (l_fmt L)) -> showable L k -> (6 * k + 3 <= l_prec L)%Z -> vars_exactly vars s -> d <= m -> Forall spelled items -> element_wrong vars (l_prec L) k e ->
  forall es1 els n acc, Forall2 (elem_shape (l_prec L) d) els (es1 ++ e :: es2) -> Forall (element_stays vars (l_prec L) k) es1 -> placed items (n + 1) (flat_map elem_parts els) ->
  exists mm i nx tr kk, eval_elements (std L) (execute (std L) (S m)) stl els n acc s = ((OErr (XExec mm i nx tr), kk), s) /\ reaches items kk i nx.
Proof.
  intros Hpow Hk Hp Hv Hd Sp Hw. pose proof Hk as (Hk0 & _). induction es1 as [|e1 es1 IH]; intros els n acc Sh St Pl; cbn [app] in Sh; inversion Sh as [|el e0 els' es0 H1 H2]; subst; cbn [flat_map] in Pl; cbn [eval_elements].
  - destruct (element_raises L stl s vars k m d items el e _ (n + 1) Hpow Hk Hp Hv H1 Hd Pl Sp Hw) as (mm & i & nx & tr & kk & E & R). exists mm, i, nx, tr, kk. rewrite E. auto.
  - apply Forall_cons_iff in St as [St1 St]. destruct (element_runs L stl s vars k m d el e1 Hpow Hk0 Hp (proj1 Hv) H1 Hd St1 (n + 1)) as (n' & rs & E & _).
    rewrite E. pose proof (element_counts _ _ _ _ _ _ _ _ _ E) as ->. apply placed_after in Pl. exact (IH els' _ _ H2 St Pl).
Qed.
(** * Texts *)
Lemma numerals_fits p e : element_numerals p e -> elem_fits p e.
Proof. destruct e; cbn [element_numerals elem_fits]; intuition auto using numerals_literals. Qed.
Lemma wrong_fits vars p k e : element_wrong vars p k e -> elem_fits p e.
Proof.
  assert (V : forall a, valued vars p k a -> literals_fit p a) by (intros a [H _]; exact (stays_fit _ _ _ _ H)). assert (W : forall a, part_wrong vars p k a -> literals_fit p a) by (intros a [H _]; exact (sized_fit _ _ _ _ H)). pose proof (numerals_literals p) as Z.
  destruct e as [a|a b|a b c]; cbn [element_wrong elem_fits]; intros H.
  - auto.
  - destruct H as [[H1 H2]|[H1 H2]]; auto.
  - destruct H as [[[H1 H2] H3]|[(H1 & H2 & H3)|(H1 & H2 & H3)]]; auto.
Qed.
Lemma array_wrong L vars k text es1 e es2 n fl s : exp_letter L -> pow_ok (l_prec L) (f_pow (l_fmt L)) -> showable L k -> (6 * k + 3 <= l_prec L)%Z -> vars_exactly vars s ->
  array_text text (es1 ++ e :: es2) -> Forall (element_stays vars (l_prec L) k) es1 -> element_wrong vars (l_prec L) k e -> Forall (element_numerals (l_prec L)) es2 -> length text < n -> cf_parse_only fl = false ->
  exists its nx tr, calculate (std L) n fl text s = (CFail false [] [its] nx tr, s).
Proof.
  intros Hx Hpow Hk Hp Hv Ht Hs Hw Hl Hn Hfl. pose proof Hk as (Hk0 & _).
  assert (Hf : Forall (elem_fits (l_prec L)) (es1 ++ e :: es2)) by (apply Forall_app; split; [exact (elements_fit _ _ _ _ Hs)|constructor; [exact (wrong_fits _ _ _ _ Hw)|exact (Forall_impl _ (numerals_fits _) Hl)]]).
  destruct (array_parse L text _ (s_lft s) Hx ltac:(lia) Ht Hf) as (w1 & i & w2 & d & Hd & P & B1 & B2 & Sh).
  destruct (c20_lossless (std_pcfg L) text (s_lft s) [w1 ++ [i] ++ w2] (length text) None) as (_ & _ & _ & Sp); [rewrite P; reflexivity|].
  apply Forall_cons_iff in Sp as [Sp _]. rewrite !Forall_app in Sp. destruct Sp as (_ & Sp & _). apply Forall_cons_iff in Sp as [Sp _].
  pose proof (parse_laid (std_pcfg L) (std_array_symbols L) (S (length text)) no_flags text (s_lft s)) as La. fold (parse_text (std_pcfg L) text (s_lft s)) in La. rewrite P in La. cbn [fst laid_pout] in La.
  apply Forall_cons_iff in La as [La _]. rewrite !Forall_app in La. destruct La as (_ & La & _). apply Forall_cons_iff in La as [La _].
  destruct Sh as (x1 & items & els & -> & F). destruct (spelled_inv _ _ Sp eq_refl) as [Tx Spi]. cbn [itext] in Tx.
  assert (Pl : placed items (0 + 1) (flat_map elem_parts els)) by (inversion La; [discriminate|assumption]).
  destruct n as [|[|n]]; [lia|lia|].
  destruct (elements_raise L (cf_stl fl) s vars k n d items e es2 Hpow Hk Hp Hv ltac:(lia) Spi Hw es1 els 0 [] F Hs Pl) as (mm & ii & nx & tr & kk & E & (a & g & b & E1 & E2 & E3)).
  set (x := IArr x1 false items els) in *.
  assert (G : item_gives L (cf_stl fl) s (S n) x Wrong).
  { right. split; [reflexivity|]. unfold x. cbn [eval_item]. unfold eval_arr. rewrite E. cbv zeta. destruct (truncate_reach x1 items kk a g b ii nx Tx E1 E2 E3) as [t Et]. unfold reraise. rewrite Et. eexists. reflexivity. }
  destruct (item_fair L (cf_stl fl) s (S n) 4 x Wrong eq_refl ltac:(discriminate) G) as (R & _).
  destruct (fair_execute L (cf_stl fl) s (S n) 4 w1 [x] w2 Wrong B1 B2 eq_refl R) as (r & Er & (m1 & i1 & nx1 & tr1 & Rn)).
  exists i1, nx1, tr1. unfold calculate, calculate_with. destruct text as [|c text]; [cbn in Hd; lia|].
  change (g_parse (std L)) with (std_pcfg L). rewrite P. cbn [run_statements]. rewrite (functional_in _ x); [|rewrite !in_app_iff; cbn [In]; tauto|reflexivity]. rewrite Hfl. cbn [orb].
  replace (mkSt (s_vars s) (s_lft s)) with s by (destruct s; reflexivity). rewrite Er, Rn. reflexivity.
Qed.
