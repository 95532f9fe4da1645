(** What arrays of arithmetic are. *)
From Coq Require Import ZArith QArith Ascii String List Bool Lia Lqa.
From Verif Require Import Base BaseProofs Dec DecProofs Num NumSpec NumProofs NumProofs2 NumProofs3 NumProofs4 Lex LexSpec Bases BasesProofs Formats Units UnitsProofs5 Install Syntax Pos Call CallSpec Loop LoopSpec LoopProofs Parse Exec ExecSpec Std StdSpec StdProofs2 StdProofs4 ArithSpec ArithProofs ArithTextSpec ArrayTextSpec ArithRunSpec ArrayRunSpec ArithTextProofs ArithTextProofs2 ArithTextProofs3 ArithTextProofs4 ArithFunProofs ArithTextProofs5 ArrayTextProofs RangeSpec RangeProofs Prop_Range.
Import ListNotations.
Open Scope nat_scope.

(** * Parts *)
Lemma part_runs L stl s vars k m d its e : pow_ok (l_prec L) (f_pow (l_fmt L)) -> (0 <= k)%Z -> (3 * k + 1 <= l_prec L)%Z -> vars_hold vars s -> part_shape (l_prec L) d its e -> d <= m -> valued vars (l_prec L) k e ->
  exists q r x, avalue vars e = Some q /\ execute (std L) (S m) stl its s = (OOk r, s) /\ rval r = VNum x /\ runit r = None /\ good x /\ lowest x /\ (val x == q)%Q /\ size_le k x /\ ncast x = aformat (shown_as s) e.
Proof.
  intros Hpow Hk Hp Hv (w1 & i & w2 & B1 & B2 & Sh & ->) Hd [Hs Hn]. destruct (stays_value _ _ _ _ Hs) as (q & Eq & Dq).
  destruct (runs_execute L stl s m 4 w1 i w2 q _ B1 B2 (shape_functional _ _ _ _ _ Sh) (shape_runs L stl s vars k Hpow Hk Hp Hv _ _ _ _ Sh m q Hd Hs Eq)) as (r & R & [(x & Rx & Ux & Gx & Lx & Vx & Px) Fx]).
  exists q, r, x. repeat (split; [assumption|]). split; [exact (lowest_size k x q Gx Lx Vx Dq)|]. exact (Fx x Rx).
Qed.
Lemma part_number L stl s vars k m d its e : pow_ok (l_prec L) (f_pow (l_fmt L)) -> (0 <= k)%Z -> (3 * k + 1 <= l_prec L)%Z -> vars_hold vars s -> part_shape (l_prec L) d its e -> d <= m -> valued vars (l_prec L) k e ->
  exists q x, avalue vars e = Some q /\ part_gives (std L) (execute (std L) (S m)) stl its s x s /\ good x /\ lowest x /\ (val x == q)%Q /\ size_le k x.
Proof.
  intros Hpow Hk Hp Hv Hs Hd Hl. destruct (part_runs L stl s vars k m d its e Hpow Hk Hp Hv Hs Hd Hl) as (q & r & x & E & R & Rx & Ux & Gx & Lx & Vx & Sx & _).
  exists q, x. split; [exact E|]. split; [|auto]. exists r. split; [|auto]. unfold eval_part, bind. rewrite R, Rx. reflexivity.
Qed.
(** * A common denominator *)
Lemma over_common n d' : good n -> lowest n -> (0 < d')%Z -> over (nden n * d') (nnum n * d') n.
Proof.
  intros G Lo H. split; [exact G|]. split; [exact Lo|]. unfold val. unfold good in G. rewrite !inject_Z_mult. assert (D : ~ (inject_Z (nden n) == 0)%Q) by (unfold Qeq; cbn; lia). assert (D' : ~ (inject_Z d' == 0)%Q) by (unfold Qeq; cbn; lia). field. split; assumption.
Qed.
Lemma mul_below a b m n : (0 <= a < m)%Z -> (0 <= b < n)%Z -> (0 <= a * b < m * n)%Z.
Proof. intros H1 H2. split; [apply Z.mul_nonneg_nonneg; lia|apply Z.mul_lt_mono_nonneg; lia]. Qed.
Lemma size_parts k n : good n -> size_le k n -> (0 <= Z.abs (nnum n) < 10 ^ k /\ 0 <= nden n < 10 ^ k /\ 0 < nden n)%Z.
Proof. unfold good. intros G [S1 S2]. lia. Qed.
(** * Ranges *)
Lemma steps_ranges a b c l qa qb qc : (val a == qa)%Q -> (val b == qb)%Q -> (val c == qc)%Q -> steps_from a b c l -> ranges qa qb qc (plain l).
Proof.
  intros Ha Hb Hc [H1 H2]. split.
  - intros i r E. unfold plain in E. rewrite nth_error_map in E. destruct (nth_error l i) as [x|] eqn:El; [|discriminate E]. cbn [option_map] in E. injection E as <-. destruct (H1 i x El) as (G & Lo & V). exists x. split; [reflexivity|]. split; [reflexivity|]. split; [exact G|]. split; [exact Lo|]. rewrite V, Ha, Hc. reflexivity.
  - intros i. unfold plain. rewrite map_length, H2, Ha, Hb, Hc. reflexivity.
Qed.
(** * Elements *)
Lemma element_runs L stl s vars k m d el e : pow_ok (l_prec L) (f_pow (l_fmt L)) -> (0 <= k)%Z -> (6 * k + 3 <= l_prec L)%Z -> vars_hold vars s -> elem_shape (l_prec L) d el e -> d <= m -> element_stays vars (l_prec L) k e ->
  forall n, exists n' rs, eval_element (std L) (execute (std L) (S m)) stl el n s = ((OOk rs, n'), s) /\ element_of vars (shown_as s) e rs.
Proof.
  intros Hpow Hk Hp6 Hv Hs Hd Hl n. assert (Hp : (3 * k + 1 <= l_prec L)%Z) by lia. assert (T0 : (0 < 10 ^ k)%Z) by (apply Z.pow_pos_nonneg; lia). destruct e as [a|a b|a b c]; cbn [elem_shape element_stays] in Hs, Hl.
  - destruct Hs as (i & Sh & ->). destruct (part_runs L stl s vars k m d i a Hpow Hk Hp Hv Sh Hd Hl) as (q & r & x & E & R & Rx & Ux & Gx & Lx & Vx & _ & Fx).
    eexists _, [r]. split; [|exists q, r, x; auto 9]. unfold eval_element. cbn [e_end e_start]. unfold count_bind, eval_part, bind. rewrite R, Rx. reflexivity.
  - destruct Hs as (i & j & Sa & Sb & ->). destruct Hl as [La Lb].
    destruct (part_number L stl s vars k m d i a Hpow Hk Hp Hv Sa Hd La) as (qa & x & Ea & Pa & Ga & Loa & Va & Za). destruct (part_number L stl s vars k m d j b Hpow Hk Hp Hv Sb Hd Lb) as (qb & y & Eb & Pb & Gb & Lob & Vb & Zb).
    destruct (size_parts k x Ga Za) as (A1 & A2 & A3). destruct (size_parts k y Gb Zb) as (B1 & B2 & B3).
    pose proof (over_common x (nden y) Ga Loa B3) as Ox. pose proof (over_common y (nden x) Gb Lob A3) as Oy. rewrite (Z.mul_comm (nden y) (nden x)) in Oy.
    pose proof (mul_below _ _ _ _ A1 B2) as M1. pose proof (mul_below _ _ _ _ B1 A2) as M2. pose proof (mul_below _ _ _ _ A2 B2) as M3.
    assert (T2 : (10 ^ (2 * k + 1) = 10 * (10 ^ k * 10 ^ k))%Z) by (rewrite Z.pow_add_r, Z.pow_1_r by lia; replace (2 * k)%Z with (k + k)%Z by lia; rewrite Z.pow_add_r by lia; ring).
    destruct (c36_default (std L) (execute (std L) (S m)) stl (mkElem i (Some j) None) j n x y s s s (2 * k + 1)%Z (nden x * nden y)%Z (nnum x * nden y)%Z (nnum y * nden x)%Z eq_refl eq_refl Pa Pb) as (l & n' & c & R & St & C1 & C2 & _).
    + lia.
    + change (g_prec (std L)) with (l_prec L). lia.
    + split; [apply Z.mul_pos_pos; lia|rewrite T2; lia].
    + exact Ox.
    + exact Oy.
    + rewrite T2, !Z.abs_mul, (Z.abs_eq (nden y)), (Z.abs_eq (nden x)) by lia. lia.
    + exists n', (plain l). split; [exact R|]. exists qa, qb. split; [exact Ea|]. split; [exact Eb|]. apply (steps_ranges x y c); auto. rewrite Va, Vb in C1, C2. destruct (Qle_bool qa qb) eqn:Q.
      * apply C1. apply Qle_bool_iff. exact Q.
      * apply C2. apply Qnot_le_lt. intros K. apply Qle_bool_iff in K. congruence.
  - destruct Hs as (i & j & h & Sa & Sb & Sc & ->). destruct Hl as (La & Lb & Lc & Hm).
    destruct (part_number L stl s vars k m d i a Hpow Hk Hp Hv Sa Hd La) as (qa & x & Ea & Pa & Ga & Loa & Va & Za). destruct (part_number L stl s vars k m d j b Hpow Hk Hp Hv Sb Hd Lb) as (qb & y & Eb & Pb & Gb & Lob & Vb & Zb).
    destruct (part_number L stl s vars k m d h c Hpow Hk Hp Hv Sc Hd Lc) as (qc & z & Ec & Pc & Gc & Loc & Vc & Zc). rewrite Ea, Eb, Ec in Hm. destruct Hm as [N D].
    destruct (size_parts k x Ga Za) as (A1 & A2 & A3). destruct (size_parts k y Gb Zb) as (B1 & B2 & B3). destruct (size_parts k z Gc Zc) as (C1 & C2 & C3).
    assert (P1 : (0 < nden y * nden z)%Z) by (apply Z.mul_pos_pos; lia). assert (P2 : (0 < nden x * nden z)%Z) by (apply Z.mul_pos_pos; lia). assert (P3 : (0 < nden x * nden y)%Z) by (apply Z.mul_pos_pos; lia).
    pose proof (over_common x _ Ga Loa P1) as Ox. pose proof (over_common y _ Gb Lob P2) as Oy. pose proof (over_common z _ Gc Loc P3) as Oz. set (dd := (nden x * (nden y * nden z))%Z) in *.
    replace (nden y * (nden x * nden z))%Z with dd in Oy by (unfold dd; ring). replace (nden z * (nden x * nden y))%Z with dd in Oz by (unfold dd; ring).
    pose proof (mul_below _ _ _ _ A1 (mul_below _ _ _ _ B2 C2)) as M1. pose proof (mul_below _ _ _ _ B1 (mul_below _ _ _ _ A2 C2)) as M2. pose proof (mul_below _ _ _ _ C1 (mul_below _ _ _ _ A2 B2)) as M3. pose proof (mul_below _ _ _ _ A2 (mul_below _ _ _ _ B2 C2)) as M4. fold dd in M4.
    assert (T3 : (10 ^ (3 * k + 1) = 10 * (10 ^ k * (10 ^ k * 10 ^ k)))%Z) by (rewrite Z.pow_add_r, Z.pow_1_r by lia; replace (3 * k)%Z with (k + (k + k))%Z by lia; rewrite !Z.pow_add_r by lia; ring).
    destruct (c36_range (std L) (execute (std L) (S m)) stl (mkElem i (Some j) (Some h)) j h n x y z s s s s (3 * k + 1)%Z dd (nnum x * (nden y * nden z))%Z (nnum y * (nden x * nden z))%Z (nnum z * (nden x * nden y))%Z eq_refl eq_refl Pa Pb Pc) as (l & n' & R & St).
    + lia.
    + change (g_prec (std L)) with (l_prec L). lia.
    + split; [apply Z.mul_pos_pos; lia|rewrite T3; lia].
    + exact Ox.
    + exact Oy.
    + exact Oz.
    + rewrite T3, !(Z.abs_mul (nnum _)), (Z.abs_eq (nden y * nden z)), (Z.abs_eq (nden x * nden z)), (Z.abs_eq (nden x * nden y)) by lia. lia.
    + rewrite Vc. exact N.
    + rewrite Va, Vb, Vc. exact D.
    + exists n', (plain l). split; [exact R|]. exists qa, qb, qc. repeat (split; [assumption|]). exact (steps_ranges x y z l qa qb qc Va Vb Vc St).
Qed.
Lemma elements_run L stl s vars k m d : pow_ok (l_prec L) (f_pow (l_fmt L)) -> (0 <= k)%Z -> (6 * k + 3 <= l_prec L)%Z -> vars_hold vars s -> d <= m ->
  forall els es, Forall2 (elem_shape (l_prec L) d) els es -> Forall (element_stays vars (l_prec L) k) es -> forall n acc,
  exists n' ls, eval_elements (std L) (execute (std L) (S m)) stl els n acc s = ((OOk (acc ++ concat ls), n'), s) /\ Forall2 (element_of vars (shown_as s)) es ls.
Proof.
  intros Hpow Hk Hp Hv Hd els es H. induction H as [|el e els es H1 H2 IH]; intros Hs n acc.
  - exists n, []. cbn [concat]. rewrite app_nil_r. split; [reflexivity|constructor].
  - apply Forall_cons_iff in Hs. destruct Hs as [Hs1 Hs2]. destruct (element_runs L stl s vars k m d el e Hpow Hk Hp Hv H1 Hd Hs1 (n + 1)) as (n1 & r & E1 & R1).
    destruct (IH Hs2 n1 (acc ++ r)) as (n2 & l & E2 & R2). exists n2, (r :: l). split; [|constructor; assumption]. cbn [eval_elements concat]. rewrite E1, E2, <- app_assoc. reflexivity.
Qed.
Lemma array_item L stl s vars k m d i es : pow_ok (l_prec L) (f_pow (l_fmt L)) -> (0 <= k)%Z -> (6 * k + 3 <= l_prec L)%Z -> vars_hold vars s -> d <= m -> list_shape (l_prec L) d i es -> Forall (element_stays vars (l_prec L) k) es ->
  exists ls, eval_item (std L) (execute (std L) (S m)) stl i s = (OOk (mkRes (VList (concat ls)) None (Some ROther)), s) /\ Forall2 (element_of vars (shown_as s)) es ls.
Proof.
  intros Hpow Hk Hp Hv Hd (text & items & els & -> & H) Hs. destruct (elements_run L stl s vars k m d Hpow Hk Hp Hv Hd els es H Hs 0 []) as (n & l & E & R).
  exists l. split; [|exact R]. cbn [eval_item]. unfold eval_arr. rewrite E. reflexivity.
Qed.
Lemma elements_fit vars p k es : Forall (element_stays vars p k) es -> Forall (elem_fits p) es.
Proof.
  apply Forall_impl. intros [a|a b|a b c]; cbn [element_stays elem_fits]; unfold valued; intros H.
  - apply (stays_fit vars p k). tauto.
  - split; apply (stays_fit vars p k); tauto.
  - repeat split; apply (stays_fit vars p k); tauto.
Qed.
(** * A statement that is one operand *)
Lemma alone L stl s m w1 i w2 r : blanks w1 -> blanks w2 -> ifunc i = true -> iisop i = false -> eval_item (std L) (execute (std L) m) stl i s = (OOk r, s) -> is_unit_val r = false -> is_exc (rval r) = false ->
  execute (std L) (S m) stl (w1 ++ [i] ++ w2) s = (OOk r, s).
Proof.
  intros B1 B2 Hf Ho He Hu Hx. cbn [execute]. unfold execute_body. rewrite (functional_in _ i); [|rewrite !in_app_iff; cbn [In]; tauto|exact Hf].
  unfold bind. rewrite (operands_blank _ _ _ w1) by exact B1. cbn [app]. rewrite (operands_item _ _ _ _ _ _ _ _ r s s Hf Ho He). rewrite operands_end by exact B2. cbn [app].
  set (rr := run_slots _ _ _ _ s). assert (Er : rr = (OOk r, s)).
  { apply (loop_runs (g_ops (std L)) _ _ (real_interp L stl s) (Leaf (r, 0))); [apply std_good|split; [exact Hu|constructor]|apply real_no_units|exact I|]. intros g l x [E|[]]. discriminate E. }
  rewrite Er. destruct (rval r); try reflexivity. discriminate Hx.
Qed.
(** * Texts *)
Lemma array_parse L text es lft : exp_letter L -> (1 <= l_prec L)%Z -> array_text text es -> Forall (elem_fits (l_prec L)) es ->
  exists w1 i w2 d, d + 2 <= length text /\ parse_text (std_pcfg L) text lft = (POk [w1 ++ [i] ++ w2] (length text) None, lft) /\ blanks w1 /\ blanks w2 /\ list_shape (l_prec L) d i es.
Proof.
  intros He Hp (b1 & t & b2 & -> & Hb1 & Hb2 & Ht) Hf. set (text := b1 ++ $"[" ++ t ++ $"]" ++ b2). assert (Lt : length text = length b1 + length t + length b2 + 2) by (unfold text; rewrite !app_length; cbn [length list_ascii_of_string]; lia).
  destruct (array_on L t es (length text) no_flags (blank_items b1) b2 He Hp Ht Hf ltac:(lia)) as (i & Sh & On). exists (blank_items b1), i, (blank_items b2), (length t).
  split; [lia|]. split; [|split; [apply blanks_items|split; [apply blanks_items|exact Sh]]].
  assert (G : reads_on L (parse (std_pcfg L) (length text)) no_flags (b1 ++ ($"[" ++ t ++ $"]") ++ b2) [] [] (blank_items b1 ++ [i] ++ blank_items b2)).
  { apply on_then; [apply on_blanks, Hb1|]. change ([] ++ blank_items b1) with (blank_items b1). apply on_then; [rewrite app_nil_r; exact On|apply on_blanks, Hb2]. }
  assert (Et : text = b1 ++ ($"[" ++ t ++ $"]") ++ b2) by (unfold text; rewrite <- !app_assoc; reflexivity). rewrite <- Et in G.
  unfold parse_text. cbn [parse]. destruct (G (S (length (text ++ []))) [] 0 lft ltac:(lia)) as (f1 & F1 & E1). rewrite !app_nil_r in E1. rewrite E1. destruct f1 as [|f1]; [cbn in F1; lia|]. reflexivity.
Qed.
Lemma array_answer L vars k text es n fl s : exp_letter L -> pow_ok (l_prec L) (f_pow (l_fmt L)) -> (0 <= k)%Z -> (6 * k + 3 <= l_prec L)%Z -> vars_hold vars s ->
  array_text text es -> Forall (element_stays vars (l_prec L) k) es -> length text < n -> cf_parse_only fl = false ->
  exists items ls, calculate (std L) n fl text s = (CDone [mkCR items (Some (VList (concat ls), None)) (if cf_state fl then Some (s_vars s) else None)], s) /\ Forall2 (element_of vars (shown_as s)) es ls.
Proof.
  intros Hx Hpow Hk Hp Hv Ht Hs Hn Hfl.
  pose proof (elements_fit _ _ _ _ Hs) as Hf.
  destruct (array_parse L text es (s_lft s) Hx ltac:(lia) Ht Hf) as (w1 & i & w2 & d & Hd & P & B1 & B2 & Sh).
  destruct n as [|[|n]]; [lia|lia|]. destruct (array_item L (cf_stl fl) s vars k n d i es Hpow Hk Hp Hv ltac:(lia) Sh Hs) as (l & E & R).
  assert (Fi : ifunc i = true /\ iisop i = false) by (destruct Sh as (x1 & x2 & x3 & -> & _); split; reflexivity). destruct Fi as [Fi Oi].
  exists (w1 ++ [i] ++ w2), l. split; [|exact R]. unfold calculate, calculate_with. destruct text as [|c text]; [cbn in Hd; lia|].
  change (g_parse (std L)) with (std_pcfg L). rewrite P. cbn [run_statements]. rewrite (functional_in _ i); [|rewrite !in_app_iff; cbn [In]; tauto|exact Fi]. rewrite Hfl. cbn [orb].
  replace (mkSt (s_vars s) (s_lft s)) with s by (destruct s; reflexivity). rewrite (alone L (cf_stl fl) s (S n) w1 i w2 _ B1 B2 Fi Oi E eq_refl eq_refl). reflexivity.
Qed.
