(** Running the items of arithmetic. *)
From Coq Require Import ZArith QArith Qpower Ascii String List Bool Lia.
From Verif Require Import Base BaseProofs Dec DecProofs Num NumSpec NumProofs NumProofs2 NumProofs3 NumProofs4 Lex LexSpec Bases BasesProofs Formats Units UnitsProofs5 Install Syntax Pos Call CallSpec Loop LoopSpec LoopProofs Parse Exec ExecSpec Std StdSpec StdProofs2 StdProofs4 ArithSpec ArithProofs ArithTextSpec ArithRunSpec ArithTextProofs ArithTextProofs2 ArithTextProofs3 ArithTextProofs4 ArithFunProofs.
Import ListNotations.
Open Scope nat_scope.

(** * The operators of the calculator *)
Definition gap_of (o : aop) (k : nat) : gap := match o with Beside => GImp | _ => GOp (osym o) k end.
Lemma gap_sym_of L o k : gap_sym (g_ops (std L)) (gap_of o k) = run_sym o.
Proof. destruct o; reflexivity. Qed.
Lemma std_good L : good_table (g_ops (std L)).
Proof. repeat constructor; discriminate. Qed.
Lemma gap_rank L o k h j : olevel h < olevel o -> rank (g_ops (std L)) (gap_of h j) < rank (g_ops (std L)) (gap_of o k).
Proof. destruct o, h; cbn [olevel]; intros H; try lia; apply Nat.ltb_lt; vm_compute; reflexivity. Qed.
Lemma gap_rank_eq L o k h j : olevel h = olevel o -> rank (g_ops (std L)) (gap_of h j) = rank (g_ops (std L)) (gap_of o k) /\ right_to_left (g_ops (std L)) (rank (g_ops (std L)) (gap_of o k)) = false.
Proof. destruct o, h; cbn [olevel]; intros H; try lia; split; vm_compute; reflexivity. Qed.
Lemma gap_good L o k : good_gap (g_ops (std L)) (gap_of o k).
Proof.
  destruct o; cbn [gap_of good_gap osym].
  1-5: split; [apply mem_str_iff; reflexivity|]; split; [eexists; split; [apply find_plus || apply find_minus || apply find_star || apply find_slash || apply find_caret|]; split; reflexivity|repeat split; discriminate].
  exists imp_sym. split; [reflexivity|]. split; [apply mem_str_iff; reflexivity|]. eexists. split; [apply find_imp|]. split; reflexivity.
Qed.

(** * What the operators give *)
Definition real_interp (L : lib) (stl : bool) (s : st) : interp := fun sym ins =>
  match callop (std L) stl sym ins s with
  | (OOk r, _) => if is_unit_val r then inr (XCalc false MOther) else inl r
  | (OErr e, _) => inr e
  | _ => inr (XCalc false MOther)
  end.
Lemma real_no_units L stl s : no_units (real_interp L stl s).
Proof.
  intros sym ins r. unfold real_interp. destruct (callop (std L) stl sym ins s) as [[x|e| |] s']; try discriminate. destruct (is_unit_val x) eqn:E; [discriminate|]. intros H. injection H as <-. exact E.
Qed.
Lemma holds_no_unit r q : holds_value r q -> is_unit_val r = false.
Proof. intros (n & E & _). unfold is_unit_val. rewrite E. reflexivity. Qed.

(** The tree of an expression: its value and format, for any items *)
Definition holds_as (r : result) (q : Q) (c : option cast) : Prop := holds_value r q /\ forall n, rval r = VNum n -> ncast n = c.
Lemma number_as n f q c : good n -> lowest n -> (val n == q)%Q -> ncast n <> Some CPct -> ncast n = c -> holds_as (mkRes (VNum n) None f) q c.
Proof. intros G Lo V P C. split; [exists n; auto 7|]. intros m E. cbn [rval] in E. injection E as <-. exact C. Qed.
Definition good_tree (L : lib) (stl : bool) (s : st) (lev : nat) (t : tree) (q : Q) (c : option cast) : Prop :=
  grouped (g_ops (std L)) t /\ good_chain (g_ops (std L)) (chain_of t) /\
  match t with Leaf _ => True | Node g _ _ => exists o k, g = gap_of o k /\ olevel o <= lev end /\
  forall orig, holds_as (tree_value (g_ops (std L)) orig (real_interp L stl s) t) q c /\ agrees (g_ops (std L)) orig (callop (std L) stl) (real_interp L stl s) s t.
Lemma leaf_tree L stl s lev r k q c : holds_as r q c -> good_tree L stl s lev (Leaf (r, k)) q c.
Proof.
  intros H. split; [exact I|]. split; [split; [exact (holds_no_unit _ _ (proj1 H))|constructor]|]. split; [exact I|]. intros orig. split; [exact H|]. intros g l x [E|[]]. discriminate E.
Qed.
Lemma tree_looser L stl s lev t q c : good_tree L stl s lev t q c -> good_tree L stl s (S lev) t q c.
Proof.
  intros (G1 & G2 & G3 & G4). repeat (split; [assumption|]). split; [|assumption]. destruct t; [exact I|]. destruct G3 as (o & k & E & H). exists o, k. split; [exact E|lia].
Qed.
Lemma bin_tree L stl s o k t1 t2 q1 q2 q c1 c2 w : pow_ok (l_prec L) (f_pow (l_fmt L)) -> (0 <= w)%Z -> (3 * w + 1 <= l_prec L)%Z ->
  digits_le w q1 -> digits_le w q2 -> digits_le w q -> apply_op o q1 q2 = Some q ->
  good_tree L stl s (olevel o) t1 q1 c1 -> good_tree L stl s (pred (olevel o)) t2 q2 c2 -> good_tree L stl s (olevel o) (Node (gap_of o k) t1 t2) q (first_format c1 c2).
Proof.
  intros Hpow Hw Hp D1 D2 D Hq (A1 & A2 & A3 & A4) (B1 & B2 & B3 & B4). split; [|split; [|split]].
  - cbn [grouped]. split; [exact A1|]. split; [exact B1|]. split.
    + destruct t1 as [x|g l r]; [exact I|]. destruct A3 as (h & j & -> & Hh). apply Nat.le_lteq in Hh. destruct Hh as [Hh|Hh]; [left; apply gap_rank, Hh|right; apply gap_rank_eq, Hh].
    + destruct t2 as [x|g l r]; [exact I|]. destruct B3 as (h & j & -> & Hh). left. apply gap_rank. destruct o; cbn [olevel pred] in *; lia.
  - cbn [chain_of]. destruct A2 as [A2 A2']. destruct B2 as [B2 B2']. split; [exact A2|]. cbn [fst snd] in *. apply Forall_app. split; [exact A2'|]. constructor; [|exact B2'].
    split; [apply gap_good|exact B2].
  - exists o, k. split; [reflexivity|lia].
  - intros orig. destruct (A4 orig) as [V1 C1]. destruct (B4 orig) as [V2 C2].
    destruct (op_value L stl o _ _ q1 q2 q w s Hpow Hw Hp (proj1 V1) (proj1 V2) D1 D2 D Hq) as (r & R & V0).
    assert (V : holds_as r q (first_format c1 c2)).
    { split; [exact V0|]. intros n En. destruct (op_value_cast L stl o _ _ q1 q2 q w s Hpow Hw Hp (proj1 V1) (proj1 V2) D1 D2 D Hq) as (n' & C & _ & _ & _ & Nc).
      rewrite C in R. injection R as <-. cbn [rval] in En. injection En as <-. destruct V1 as [(a & Ra & _) F1]. destruct V2 as [(b & Rb & _) F2].
      rewrite (Nc a b Ra Rb). unfold format_of, first_format. rewrite (F1 a Ra), (F2 b Rb). reflexivity. }
    assert (E : real_interp L stl s (run_sym o) [tree_value (g_ops (std L)) orig (real_interp L stl s) t1; tree_value (g_ops (std L)) orig (real_interp L stl s) t2] = inl r).
    { unfold real_interp at 1. rewrite R. rewrite (holds_no_unit _ _ V0). reflexivity. }
    split.
    + cbn [tree_value]. rewrite gap_sym_of, E. exact V.
    + intros g l x [H|[H|H]]; [|apply C1, H|apply C2, H]. assert (Hg : g = gap_of o k /\ l = t1 /\ x = t2) by (inversion H; auto). destruct Hg as (-> & -> & ->).
      rewrite gap_sym_of. unfold interp_call. rewrite E. exact R.
Qed.

(** * Running the items *)
Lemma functional_app a b : functional_items (a ++ b) = functional_items a ++ functional_items b.
Proof. apply filter_app. Qed.
Lemma functional_blanks w : blanks w -> functional_items w = [].
Proof. induction 1 as [|x w Hx _ IH]; [reflexivity|]. unfold functional_items in *. cbn [filter]. rewrite Hx. exact IH. Qed.
Lemma stays_value vars p k e : stays vars p k e -> exists q, avalue vars e = Some q /\ digits_le k q.
Proof. destruct e; cbn [stays]; destruct (avalue vars _) as [q|]; intros [H _]; try contradiction; exists q; auto. Qed.
Lemma tree_slots g t1 t2 : slots_of (chain_of (Node g t1 t2)) =
  slots_of (chain_of t1) ++ match g with GOp s i => [SOp s i] | GImp => [] end ++ slots_of (chain_of t2).
Proof.
  cbn [chain_of]. rewrite slots_of_split. destruct (chain_of t1) as [a1 g1], (chain_of t2) as [a2 g2]. cbn [fst snd]. rewrite (slots_of_eq a2 g2). destruct g; reflexivity.
Qed.
Lemma op_items_run G rec stl o r k sl orig : eval_operands G rec stl (op_items o ++ r) k sl orig =
  eval_operands G rec stl r (k + length (op_items o)) (sl ++ match gap_of o k with GOp s i => [SOp s i] | GImp => [] end) (orig ++ op_items o).
Proof.
  destruct o; cbn [op_items gap_of app length]; try (rewrite operands_op; replace (k + 1) with (S k) by lia; reflexivity). rewrite !app_nil_r, Nat.add_0_r. reflexivity.
Qed.
Definition runs_to (L : lib) (stl : bool) (s : st) (m lev : nat) (its : list item) (q : Q) (c : option cast) : Prop :=
  forall k, exists t, good_tree L stl s lev t q c /\ forall rest sl orig,
    eval_operands (std L) (execute (std L) m) stl (its ++ rest) k sl orig s =
    eval_operands (std L) (execute (std L) m) stl rest (k + length (functional_items its)) (sl ++ slots_of (chain_of t)) (orig ++ its) s.
Lemma runs_execute L stl s m lev w1 its w2 q c : blanks w1 -> blanks w2 -> is_nil (functional_items its) = false -> runs_to L stl s m lev its q c ->
  exists r, execute (std L) (S m) stl (w1 ++ its ++ w2) s = (OOk r, s) /\ holds_as r q c.
Proof.
  intros B1 B2 Hf H. destruct (H 0) as (t & Ht & E). cbn [execute]. unfold execute_body. rewrite !functional_app, (functional_blanks w1 B1), (functional_blanks w2 B2), app_nil_r. cbn [app]. rewrite Hf.
  unfold bind. rewrite (operands_blank _ _ _ w1) by exact B1. rewrite E. cbn [app Nat.add]. rewrite operands_end by exact B2.
  destruct Ht as (T1 & T2 & _ & T4). destruct (T4 ((w1 ++ its) ++ w2)) as [V A]. set (rr := run_slots _ _ _ _ s).
  assert (Er : rr = (OOk (tree_value (g_ops (std L)) ((w1 ++ its) ++ w2) (real_interp L stl s) t), s)).
  { apply (loop_runs (g_ops (std L)) _ _ (real_interp L stl s)); [apply std_good|exact T2|apply real_no_units|exact T1|exact A]. }
  rewrite Er. pose proof V as [(n & Rn & _) _]. rewrite Rn. eexists. split; [reflexivity|exact V].
Qed.
Lemma shape_functional p d k its e : shape p d k its e -> is_nil (functional_items its) = false.
Proof.
  intros H. destruct (shape_prev _ _ _ _ _ H) as (i & I1 & _). unfold previous_functional_item in I1. destruct (functional_items its); [discriminate|reflexivity].
Qed.
Lemma shape_runs L stl s vars k : pow_ok (l_prec L) (f_pow (l_fmt L)) -> (0 <= k)%Z -> (3 * k + 1 <= l_prec L)%Z -> vars_hold vars s ->
  forall d lev its e, shape (l_prec L) d lev its e -> forall m q, d <= m -> stays vars (l_prec L) k e -> avalue vars e = Some q -> runs_to L stl s m lev its q (aformat (shown_as s) e).
Proof.
  intros Hpow Hk Hp Hv. induction 1 as [d l n E V G Lo|d n|d d' text w1 w2 its e Hd B1 B2 Hs IH|d d' text f h1 h2 w1 its w2 tl e Hd B1 B2 Hs IH|d d' text f h1 h2 w1 i1 w2 c w3 i2 w4 tl a b Hd B1 B2 B3 B4 H1 IH1 H2 IH2|d lev its e Hs IH|d o i1 w1 w2 i2 a b B1 B2 H1 IH1 H2 IH2]; intros m q Hm St Hq.
  - cbn [avalue] in Hq. injection Hq as <-. intros j. exists (Leaf (mkRes (VNum n) None (Some ROther), j)). split; [apply leaf_tree, number_as; try assumption; rewrite (lit_cast _ _ _ E); [discriminate|reflexivity]|]. intros rest sl orig.
    change ([ILit (lit_text l) (LNum n)] ++ rest) with (ILit (lit_text l) (LNum n) :: rest). erewrite operands_item; [|reflexivity|reflexivity|reflexivity].
    cbn [functional_items filter ifunc length]. replace (j + 1) with (S j) by lia. reflexivity.
  - cbn [avalue] in Hq. destruct (Hv n q Hq) as (x & Ea & G & Lo & V & Nc). intros j. exists (Leaf (mkRes (VNum x) None (Some (RVar n)), j)). split; [apply leaf_tree, number_as; try assumption; cbn [aformat]; unfold shown_as; rewrite Ea; reflexivity|]. intros rest sl orig.
    change ([IVar n] ++ rest) with (IVar n :: rest). erewrite operands_item; [|reflexivity|reflexivity|cbn [eval_item]; rewrite Ea; reflexivity].
    cbn [functional_items filter ifunc length]. replace (j + 1) with (S j) by lia. reflexivity.
  - destruct m as [|m]; [lia|]. destruct (runs_execute L stl s m 4 w1 its w2 q (aformat (shown_as s) e) B1 B2 (shape_functional _ _ _ _ _ Hs)) as (r & R & V); [apply IH; [lia|exact St|exact Hq]|].
    intros j. destruct V as [(n & Rn & Un & Gn & Ln & Vn & Pn) Fn]. exists (Leaf (mkRes (VNum n) None (rref r), j)). split; [apply leaf_tree, number_as; try assumption; exact (Fn n Rn)|]. intros rest sl orig.
    change ([IInner text false (w1 ++ its ++ w2)] ++ rest) with (IInner text false (w1 ++ its ++ w2) :: rest).
    erewrite operands_item; [|reflexivity|reflexivity|cbn [eval_item]; unfold eval_inner; rewrite R, Rn, Un; reflexivity].
    cbn [functional_items filter ifunc length]. replace (j + 1) with (S j) by lia. reflexivity.
  - destruct m as [|m]; [lia|]. cbn [stays] in St. destruct St as (S0 & Rm & S1). destruct (stays_value _ _ _ _ S1) as (q1 & Q1 & D1). cbn [avalue] in Hq. rewrite Q1 in Hq.
    destruct (runs_execute L stl s m 4 w1 its w2 q1 (aformat (shown_as s) e) B1 B2 (shape_functional _ _ _ _ _ Hs)) as (r & R & V); [apply IH; [lia|exact S1|exact Q1]|].
    destruct V as [V F]. destruct (fun_value L (callop (std L) stl) stl f r q1 q k s Hk Hp V D1 Rm Hq) as (n & C & Gn & Ln & Vn & Nc).
    intros j. exists (Leaf (mkRes (VNum n) None None, j)). split.
    { apply leaf_tree. destruct V as (a & Ra & _ & _ & _ & _ & Pa). apply number_as; try assumption; rewrite (Nc a Ra); [exact Pa|exact (F a Ra)]. }
    intros rest sl orig. set (args := [w1 ++ its ++ w2]). match goal with |- eval_operands _ _ _ ([?x] ++ _) _ _ _ _ = _ => change ([x] ++ rest) with (x :: rest) end.
    erewrite operands_item; [|reflexivity|reflexivity|cbn [eval_item]; unfold eval_func; rewrite find_fun, fun_excs; unfold bind, args; cbn [eval_args]; rewrite R; pose proof V as (a & Ra & _); rewrite Ra; unfold ret; cbn [app]; exact C].
    cbn [functional_items filter ifunc length]. replace (j + 1) with (S j) by lia. reflexivity.
  - destruct m as [|m]; [lia|]. cbn [stays] in St. destruct St as (S0 & S1 & S2). destruct (stays_value _ _ _ _ S1) as (q1 & Q1 & D1). destruct (stays_value _ _ _ _ S2) as (q2 & Q2 & D2). cbn [avalue] in Hq. rewrite Q1, Q2 in Hq.
    destruct (runs_execute L stl s m 4 w1 i1 w2 q1 (aformat (shown_as s) a) B1 B2 (shape_functional _ _ _ _ _ H1)) as (r & R & V); [apply IH1; [lia|exact S1|exact Q1]|].
    destruct (runs_execute L stl s m 4 w3 i2 w4 q2 (aformat (shown_as s) b) B3 B4 (shape_functional _ _ _ _ _ H2)) as (r' & R' & V'); [apply IH2; [lia|exact S2|exact Q2]|].
    destruct V as [V F]. destruct V' as [V' F']. destruct (fun2_value L (callop (std L) stl) stl f r r' q1 q2 q k s Hk Hp V V' D1 D2 Hq) as (n & C & Gn & Ln & Vn & Nc).
    intros j. exists (Leaf (mkRes (VNum n) None None, j)). split.
    { apply leaf_tree. destruct V as (u & Ra & _ & _ & _ & _ & Pa). destruct V' as (v & Rb & _ & _ & _ & _ & Pb).
      apply number_as; try assumption; rewrite (Nc u v Ra Rb); unfold format_of; [destruct (ncast u); assumption|]. cbn [aformat]. unfold first_format. rewrite (F u Ra), (F' v Rb). reflexivity. }
    intros rest sl orig. match goal with |- eval_operands _ _ _ ([?x] ++ _) _ _ _ _ = _ => change ([x] ++ rest) with (x :: rest) end.
    erewrite operands_item; [|reflexivity|reflexivity|cbn [eval_item]; unfold eval_func; rewrite find_fun2, fun2_excs; unfold bind; cbn [eval_args]; rewrite R; pose proof V as (u & Ra & _); rewrite Ra, R'; pose proof V' as (v & Ra' & _); rewrite Ra'; unfold ret; cbn [app]; exact C].
    cbn [functional_items filter ifunc length]. replace (j + 1) with (S j) by lia. reflexivity.
  - intros j. destruct (IH m q Hm St Hq j) as (t & Ht & E). exists t. split; [apply tree_looser, Ht|exact E].
  - cbn [stays] in St. destruct St as (S0 & S1 & S2). destruct (stays_value _ _ _ _ S1) as (q1 & Q1 & D1). destruct (stays_value _ _ _ _ S2) as (q2 & Q2 & D2).
    rewrite Hq in S0. cbn [avalue] in Hq. rewrite Q1, Q2 in Hq.
    specialize (IH1 m q1 Hm S1 Q1). specialize (IH2 m q2 Hm S2 Q2). intros j. destruct (IH1 j) as (t1 & T1 & E1). set (j1 := j + length (functional_items i1)) in *.
    destruct (IH2 (j1 + length (op_items o))) as (t2 & T2 & E2). exists (Node (gap_of o j1) t1 t2).
    split; [exact (bin_tree L stl s o j1 t1 t2 q1 q2 q _ _ k Hpow Hk Hp D1 D2 S0 Hq T1 T2)|].
    intros rest sl orig. rewrite <- !app_assoc, E1, (operands_blank _ _ _ w1), op_items_run, (operands_blank _ _ _ w2), E2, tree_slots by assumption.
    rewrite !functional_app, (functional_blanks w1 B1), (functional_blanks w2 B2), <- !app_assoc. cbn [app].
    replace (functional_items (op_items o)) with (op_items o) by (destruct o; reflexivity). rewrite !app_length, !Nat.add_assoc. reflexivity.
Qed.

(** * From the text to the answer *)
Lemma stays_fit vars p k e : stays vars p k e -> literals_fit p e.
Proof. induction e as [l|n|o a IHa b IHb|f a IHa|f a IHa b IHb]; cbn [stays literals_fit]; [intros [_ H]; exact H|trivial| |intros (_ & _ & H); exact (IHa H)|]; intros (_ & H1 & H2); (split; [apply IHa, H1|apply IHb, H2]). Qed.
Lemma text_answer L vars k text e q n fl s : exp_letter L -> pow_ok (l_prec L) (f_pow (l_fmt L)) -> (0 <= k)%Z -> (3 * k + 1 <= l_prec L)%Z -> vars_hold vars s ->
  arithmetic_text text e -> avalue vars e = Some q -> stays vars (l_prec L) k e -> length text < n -> cf_parse_only fl = false ->
  exists items x, calculate (std L) n fl text s = (CDone [mkCR items (Some (VNum x, None)) (if cf_state fl then Some (s_vars s) else None)], s) /\ good x /\ lowest x /\ (val x == q)%Q /\ ncast x = aformat (shown_as s) e.
Proof.
  intros Hx Hpow Hk Hp Hv Ht Hq St Hn Hfl. destruct (text_parse L text e (s_lft s) Hx ltac:(lia) Ht (stays_fit _ _ _ _ St)) as (w1 & its & w2 & P & B1 & B2 & Hs).
  destruct n as [|n]; [lia|]. assert (Hle : length text <= n) by lia.
  destruct (runs_execute L (cf_stl fl) s n 4 w1 its w2 q _ B1 B2 (shape_functional _ _ _ _ _ Hs) (shape_runs L (cf_stl fl) s vars k Hpow Hk Hp Hv _ _ _ _ Hs n q Hle St Hq)) as (r & R & [(x & Rx & Ux & Gx & Lx & Vx & _) Fx]).
  exists (w1 ++ its ++ w2), x. split; [|specialize (Fx x Rx); auto]. unfold calculate, calculate_with. destruct text as [|c text].
  { exfalso. destruct Ht as (b1 & t & b2 & E & _ & _ & Hr). destruct (reads_first _ _ _ Hr) as (c & rr & -> & _). destruct b1; discriminate E. }
  change (g_parse (std L)) with (std_pcfg L). rewrite P. cbn [run_statements]. rewrite !functional_app, (functional_blanks w1 B1), (functional_blanks w2 B2), app_nil_r. cbn [app].
  rewrite (shape_functional _ _ _ _ _ Hs), Hfl. cbn [orb]. replace (mkSt (s_vars s) (s_lft s)) with s by (destruct s; reflexivity). rewrite R, Rx. change (g_final (std L) r) with (Ok r). cbn match. rewrite Rx, Ux. reflexivity.
Qed.
