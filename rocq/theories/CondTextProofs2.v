(** Running the items of conditions. *)
From Coq Require Import ZArith QArith Qpower Ascii String List Bool Lia.
From Verif Require Import Base BaseProofs Dec DecProofs Num NumSpec NumProofs NumProofs2 NumProofs3 NumProofs4 Lex LexSpec Bases BasesProofs Formats Units UnitsProofs5 Install Syntax Pos Call CallSpec Loop LoopSpec LoopProofs Parse Exec ExecSpec Std StdSpec StdProofs2 StdProofs4 StdProofs5 ArithSpec ArithProofs ArithTextSpec ArithRunSpec ArithTextProofs ArithTextProofs2 ArithTextProofs3 ArithTextProofs4 ArithFunProofs ArithTextProofs5 CondTextSpec CondTextProofs LoopWalls ChoiceLoopProofs CondLoopProofs.
Import ListNotations.
Open Scope nat_scope.

(** * The operators *)
Definition cond_syms : list str := map csym [Less; More; AtMost; AtLeast; Equal; Unequal] ++ map jsym [And; Or; Xor].
Lemma csym_in c : In (csym c) cond_syms. Proof. destruct c; cbn; tauto. Qed.
Lemma jsym_in j : In (jsym j) cond_syms. Proof. destruct j; cbn; tauto. Qed.
Lemma cond_gap_good L sym k : In sym cond_syms -> good_gap (g_ops (std L)) (GOp sym k).
Proof.
  intros H. cbn in H. repeat (destruct H as [<-|H]; [split; [apply mem_str_iff; reflexivity|]; split; [eexists; split; [reflexivity|split; reflexivity]|repeat split; discriminate]|]). destruct H.
Qed.
Definition rank_of (L : lib) (sym : str) : nat := rank (g_ops (std L)) (GOp sym 0).
Lemma arith_rank L o j c : rank (g_ops (std L)) (gap_of o j) < rank_of L (csym c).
Proof. unfold rank_of. destruct o, c; apply Nat.ltb_lt; vm_compute; reflexivity. Qed.
Lemma cmp_rank L c j : rank_of L (csym c) < rank_of L (jsym j).
Proof. unfold rank_of. destruct c, j; apply Nat.ltb_lt; vm_compute; reflexivity. Qed.
Lemma join_rank L j i : rank_of L (jsym i) = rank_of L (jsym j) /\ right_to_left (g_ops (std L)) (rank_of L (jsym j)) = false.
Proof. unfold rank_of. destruct i, j; split; vm_compute; reflexivity. Qed.

(** * Values *)
Lemma cmp_value L stl c x y qx qy k s : (0 <= k)%Z -> (3 * k + 1 <= l_prec L)%Z -> holds_value x qx -> holds_value y qy -> digits_le k qx -> digits_le k qy ->
  callop (std L) stl (csym c) [x; y] s = (OOk (mkRes (VBool (compared c qx qy)) None None), s).
Proof.
  intros Hk Hp (a & Ra & Ua & Ga & La & Va & _) (b & Rb & Ub & Gb & Lb & Vb & _) Dx Dy.
  pose proof (lowest_size k a qx Ga La Va Dx) as Sa. pose proof (lowest_size k b qy Gb Lb Vb Dy) as Sb.
  destruct (num_ltb_exact (l_prec L) k a b Hk ltac:(lia) Ga Gb Sa Sb) as [L1 E1]. destruct (num_ltb_exact (l_prec L) k b a Hk ltac:(lia) Gb Ga Sb Sa) as [L2 _].
  rewrite Va, Vb in *.
  assert (Nx : number_at L x a) by (unfold number_at; rewrite Ra; reflexivity). assert (Ny : number_at L y b) by (unfold number_at; rewrite Rb; reflexivity).
  assert (B : forall u v : bool, (u = true <-> v = true) -> u = v) by (intros [] [] [H1 H2]; auto; symmetry; auto).
  assert (T1 : num_ltb (l_prec L) a b = negb (Qle_bool qy qx)).
  { apply B. rewrite L1, negb_true_iff, <- not_true_iff_false, Qle_bool_iff. split; [apply Qlt_not_le|apply Qnot_le_lt]. }
  assert (T2 : num_ltb (l_prec L) b a = negb (Qle_bool qx qy)).
  { apply B. rewrite L2, negb_true_iff, <- not_true_iff_false, Qle_bool_iff. split; [apply Qlt_not_le|apply Qnot_le_lt]. }
  assert (T3 : num_leb (l_prec L) a b = Qle_bool qx qy).
  { replace (num_leb (l_prec L) a b) with (negb (num_ltb (l_prec L) b a)) by (unfold num_ltb, num_leb; apply negb_involutive). rewrite T2. apply negb_involutive. }
  assert (T4 : num_leb (l_prec L) b a = Qle_bool qy qx).
  { replace (num_leb (l_prec L) b a) with (negb (num_ltb (l_prec L) a b)) by (unfold num_ltb, num_leb; apply negb_involutive). rewrite T1. apply negb_involutive. }
  assert (T5 : num_eqb (l_prec L) a b = Qeq_bool qx qy) by (apply B; rewrite E1, Qeq_bool_iff; tauto).
  destruct c; cbn [compared csym]; rewrite <- ?T1, <- ?T2, <- ?T3, <- ?T4, <- ?T5.
  - apply (cmp_call L stl ($"<") num_ltb x y a b s); cbn [cmp_ops In]; tauto.
  - apply (cmp_call L stl ($">") (fun p a b => num_ltb p b a) x y a b s); cbn [cmp_ops In]; tauto.
  - apply (cmp_call L stl ($"<=") num_leb x y a b s); cbn [cmp_ops In]; tauto.
  - apply (cmp_call L stl ($">=") (fun p a b => num_leb p b a) x y a b s); cbn [cmp_ops In]; tauto.
  - apply (cmp_call L stl ($"==") num_eqb x y a b s); cbn [cmp_ops In]; tauto.
  - apply (cmp_call L stl ($"!=") (fun p a b => negb (num_eqb p a b)) x y a b s); cbn [cmp_ops In]; tauto.
Qed.
Definition says (r : result) (b : bool) : Prop := rval r = VBool b /\ runit r = None.
Lemma join_value L stl j x y a b s : says x a -> says y b -> callop (std L) stl (jsym j) [x; y] s = (OOk (mkRes (VBool (joined j a b)) None None), s).
Proof. intros [Hx _] [Hy _]. rewrite (bool_table L stl (jsym j) x y a b s); [destruct j; reflexivity|destruct j; cbn; tauto|exact Hx|exact Hy]. Qed.

(** * Trees *)
Definition cond_tree (L : lib) (stl : bool) (s : st) (t : tree) (R : nat) (P : result -> Prop) : Prop :=
  grouped (g_ops (std L)) t /\ good_chain (g_ops (std L)) (chain_of t) /\
  match t with Leaf _ => True | Node g _ _ => rank (g_ops (std L)) g <= R end /\
  forall orig, P (tree_value (g_ops (std L)) orig (real_interp L stl s) t) /\ agrees (g_ops (std L)) orig (callop (std L) stl) (real_interp L stl s) s t.
Lemma says_no_unit r b : says r b -> is_unit_val r = false.
Proof. intros [E _]. unfold is_unit_val. rewrite E. reflexivity. Qed.
Lemma arith_tree L stl s t q c d : good_tree L stl s 4 t q c -> cond_tree L stl s t (pred (rank_of L (csym d))) (fun r => holds_value r q).
Proof.
  intros (G1 & G2 & G3 & G4). split; [exact G1|]. split; [exact G2|]. split.
  - destruct t as [x|g l r]; [exact I|]. destruct G3 as (o & k & -> & _). pose proof (arith_rank L o k d). lia.
  - intros orig. destruct (G4 orig) as [[H _] A]. split; assumption.
Qed.
Lemma says_leaf L stl s R r k b : says r b -> cond_tree L stl s (Leaf (r, k)) R (fun r => says r b).
Proof.
  intros H. split; [exact I|]. split; [split; [exact (says_no_unit _ _ H)|constructor]|]. split; [exact I|]. intros orig. split; [exact H|]. intros g l x [E|[]]. discriminate E.
Qed.
Lemma tree_wider L stl s t R R' P : R <= R' -> cond_tree L stl s t R P -> cond_tree L stl s t R' P.
Proof. intros HR (G1 & G2 & G3 & G4). repeat (split; [assumption|]). split; [|assumption]. destruct t; [exact I|]. lia. Qed.
Lemma two_tree L stl s sym k t1 t2 R1 R2 P1 P2 b : In sym cond_syms -> R1 <= rank_of L sym -> (R1 = rank_of L sym -> right_to_left (g_ops (std L)) (rank_of L sym) = false) -> R2 < rank_of L sym ->
  cond_tree L stl s t1 R1 P1 -> cond_tree L stl s t2 R2 P2 ->
  (forall x y, P1 x -> P2 y -> callop (std L) stl sym [x; y] s = (OOk (mkRes (VBool b) None None), s)) ->
  cond_tree L stl s (Node (GOp sym k) t1 t2) (rank_of L sym) (fun r => says r b).
Proof.
  intros Hs H1 H1' H2 (A1 & A2 & A3 & A4) (B1 & B2 & B3 & B4) Hc. assert (Er : rank (g_ops (std L)) (GOp sym k) = rank_of L sym) by reflexivity. split; [|split; [|split]].
  - cbn [grouped]. split; [exact A1|]. split; [exact B1|]. rewrite Er. split.
    + destruct t1 as [x|g l r]; [exact I|]. destruct (Nat.eq_dec (rank (g_ops (std L)) g) (rank_of L sym)) as [E|E]; [right; split; [exact E|apply H1'; lia]|left; lia].
    + destruct t2 as [x|g l r]; [exact I|]. left. lia.
  - cbn [chain_of]. destruct A2 as [A2 A2']. destruct B2 as [B2 B2']. split; [exact A2|]. cbn [fst snd] in *. apply Forall_app. split; [exact A2'|]. constructor; [|exact B2'].
    split; [apply cond_gap_good, Hs|exact B2].
  - rewrite Er. lia.
  - intros orig. destruct (A4 orig) as [V1 C1]. destruct (B4 orig) as [V2 C2]. pose proof (Hc _ _ V1 V2) as R.
    assert (E : real_interp L stl s sym [tree_value (g_ops (std L)) orig (real_interp L stl s) t1; tree_value (g_ops (std L)) orig (real_interp L stl s) t2] = inl (mkRes (VBool b) None None)).
    { unfold real_interp at 1. rewrite R. reflexivity. }
    assert (Es : gap_sym (g_ops (std L)) (GOp sym k) = sym) by reflexivity. split.
    + cbn [tree_value]. rewrite Es, E. split; reflexivity.
    + intros g l x [H|[H|H]]; [|apply C1, H|apply C2, H]. assert (Hg : g = GOp sym k /\ l = t1 /\ x = t2) by (inversion H; auto). destruct Hg as (-> & -> & ->).
      rewrite Es. unfold interp_call. rewrite E. exact R.
Qed.

(** * Running *)
(** What has [and], [or] and [xor] outside settles into their operands; everything else into one value. *)
Definition low_slots (L : lib) (stl : bool) (s : st) (lev : nat) (X : list slot) (b : bool) (orig : list item) : Prop :=
  match lev with
  | 0 | 1 => exists n r j, settles (g_ops (std L)) (lowest_levels L) orig (callop (std L) stl) s n X [SRes r j] /\ says r b
  | _ => exists n t, settles (g_ops (std L)) (lowest_levels L) orig (callop (std L) stl) s n X (slots_of (chain_of t)) /\ cond_tree L stl s t (rank_of L (jsym And)) (fun r => says r b)
  end.
Definition bruns_to (L : lib) (stl : bool) (s : st) (m lev : nat) (its : list item) (b : bool) : Prop :=
  forall k, exists X, (forall orig, low_slots L stl s lev X b orig) /\ forall rest sl orig,
    eval_operands (std L) (execute (std L) m) stl (its ++ rest) k sl orig s =
    eval_operands (std L) (execute (std L) m) stl rest (k + length (functional_items its)) (sl ++ X) (orig ++ its) s.
Definition cond_slots (L : lib) (stl : bool) (s : st) (X : list slot) (b : bool) (orig : list item) : Prop :=
  exists n r j, n < length X /\ settles (g_ops (std L)) (tighter L) orig (callop (std L) stl) s n X [SRes r j] /\ says r b.
Lemma slots_looser L stl s lev X b orig : low_slots L stl s lev X b orig -> low_slots L stl s (S lev) X b orig.
Proof.
  destruct lev as [|[|lev]]; cbn [low_slots]; try (intros H; exact H). intros (n & r & j & H & V). exists n, (Leaf (r, j)). split; [exact H|]. apply says_leaf, V.
Qed.
Lemma slots_all L stl s X b orig : low_slots L stl s 2 X b orig -> cond_slots L stl s X b orig.
Proof.
  intros (n & t & H & T). pose proof T as (T1 & T2 & T3 & T4). destruct (T4 orig) as [V A].
  destruct (tree_settles L stl orig (real_interp L stl s) t s T2 (real_no_units L stl s) T1) as (m & j & _ & Hs); [|exact A|].
  { destruct t as [x|g l r]; [exact I|]. cbn [all_tighter]. replace (rank_of L (jsym And)) with 10 in T3 by reflexivity. lia. }
  pose proof (settles_on _ _ (join_level L) _ _ _ _ _ _ H _ _ Hs) as S1. rewrite <- low_join in S1. pose proof (settles_fewer _ _ _ _ _ _ _ _ (tighter_lowers L) S1) as Hn. cbn [length] in Hn.
  exists (n + m), (tree_value (g_ops (std L)) orig (real_interp L stl s) t), j. split; [lia|]. split; [exact S1|exact V].
Qed.
Lemma bruns_execute L stl s m w1 its w2 b : blanks w1 -> blanks w2 -> is_nil (functional_items its) = false -> bruns_to L stl s m 2 its b ->
  exists r, execute (std L) (S m) stl (w1 ++ its ++ w2) s = (OOk r, s) /\ says r b.
Proof.
  intros B1 B2 Hf H. destruct (H 0) as (X & HX & E). cbn [execute]. unfold execute_body. rewrite !functional_app, (functional_blanks w1 B1), (functional_blanks w2 B2), app_nil_r. cbn [app]. rewrite Hf.
  unfold bind. rewrite (operands_blank _ _ _ w1) by exact B1. rewrite E. cbn [app Nat.add]. rewrite operands_end by exact B2.
  destruct (slots_all _ _ _ _ _ _ (HX ((w1 ++ its) ++ w2))) as (n & r & j & Hn & Hs & V). set (rr := run_slots _ _ _ _ s).
  assert (Er : rr = (OOk r, s)).
  { unfold rr, run_slots, bind. assert (F : exists k, loop_fuel X = n + S k) by (exists (loop_fuel X - S n); unfold loop_fuel; lia). destruct F as [k F].
    rewrite F, (loop_settles _ _ _ _ _ _ (both_levels L) _ _ _ Hs). cbn [op_loop].
    assert (D : scan_levels (g_ops (std L)) (t_levels (g_ops (std L))) [SRes r j] = Ok None) by (apply (scan_levels_done (g_ops (std L)) (r, j) (std_good L)); split; [exact (says_no_unit _ _ V)|constructor]).
    rewrite D. reflexivity. }
  rewrite Er. pose proof V as [Rn _]. rewrite Rn. eexists. split; [reflexivity|exact V].
Qed.
Definition bready (L : lib) (stl : bool) (s : st) (m : nat) (its : list item) (b : bool) : Prop :=
  forall k, exists r, says r b /\ forall rest sl orig,
    eval_operands (std L) (execute (std L) m) stl (its ++ rest) k sl orig s = eval_operands (std L) (execute (std L) m) stl rest (k + length (functional_items its)) (sl ++ [SRes r k]) (orig ++ its) s.
Lemma ready_all L stl s m its b : bready L stl s m its b -> bruns_to L stl s m 0 its b /\ (0 = 0 -> bready L stl s m its b).
Proof.
  intros H. split; [|auto]. intros k. destruct (H k) as (r & Hr & E). exists [SRes r k]. split; [|exact E]. intros orig. exists 0, r, k. split; [|exact Hr]. constructor. apply low_done, (says_no_unit _ _ Hr).
Qed.
Lemma bshape_all L stl s vars k : pow_ok (l_prec L) (f_pow (l_fmt L)) -> (0 <= k)%Z -> (3 * k + 1 <= l_prec L)%Z -> vars_hold vars s ->
  forall d lev its e, bshape (l_prec L) d lev its e -> forall m b, d <= m -> bstays vars (l_prec L) k e -> bvalue vars e = Some b ->
  bruns_to L stl s m lev its b /\ (lev = 0 -> bready L stl s m its b).
Proof.
  intros Hpow Hk Hp Hv. induction 1 as [d t b|d d' text w1 w2 its e Hd B1 B2 Hs IH|d c i1 w1 w2 i2 a b B1 B2 H1 H2|d lev its e Hs IH|d j i1 w1 w2 i2 a b B1 B2 H1 IH1 H2 IH2|d w its e B Hs IH]; intros m v Hm St Hq.
  - apply ready_all. cbn [bvalue] in Hq. injection Hq as <-. intros j. exists (mkRes (VBool b) None (Some ROther)). split; [split; reflexivity|]. intros rest sl orig.
    change ([ILit t (LBool b)] ++ rest) with (ILit t (LBool b) :: rest). erewrite operands_item; [|reflexivity|reflexivity|reflexivity].
    cbn [functional_items filter ifunc length]. replace (j + 1) with (S j) by lia. reflexivity.
  - apply ready_all. destruct m as [|m]; [lia|]. destruct (IH m v ltac:(lia) St Hq) as (X & _). destruct (bruns_execute L stl s m w1 its w2 v B1 B2 (bshape_functional _ _ _ _ _ Hs) X) as (r & R & V).
    intros j. destruct V as [Rn Un]. exists (mkRes (VBool v) None (rref r)). split; [split; reflexivity|]. intros rest sl orig.
    change ([IInner text false (w1 ++ its ++ w2)] ++ rest) with (IInner text false (w1 ++ its ++ w2) :: rest).
    erewrite operands_item; [|reflexivity|reflexivity|cbn [eval_item]; unfold eval_inner; rewrite R, Rn, Un; reflexivity].
    cbn [functional_items filter ifunc length]. replace (j + 1) with (S j) by lia. reflexivity.
  - split; [|discriminate]. cbn [bstays] in St. destruct St as (S1 & S2). destruct (stays_value _ _ _ _ S1) as (q1 & Q1 & D1). destruct (stays_value _ _ _ _ S2) as (q2 & Q2 & D2).
    cbn [bvalue] in Hq. rewrite Q1, Q2 in Hq. injection Hq as <-.
    pose proof (shape_runs L stl s vars k Hpow Hk Hp Hv _ _ _ _ H1 m q1 Hm S1 Q1) as R1. pose proof (shape_runs L stl s vars k Hpow Hk Hp Hv _ _ _ _ H2 m q2 Hm S2 Q2) as R2.
    intros i. destruct (R1 i) as (t1 & T1 & E1). set (j1 := i + length (functional_items i1)) in *.
    destruct (R2 (S j1)) as (t2 & T2 & E2). exists (slots_of (chain_of (Node (GOp (csym c) j1) t1 t2))). split.
    + intros orig. assert (T : cond_tree L stl s (Node (GOp (csym c) j1) t1 t2) (rank_of L (csym c)) (fun r => says r (compared c q1 q2))).
      2: { pose proof T as (A1 & A2 & A3 & A4). destruct (A4 orig) as [V A]. destruct (low_settles L stl orig (real_interp L stl s) _ s A2 (real_no_units L stl s) A1) as (n & j & Hs); [|exact A|].
        { cbn [all_low]. pose proof (cmp_rank L c And) as Cr. replace (rank_of L (jsym And)) with 10 in Cr by reflexivity. lia. }
        eexists n, _, j. split; [exact Hs|exact V]. }
      pose proof (arith_rank L Plus 0 c) as Pr.
      apply (two_tree L stl s (csym c) j1 t1 t2 (pred (rank_of L (csym c))) (pred (rank_of L (csym c))) (fun r => holds_value r q1) (fun r => holds_value r q2)); [apply csym_in|lia|lia|lia|exact (arith_tree _ _ _ _ _ _ c T1)|exact (arith_tree _ _ _ _ _ _ c T2)|].
      intros x y Hx Hy. apply (cmp_value L stl c x y q1 q2 k s); assumption.
    + intros rest sl orig. rewrite <- !app_assoc, E1, (operands_blank _ _ _ w1) by assumption. cbn [app]. rewrite operands_op, (operands_blank _ _ _ w2), E2, tree_slots by assumption.
      rewrite !functional_app, (functional_blanks w1 B1). change (IOp (csym c) :: w2 ++ i2) with ([IOp (csym c)] ++ w2 ++ i2). rewrite !functional_app, (functional_blanks w2 B2), <- !app_assoc. cbn [app].
      change (functional_items [IOp (csym c)]) with [IOp (csym c)]. rewrite !app_length. cbn [length]. replace (i + (length (functional_items i1) + (1 + length (functional_items i2)))) with (S j1 + length (functional_items i2)) by (unfold j1; lia).
      reflexivity.
  - destruct (IH m v Hm St Hq) as (X1 & _). split; [|discriminate]. intros i. destruct (X1 i) as (X & HX & E). exists X. split; [intros orig; apply slots_looser, HX|exact E].
  - split; [|discriminate]. cbn [bstays] in St. destruct St as (S1 & S2). cbn [bvalue] in Hq. destruct (bvalue vars a) as [x|] eqn:Qa; [|discriminate]. destruct (bvalue vars b) as [y|] eqn:Qb; [|discriminate]. injection Hq as <-.
    destruct (IH1 m x Hm S1 eq_refl) as (R1 & _). destruct (IH2 m y Hm S2 eq_refl) as (R2 & _).
    intros i. destruct (R1 i) as (X1 & T1 & E1). set (j1 := i + length (functional_items i1)) in *.
    destruct (R2 (S j1)) as (X2 & T2 & E2). exists (X1 ++ SOp (jsym j) j1 :: X2). destruct (join_rank L j And) as [Er Dr]. pose proof (cmp_rank L Less And) as Pr. split.
    + intros orig. destruct (T1 orig) as (n1 & t1 & K1 & V1). destruct (T2 orig) as (n2 & r & jr & K2 & V2).
      pose proof (settle_both _ _ _ _ _ _ j1 (join_wall L j) (low_rtl L) _ _ _ _ _ _ _ eq_refl K1 K2) as K. exists (n1 + n2), (Node (GOp (jsym j) j1) t1 (Leaf (r, jr))). split; [rewrite tree_slots; exact K|].
      rewrite Er in *.
      apply (two_tree L stl s (jsym j) j1 t1 (Leaf (r, jr)) (rank_of L (jsym j)) (pred (rank_of L (jsym j))) (fun r => says r x) (fun r => says r y)); [apply jsym_in|lia|intros _; exact Dr|lia|exact V1|apply says_leaf, V2|].
      intros u w Hx Hy. apply join_value; assumption.
    + intros rest sl orig. rewrite <- !app_assoc, E1, (operands_blank _ _ _ w1) by assumption. cbn [app]. rewrite operands_op, (operands_blank _ _ _ w2), E2 by assumption.
      rewrite !functional_app, (functional_blanks w1 B1). change (IOp (jsym j) :: w2 ++ i2) with ([IOp (jsym j)] ++ w2 ++ i2). rewrite !functional_app, (functional_blanks w2 B2), <- !app_assoc. cbn [app].
      change (functional_items [IOp (jsym j)]) with [IOp (jsym j)]. rewrite !app_length. cbn [length]. replace (i + (length (functional_items i1) + (1 + length (functional_items i2)))) with (S j1 + length (functional_items i2)) by (unfold j1; lia).
      reflexivity.
  - cbn [bvalue] in Hq. destruct (bvalue vars e) as [x|] eqn:Qx; [|discriminate Hq]. cbn [option_map] in Hq. injection Hq as <-. destruct (IH m x Hm St eq_refl) as (_ & R).
    split; [|discriminate]. intros i. destruct (R eq_refl (S i)) as (r & V & E). exists [SOp ($"not") i; SRes r (S i)]. split.
    + intros orig. eexists 1, _, i. split; [exact (not_settles L stl orig r x s i (S i) (proj1 V))|split; reflexivity].
    + intros rest sl orig. rewrite <- !app_assoc. cbn [app]. rewrite operands_op, (operands_blank _ _ _ w), E by assumption.
      change (IOp ($"not") :: w ++ its) with ([IOp ($"not")] ++ w ++ its). rewrite !functional_app, (functional_blanks w B), <- !app_assoc. change (functional_items [IOp ($"not")]) with [IOp ($"not")]. cbn [app length].
      replace (i + S (length (functional_items its))) with (S i + length (functional_items its)) by lia. reflexivity.
Qed.
Lemma bshape_runs L stl s vars k : pow_ok (l_prec L) (f_pow (l_fmt L)) -> (0 <= k)%Z -> (3 * k + 1 <= l_prec L)%Z -> vars_hold vars s ->
  forall d lev its e, bshape (l_prec L) d lev its e -> forall m b, d <= m -> bstays vars (l_prec L) k e -> bvalue vars e = Some b -> bruns_to L stl s m lev its b.
Proof. intros Hpow Hk Hp Hv d lev its e Hs m b Hm St Hq. exact (proj1 (bshape_all L stl s vars k Hpow Hk Hp Hv _ _ _ _ Hs m b Hm St Hq)). Qed.

(** * From the text to the answer *)
Lemma bstays_fit vars p k e : bstays vars p k e -> bliterals_fit p e.
Proof. induction e as [b|c a b|j a IHa b IHb|a IHa]; cbn [bstays bliterals_fit]; [trivial|intros [H1 H2]; split; eapply stays_fit; eassumption|intros [H1 H2]; split; auto|exact IHa]. Qed.
Lemma decides_first k t e : decides k t e -> t <> [].
Proof.
  induction 1 as [t b Ht|b1 t b2 e _ _ _ _|c t1 b1 b2 t2 a b _ _ H1 _|k t e _ IH|j t1 b1 b2 t2 a b _ _ _ _ _ IH _ _|b t e _ _ _ _]; try discriminate.
  - destruct t; [destruct b; discriminate Ht|discriminate].
  - destruct (reads_first _ _ _ H1) as (x & r & -> & _). discriminate.
  - exact IH.
  - destruct t1; [congruence|discriminate].
Qed.
Lemma condition_answer L vars k text e b n fl s : exp_letter L -> pow_ok (l_prec L) (f_pow (l_fmt L)) -> (0 <= k)%Z -> (3 * k + 1 <= l_prec L)%Z -> vars_hold vars s ->
  condition_text text e -> bvalue vars e = Some b -> bstays vars (l_prec L) k e -> length text < n -> cf_parse_only fl = false ->
  exists items, calculate (std L) n fl text s = (CDone [mkCR items (Some (VBool b, None)) (if cf_state fl then Some (s_vars s) else None)], s).
Proof.
  intros Hx Hpow Hk Hp Hv Ht Hq St Hn Hfl. destruct (condition_parse L text e (s_lft s) Hx ltac:(lia) Ht (bstays_fit _ _ _ _ St)) as (w1 & its & w2 & P & B1 & B2 & Hs).
  destruct n as [|n]; [lia|]. assert (Hle : length text <= n) by lia.
  destruct (bruns_execute L (cf_stl fl) s n w1 its w2 b B1 B2 (bshape_functional _ _ _ _ _ Hs) (bshape_runs L (cf_stl fl) s vars k Hpow Hk Hp Hv _ _ _ _ Hs n b Hle St Hq)) as (r & R & [Rx Ux]).
  exists (w1 ++ its ++ w2). unfold calculate, calculate_with. destruct text as [|c text].
  { exfalso. destruct Ht as (b1 & t & b2 & E & _ & _ & Hr). apply (decides_first _ _ _ Hr). destruct b1; [|discriminate E]. destruct t; [reflexivity|discriminate E]. }
  change (g_parse (std L)) with (std_pcfg L). rewrite P. cbn [run_statements]. rewrite !functional_app, (functional_blanks w1 B1), (functional_blanks w2 B2), app_nil_r. cbn [app].
  rewrite (bshape_functional _ _ _ _ _ Hs), Hfl. cbn [orb]. replace (mkSt (s_vars s) (s_lft s)) with s by (destruct s; reflexivity). rewrite R, Rx. change (g_final (std L) r) with (Ok r). cbn match. rewrite Rx, Ux. reflexivity.
Qed.
