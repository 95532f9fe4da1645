(** Running the items of lines that assign choices. *)
From Coq Require Import ZArith QArith Qpower Ascii String List Bool Lia.
From Verif Require Import Base BaseProofs Dec DecProofs Num NumSpec NumProofs NumProofs2 NumProofs3 NumProofs4 Lex LexSpec Bases BasesProofs Formats Units UnitsProofs5 Install InstallProofs Syntax Pos PosSpec PosProofs Call CallSpec Loop LoopSpec LoopProofs Parse Prop_Parse Exec ExecSpec ErrorSpec ErrorProofs ErrorProofs2 ErrorProofs3 ContainSpec ContainProofs2 Std StdSpec StdProofs StdProofs2 StdProofs4 StdProofs5 ArithSpec ArithProofs VarNameSpec ArithTextSpec ArithRunSpec ArithTextProofs ArithTextProofs2 ArithTextProofs3 ArithTextProofs4 ArithFunProofs ArithTextProofs5 ArithTextProofs6 ArithTextProofs7 ArithErrSpec ArithErrProofs ArithErrProofs2 ArithErrFun ArithErrProofs3 ArithErrProofs4 CondTextSpec CondTextProofs CondTextProofs2 LoopWalls ChoiceLoopProofs ChoiceTextSpec ChoiceTextProofs ChoiceTextProofs2 ChoiceLineSpec ChoiceLineParse.
From Verif Require Prop_Arith.
Import ListNotations.
Open Scope nat_scope.

(** * The operator loop on [n = c then x else y] *)
Lemma op_loop_S k T orig call sl s : op_loop (S k) T orig call sl s =
  match scan_levels T (t_levels T) sl with Ok None => ret sl s | Ok (Some (i, sym, w)) => bind (run_op T orig call sl i sym w) (op_loop k T orig call) s | _ => pyerr s end.
Proof. cbn [op_loop]. destruct (scan_levels T (t_levels T) sl) as [[[[i sym] w]|]| |]; reflexivity. Qed.
Lemma set_wall L h : h <> Some Beside -> wall (g_ops (std L)) (tighter L) (set_sym h).
Proof. intros Hh. destruct h as [[]|]; try congruence; (split; [reflexivity|]); unfold tighter, std_levels; cbv zeta; cbn [firstn]; repeat (apply Forall_cons; [reflexivity|]); apply Forall_nil. Qed.
Lemma single_none L x k : is_unit_val x = false -> scan_levels (g_ops (std L)) (tighter L) [SRes x k] = Ok None.
Proof.
  intros H. assert (E : scan_levels (g_ops (std L)) (tighter L ++ looser L) [SRes x k] = Ok None).
  { rewrite <- both_levels. apply (scan_levels_done (g_ops (std L)) (x, k) (std_good L)). split; [exact H|constructor]. }
  destruct (levels_part _ _ _ _ _ E) as [[y|] Ey]; [|exact Ey]. rewrite (levels_first _ _ _ _ _ Ey) in E. discriminate E.
Qed.
Lemma set_choice_scan L h v x y z i j v0 e0 a b c : h <> Some Beside -> is_unit_val v = false -> is_unit_val x = false -> is_unit_val y = false -> is_unit_val z = false ->
  scan_levels (g_ops (std L)) (looser L) [SRes v v0; SOp (set_sym h) e0; SRes x a; SOp ($"then") i; SRes y b; SOp ($"else") j; SRes z c] = Ok (Some (3, $"then", 1)).
Proof.
  unfold is_unit_val. intros Hh Hv Hx Hy Hz. unfold looser, std_levels. cbv zeta. cbn [skipn scan_levels].
  match goal with |- context [level_rtl _ ?l] => set (lv := l) end.
  replace (level_rtl (g_ops (std L)) lv) with (Ok false) by reflexivity. cbn [obind]. cbv zeta. cbn [length seq scan].
  set (sl := [SRes v v0; SOp (set_sym h) e0; SRes x a; SOp ($"then") i; SRes y b; SOp ($"else") j; SRes z c]).
  assert (A0 : action (g_ops (std L)) lv sl 0 = None) by (unfold sl, action, at_slot; cbn [nth_error slot_unit slot_op]; rewrite Hv; reflexivity).
  assert (A1 : action (g_ops (std L)) lv sl 1 = None) by (unfold sl, action, at_slot; cbn [nth_error slot_unit slot_op]; rewrite Hv, Hx; destruct h as [[]|]; try congruence; reflexivity).
  assert (A2 : action (g_ops (std L)) lv sl 2 = None) by (unfold sl, action, at_slot; cbn [nth_error slot_unit slot_op]; rewrite Hx; reflexivity).
  assert (A3 : action (g_ops (std L)) lv sl 3 = Some ($"then", 1)) by (unfold sl, action, at_slot; cbn [nth_error slot_unit slot_op]; rewrite Hx, Hy; reflexivity).
  rewrite A0, A1, A2, A3. reflexivity.
Qed.
Lemma find_up L h : h <> Some Beside -> exists d, find_op (g_ops (std L)) (set_sym h) = Some (mkOper [None] [None] false d) /\ o_excs d = false /\ must_be d 0 s_array None = false /\
  match h with Some o => In (set_sym h, run_sym o) updates /\ d = d_update (set_sym h) (run_sym o) | None => True end.
Proof.
  intros Hh. destruct h as [o|].
  - assert (Hin : In (set_sym (Some o), run_sym o) updates) by (destruct o; try congruence; cbn; auto 10).
    exists (d_update (set_sym (Some o)) (run_sym o)). split; [rewrite (find_update L _ _ Hin); reflexivity|]. repeat split. exact Hin.
  - eexists. split; [apply find_set|]. repeat split.
Qed.
Lemma up_good L h k : h <> Some Beside -> good_gap (g_ops (std L)) (GOp (set_sym h) k).
Proof.
  intros Hh. split; [apply mem_str_iff; destruct h as [[]|]; try congruence; reflexivity|].
  split; [destruct (find_up L h Hh) as (d & F & _); eexists; split; [exact F|]; split; reflexivity|]. destruct h as [[]|]; try congruence; repeat split; discriminate.
Qed.
Lemma set_scan L h v r v0 e0 k : h <> Some Beside -> is_unit_val v = false -> is_unit_val r = false ->
  scan_levels (g_ops (std L)) (t_levels (g_ops (std L))) [SRes v v0; SOp (set_sym h) e0; SRes r k] = Ok (Some (1, set_sym h, 1)).
Proof.
  intros Hh Hv Hr. destruct (scan_levels_choice (g_ops (std L)) (v, v0) [(GOp (set_sym h) e0, (r, k))] (std_good L)) with (ls := t_levels (g_ops (std L))) (pre := @nil level) as (P & g & b & Q & C & E).
  - split; [exact Hv|]. constructor; [|constructor]. split; [apply up_good, Hh|exact Hr].
  - discriminate.
  - reflexivity.
  - intros. constructor.
  - assert (K : P = [] /\ g = GOp (set_sym h) e0).
    { destruct C as [C _]. destruct P as [|p [|p' P]]; cbn [app] in C; try discriminate C. injection C as <- _ _. split; reflexivity. }
    destruct K as [-> ->]. exact E.
Qed.
(** What an operator leaves in its place: what it gives, or the error it raises *)
Definition left_there (orig : list item) (sym : str) (i : nat) (o : oc result) : option result :=
  match o with OOk r => Some r | OErr e => Some (mkRes (VExc (XExec (exc_msg e) (firstn i orig) (Some sym) false)) None None) | _ => None end.
Lemma set_last L h orig v r v0 e0 k c r' s s' : h <> Some Beside -> is_unit_val v = false -> is_unit_val r = false ->
  callop (std L) false (set_sym h) [v; r] s = (c, s') -> left_there orig (set_sym h) e0 c = Some r' -> is_unit_val r' = false ->
  forall fuel, op_loop (S (S fuel)) (g_ops (std L)) orig (callop (std L) false) [SRes v v0; SOp (set_sym h) e0; SRes r k] s = (OOk [SRes r' e0], s').
Proof.
  intros Hh Hv Hr Hc Hl Hr' fuel. rewrite op_loop_S, (set_scan L h v r v0 e0 k Hh Hv Hr). destruct (find_up L h Hh) as (d & F & _).
  assert (R2 : run_op (g_ops (std L)) orig (callop (std L) false) [SRes v v0; SOp (set_sym h) e0; SRes r k] 1 (set_sym h) 1 s = (OOk [SRes r' e0], s')).
  { unfold run_op. rewrite F. cbn [nth_error op_l op_r length Nat.ltb Nat.leb Nat.add Nat.sub skipn firstn app take_inputs slot_idx Nat.eqb]. unfold bind, ret. rewrite Hc.
    destruct c as [r0|e| |]; cbn [left_there] in Hl; try discriminate Hl; injection Hl as <-; reflexivity. }
  unfold bind at 1. rewrite R2, op_loop_S. assert (E : scan_levels (g_ops (std L)) (t_levels (g_ops (std L))) [SRes r' e0] = Ok None) by (apply (scan_levels_done (g_ops (std L)) (r', e0) (std_good L)); split; [exact Hr'|constructor]).
  rewrite E. reflexivity.
Qed.
Lemma set_slots L h orig f v e0 t s c r' s' : h <> Some Beside ->
  good_chain (g_ops (std L)) (chain_of t) -> grouped (g_ops (std L)) t -> all_tighter L t -> agrees (g_ops (std L)) orig (callop (std L) false) f s t ->
  is_unit_val (tree_value (g_ops (std L)) orig f t) = false -> no_units f -> is_unit_val v = false ->
  callop (std L) false (set_sym h) [v; tree_value (g_ops (std L)) orig f t] s = (c, s') -> left_there orig (set_sym h) e0 c = Some r' -> is_unit_val r' = false ->
  run_slots (g_ops (std L)) orig (callop (std L) false) ([SRes v 0] ++ SOp (set_sym h) e0 :: slots_of (chain_of t)) s = (OOk r', s').
Proof.
  intros Hh C1 G1 L1 A1 U1 Hf Hv Hc Hl Hr'. destruct (tree_settles L false orig f t s C1 Hf G1 L1 A1) as (n1 & j1 & N1 & S1).
  pose proof (settle_both _ _ _ _ _ _ e0 (set_wall L h Hh) (tighter_rtl L) _ _ _ _ _ _ _ eq_refl (settled (g_ops (std L)) (tighter L) orig (callop (std L) false) s _ (single_none L v 0 Hv)) S1) as S6.
  set (X := [SRes v 0] ++ _) in *. set (x := tree_value _ _ _ t) in *.
  assert (LX : length X = length (slots_of (chain_of t)) + 2) by (unfold X; cbn [app length]; lia).
  assert (F : exists k, loop_fuel X = 0 + n1 + S (S k)) by (exists (loop_fuel X - (n1 + 2)); unfold loop_fuel; lia). destruct F as [k F].
  unfold run_slots, bind. rewrite F, (loop_settles _ _ _ _ _ _ (both_levels L) _ _ _ S6). cbn [app]. rewrite (set_last L h orig v x 0 e0 j1 c r' s s') by assumption. reflexivity.
Qed.
Lemma set_choice_slots L h orig f v e0 X1 x n1 j1 t2 t3 i j s r c r' s' : h <> Some Beside ->
  n1 < length X1 -> settles (g_ops (std L)) (tighter L) orig (callop (std L) false) s n1 X1 [SRes x j1] -> is_unit_val x = false ->
  (forall t, In t [t2; t3] -> good_chain (g_ops (std L)) (chain_of t) /\ grouped (g_ops (std L)) t /\ all_tighter L t /\ agrees (g_ops (std L)) orig (callop (std L) false) f s t /\
    is_unit_val (tree_value (g_ops (std L)) orig f t) = false) -> no_units f -> is_unit_val v = false ->
  callop (std L) false ($"then") [x; tree_value (g_ops (std L)) orig f t2; tree_value (g_ops (std L)) orig f t3] s = (OOk r, s) -> is_unit_val r = false ->
  callop (std L) false (set_sym h) [v; r] s = (c, s') -> left_there orig (set_sym h) e0 c = Some r' -> is_unit_val r' = false ->
  run_slots (g_ops (std L)) orig (callop (std L) false) ([SRes v 0] ++ SOp (set_sym h) e0 :: X1 ++ SOp ($"then") i :: slots_of (chain_of t2) ++ SOp ($"else") j :: slots_of (chain_of t3)) s = (OOk r', s').
Proof.
  intros Hh N1 S1 U1 H Hf Hv Hc Hr Hc' Hl Hr'. destruct (H t2) as (C2 & G2 & L2 & A2 & U2); [cbn; auto|]. destruct (H t3) as (C3 & G3 & L3 & A3 & U3); [cbn; auto|].
  destruct (tree_settles L false orig f t2 s C2 Hf G2 L2 A2) as (n2 & j2 & N2 & S2).
  destruct (tree_settles L false orig f t3 s C3 Hf G3 L3 A3) as (n3 & j3 & N3 & S3).
  pose proof (settle_both _ _ _ _ _ _ j (else_wall L) (tighter_rtl L) _ _ _ _ _ _ _ eq_refl S2 S3) as S4. pose proof (settle_both _ _ _ _ _ _ i (then_wall L) (tighter_rtl L) _ _ _ _ _ _ _ eq_refl S1 S4) as S5.
  pose proof (settle_both _ _ _ _ _ _ e0 (set_wall L h Hh) (tighter_rtl L) _ _ _ _ _ _ _ eq_refl (settled (g_ops (std L)) (tighter L) orig (callop (std L) false) s _ (single_none L v 0 Hv)) S5) as S6.
  set (X := [SRes v 0] ++ _) in *. set (y := tree_value _ _ _ t2) in *. set (z := tree_value _ _ _ t3) in *.
  assert (LX : length X = length X1 + length (slots_of (chain_of t2)) + length (slots_of (chain_of t3)) + 4) by (unfold X; cbn [app length]; rewrite app_length; cbn [length]; rewrite app_length; cbn [length]; lia).
  assert (F : exists k, loop_fuel X = 0 + (n1 + (n2 + n3)) + (3 + k)) by (exists (loop_fuel X - (n1 + (n2 + n3) + 3)); unfold loop_fuel; lia). destruct F as [k F].
  unfold run_slots, bind. rewrite F, (loop_settles _ _ _ _ _ _ (both_levels L) _ _ _ S6). cbn [Nat.add app]. rewrite op_loop_S.
  assert (E1 : scan_levels (g_ops (std L)) (t_levels (g_ops (std L))) [SRes v 0; SOp (set_sym h) e0; SRes x j1; SOp ($"then") i; SRes y j2; SOp ($"else") j; SRes z j3] = Ok (Some (3, $"then", 1))).
  { rewrite both_levels, (levels_none _ _ _ _ (settles_end _ _ _ _ _ _ _ _ S6)). cbn [app]. apply set_choice_scan; assumption. }
  rewrite E1. assert (R : run_op (g_ops (std L)) orig (callop (std L) false) [SRes v 0; SOp (set_sym h) e0; SRes x j1; SOp ($"then") i; SRes y j2; SOp ($"else") j; SRes z j3] 3 ($"then") 1 s = (OOk [SRes v 0; SOp (set_sym h) e0; SRes r i], s)).
  { unfold run_op. rewrite find_then. cbn [nth_error op_l op_r length Nat.ltb Nat.leb Nat.add Nat.sub skipn firstn app take_inputs slot_idx]. unfold bind, ret. cbn [seq_eqb].
    replace (seq_eqb ($"else") ($"else")) with true by reflexivity. rewrite Hc. reflexivity. }
  unfold bind at 1. rewrite R, (set_last L h orig v r 0 e0 i c r' s s') by assumption. reflexivity.
Qed.

(** * What the operators that assign do *)
Definition var_verdict (vars : str -> option Q) (n : str) : verdict := match vars n with Some q => Worth q | None => Unset end.
Definition set_verdict (vars : str -> option Q) (h : option aop) (n : str) (v : verdict) : verdict := match h with Some o => decide o (var_verdict vars n) v | None => v end.
Lemma judge_computed vars h n a : judge vars (computed h n a) = set_verdict vars h n (judge vars a).
Proof. destruct h; reflexivity. Qed.
Lemma var_ready L vars s m n : vars_exactly vars s -> exists x, refers x n /\ gives x (var_verdict vars n) /\ eval_item (std L) (execute (std L) m) false (IVar n) s = (OOk x, s).
Proof.
  intros [Hv1 Hv2]. cbn [eval_item]. unfold var_verdict. specialize (Hv2 n). destruct (vars n) as [q|] eqn:En.
  - destruct (Hv1 n q En) as (x & Ea & G & Lo & V & _). rewrite Ea in *. eexists. split; [|split; [|reflexivity]]; [split; reflexivity|]. exists x. repeat split; try assumption. tauto.
  - destruct (assoc n (s_vars s)) as [[v u]|]; [destruct v; try destruct Hv2; congruence|]. eexists. split; [|split; [|reflexivity]]; split; reflexivity.
Qed.
Lemma update_fails L hd sym op n x y b s : refers x n -> is_list (rval x) = false -> rval y = VNum b -> shows L (rval x) = true -> shows L (rval y) = true ->
  match assoc n (s_vars s) with None => True | Some (cv, cu) => exists e, hd op [mkRes cv cu None; mkRes (VNum b) (runit y) (rref y)] s = (OErr e, s) end ->
  exists e, call (std_env L) hd (d_update sym op) false [x; y] s = (OErr e, s).
Proof.
  intros [Hx Ex] Lx Hy Sx Sy H. rewrite call_scalars by (cbn [forallb]; rewrite ?Lx, ?Hy; reflexivity). unfold call_plain. replace (o_excs (d_update sym op)) with false by reflexivity. unfold find_exc. cbn [find map].
  rewrite Hy in *. rewrite Ex. cbn [is_exc].
  assert (P : prepare (std_env L) (d_update sym op) [rval x; VNum b] [runit x; runit y] [rref x; rref y] = Ok ([rval x; VNum b], [runit x; runit y], ncast b, None)).
  { rewrite Hx. destruct (rval x); reflexivity. }
  rewrite P. cbn [forallb e_tostr std_env]. rewrite Sx, Hy, Sy. cbn [andb]. unfold bind at 1. cbn [lift]. unfold bind at 1. cbn [fst snd o_impl].
  change (o_impl (d_update sym op)) with (op_assign_op op). unfold op_assign_op, assign_with, the_var. rewrite Hx. unfold bind at 1. unfold ret at 1. unfold bind at 1. unfold lookup.
  destruct (assoc n (s_vars s)) as [[cv cu]|]; [|eauto]. destruct H as [e H]. unfold bind at 1. cbn [fst snd]. rewrite H. destruct (wrapped e); eauto.
Qed.
Lemma update_refused L hd sym op n x y s : refers x n -> is_list (rval x) = false -> rval y = VNone -> shows L (rval x) = true ->
  exists e, call (std_env L) hd (d_update sym op) false [x; y] s = (OErr e, s).
Proof.
  intros [Hx Ex] Lx Hy Sx. rewrite call_scalars by (cbn [forallb]; rewrite ?Lx, ?Hy; reflexivity). unfold call_plain. replace (o_excs (d_update sym op)) with false by reflexivity. unfold find_exc. cbn [find map].
  rewrite Hy. rewrite Ex. cbn [is_exc forallb e_tostr std_env]. rewrite Sx, Hy. cbn [andb shows]. unfold prepare.
  assert (V : validate (std_env L) (d_update sym op) [rval x; VNone] [runit x; runit y] [rref x; rref y] <> Ok tt) by (rewrite Hx; destruct (rval x); cbn; discriminate).
  destruct (validate _ _ _ _ _) as [[]| |]; [congruence| |]; unfold bind, lift; cbn [obind wrapped]; eauto.
Qed.
Lemma up_call L vars k h n x y s v : pow_ok (l_prec L) (f_pow (l_fmt L)) -> showable L k -> (3 * k + 1 <= l_prec L)%Z -> vars_exactly vars s -> h <> Some Beside ->
  refers x n -> gives x (var_verdict vars n) -> gives y v -> within k v -> (h <> None -> within k (var_verdict vars n)) -> within k (set_verdict vars h n v) ->
  (exists q, set_verdict vars h n v = Worth q) \/ set_verdict vars h n v = Wrong ->
  (exists r s', callop (std L) false (set_sym h) [x; y] s = (OOk r, s') /\ gives r (set_verdict vars h n v) /\ s' = match rval r with VNum x => mkSt (dset n (VNum x, None) (s_vars s)) (s_lft s) | _ => s end) \/
  (set_verdict vars h n v = Wrong /\ exists e, callop (std L) false (set_sym h) [x; y] s = (OErr e, s)).
Proof.
  intros Hpow Hk Hp Hv Hh Rx Gx Gy Wv Wn Ww Hq. pose proof (gives_no_list _ _ Gx) as Lx. pose proof (gives_no_list _ _ Gy) as Ly. destruct (find_up L h Hh) as (d & F & Fe & Fm & Fd).
  assert (X : v = Wrong -> callop (std L) false (set_sym h) [x; y] s = (OOk y, s)).
  { intros ->. destruct Gy as (mm & i & nx & tr & Rb). rewrite callop_eq, F. cbn [op_def]. rewrite call_scalars; [|cbn [forallb]; rewrite Lx, Ly; reflexivity|exact Fm].
    unfold call_plain. rewrite Fe. unfold find_exc. cbn [find]. rewrite (proj2 Rx), Rb. reflexivity. }
  assert (Y : v = Wrong -> set_verdict vars h n v = Wrong /\ forall T : Type, match rval y with VNum _ => False | _ => True end).
  { intros ->. split; [|destruct Gy as (mm & i & nx & tr & ->); auto]. unfold set_verdict, var_verdict. destruct h as [o|]; [|reflexivity]. destruct (vars n); reflexivity. }
  destruct v as [q| | |].
  - pose proof Gy as (b & Rb & Ub & Gb). destruct h as [o|]; cbn [set_verdict] in *.
    + destruct Fd as [Hin ->]. specialize (Wn ltac:(discriminate)). pose proof (gives_shows L k x _ Hk Gx Wn) as Sx. pose proof (gives_shows L k y _ Hk Gy Wv) as Sy.
      destruct (vars n) as [qx|] eqn:En.
      * destruct (proj1 Hv n qx En) as (a & Ea & Ga & La & Va & _). pose proof (proj2 Hv n) as Ca. rewrite Ea in Ca. destruct Ca as [_ Ca].
        assert (Ga' : gives (mkRes (VNum a) None None) (var_verdict vars n)) by (unfold var_verdict; rewrite En; exists a; auto 10).
        assert (Gb' : gives (mkRes (VNum b) (runit y) (rref y)) (Worth q)) by (exists b; cbn [rval runit]; tauto).
        destruct (op_gives L false o _ _ _ _ k s Hpow Hk Hp Ga' Gb' Wn Wv Ww) as [(r & R & Gr)|(Ew & e & R)]; [destruct Hq as [[z Hq]|Hq]; rewrite Hq; discriminate| |].
        -- destruct (callop_update L _ _ n x y b s (VNum a) None r s Hin Rx Rb Ea R) as (r' & R' & Er'). replace (ncast b) with (@None cast) in * by (symmetry; tauto). cbn [recast] in R', Er'.
           destruct Hq as [[z Hq]|Hq]; rewrite Hq in *.
           ++ destruct Gr as (c & Rc & Uc & Gc). left. exists r', (mkSt (dset n (VNum c, None) (s_vars s)) (s_lft s)). rewrite Rc, Uc in *. split; [exact R'|]. subst r'. split; [|reflexivity]. exists c. auto.
           ++ (* an error is raised here, not given *)
              exfalso. unfold var_verdict in Hq. rewrite En in Hq. cbn [decide] in Hq. destruct (match o with Over => Qeq_bool q 0 | _ => false end) eqn:Z0; [|destruct (apply_op o qx q); discriminate Hq].
              destruct o; try discriminate Z0. apply Qeq_bool_eq in Z0. destruct Gb as (Gb & Lb & Vb & Cb). destruct (lowest_parts b q Gb Lb Vb) as [E1 _].
              destruct (Prop_Arith.c55_by_zero L false ($"/") (mkRes (VNum a) None None) (mkRes (VNum b) (runit y) (rref y)) a b s) as [e K]; try assumption; try reflexivity; try (left; reflexivity).
              ** rewrite <- E1, (Qred_complete _ _ Z0). reflexivity.
              ** exact (gives_shows L k _ _ Hk Ga' Wn).
              ** exact (gives_shows L k _ _ Hk Gb' Wv).
              ** exact (gives_shows L k _ _ Hk Ga' Wn).
              ** rewrite <- Rb. exact Sy.
              ** cbn [run_sym osym] in R. rewrite K in R. discriminate R.
        -- right. split; [exact Ew|]. rewrite callop_eq, F. cbn [op_def]. apply (update_fails L _ _ _ n x y b s Rx Lx Rb Sx Sy). rewrite Ea. exists e. rewrite callop_inner; [exact R|]. apply (in_map snd) in Hin. exact Hin.
      * right. split; [unfold var_verdict; rewrite En; reflexivity|]. rewrite callop_eq, F. cbn [op_def]. apply (update_fails L _ _ _ n x y b s Rx Lx Rb Sx Sy).
        pose proof (proj2 Hv n) as Ca. rewrite En in Ca. destruct (assoc n (s_vars s)) as [[cv cu]|]; [|exact I]. destruct cv; try destruct Ca; congruence.
    + left. exists (mkRes (VNum b) None None), (mkSt (dset n (VNum b, None) (s_vars s)) (s_lft s)). split; [|split; [exists b; auto|reflexivity]].
      change (set_sym None) with ($"="). rewrite (callop_set L false n x y s Rx); [rewrite Rb, Ub; reflexivity|unfold usable; rewrite Rb; reflexivity].
  - destruct h as [o|]; [|destruct Hq as [[q Hq]|Hq]; discriminate Hq]. right. split; [cbn [set_verdict]; unfold var_verdict; destruct (vars n); reflexivity|].
    destruct Fd as [Hin ->]. pose proof (gives_shows L k x _ Hk Gx (Wn ltac:(discriminate))) as Sx. rewrite callop_eq, F. cbn [op_def]. apply (update_refused L _ _ _ n); try assumption. apply Gy.
  - left. exists y, s. split; [exact (X eq_refl)|]. destruct (Y eq_refl) as [-> Z]. split; [exact Gy|]. destruct Gy as (mm & i & nx & tr & ->). reflexivity.
  - destruct Gy.
Qed.

(** * Lines that assign *)
Lemma set_ends L vars k h n x y s v orig : pow_ok (l_prec L) (f_pow (l_fmt L)) -> showable L k -> (3 * k + 1 <= l_prec L)%Z -> vars_exactly vars s -> h <> Some Beside ->
  refers x n -> gives x (var_verdict vars n) -> gives y v -> within k v -> (h <> None -> within k (var_verdict vars n)) -> within k (set_verdict vars h n v) ->
  (exists q, set_verdict vars h n v = Worth q) \/ set_verdict vars h n v = Wrong ->
  exists c r s', callop (std L) false (set_sym h) [x; y] s = (c, s') /\ left_there orig (set_sym h) 1 c = Some r /\ gives r (set_verdict vars h n v) /\
    s' = match rval r with VNum x => mkSt (dset n (VNum x, None) (s_vars s)) (s_lft s) | _ => s end.
Proof.
  intros Hpow Hk Hp Hv Hh Rx Gx Gy Wv Wn Ww Hq. destruct (up_call L vars k h n x y s v Hpow Hk Hp Hv Hh Rx Gx Gy Wv Wn Ww Hq) as [(r & s' & C & Gr & Es)|(E & e & C)].
  - exists (OOk r), r, s'. repeat split; assumption.
  - eexists (OErr e), _, s. split; [exact C|]. split; [reflexivity|]. rewrite E. split; [eexists _, _, _, _; reflexivity|reflexivity].
Qed.
Definition set_done (L : lib) (vars : str -> option Q) (s : st) (m : nat) (its : list item) (h : option aop) (n : str) (v : verdict) : Prop :=
  exists r s', execute (std L) (S m) false its s = (OOk r, s') /\ gives r (set_verdict vars h n v) /\
    s' = match rval r with VNum x => mkSt (dset n (VNum x, None) (s_vars s)) (s_lft s) | _ => s end.
Lemma set_plain_judged L vars k h s m u1 n u2 u3 its u4 v : pow_ok (l_prec L) (f_pow (l_fmt L)) -> showable L k -> (3 * k + 1 <= l_prec L)%Z -> h <> Some Beside ->
  blanks u1 -> blanks u2 -> blanks u3 -> blanks u4 -> vars_exactly vars s -> fair_run L false s m 4 its v -> within k v -> (h <> None -> within k (var_verdict vars n)) -> within k (set_verdict vars h n v) ->
  (exists q, set_verdict vars h n v = Worth q) \/ set_verdict vars h n v = Wrong ->
  set_done L vars s m (u1 ++ [IVar n] ++ u2 ++ [IOp (set_sym h)] ++ u3 ++ its ++ u4) h n v.
Proof.
  intros Hpow Hk Hp Hh U1 U2 U3 U4 Hv R1 Wv Wn Ww Hq. destruct (var_ready L vars s m n Hv) as (v0 & Rv & Gv & Ev).
  set (orig0 := ((((u1 ++ [IVar n]) ++ u2) ++ [IOp (set_sym h)]) ++ u3)). set (sl0 := [SRes v0 0; SOp (set_sym h) 1]).
  destruct (R1 2 u4 sl0 orig0) as (t & its' & T & E). set (orig := (orig0 ++ its') ++ u4).
  pose proof T as (T1 & T2 & _ & T4). destruct (T4 orig) as [V Ag]. set (y := tree_value (g_ops (std L)) orig (real_interp L false s) t) in *.
  destruct (set_ends L vars k h n v0 y s v orig Hpow Hk Hp Hv Hh Rv Gv V Wv Wn Ww Hq) as (c & r & s' & C & Lc & Gr & Es).
  unfold set_done. cbn [execute]. unfold execute_body. rewrite (functional_in _ (IVar n)); [|rewrite !in_app_iff; cbn [In]; tauto|reflexivity].
  unfold bind. rewrite (operands_blank _ _ _ u1) by exact U1. cbn [app].
  rewrite (operands_item _ _ _ _ _ _ _ _ v0 s s); [|reflexivity|reflexivity|exact Ev]. rewrite (operands_blank _ _ _ u2) by exact U2. rewrite operands_op. rewrite (operands_blank _ _ _ u3) by exact U3. cbn [app].
  fold orig0. fold sl0. rewrite E, operands_end by exact U4. fold orig. set (rr := run_slots _ _ _ _ s).
  assert (Er : rr = (OOk r, s')).
  { apply (set_slots L h orig (real_interp L false s) v0 1 t s c r s'); try assumption.
    - exact (fair_tighter _ _ _ _ _ T).
    - exact (gives_no_unit _ _ V).
    - apply real_no_units.
    - exact (gives_no_unit _ _ Gv).
    - exact (gives_no_unit _ _ Gr). }
  rewrite Er. destruct Hq as [(q & Hq)|Hq]; rewrite Hq in *; cbn [gives] in Gr.
  - pose proof Gr as (b & Rb & _). rewrite Rb. exists r, s'. split; [reflexivity|]. split; [exact Gr|exact Es].
  - destruct Gr as (mm & i & nx & tr & Rb). rewrite Rb in *. eexists _, _. split; [reflexivity|]. destruct r as [rv ru rf ro]. cbn [with_value rval] in *. split; [eexists _, _, _, _; reflexivity|exact Es].
Qed.
Lemma set_if_judged L vars k h s m u1 n u2 u3 i1 w1 w2 i2 w3 w4 i3 u4 a v2 v3 : pow_ok (l_prec L) (f_pow (l_fmt L)) -> showable L k -> (3 * k + 1 <= l_prec L)%Z -> h <> Some Beside ->
  blanks u1 -> blanks u2 -> blanks u3 -> blanks u4 -> blanks w1 -> blanks w2 -> blanks w3 -> blanks w4 -> vars_exactly vars s ->
  bruns_to L false s m 2 i1 a -> fair_run L false s m 4 i2 v2 -> fair_run L false s m 4 i3 v3 -> let v := if a then v2 else v3 in
  within k v -> (h <> None -> within k (var_verdict vars n)) -> within k (set_verdict vars h n v) -> (exists q, set_verdict vars h n v = Worth q) \/ set_verdict vars h n v = Wrong ->
  set_done L vars s m (u1 ++ [IVar n] ++ u2 ++ [IOp (set_sym h)] ++ u3 ++ (i1 ++ w1 ++ [IOp ($"then")] ++ w2 ++ i2 ++ w3 ++ [IOp ($"else")] ++ w4 ++ i3) ++ u4) h n v.
Proof.
  intros Hpow Hk Hp Hh U1 U2 U3 U4 B1 B2 B3 B4 Hv R1 R2 R3 vv Wv Wn Ww Hq. destruct (var_ready L vars s m n Hv) as (v & Rv & Gv & Ev). destruct (R1 2) as (X1 & T1 & E1). set (j1 := 2 + length (functional_items i1)) in *.
  set (orig0 := ((((u1 ++ [IVar n]) ++ u2) ++ [IOp (set_sym h)]) ++ u3)). set (orig1 := (((orig0 ++ i1) ++ w1) ++ [IOp ($"then")]) ++ w2). set (sl0 := [SRes v 0; SOp (set_sym h) 1]).
  destruct (R2 (S j1) (w3 ++ [IOp ($"else")] ++ w4 ++ i3 ++ u4) ((sl0 ++ X1) ++ [SOp ($"then") j1]) orig1) as (t2 & i2' & T2 & E2). set (j2 := S j1 + length (functional_items i2)) in *.
  set (orig2 := ((((orig1 ++ i2') ++ w3) ++ [IOp ($"else")]) ++ w4)).
  destruct (R3 (S j2) u4 ((((sl0 ++ X1) ++ [SOp ($"then") j1]) ++ slots_of (chain_of t2)) ++ [SOp ($"else") j2]) orig2) as (t3 & i3' & T3 & E3).
  unfold set_done. cbn [execute]. unfold execute_body. rewrite (functional_in _ (IVar n)); [|rewrite !in_app_iff; cbn [In]; tauto|reflexivity].
  unfold bind. rewrite (operands_blank _ _ _ u1) by exact U1. rewrite <- !app_assoc. cbn [app].
  rewrite (operands_item _ _ _ _ _ _ _ _ v s s); [|reflexivity|reflexivity|exact Ev]. rewrite (operands_blank _ _ _ u2) by exact U2. rewrite operands_op. rewrite (operands_blank _ _ _ u3) by exact U3. cbn [app].
  fold orig0. fold sl0. rewrite E1, (operands_blank _ _ _ w1) by exact B1. cbn [app]. rewrite operands_op, (operands_blank _ _ _ w2) by exact B2.
  fold orig1. cbn [app] in E2, E3. fold j1. rewrite E2. fold j2. rewrite (operands_blank _ _ _ w3) by exact B3. rewrite operands_op, (operands_blank _ _ _ w4) by exact B4. fold orig2. rewrite E3, operands_end by exact U4.
  set (orig := (orig2 ++ i3') ++ u4).
  destruct (slots_all _ _ _ _ _ _ (T1 orig)) as (n1 & x & jx & N1 & A1 & V1). pose proof T2 as (C1 & C2 & _ & C4). destruct (C4 orig) as [V2 Ag2]. pose proof T3 as (D1 & D2 & _ & D4). destruct (D4 orig) as [V3 Ag3].
  set (y := tree_value (g_ops (std L)) orig (real_interp L false s) t2) in *. set (z := tree_value (g_ops (std L)) orig (real_interp L false s) t3) in *.
  set (r0 := mkRes (rval (if a then y else z)) (runit (if a then y else z)) (rref (if a then y else z))).
  assert (Gr0 : gives r0 vv).
  { unfold r0, vv. destruct a; [destruct v2|destruct v3]; cbn [gives rval runit] in *; assumption. }
  destruct (set_ends L vars k h n v r0 s vv orig Hpow Hk Hp Hv Hh Rv Gv Gr0 Wv Wn Ww Hq) as (c & r & s' & Cr & Lc & Gr & Es).
  set (rr := run_slots _ _ _ _ s).
  assert (Er : rr = (OOk r, s')).
  { unfold rr, sl0. rewrite <- !app_assoc. cbn [app]. apply (set_choice_slots L h orig (real_interp L false s) v 1 X1 x n1 jx t2 t3 j1 j2 s r0 c r s').
    - exact Hh.
    - exact N1.
    - exact A1.
    - exact (says_no_unit _ _ V1).
    - intros t [<-|[<-|[]]]; (split; [assumption|]); (split; [assumption|]).
      + split; [exact (fair_tighter _ _ _ _ _ T2)|]. split; [exact Ag2|exact (gives_no_unit _ _ V2)].
      + split; [exact (fair_tighter _ _ _ _ _ T3)|]. split; [exact Ag3|exact (gives_no_unit _ _ V3)].
    - apply real_no_units.
    - exact (gives_no_unit _ _ Gv).
    - apply (then_call L false x y z a s); [exact (proj1 V1)|exact (gives_scalar _ _ V2)|exact (gives_scalar _ _ V3)].
    - exact (gives_no_unit _ _ Gr0).
    - exact Cr.
    - exact Lc.
    - exact (gives_no_unit _ _ Gr). }
  rewrite Er. destruct Hq as [(q & Hq)|Hq]; rewrite Hq in *; cbn [gives] in Gr.
  - pose proof Gr as (b & Rb & _). rewrite Rb. exists r, s'. split; [reflexivity|]. split; [exact Gr|exact Es].
  - destruct Gr as (mm & i & nx & tr & Rb). rewrite Rb in *. eexists _, _. split; [reflexivity|]. destruct r as [rv ru rf ro]. cbn [with_value rval] in *. split; [eexists _, _, _, _; reflexivity|exact Es].
Qed.
Lemma cset_runs L s vars k : pow_ok (l_prec L) (f_pow (l_fmt L)) -> showable L k -> (3 * k + 1 <= l_prec L)%Z -> vars_exactly vars s ->
  forall d its e, cshape (l_prec L) d 1 its e -> forall m h n a, d <= m -> Forall spelled its -> csized vars (l_prec L) k e -> chosen vars e = Some a -> sized vars (l_prec L) k (computed h n a) ->
  (exists q, judge vars (computed h n a) = Worth q) \/ judge vars (computed h n a) = Wrong -> h <> Some Beside ->
  forall w1 w2 w3 w4, blanks w1 -> blanks w2 -> blanks w3 -> blanks w4 ->
  exists r s', execute (std L) (S m) false (w1 ++ [IVar n] ++ w2 ++ [IOp (set_sym h)] ++ w3 ++ its ++ w4) s = (OOk r, s') /\ gives r (judge vars (computed h n a)) /\
    s' = match rval r with VNum x => mkSt (dset n (VNum x, None) (s_vars s)) (s_lft s) | _ => s end.
Proof.
  intros Hpow Hk Hp Hv d its e H m h n a Hm Sp St Ha Sz Hq Hh u1 u2 u3 u4 U1 U2 U3 U4.
  assert (Wc : within k (judge vars (computed h n a))) by exact (sized_within _ _ _ _ Sz).
  assert (Wv : within k (judge vars a)) by (destruct h as [o|]; cbn [computed sized] in Sz; [exact (sized_within _ _ _ _ (proj2 (proj2 Sz)))|exact (sized_within _ _ _ _ Sz)]).
  assert (Wn : h <> None -> within k (var_verdict vars n)) by (intros Hn; destruct h as [o|]; [|congruence]; exact (proj1 (proj1 (proj2 Sz)))).
  assert (Ej : cjudge vars e = judge vars a) by (unfold cjudge; rewrite Ha; reflexivity). rewrite judge_computed in *. rewrite <- Ej in *.
  inversion H as [| |d0 i0 e0 Hs|d0 i1 w1 w2 i2 w3 w4 i3 c x y B1 B2 B3 B4 H1 H2 H3]; subst.
  - destruct (cshape_runs L false s vars k Hpow Hk Hp Hv _ _ _ _ Hs m Hm Sp St) as (R & _). apply (set_plain_judged L vars k); assumption.
  - cbn [csized] in St. destruct St as (Sc & Sx & Sy). rewrite !Forall_app in Sp. destruct Sp as (Sp1 & _ & _ & _ & Sp2 & _ & _ & _ & Sp3). destruct (bstays_value _ _ _ _ Sc) as [b Qb].
    destruct (cshape_runs L false s vars k Hpow Hk Hp Hv _ _ _ _ H2 m Hm Sp2 Sx) as (R2 & _). destruct (cshape_runs L false s vars k Hpow Hk Hp Hv _ _ _ _ H3 m Hm Sp3 Sy) as (R3 & _).
    pose proof (bshape_runs L false s vars k Hpow (proj1 Hk) Hp (proj1 Hv) _ _ _ _ H1 m b Hm Sc Qb) as R1. rewrite (cjudge_if _ _ _ _ _ Qb) in *.
    apply (set_if_judged L vars k); assumption.
Qed.

(** * Lines that count up or down *)
Lemma step_in up : In (step_sym up, run_sym (step_op up)) steps.
Proof. destruct up; cbn; auto. Qed.
Lemma step_scan L up v v0 e0 : is_unit_val v = false -> scan_levels (g_ops (std L)) (t_levels (g_ops (std L))) [SRes v v0; SOp (step_sym up) e0] = Ok (Some (1, step_sym up, 1)).
Proof. intros Hv. destruct v as [rv ru rf ro]. unfold is_unit_val in Hv. destruct up, rv; try discriminate Hv; reflexivity. Qed.
Lemma step_slots L up orig v e0 c r' s s' : is_unit_val v = false -> callop (std L) false (step_sym up) [v] s = (c, s') -> left_there orig (step_sym up) e0 c = Some r' -> is_unit_val r' = false ->
  run_slots (g_ops (std L)) orig (callop (std L) false) [SRes v 0; SOp (step_sym up) e0] s = (OOk r', s').
Proof.
  intros Hv Hc Hl Hr. unfold run_slots, bind at 1. assert (F : exists k, loop_fuel [SRes v 0; SOp (step_sym up) e0] = S (S k)) by (eexists; reflexivity). destruct F as [k ->].
  rewrite op_loop_S, (step_scan L up v 0 e0 Hv).
  assert (R2 : run_op (g_ops (std L)) orig (callop (std L) false) [SRes v 0; SOp (step_sym up) e0] 1 (step_sym up) 1 s = (OOk [SRes r' e0], s')).
  { unfold run_op. rewrite (find_step L _ _ (step_in up)). cbn [nth_error op_l op_r length Nat.ltb Nat.leb Nat.add Nat.sub skipn firstn app take_inputs slot_idx Nat.eqb]. unfold bind, ret. rewrite Hc.
    destruct c as [r0|e| |]; cbn [left_there] in Hl; try discriminate Hl; injection Hl as <-; reflexivity. }
  unfold bind at 1. rewrite R2, op_loop_S. assert (E : scan_levels (g_ops (std L)) (t_levels (g_ops (std L))) [SRes r' e0] = Ok None) by (apply (scan_levels_done (g_ops (std L)) (r', e0) (std_good L)); split; [exact Hr|constructor]).
  rewrite E. reflexivity.
Qed.
Lemma step_fails L hd sym op n x s : refers x n -> is_list (rval x) = false -> shows L (rval x) = true -> assoc n (s_vars s) = None ->
  exists e, call (std_env L) hd (d_step L sym op) false [x] s = (OErr e, s).
Proof.
  intros [Hx Ex] Lx Sx H. rewrite call_scalars by (cbn [forallb]; rewrite ?Lx; reflexivity). unfold call_plain. replace (o_excs (d_step L sym op)) with false by reflexivity. unfold find_exc. cbn [find map].
  rewrite Ex. cbn [is_exc].
  assert (P : prepare (std_env L) (d_step L sym op) [rval x] [runit x] [rref x] = Ok ([rval x], [runit x], None, None)).
  { rewrite Hx. destruct (rval x); reflexivity. }
  rewrite P. cbn [forallb e_tostr std_env]. rewrite Sx. cbn [andb]. unfold bind at 1. cbn [lift]. unfold bind at 1. cbn [fst snd o_impl].
  change (o_impl (d_step L sym op)) with (op_increment L op). unfold op_increment, assign_with, the_var. rewrite Hx. unfold bind at 1. unfold ret at 1. unfold bind at 1. unfold lookup.
  rewrite H. eauto.
Qed.
Definition one_more : aexp := ANum (mkLit false ($"1") None).
Lemma step_runs L s vars k up n : pow_ok (l_prec L) (f_pow (l_fmt L)) -> showable L k -> (3 * k + 1 <= l_prec L)%Z -> vars_exactly vars s ->
  sized vars (l_prec L) k (computed (Some (step_op up)) n one_more) ->
  forall m w1 w2 w3, blanks w1 -> blanks w2 -> blanks w3 ->
  exists r s', execute (std L) (S m) false (w1 ++ [IVar n] ++ w2 ++ [IOp (step_sym up)] ++ w3) s = (OOk r, s') /\ gives r (judge vars (computed (Some (step_op up)) n one_more)) /\
    s' = match rval r with VNum x => mkSt (dset n (VNum x, None) (s_vars s)) (s_lft s) | _ => s end.
Proof.
  intros Hpow Hk Hp Hv Sz m u1 u2 u3 U1 U2 U3. destruct (var_ready L vars s m n Hv) as (v0 & Rv & Gv & Ev).
  pose proof (sized_within _ _ _ _ Sz) as Wc. pose proof (proj1 (proj1 (proj2 Sz))) as Wn. assert (Wo : within k (judge vars one_more)) by exact (proj1 (proj2 (proj2 Sz))).
  set (orig := (((u1 ++ [IVar n]) ++ u2) ++ [IOp (step_sym up)]) ++ u3). set (j := judge vars (computed (Some (step_op up)) n one_more)) in *.
  assert (X : exists c r s', callop (std L) false (step_sym up) [v0] s = (c, s') /\ left_there orig (step_sym up) 1 c = Some r /\ gives r j /\
    s' = match rval r with VNum x => mkSt (dset n (VNum x, None) (s_vars s)) (s_lft s) | _ => s end /\ (j = Wrong \/ exists q, j = Worth q)).
  { unfold j. cbn [computed judge]. cbn [judge] in Wn. fold (var_verdict vars n). destruct (vars n) as [q|] eqn:En.
    - destruct (proj1 Hv n q En) as (a & Ea & Ga & La & Va & _). pose proof (proj2 Hv n) as Ca. rewrite Ea in Ca. destruct Ca as [_ Ca].
      assert (Ga' : gives (mkRes (VNum a) None None) (var_verdict vars n)) by (unfold var_verdict; rewrite En; exists a; auto 10).
      assert (Go : gives (mkRes (VNum (num_of_Z (l_prec L) 1)) None None) (judge vars one_more)) by (rewrite num_of_Z_eq; exists (mkNum 1 1 None None); split; [reflexivity|]; split; [reflexivity|]; split; [unfold good; cbn; lia|]; split; [intros d0 Hd0 _; exact (Z.divide_1_r d0 Hd0)|]; split; reflexivity).
      assert (Wn' : within k (var_verdict vars n)) by (unfold var_verdict; rewrite En; exact Wn).
      assert (Jq : exists z, decide (step_op up) (var_verdict vars n) (judge vars one_more) = Worth z) by (unfold var_verdict; rewrite En; destruct up; eexists; reflexivity).
      destruct Jq as [z Jq].
      destruct (op_gives L false (step_op up) _ _ _ _ k s Hpow Hk Hp Ga' Go Wn' Wo Wc) as [(r & R & Gr)|(Ew & _)]; [rewrite Jq; discriminate| |rewrite Jq in Ew; discriminate Ew].
      rewrite Jq in Gr. destruct Gr as (b & Rb & Ub & Gb). destruct (callop_step L _ _ n v0 s (VNum a) None r s (step_in up) Rv Ea R) as (r' & R' & Er').
      rewrite Rb, Ub in *. exists (OOk r'), r', (mkSt (dset n (VNum b, None) (s_vars s)) (s_lft s)). subst r'. split; [exact R'|]. split; [reflexivity|].
      change (judge vars (ANum (mkLit false ($"1") None))) with (judge vars one_more). rewrite Jq. split; [exists b; auto|]. split; [reflexivity|]. right. eauto.
    - pose proof (proj2 Hv n) as Ca. rewrite En in Ca. unfold var_verdict in *. rewrite En in *. assert (Ea : assoc n (s_vars s) = None) by (destruct (assoc n (s_vars s)) as [[cv cu]|]; [destruct cv; try destruct Ca; congruence|reflexivity]).
      destruct (step_fails L (op_handle (std L) 4 false) (step_sym up) (run_sym (step_op up)) n v0 s Rv (gives_no_list _ _ Gv) (gives_shows L k v0 _ Hk Gv I) Ea) as [e C].
      eexists (OErr e), _, s. split; [rewrite callop_eq, (find_step L _ _ (step_in up)); exact C|]. split; [reflexivity|]. split; [eexists _, _, _, _; reflexivity|]. split; [reflexivity|left; reflexivity]. }
  destruct X as (c & r & s' & C & Lc & Gr & Es & Hj).
  cbn [execute]. unfold execute_body. rewrite (functional_in _ (IVar n)); [|rewrite !in_app_iff; cbn [In]; tauto|reflexivity].
  unfold bind. rewrite (operands_blank _ _ _ u1) by exact U1. cbn [app].
  rewrite (operands_item _ _ _ _ _ _ _ _ v0 s s); [|reflexivity|reflexivity|exact Ev]. rewrite (operands_blank _ _ _ u2) by exact U2. rewrite operands_op. rewrite operands_end by exact U3. cbn [app].
  fold orig. rewrite (step_slots L up orig v0 1 c r s s' (gives_no_unit _ _ Gv) C Lc (gives_no_unit _ _ Gr)).
  destruct Hj as [Hj|(q & Hj)]; rewrite Hj in *; cbn [gives] in Gr.
  - destruct Gr as (mm & i & nx & tr & Rb). rewrite Rb in *. eexists _, _. split; [reflexivity|]. destruct r as [rv ru rf ro]. cbn [with_value rval] in *. split; [eexists _, _, _, _; reflexivity|exact Es].
  - pose proof Gr as (b & Rb & _). rewrite Rb. exists r, s'. split; [reflexivity|]. split; [exact Gr|exact Es].
Qed.
