(** Assignment statements; stateless evaluation; the operators give an answer. *)
From Coq Require Import ZArith QArith Ascii String List Bool Lia.
From Verif Require Import Base BaseProofs Dec Num Lex Bases Formats Units Install InstallProofs Syntax Pos Call CallSpec CallProofs Loop LoopSpec LoopProofs Parse Exec ExecSpec ExecProofs ExecProofs2 ExecProofs5 Std StdSpec StdProofs.
Import ListNotations.
Open Scope nat_scope.

Definition blanks (w : list item) : Prop := Forall (fun i => ifunc i = false) w.
Lemma operands_blank G rec stl w r k sl orig : blanks w ->
  eval_operands G rec stl (w ++ r) k sl orig = eval_operands G rec stl r k sl (orig ++ w).
Proof.
  intros H. revert orig. induction H as [|i w Hi Hw IH]; intros orig; [now rewrite app_nil_r|].
  cbn [app]. replace (orig ++ i :: w) with ((orig ++ [i]) ++ w) by now rewrite <- app_assoc. rewrite <- IH.
  destruct i; cbn in Hi; try discriminate; reflexivity.
Qed.
Lemma operands_op G rec stl sym r k sl orig :
  eval_operands G rec stl (IOp sym :: r) k sl orig = eval_operands G rec stl r (S k) (sl ++ [SOp sym k]) (orig ++ [IOp sym]).
Proof. reflexivity. Qed.
Lemma operands_item G rec stl i r k sl orig v s s' : ifunc i = true -> iisop i = false ->
  eval_item G rec stl i s = (OOk v, s') ->
  eval_operands G rec stl (i :: r) k sl orig s = eval_operands G rec stl r (S k) (sl ++ [SRes v k]) (orig ++ [i]) s'.
Proof.
  intros Hf Ho He. destruct i; cbn in Hf, Ho; try discriminate; cbn [eval_operands ifunc]; unfold bind, eval_operand; rewrite He; reflexivity.
Qed.
Lemma operands_end G rec stl w k sl orig s : blanks w -> eval_operands G rec stl w k sl orig s = (OOk (sl, orig ++ w), s).
Proof.
  intros H. rewrite <- (app_nil_r w) at 1. rewrite operands_blank by exact H. reflexivity.
Qed.
Lemma functional_in items i : In i items -> ifunc i = true -> is_nil (functional_items items) = false.
Proof.
  intros H Hf. unfold functional_items. destruct (filter _ items) eqn:E; [|reflexivity].
  assert (In i []) as []. rewrite <- E. apply filter_In. split; assumption.
Qed.

(** One operator between two operands *)
Lemma slots_set L orig call a b s : run_slots (g_ops (std L)) orig call [SRes a 0; SOp ($"=") 1; SRes b 2] s =
  match call ($"=") [a; b] s with
  | (OOk r, s') => (OOk r, s')
  | (OErr e, s') => (OOk (mkRes (VExc (XExec (exc_msg e) (firstn 1 orig) (Some ($"=")) false)) None None), s')
  | (OPy, s') => (OPy, s') | (OFuel, s') => (OFuel, s')
  end.
Proof.
  unfold run_slots. replace (loop_fuel [SRes a 0; SOp ($"=") 1; SRes b 2]) with 7 by reflexivity.
  unfold bind at 1. cbn [op_loop].
  assert (S1 : scan_levels (g_ops (std L)) (t_levels (g_ops (std L))) [SRes a 0; SOp ($"=") 1; SRes b 2] = Ok (Some (1, $"=", 1))).
  { lazy -[slot_unit]. destruct (slot_unit (SRes a 0)), (slot_unit (SRes b 2)); reflexivity. }
  rewrite S1. unfold bind at 1, run_op. rewrite find_set.
  cbn [nth_error op_l op_r length Nat.ltb Nat.leb Nat.add Nat.sub firstn skipn app take_inputs slot_idx].
  unfold bind at 1 2 3. cbn [take_inputs]. unfold bind at 1 2, ret at 1 2 3.
  assert (S2 : forall r, scan_levels (g_ops (std L)) (t_levels (g_ops (std L))) [SRes r 1] = Ok None).
  { intros r. lazy -[slot_unit]. destruct (slot_unit (SRes r 1)); reflexivity. }
  destruct (call ($"=") [a; b] s) as [[r|e| |] s1]; unfold ret; cbn [app]; try rewrite S2; reflexivity.
Qed.

Lemma callop_set L stl n x y s : refers x n -> usable y ->
  callop (std L) stl ($"=") [x; y] s =
  (OOk (mkRes (shown (rval y)) (runit y) None), if stl then s else mkSt (dset n (rval y, runit y) (s_vars s)) (s_lft s)).
Proof. intros. unfold callop, op_depth. cbn [op_handle]. rewrite find_set. now apply set_call. Qed.
Lemma callop_set_new L stl n x y s : refers x n -> usable y ->
  callop (std L) stl ($"||=") [x; y] s =
  (OOk (mkRes (shown (rval y)) (runit y) None),
   if stl then s else match assoc n (s_vars s) with Some _ => s | None => mkSt (dset n (rval y, runit y) (s_vars s)) (s_lft s) end).
Proof. intros. unfold callop, op_depth. cbn [op_handle]. rewrite find_set_new. now apply set_new_call. Qed.

(** [x = i], with blanks anywhere *)
Lemma run_set L k stl w0 n w1 w2 i w3 v s s1 : blanks w0 -> blanks w1 -> blanks w2 -> blanks w3 ->
  ifunc i = true -> iisop i = false ->
  (forall m u, assoc n (s_vars s) = Some (m, u) -> is_exc m = false) ->
  eval_item (std L) (execute (std L) k) stl i s = (OOk v, s1) -> usable v ->
  execute (std L) (S k) stl (w0 ++ [IVar n] ++ w1 ++ [IOp ($"=")] ++ w2 ++ [i] ++ w3) s =
  (OOk (mkRes (shown (rval v)) (runit v) None), if stl then s1 else mkSt (dset n (rval v, runit v) (s_vars s1)) (s_lft s1)).
Proof.
  intros B0 B1 B2 B3 Hf Ho Hn He Hv. cbn [execute]. unfold execute_body.
  rewrite (functional_in _ i); [|rewrite !in_app_iff; cbn [In]; tauto|exact Hf].
  set (G := std L) in *. set (rec := execute G k) in *.
  assert (E : exists x orig, refers x n /\ eval_operands G rec stl (w0 ++ [IVar n] ++ w1 ++ [IOp ($"=")] ++ w2 ++ [i] ++ w3) 0 [] [] s =
              (OOk ([SRes x 0; SOp ($"=") 1; SRes v 2], orig), s1)).
  { assert (V : exists x, refers x n /\ eval_item G rec stl (IVar n) s = (OOk x, s)).
    { cbn [eval_item]. destruct (assoc n (s_vars s)) as [[xv xu]|] eqn:Ea; eexists; (split; [|reflexivity]); split; try reflexivity.
      apply (Hn xv xu eq_refl). }
    destruct V as [x [Hx Ex]]. exists x. eexists. split; [exact Hx|].
    rewrite (operands_blank _ _ _ w0) by exact B0. cbn [app].
    rewrite (operands_item _ _ _ _ _ _ _ _ x s s); [|reflexivity|reflexivity|exact Ex].
    rewrite (operands_blank _ _ _ w1) by exact B1. rewrite operands_op.
    rewrite (operands_blank _ _ _ w2) by exact B2.
    rewrite (operands_item _ _ _ _ _ _ _ _ v s s1); [|exact Hf|exact Ho|exact He].
    rewrite operands_end by exact B3. reflexivity. }
  destruct E as [x [orig [Hx E]]]. unfold bind at 1. rewrite E. unfold G. rewrite slots_set.
  fold G. unfold G. rewrite (callop_set L stl n x v s1 Hx Hv).
  destruct (rval v) eqn:Erv; try reflexivity. unfold usable in Hv. rewrite Erv in Hv. discriminate.
Qed.
Lemma run_get L k stl n s :
  execute (std L) (S k) stl [IVar n] s =
  (OOk (match assoc n (s_vars s) with Some (v, u) => mkRes v u (Some (RVar n)) | None => mkRes VNone None (Some (RVar n)) end), s) \/
  exists e u, assoc n (s_vars s) = Some (VExc e, u).
Proof.
  cbn [execute]. unfold execute_body. replace (is_nil (functional_items [IVar n])) with false by reflexivity.
  assert (S2 : forall r orig call s, run_slots (g_ops (std L)) orig call [SRes r 0] s = (OOk r, s)).
  { intros r orig call s'. unfold run_slots. replace (loop_fuel [SRes r 0]) with 3 by reflexivity. unfold bind. cbn [op_loop].
    assert (S2 : scan_levels (g_ops (std L)) (t_levels (g_ops (std L))) [SRes r 0] = Ok None).
    { lazy -[slot_unit]. destruct (slot_unit (SRes r 0)); reflexivity. }
    rewrite S2. reflexivity. }
  cbn [eval_operands ifunc iisop]. unfold bind at 1 2. unfold eval_operand. cbn [eval_item].
  destruct (assoc n (s_vars s)) as [[v u]|]; cbn [fst snd app eval_operands]; unfold ret; rewrite S2; [|left; reflexivity].
  cbn [rval]. destruct v; try (left; reflexivity). right. exists e, u. reflexivity.
Qed.

(** * Histories *)
Lemma history_step L c s s' : does L c s s' -> (match c with VDelete n => vars_of s n <> None | _ => True end) ->
  same_vars (vars_of s') (meaning c (vars_of s)).
Proof.
  intros H. destruct H as [n x y s o s' Hx Hy H|n x y s o s' Hx Hy H|n x d s o s' Hx Hl Hd H|d s o s' Hd H]; intros Hn.
  - rewrite (callop_set L false n x y s Hx Hy) in H. injection H as _ <-. cbn [meaning]. apply vars_dset.
  - rewrite (callop_set_new L false n x y s Hx Hy) in H. injection H as _ <-. cbn [meaning]. unfold vars_of at 2.
    destruct (assoc n (s_vars s)) as [z|]; [intros m; reflexivity|]. apply vars_dset.
  - rewrite find_delete in Hd. injection Hd as <-. cbn [g_env std] in H. rewrite (delete_call L _ false n x s Hx Hl) in H.
    unfold vars_of in Hn. destruct (assoc n (s_vars s)) as [z|]; [|contradiction].
    injection H as _ <-. intros m. unfold vars_of. cbn [s_vars meaning]. unfold set_at. apply assoc_without.
  - rewrite find_reset in Hd. injection Hd as <-. cbn [g_env std] in H. rewrite reset_call in H. injection H as _ <-.
    intros m. reflexivity.
Qed.
Lemma delete_unset L n x d s o s' : refers x n -> is_list (rval x) = false -> assoc ($"delete") (g_funcs (std L)) = Some d ->
  call (g_env (std L)) (callop (std L) false) d false [x] s = (o, s') -> vars_of s n = None -> s' = s /\ forall r, o <> OOk r.
Proof.
  intros Hx Hl Hd H Hn. rewrite find_delete in Hd. injection Hd as <-. cbn [g_env std] in H. rewrite (delete_call L _ false n x s Hx Hl) in H.
  unfold vars_of in Hn. rewrite Hn in H. injection H as <- <-. split; [reflexivity|]. intros r. destruct (shows L (rval x)); discriminate.
Qed.
Lemma meaning_ext c a b : same_vars a b -> same_vars (meaning c a) (meaning c b).
Proof.
  intros H m. destruct c as [n v u|n v u|n|]; cbn [meaning]; unfold set_at; try (destruct (seq_eqb n m); [reflexivity|apply H]); [|reflexivity].
  rewrite (H n). destruct (b n); [apply H|]. destruct (seq_eqb n m); [reflexivity|apply H].
Qed.
Lemma history_all L cs s s' : history L cs s s' -> same_vars (vars_of s') (fold_left (fun m c => meaning c m) cs (vars_of s)).
Proof.
  intros H. induction H as [s|c cs s s1 s2 Hd Hn Hr IH]; [intros m; reflexivity|]. cbn [fold_left].
  intros m. rewrite (IH m). clear IH Hr. pose proof (history_step L c s s1 Hd Hn) as E. revert E. generalize (vars_of s1) (meaning c (vars_of s)). clear.
  revert m. induction cs as [|c' cs IH]; intros m a b E; [apply E|]. cbn [fold_left]. apply IH, meaning_ext, E.
Qed.
