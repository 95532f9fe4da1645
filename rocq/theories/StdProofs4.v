(** The operator an updating assignment uses is the operator itself. *)
From Coq Require Import ZArith QArith Ascii String List Bool Lia.
From Verif Require Import Base BaseProofs Dec Num Lex Bases Formats Units Install InstallProofs Syntax Pos Call CallSpec CallProofs Loop LoopSpec LoopProofs Parse Exec ExecSpec ExecProofs ExecProofs2 ExecProofs5 Std StdSpec StdProofs StdProofs2 StdProofs3.
Import ListNotations.
Open Scope nat_scope.

Lemma call_plain_handle E h h' d stl ins s : (forall vs us rs s, o_impl d h vs us rs stl s = o_impl d h' vs us rs stl s) ->
  call_plain E h d stl ins s = call_plain E h' d stl ins s.
Proof.
  intros H. unfold call_plain. destruct (if o_excs d then None else find_exc ins); [reflexivity|]. cbv zeta.
  unfold bind. destruct (lift _ s) as [[p|e| |] s1]; try reflexivity. rewrite H. reflexivity.
Qed.
Lemma call_handle E h h' d stl ins s : (forall vs us rs s, o_impl d h vs us rs stl s = o_impl d h' vs us rs stl s) ->
  call E h d stl ins s = call E h' d stl ins s.
Proof.
  intros H. unfold call. generalize (3 + depths ins). intros n. revert ins s. induction n as [|n IH]; intros ins s; [reflexivity|].
  cbn [call_fuel]. unfold call_step. cbv zeta. destruct (existsb _ _).
  - destruct (same_length _) as [[m|]|]; try reflexivity. apply bind_ext, each_row_ext. intros x _ s'. apply IH.
  - destruct (is_packed d ins); [|apply call_plain_handle, H].
    destruct (same_length _) as [[m|]|]; try reflexivity; [|apply IH]. apply bind_ext, each_pack_ext. intros x s'. apply IH.
Qed.
Lemma plain_handle L stl : Forall (fun p : str * operator => forall h h', ((forall ins s, h ($"/") ins s = h' ($"/") ins s) \/ fst p <> $"\") ->
  forall vs us rs s, o_impl (op_def (snd p)) h vs us rs stl s = o_impl (op_def (snd p)) h' vs us rs stl s) (concat (removelast (std_levels L))).
Proof.
  unfold std_levels. cbv zeta. cbn [removelast concat app].
  repeat (apply Forall_cons; [|]); try apply Forall_nil; intros h h' Hh vs us rs s;
  cbn [op_def snd infix op2 op_def odef o_impl no_result fst] in Hh |- *; try reflexivity.
  destruct Hh as [Hh|Hh]; [|exfalso; apply Hh; reflexivity].
  unfold op_int_divide. destruct vs as [|v [|w [|? ?]]]; try reflexivity. destruct us as [|a [|b [|? ?]]]; try reflexivity.
  unfold bind. rewrite Hh. reflexivity.
Qed.
Lemma handle_stable1 L stl j k op o ins s : find_op (g_ops (std L)) op = Some o -> In (op, o) (concat (removelast (std_levels L))) -> op <> $"\" ->
  op_handle (std L) (S j) stl op ins s = op_handle (std L) (S k) stl op ins s.
Proof.
  intros Hf Hi Hn. cbn [op_handle]. rewrite Hf. apply call_handle. pose proof (plain_handle L stl) as K. rewrite Forall_forall in K.
  apply (K _ Hi). right. exact Hn.
Qed.
Lemma handle_stable L stl j k op ins s : In op base_ops ->
  op_handle (std L) (S (S j)) stl op ins s = op_handle (std L) (S (S k)) stl op ins s.
Proof.
  intros Hb. destruct (base_in L op Hb) as [o [Hf Hi]]. cbn [op_handle]. rewrite Hf. apply call_handle.
  pose proof (plain_handle L stl) as K. rewrite Forall_forall in K.
  apply (K _ Hi). left. intros ins' s'. destruct (divide_in L) as [o' [Hf' Hi']]. apply (handle_stable1 L stl j k _ o'); [exact Hf'|exact Hi'|discriminate].
Qed.
Lemma callop_eq L stl sym ins : callop (std L) stl sym ins =
  match find_op (g_ops (std L)) sym with
  | Some o => call (std_env L) (op_handle (std L) 4 stl) (op_def o) stl ins
  | None => pyerr
  end.
Proof. reflexivity. Qed.
Lemma callop_inner L stl op ins s : In op base_ops -> op_handle (std L) 4 stl op ins s = callop (std L) stl op ins s.
Proof. apply (handle_stable L stl 2 3). Qed.
Lemma callop_update L sym op n x y b s cv cu r s1 : In (sym, op) updates -> refers x n -> rval y = VNum b ->
  vars_of s n = Some (cv, cu) ->
  callop (std L) false op [mkRes cv cu None; mkRes (VNum b) (runit y) (rref y)] s = (OOk r, s1) ->
  exists r', callop (std L) false sym [x; y] s = (OOk r', mkSt (dset n (recast (ncast b) (rval r), runit r) (s_vars s1)) (s_lft s1)) /\
    r' = finish (d_update sym op) (ncast b) None (mkOR (recast (ncast b) (rval r)) (Some (runit r)) None).
Proof.
  intros Hin Hx Hy Hn H. rewrite (callop_eq L false sym), (find_update L sym op Hin). cbn [op_def].
  apply (update_call L (op_handle (std L) 4 false) sym op n x y b s cv cu r s1 Hx Hy Hn). rewrite <- H. apply callop_inner.
  unfold base_ops. apply (in_map snd) in Hin. exact Hin.
Qed.
Lemma callop_step L sym op n x s cv cu r s1 : In (sym, op) steps -> refers x n ->
  vars_of s n = Some (cv, cu) ->
  callop (std L) false op [mkRes cv cu None; mkRes (VNum (num_of_Z (l_prec L) 1)) None None] s = (OOk r, s1) ->
  exists r', callop (std L) false sym [x] s = (OOk r', mkSt (dset n (rval r, runit r) (s_vars s1)) (s_lft s1)) /\
    r' = finish (d_step L sym op) None None (mkOR (rval r) (Some (runit r)) None).
Proof.
  intros Hin Hx Hn H. rewrite (callop_eq L false sym), (find_step L sym op Hin). cbn [op_def].
  apply (step_call L (op_handle (std L) 4 false) sym op n x s cv cu r s1 Hx Hn). rewrite <- H. apply callop_inner.
  unfold base_ops. cbn in Hin. cbn. destruct Hin as [E|[E|[]]]; injection E as <- <-; tauto.
Qed.

(** Parameters of inline functions *)
Lemma same_preorder : preorder same_but_params.
Proof. split; [intros v n _; reflexivity|]. intros a b c H1 H2 n Hn. rewrite (H1 n Hn). apply H2, Hn. Qed.
Lemma params_same : forall vs us i vars, same_but_params vars (set_params i vs us vars).
Proof.
  induction vs as [|v vs IH]; intros us i vars; [intros n _; reflexivity|]. destruct us as [|u us]; [intros n _; reflexivity|].
  cbn [set_params]. intros n Hn. rewrite <- (IH us (S i) _ n Hn). rewrite assoc_dset.
  destruct (seq_eqb (param_name i) n) eqn:E; [|reflexivity]. exfalso. apply Hn. apply seq_eqb_iff in E. subst n.
  unfold param_name. eexists. reflexivity.
Qed.
Lemma stateless_params L G n po state text s : built_from L G -> (forall f, In f state_funcs -> assoc f (g_funcs G) = None) ->
  same_but_params (s_vars s) (s_vars (snd (calculate G n (mkCF true po state) text s))).
Proof.
  intros HG Hf. apply calculate_keeps; [apply same_preorder| |].
  - apply (stateless_keep same_but_params L G same_preorder HG Hf).
  - intros _ vs us vars. apply params_same.
Qed.
Lemma stateless_exact L G n po state text s : built_from L G -> (forall f, In f state_funcs -> assoc f (g_funcs G) = None) -> g_inline G = false ->
  s_vars (snd (calculate G n (mkCF true po state) text s)) = s_vars s.
Proof.
  intros HG Hf Hi. assert (PE : preorder (fun a b : varstore => b = a)) by (split; [reflexivity|intros; congruence]).
  apply (calculate_keeps (fun a b => b = a) G n (mkCF true po state) text s PE).
  - apply (stateless_keep _ L G PE HG Hf).
  - intros H. congruence.
Qed.
