(** C30-C32: variables; C52 for the standard calculator. *)
From Coq Require Import ZArith QArith Ascii String List Bool Lia.
From Verif Require Import Base BaseProofs Dec Num Lex Bases Formats Units Install Syntax Pos Call CallSpec Loop LoopSpec Parse Exec ExecSpec ExecProofs5 Std StdSpec StdRun StdProofs StdProofs2 StdProofs3 StdProofs4.
Import ListNotations.
Open Scope nat_scope.

(** * C30 *)
(** Assigning: the result has the value (an array with its elements as [finish] leaves them) and unit, the variable has
    them, and no other variable changes. *)
Theorem c30_assign : forall L n x y s, refers x n -> usable y ->
  exists r s', callop (std L) false ($"=") [x; y] s = (OOk r, s') /\ runit r = runit y /\
    ((forall l, rval y <> VList l) -> rval r = rval y) /\
    vars_of s' n = Some (rval y, runit y) /\ (forall m, m <> n -> vars_of s' m = vars_of s m).
Proof.
  intros L n x y s Hx Hy. rewrite (callop_set L false n x y s Hx Hy). eexists. eexists. split; [reflexivity|]. split; [reflexivity|].
  split; [|split].
  - intros Hl. cbn [rval]. destruct (rval y); try reflexivity. exfalso. now apply (Hl l).
  - rewrite (vars_dset s n). unfold set_at. now rewrite seq_eqb_refl.
  - intros m Hm. rewrite (vars_dset s n). unfold set_at. destruct (seq_eqb n m) eqn:E; [|reflexivity].
    apply seq_eqb_iff in E. congruence.
Qed.
Print Assumptions c30_assign.

(** Any number of assignments, conditional assignments, deletions and resets in any order. *)
Theorem c30_history : forall L cs s s', history L cs s s' -> same_vars (vars_of s') (fold_left (fun m c => meaning c m) cs (vars_of s)).
Proof. exact history_all. Qed.
Print Assumptions c30_history.

(** A statement that assigns, with blanks anywhere: the variable then reads as the value of the right side, and all others
    read as they did after the right side was run. *)
Theorem c30_statement : forall L k w0 n w1 w2 i w3 v s s1, blanks w0 -> blanks w1 -> blanks w2 -> blanks w3 ->
  ifunc i = true -> iisop i = false -> (forall m u, vars_of s n = Some (m, u) -> is_exc m = false) ->
  eval_item (std L) (execute (std L) k) false i s = (OOk v, s1) -> usable v ->
  exists r s', execute (std L) (S k) false (w0 ++ [IVar n] ++ w1 ++ [IOp ($"=")] ++ w2 ++ [i] ++ w3) s = (OOk r, s') /\
    execute (std L) (S k) false [IVar n] s' = (OOk (mkRes (rval v) (runit v) (Some (RVar n))), s') /\
    (forall m, m <> n -> vars_of s' m = vars_of s1 m).
Proof.
  intros L k w0 n w1 w2 i w3 v s s1 B0 B1 B2 B3 Hf Ho Hn He Hv.
  pose proof (run_set L k false w0 n w1 w2 i w3 v s s1 B0 B1 B2 B3 Hf Ho Hn He Hv) as R.
  eexists. eexists. split; [exact R|]. cbv iota. split.
  - destruct (run_get L k false n (mkSt (dset n (rval v, runit v) (s_vars s1)) (s_lft s1))) as [E|[e [u E]]]; cbn [s_vars] in E;
      rewrite InstallProofs.assoc_dset, seq_eqb_refl in E; [exact E|]. injection E as E _. unfold usable in Hv. rewrite E in Hv. discriminate.
  - intros m Hm. rewrite (vars_dset s1 n). unfold set_at. destruct (seq_eqb n m) eqn:E; [|reflexivity]. apply seq_eqb_iff in E. congruence.
Qed.
Print Assumptions c30_statement.

(** [x += y] and the like store what [x + y] gives, but in the format of [y] if it has one, and answer what they store; [x++] and
    [x--] use 1. *)
Lemma recast_format b v : recast (ncast b) v = in_format b v.
Proof. unfold recast, in_format, format_of. destruct v as [|m| | | | | |]; try (destruct (ncast b); reflexivity). destruct (ncast b); [reflexivity|]. destruct m; reflexivity. Qed.
Theorem c30_update : forall L sym op n x y b s cv cu r s1, In (sym, op) updates -> refers x n -> rval y = VNum b ->
  vars_of s n = Some (cv, cu) ->
  callop (std L) false op [mkRes cv cu None; mkRes (VNum b) (runit y) (rref y)] s = (OOk r, s1) ->
  exists r' s', callop (std L) false sym [x; y] s = (OOk r', s') /\ runit r' = runit r /\ (is_list (rval r) = false -> rval r' = in_format b (rval r)) /\
    vars_of s' n = Some (in_format b (rval r), runit r) /\ (forall m, m <> n -> vars_of s' m = vars_of s1 m).
Proof.
  intros L sym op n x y b s cv cu r s1 Hin Hx Hy Hn H. destruct (callop_update L sym op n x y b s cv cu r s1 Hin Hx Hy Hn H) as [r' [E Eu]].
  eexists. eexists. split; [exact E|]. split; [now rewrite Eu|]. split; [|split].
  - intros Hr. rewrite Eu, <- recast_format. unfold finish. cbn [or_val]. destruct (ncast b); destruct (rval r) as [|m| | | | | |]; try reflexivity; discriminate Hr.
  - rewrite (vars_dset s1 n). unfold set_at. rewrite seq_eqb_refl, recast_format. reflexivity.
  - intros m Hm. rewrite (vars_dset s1 n). unfold set_at. destruct (seq_eqb n m) eqn:Q; [|reflexivity]. apply seq_eqb_iff in Q. congruence.
Qed.
Print Assumptions c30_update.
Theorem c30_step : forall L sym op n x s cv cu r s1, In (sym, op) steps -> refers x n -> vars_of s n = Some (cv, cu) ->
  callop (std L) false op [mkRes cv cu None; mkRes (VNum (num_of_Z (l_prec L) 1)) None None] s = (OOk r, s1) ->
  exists r' s', callop (std L) false sym [x] s = (OOk r', s') /\ runit r' = runit r /\
    vars_of s' n = Some (rval r, runit r) /\ (forall m, m <> n -> vars_of s' m = vars_of s1 m).
Proof.
  intros L sym op n x s cv cu r s1 Hin Hx Hn H. destruct (callop_step L sym op n x s cv cu r s1 Hin Hx Hn H) as [r' [E Eu]].
  eexists. eexists. split; [exact E|]. split; [now rewrite Eu|]. split.
  - rewrite (vars_dset s1 n). unfold set_at. now rewrite seq_eqb_refl.
  - intros m Hm. rewrite (vars_dset s1 n). unfold set_at. destruct (seq_eqb n m) eqn:Q; [|reflexivity]. apply seq_eqb_iff in Q. congruence.
Qed.
Print Assumptions c30_step.

(** Deleting a variable that is not set is an error and changes nothing. *)
Theorem c30_delete_unset : forall L n x d s o s', refers x n -> is_list (rval x) = false -> assoc ($"delete") (g_funcs (std L)) = Some d ->
  call (g_env (std L)) (callop (std L) false) d false [x] s = (o, s') -> vars_of s n = None -> s' = s /\ forall r, o <> OOk r.
Proof. exact delete_unset. Qed.
Print Assumptions c30_delete_unset.

Example c30_ex : answer "x = 1;y = x + 1;x = 'a';z ||= 3;z ||= 4;z += y;x +$ z" = "'a5'"%string /\
  vars_after "x = 1;y = 2;z = 3;delete(x);y = y * 10" = [("y", "20"); ("z", "3")]%string /\
  vars_after "x = 1;y = 2;reset();z = 3" = [("z", "3")]%string /\ answer "x = 1;delete(y)" = "execute error"%string /\
  map answer ["x = 0b101;x += 0x1"; "x = 0b101;x += 0x1;x"; "x = 0b101;x += 1;x"; "x = 0b101;x++;x"]%string = ["0x6"; "0x6"; "0b110"; "0b110"]%string.
Proof. repeat split; vm_compute; reflexivity. Qed.
(** The hypotheses of the history theorem can be met. *)
Example c30_ex_history : exists s', history demo [VSet ($"x") (VBool true) None; VSetNew ($"x") (VBool false) None; VSetNew ($"y") VNone None; VDelete ($"x")] start s'
  /\ vars_of s' ($"x") = None /\ vars_of s' ($"y") = Some (VNone, None).
Proof.
  assert (R : forall n, refers (mkRes VNone None (Some (RVar n))) n) by (intros; split; reflexivity).
  eexists. split.
  - eapply history_one; [eapply (does_set demo ($"x") _ (mkRes (VBool true) None None)); [apply R|reflexivity|reflexivity]|exact I|].
    eapply history_one; [eapply (does_new demo ($"x") _ (mkRes (VBool false) None None)); [apply R|reflexivity|reflexivity]|exact I|].
    eapply history_one; [eapply (does_new demo ($"y") _ (mkRes VNone None None)); [apply R|reflexivity|reflexivity]|exact I|].
    eapply history_one; [eapply (does_delete demo ($"x") _ d_delete); [apply R|reflexivity|reflexivity|reflexivity]|discriminate|].
    apply history_none.
  - split; reflexivity.
Qed.

(** Of a variable that is an array, delete looks at the elements: it does not delete the variable, and it deletes a
    variable an element came from. *)
Theorem c30_delete_array_refuted : exists L text, let s := snd (calculate (std L) 20 plain_flags text start) in
  text = lines "y = 1;x = [y];delete(x)" /\ vars_of s ($"x") <> None /\ vars_of s ($"y") = None /\
  (exists rs, fst (calculate (std L) 20 plain_flags text start) = CDone rs).
Proof.
  exists demo, (lines "y = 1;x = [y];delete(x)"). cbv zeta. split; [reflexivity|]. split; [|split].
  - vm_compute. discriminate.
  - vm_compute. reflexivity.
  - vm_compute. eexists. reflexivity.
Qed.
Print Assumptions c30_delete_array_refuted.

(** * C31 *)
(** The result is the new value, also when the variable keeps its own. *)
Theorem c31_assign_if_empty : forall L n x y s, refers x n -> usable y ->
  exists r s', callop (std L) false ($"||=") [x; y] s = (OOk r, s') /\
    (vars_of s n = None -> vars_of s' n = Some (rval y, runit y) /\ forall m, m <> n -> vars_of s' m = vars_of s m) /\
    (vars_of s n <> None -> s' = s) /\ runit r = runit y /\ ((forall l, rval y <> VList l) -> rval r = rval y).
Proof.
  intros L n x y s Hx Hy. rewrite (callop_set_new L false n x y s Hx Hy). eexists. eexists. split; [reflexivity|]. split.
  - unfold vars_of at 1. intros ->. split.
    + rewrite (vars_dset s n). unfold set_at. now rewrite seq_eqb_refl.
    + intros m Hm. rewrite (vars_dset s n). unfold set_at. destruct (seq_eqb n m) eqn:E; [|reflexivity]. apply seq_eqb_iff in E. congruence.
  - split; [|split; [reflexivity|]].
    + unfold vars_of. intros Hn. destruct (assoc n (s_vars s)); [reflexivity|contradiction].
    + intros Hl. cbn [rval]. destruct (rval y); try reflexivity. exfalso. now apply (Hl l).
Qed.
Print Assumptions c31_assign_if_empty.
(** Twice is as once. *)
Theorem c31_once : forall L n x y x' y' s r s1, refers x n -> usable y -> refers x' n -> usable y' ->
  callop (std L) false ($"||=") [x; y] s = (OOk r, s1) -> snd (callop (std L) false ($"||=") [x'; y'] s1) = s1.
Proof.
  intros L n x y x' y' s r s1 Hx Hy Hx' Hy' H. destruct (c31_assign_if_empty L n x y s Hx Hy) as [r0 [s0 [E [A [B _]]]]].
  rewrite E in H. injection H as -> ->. destruct (c31_assign_if_empty L n x' y' s1 Hx' Hy') as [r2 [s2 [E2 [_ [B2 _]]]]]. rewrite E2. cbn [snd].
  apply B2. destruct (vars_of s n) eqn:Ev; [rewrite B; congruence|]. destruct (A eq_refl) as [A1 _]. congruence.
Qed.
Print Assumptions c31_once.
Example c31_ex : answer "x = 1;x ||= 2" = "2"%string /\ answer "x = 1;x ||= 2;x" = "1"%string /\ answer "x ||= 2;x" = "2"%string.
Proof. repeat split; vm_compute; reflexivity. Qed.

(** * C32 *)
(** A calculator without [reset] and [delete], whichever of the other functions it has, run on any text with the stateless
    flag: only parameters of inline functions can differ; nothing does without inline functions. *)
Theorem c32_stateless : forall L G n po state text s, built_from L G -> (forall f, In f state_funcs -> assoc f (g_funcs G) = None) ->
  same_but_params (s_vars s) (s_vars (snd (calculate G n (mkCF true po state) text s))).
Proof. exact stateless_params. Qed.
Print Assumptions c32_stateless.
Theorem c32_stateless_exact : forall L G n po state text s, built_from L G -> (forall f, In f state_funcs -> assoc f (g_funcs G) = None) ->
  g_inline G = false -> s_vars (snd (calculate G n (mkCF true po state) text s)) = s_vars s.
Proof. exact stateless_exact. Qed.
Print Assumptions c32_stateless_exact.
Definition without (l : list (str * opdef)) : list (str * opdef) := filter (fun p => negb (mem_str (fst p) state_funcs)) l.
Definition demo_without (inline : bool) : ecfg :=
  mkG (l_prec demo) (std_env demo) (std_pcfg demo) (without (std_funcs demo)) inline false (fun _ => None) (fun _ => Calc) Ok.
Lemma without_in : forall l x, In x (without l) -> In x l.
Proof. intros l x H. apply filter_In in H. destruct H as [H _]. exact H. Qed.
Lemma without_none : forall f, In f state_funcs -> assoc f (without (std_funcs demo)) = None.
Proof. intros f [<-|[<-|[]]]; vm_compute; reflexivity. Qed.
Lemma funcs_without : forall inline, g_funcs (demo_without inline) = without (std_funcs demo).
Proof. reflexivity. Qed.
Example c32_ex_hyp : forall inline, built_from demo (demo_without inline) /\ (forall f, In f state_funcs -> assoc f (g_funcs (demo_without inline)) = None).
Proof.
  intros inline. unfold built_from. rewrite funcs_without. split; [split; [reflexivity|]|exact without_none].
  intros f d H. exact (without_in (std_funcs demo) (f, d) (InstallProofs.assoc_some_in f (without (std_funcs demo)) d H)).
Qed.
Example c32_ex : s_vars (snd (calculate (demo_without true) 20 (mkCF true false false) (lines "x = 1;y = 2;x") start)) = [].
Proof. vm_compute. reflexivity. Qed.
(** reset and delete ignore the flag. *)
Theorem c32_reset_refuted : exists L s text, s_vars (snd (calculate (std L) 20 (mkCF true false false) text s)) <> s_vars s /\ text = $"reset()".
Proof. exists demo, (mkSt [($"x", (VBool true, None))] None), ($"reset()"). split; [vm_compute; discriminate|reflexivity]. Qed.
Print Assumptions c32_reset_refuted.
Theorem c32_delete_refuted : exists L s text, s_vars (snd (calculate (std L) 20 (mkCF true false false) text s)) <> s_vars s /\ text = $"delete(x)".
Proof. exists demo, (mkSt [($"x", (VBool true, None))] None), ($"delete(x)"). split; [vm_compute; discriminate|reflexivity]. Qed.
Print Assumptions c32_delete_refuted.

(** * C52 for the standard calculator: a statement without function pointers and ranges gives an answer *)
Theorem c52_standard : forall L stl n items s, forallb plain_item items = true -> nestings items < n ->
  fst (execute (std L) n stl items s) <> OFuel.
Proof. intros L stl n items s Hp Hn. apply (execute_answers (std L) stl (std_answers L stl) n items Hp Hn s). Qed.
Print Assumptions c52_standard.
