(** The assignment operators and functions on variables. *)
From Coq Require Import ZArith QArith Ascii String List Bool Lia.
From Verif Require Import Base BaseProofs Dec Num Lex Bases Formats Units Install InstallProofs Syntax Pos Call CallSpec CallProofs Loop Parse Exec ExecSpec Std StdSpec.
Import ListNotations.
Open Scope nat_scope.

(** * Calls *)
Definition d_assign (sym : str) (f : impl) : opdef := odef sym 2 (each_is 0 [[tyvar]; [None; tyarr]]) false false false false f.
Definition d_update (sym op : str) : opdef := odef sym 2 (each_is 0 [[tyvar]; [tynum]]) false false false false (op_assign_op op).
Definition d_step (L : lib) (sym op : str) : opdef := odef sym 1 (each_is 0 [[tyvar]]) false false true false (op_increment L op).
Lemma find_set L : find_op (g_ops (std L)) ($"=") = Some (mkOper [None] [None] false (d_assign ($"=") op_assign)).
Proof. reflexivity. Qed.
Lemma find_set_new L : find_op (g_ops (std L)) ($"||=") = Some (mkOper [None] [None] false (d_assign ($"||=") op_assign_if_empty)).
Proof. reflexivity. Qed.
Lemma find_update L sym op : In (sym, op) updates ->
  find_op (g_ops (std L)) sym = Some (mkOper [None] [None] false (d_update sym op)).
Proof. intros H. cbn in H. repeat (destruct H as [H|H]; [injection H as <- <-; reflexivity|]). destruct H. Qed.
Lemma find_step L sym op : In (sym, op) steps ->
  find_op (g_ops (std L)) sym = Some (mkOper [None] [] false (d_step L sym op)).
Proof. intros H. cbn in H. repeat (destruct H as [H|H]; [injection H as <- <-; reflexivity|]). destruct H. Qed.

(** The value of a result as [finish] leaves it *)
Definition shown (v : value) : value := match v with VList l => VList (map restore l) | v => v end.

(** The two conditional forms: what happens to the store *)
Lemma assign_call L h stl sym (f : impl) n x y s : refers x n -> usable y ->
  call (std_env L) h (d_assign sym f) stl [x; y] s =
  match f h [rval x; rval y] [runit x; runit y] [Some (RVar n); rref y] stl s with
  | (OOk o, s') => (OOk (finish (d_assign sym f) None None o), s')
  | (OErr e, s') => if wrapped e then (OErr e, s')
                    else if forallb (e_tostr (std_env L)) [x; y] then (OErr (XCalc true (MOp ($"operator " ++ sym))), s') else (OPy, s')
  | (OPy, s') => if forallb (e_tostr (std_env L)) [x; y] then (OErr (XCalc false (MOp ($"operator " ++ sym))), s') else (OPy, s')
  | (OFuel, s') => (OFuel, s')
  end.
Proof.
  intros [Hx Ex] Hy. rewrite call_eq. unfold call_step.
  assert (F : existsb (fun b => b) (flags_of (d_assign sym f) 0 [x; y]) = false).
  { cbn [flags_of existsb]. unfold flagged. rewrite Hx.
    replace (can_be (d_assign sym f) 0 s_array None) with false by reflexivity.
    replace (can_be (d_assign sym f) 0 s_variable None) with true by reflexivity.
    replace (can_be (d_assign sym f) 1 s_array None) with true by reflexivity. cbn [negb].
    now rewrite !andb_false_r. }
  rewrite F. replace (is_packed (d_assign sym f) [x; y]) with false by reflexivity.
  unfold call_plain. replace (o_excs (d_assign sym f)) with false by reflexivity.
  unfold find_exc. cbn [find]. rewrite Ex, Hy.
  destruct x as [xv xu xr xo], y as [yv yu yr yo]. cbn [rval runit rref map] in *. subst xr.
  assert (P : prepare (std_env L) (d_assign sym f) [xv; yv] [xu; yu] [Some (RVar n); yr] = Ok ([xv; yv], [xu; yu], None, None)).
  { destruct xv; destruct yv; reflexivity. }
  rewrite P. unfold bind, lift. cbn [fst snd o_impl d_assign odef]. unfold ret.
  destruct (f h [xv; yv] [xu; yu] [Some (RVar n); yr] stl s) as [[o|e| |] s']; reflexivity.
Qed.

Lemma set_call L h stl n x y s : refers x n -> usable y ->
  call (std_env L) h (d_assign ($"=") op_assign) stl [x; y] s =
  (OOk (mkRes (shown (rval y)) (runit y) None),
   if stl then s else mkSt (dset n (rval y, runit y) (s_vars s)) (s_lft s)).
Proof.
  intros Hx Hy. rewrite (assign_call L h stl _ _ n x y s Hx Hy). unfold op_assign, the_var, bind, ret.
  destruct stl; unfold store, with_unit, ret, finish; cbn [or_val or_unit or_ref]; destruct (rval y); reflexivity.
Qed.
Lemma set_new_call L h stl n x y s : refers x n -> usable y ->
  call (std_env L) h (d_assign ($"||=") op_assign_if_empty) stl [x; y] s =
  (OOk (mkRes (shown (rval y)) (runit y) None),
   if stl then s else match assoc n (s_vars s) with Some _ => s | None => mkSt (dset n (rval y, runit y) (s_vars s)) (s_lft s) end).
Proof.
  intros Hx Hy. rewrite (assign_call L h stl _ _ n x y s Hx Hy). unfold op_assign_if_empty, the_var, bind, ret.
  destruct stl; [|destruct (assoc n (s_vars s))]; unfold store, with_unit, ret, finish; cbn [or_val or_unit or_ref]; destruct (rval y); reflexivity.
Qed.

Lemma vars_dset s n x l : same_vars (vars_of (mkSt (dset n x (s_vars s)) l)) (set_at n (Some x) (vars_of s)).
Proof. intros m. unfold vars_of, set_at. cbn [s_vars]. apply assoc_dset. Qed.
Lemma assoc_without {A} n m (l : list (str * A)) :
  assoc m (filter (fun e => negb (seq_eqb (fst e) n)) l) = if seq_eqb n m then None else assoc m l.
Proof.
  induction l as [|[k v] l IH]; [destruct (seq_eqb n m); reflexivity|]. cbn [filter fst].
  destruct (seq_eqb k n) eqn:E; cbn [negb assoc].
  - apply seq_eqb_iff in E. subst k. rewrite IH. destruct (seq_eqb n m); reflexivity.
  - cbn [assoc]. rewrite IH. destruct (seq_eqb k m) eqn:E2; [|reflexivity]. apply seq_eqb_iff in E2. subst m.
    destruct (seq_eqb n k) eqn:E3; [|reflexivity]. apply seq_eqb_iff in E3. subst. rewrite seq_eqb_refl in E. discriminate.
Qed.

(** [x op= y] stores what [x op y] gives *)
Lemma update_call L h sym op n x y b s cv cu r s1 : refers x n -> rval y = VNum b ->
  assoc n (s_vars s) = Some (cv, cu) ->
  h op [mkRes cv cu None; mkRes (VNum b) (runit y) (rref y)] s = (OOk r, s1) ->
  exists r', call (std_env L) h (d_update sym op) false [x; y] s =
             (OOk r', mkSt (dset n (recast (ncast b) (rval r), runit r) (s_vars s1)) (s_lft s1)) /\ r' = finish (d_update sym op) (ncast b) None (mkOR (recast (ncast b) (rval r)) (Some (runit r)) None).
Proof.
  intros [Hx Ex] Hy Hn Hh.
  destruct x as [xv xu xr xo], y as [yv yu yr yo]. cbn [rval runit rref map] in *. subst xr yv.
  rewrite call_eq. unfold call_step. set (d := d_update sym op). set (ins := [_; _]).
  assert (F : existsb (fun b => b) (flags_of d 0 ins) = false).
  { unfold ins. cbn [flags_of existsb]. unfold flagged. cbn [rref rval is_list].
    replace (can_be d 0 s_array None) with false by reflexivity.
    replace (can_be d 0 s_variable None) with true by reflexivity. cbn [negb]. now rewrite !andb_false_r. }
  rewrite F. replace (is_packed d ins) with false by reflexivity.
  unfold call_plain. replace (o_excs d) with false by reflexivity.
  unfold find_exc, ins. cbn [find map rval runit rref]. rewrite Ex. cbn [is_exc].
  assert (P : prepare (std_env L) d [xv; VNum b] [xu; yu] [Some (RVar n); yr] = Ok ([xv; VNum b], [xu; yu], ncast b, None)).
  { destruct xv; reflexivity. }
  rewrite P. unfold bind at 1. cbn [lift]. unfold bind at 1. cbn [fst snd o_impl].
  change (o_impl d) with (op_assign_op op). unfold op_assign_op, assign_with, the_var.
  unfold bind at 1. unfold ret at 1. unfold bind at 1. unfold lookup. rewrite Hn. unfold bind at 1. cbn [fst snd]. rewrite Hh.
  unfold bind, store, with_unit, ret. eexists. split; [reflexivity|reflexivity].
Qed.
Lemma step_call L h sym op n x s cv cu r s1 : refers x n ->
  assoc n (s_vars s) = Some (cv, cu) ->
  h op [mkRes cv cu None; mkRes (VNum (num_of_Z (l_prec L) 1)) None None] s = (OOk r, s1) ->
  exists r', call (std_env L) h (d_step L sym op) false [x] s =
             (OOk r', mkSt (dset n (rval r, runit r) (s_vars s1)) (s_lft s1)) /\ r' = finish (d_step L sym op) None None (mkOR (rval r) (Some (runit r)) None).
Proof.
  intros [Hx Ex] Hn Hh.
  destruct x as [xv xu xr xo]. cbn [rval runit rref map] in *. subst xr.
  rewrite call_eq. unfold call_step. set (d := d_step L sym op). set (ins := [_]).
  assert (F : existsb (fun b => b) (flags_of d 0 ins) = false).
  { unfold ins. cbn [flags_of existsb]. unfold flagged. cbn [rref rval is_list].
    replace (can_be d 0 s_array None) with false by reflexivity.
    replace (can_be d 0 s_variable None) with true by reflexivity. cbn [negb]. now rewrite !andb_false_r. }
  rewrite F. replace (is_packed d ins) with false by reflexivity.
  unfold call_plain. replace (o_excs d) with false by reflexivity.
  unfold find_exc, ins. cbn [find map rval runit rref]. rewrite Ex.
  assert (P : prepare (std_env L) d [xv] [xu] [Some (RVar n)] = Ok ([xv], [xu], None, None)).
  { destruct xv; reflexivity. }
  rewrite P. unfold bind at 1. cbn [lift]. unfold bind at 1. cbn [fst snd o_impl].
  change (o_impl d) with (op_increment L op). unfold op_increment, assign_with, the_var.
  unfold bind at 1. unfold ret at 1. unfold bind at 1. unfold lookup. rewrite Hn. unfold bind at 1. cbn [fst snd]. rewrite Hh.
  unfold bind, store, with_unit, ret. eexists. split; [reflexivity|reflexivity].
Qed.

(** * The functions *)
Definition d_reset : opdef := snd (fdef ($"reset") 0 0 [] fn_reset).
Definition d_delete : opdef := snd (fdef ($"delete") 1 1 [] fn_delete).
Lemma find_reset L : assoc ($"reset") (g_funcs (std L)) = Some d_reset.
Proof. reflexivity. Qed.
Lemma find_delete L : assoc ($"delete") (g_funcs (std L)) = Some d_delete.
Proof. reflexivity. Qed.
Lemma reset_call L h stl s : call (std_env L) h d_reset stl [] s = (OOk (mkRes VNone None None), mkSt [] (s_lft s)).
Proof. reflexivity. Qed.
Lemma delete_call L h stl n x s : refers x n -> is_list (rval x) = false ->
  call (std_env L) h d_delete stl [x] s =
  match assoc n (s_vars s) with
  | Some _ => (OOk (mkRes VNone None None), mkSt (filter (fun e => negb (seq_eqb (fst e) n)) (s_vars s)) (s_lft s))
  | None => (if shows L (rval x) then OErr (XCalc false (MOp ($"delete"))) else OPy, s)
  end.
Proof.
  intros [Hx Ex] Hl. destruct x as [xv xu xr xo]. cbn [rval runit rref] in *. subst xr.
  rewrite call_eq. unfold call_step. set (d := d_delete). set (ins := [_]).
  assert (F : existsb (fun b => b) (flags_of d 0 ins) = false).
  { unfold ins. cbn [flags_of existsb]. unfold flagged. cbn [rref rval]. rewrite Hl. reflexivity. }
  rewrite F. replace (is_packed d ins) with false by reflexivity.
  unfold call_plain. replace (o_excs d) with false by reflexivity.
  unfold find_exc, ins. cbn [find map rval runit rref]. rewrite Ex.
  assert (P : prepare (std_env L) d [xv] [xu] [Some (RVar n)] = Ok ([xv], [xu], None, None)).
  { destruct xv; try reflexivity; discriminate. }
  rewrite P. unfold bind at 1. cbn [lift]. unfold bind at 1. cbn [fst snd o_impl].
  change (o_impl d) with fn_delete. unfold fn_delete, the_var. unfold bind at 1. unfold ret at 1.
  destruct (assoc n (s_vars s)); [reflexivity|].
  cbn [forallb e_tostr std_env rval]. destruct (shows L xv); reflexivity.
Qed.
