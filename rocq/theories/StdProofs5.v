(** Truth values and the conditional. *)
From Coq Require Import ZArith QArith Ascii String List Bool Lia.
From Verif Require Import Base BaseProofs Dec Num Lex Bases Formats Units Install InstallProofs Syntax Pos Call CallSpec CallProofs Loop Parse Exec ExecSpec Std StdSpec StdProofs StdProofs2 StdProofs3 StdProofs4.
Import ListNotations.
Open Scope nat_scope.

(** A call with inputs that are no arrays, of an operation that does not take arrays only *)
Lemma call_scalars E h d stl ins s : forallb (fun r => negb (is_list (rval r))) ins = true -> must_be d 0 s_array None = false ->
  call E h d stl ins s = call_plain E h d stl ins s.
Proof.
  intros Hl Hm. rewrite call_eq. unfold call_step.
  assert (F : forall i, existsb (fun b => b) (flags_of d i ins) = false).
  { induction ins as [|r ins IH]; intros i; [reflexivity|]. cbn [forallb] in Hl. apply andb_true_iff in Hl as [H1 H2].
    cbn [flags_of existsb]. rewrite (IH H2). unfold flagged. apply negb_true_iff in H1. rewrite H1. reflexivity. }
  rewrite F. unfold is_packed. rewrite Hm. now rewrite andb_false_r.
Qed.

Definition d_bool (sym : str) (f : impl) : opdef := odef sym 2 (each_is 0 [[tybool]; [tybool; ty ($"exception")]]) false false true true f.
Definition bool_impl (sym : str) : impl := if seq_eqb sym ($"and") then op_and else if seq_eqb sym ($"or") then op_or else op_xor.
Lemma find_bool L sym : In sym bool_syms -> find_op (g_ops (std L)) sym = Some (mkOper [None] [None] false (d_bool sym (bool_impl sym))).
Proof. intros H. cbn in H. repeat (destruct H as [<-|H]; [reflexivity|]). destruct H. Qed.

Lemma bool_prepare L sym f a v ux uy rx ry : (match v with VBool _ | VExc _ => true | _ => false end) = true ->
  prepare (std_env L) (d_bool sym f) [VBool a; v] [ux; uy] [rx; ry] = Ok ([VBool a; v], [ux; uy], None, None).
Proof. intros H. destruct v; try discriminate; reflexivity. Qed.
Lemma bool_call L stl sym x y a s : In sym bool_syms -> rval x = VBool a ->
  (match rval y with VBool _ | VExc _ => true | _ => false end) = true ->
  callop (std L) stl sym [x; y] s =
  match bool_impl sym (op_handle (std L) 4 stl) [VBool a; rval y] [runit x; runit y] [rref x; rref y] stl s with
  | (OOk o, s') => (OOk (finish (d_bool sym (bool_impl sym)) None None o), s')
  | (OErr e, s') => if wrapped e then (OErr e, s') else (OErr (XCalc true (MOp ($"operator " ++ sym))), s')
  | (OPy, s') => (OErr (XCalc false (MOp ($"operator " ++ sym))), s')
  | (OFuel, s') => (OFuel, s')
  end.
Proof.
  intros Hs Hx Hy. rewrite callop_eq, (find_bool L sym Hs). cbn [op_def]. set (d := d_bool sym (bool_impl sym)).
  rewrite call_scalars; [| |reflexivity].
  - unfold call_plain. replace (o_excs d) with true by reflexivity. cbn [map]. rewrite Hx.
    unfold d. rewrite bool_prepare by exact Hy. unfold bind, lift. cbn [fst snd o_impl d_bool odef].
    assert (T : forallb (e_tostr (std_env L)) [x; y] = true).
    { cbn [forallb e_tostr std_env]. rewrite Hx. cbn [shows]. destruct (rval y); try discriminate; reflexivity. }
    rewrite T. destruct (bool_impl sym _ _ _ _ stl s) as [[o|e| |] s']; unfold ret; reflexivity.
  - cbn [forallb]. rewrite Hx. cbn [is_list]. destruct (rval y); try discriminate; reflexivity.
Qed.
Lemma bool_table L stl sym x y a b s : In sym bool_syms -> rval x = VBool a -> rval y = VBool b ->
  callop (std L) stl sym [x; y] s = (OOk (mkRes (VBool (truth sym a b)) None None), s).
Proof.
  intros Hs Hx Hy. rewrite (bool_call L stl sym x y a s Hs Hx); [|rewrite Hy; reflexivity]. rewrite Hy. cbn in Hs.
  destruct Hs as [<-|[<-|[<-|[]]]]; destruct a, b; reflexivity.
Qed.
Lemma bool_right_error L stl sym x y a e s : In sym bool_syms -> rval x = VBool a -> rval y = VExc e ->
  match decided sym a with
  | Some c => callop (std L) stl sym [x; y] s = (OOk (mkRes (VBool c) None None), s)
  | None => exists e', callop (std L) stl sym [x; y] s = (OErr e', s)
  end.
Proof.
  intros Hs Hx Hy. rewrite (bool_call L stl sym x y a s Hs Hx); [|rewrite Hy; reflexivity]. rewrite Hy. cbn in Hs.
  destruct Hs as [<-|[<-|[<-|[]]]]; destruct a; try reflexivity; eexists; reflexivity.
Qed.
Lemma bool_refused L stl sym x y s : In sym bool_syms -> is_list (rval x) = false -> is_list (rval y) = false ->
  (forall a, rval x <> VBool a) \/ (forall b, rval y <> VBool b) /\ is_exc (rval y) = false ->
  exists o, callop (std L) stl sym [x; y] s = (o, s) /\ forall r, o <> OOk r.
Proof.
  intros Hs Lx Ly Hb. rewrite callop_eq, (find_bool L sym Hs). cbn [op_def]. set (d := d_bool sym (bool_impl sym)).
  rewrite call_scalars; [| |reflexivity]; [|cbn [forallb]; rewrite Lx, Ly; reflexivity].
  unfold call_plain. replace (o_excs d) with true by reflexivity. cbn [map].
  assert (P : prepare (std_env L) d [rval x; rval y] [runit x; runit y] [rref x; rref y] = Calc).
  { destruct x as [xv xu xr xo], y as [yv yu yr yo]. cbn [rval runit rref] in *.
    destruct Hb as [Hb|[Hb He]].
    - destruct xv; try discriminate; try reflexivity. exfalso. now apply (Hb b).
    - destruct yv; try discriminate; try (destruct xv; try discriminate; reflexivity). exfalso. now apply (Hb b). }
  rewrite P. unfold bind, lift. cbn [wrapped]. destruct (forallb _ [x; y]); eexists; (split; [reflexivity|discriminate]).
Qed.

(** * then ... else *)
Definition d_then : opdef := odef ($"then") 3 (each_is 0 [[tybool]; []; []]) false false false true op_then.
Lemma find_then L : find_op (g_ops (std L)) ($"then") = Some (mkOper [None] [None; Some ($"else"); None] false d_then).
Proof. reflexivity. Qed.
Lemma then_call L stl x y z a s : rval x = VBool a -> is_list (rval y) = false -> is_list (rval z) = false ->
  callop (std L) stl ($"then") [x; y; z] s =
  (OOk (mkRes (rval (if a then y else z)) (runit (if a then y else z)) (rref (if a then y else z))), s).
Proof.
  intros Hx Ly Lz. rewrite callop_eq, find_then. cbn [op_def].
  rewrite call_scalars; [| |reflexivity]; [|cbn [forallb]; rewrite Hx, Ly, Lz; reflexivity].
  unfold call_plain. replace (o_excs d_then) with true by reflexivity. cbn [map]. rewrite Hx.
  destruct x as [xv xu xr xo], y as [yv yu yr yo], z as [zv zu zr zo]. cbn [rval runit rref] in *.
  assert (P : prepare (std_env L) d_then [VBool a; yv; zv] [xu; yu; zu] [xr; yr; zr] = Ok ([VBool a; yv; zv], [xu; yu; zu], None, None)).
  { destruct yv; destruct zv; try discriminate; reflexivity. }
  rewrite P. unfold bind, lift. cbn [fst snd o_impl d_then odef op_then boolean]. unfold bind, ret.
  destruct a; unfold finish; cbn [or_val or_unit or_ref rval runit rref]; [destruct yv|destruct zv]; try discriminate; reflexivity.
Qed.
Lemma then_refused L stl x y z s : (forall a, rval x <> VBool a) -> is_list (rval x) = false -> is_list (rval y) = false -> is_list (rval z) = false ->
  exists o, callop (std L) stl ($"then") [x; y; z] s = (o, s) /\ forall r, o <> OOk r.
Proof.
  intros Hx Lx Ly Lz. rewrite callop_eq, find_then. cbn [op_def].
  rewrite call_scalars; [| |reflexivity]; [|cbn [forallb]; rewrite Lx, Ly, Lz; reflexivity].
  unfold call_plain. replace (o_excs d_then) with true by reflexivity. cbn [map].
  assert (P : prepare (std_env L) d_then [rval x; rval y; rval z] [runit x; runit y; runit z] [rref x; rref y; rref z] = Calc).
  { destruct (rval x); try discriminate; try reflexivity. exfalso. now apply (Hx b). }
  rewrite P. unfold bind, lift. cbn [wrapped]. destruct (forallb _ [x; y; z]); eexists; (split; [reflexivity|discriminate]).
Qed.
(** Negation *)
Definition d_not : opdef := odef ($"not") 1 (all_are tybool) false false true false op_not.
Lemma not_call L stl x a s : rval x = VBool a -> callop (std L) stl ($"not") [x] s = (OOk (mkRes (VBool (negb a)) None None), s).
Proof.
  intros Hx. rewrite callop_eq. replace (find_op (g_ops (std L)) ($"not")) with (Some (mkOper [] [None] true d_not)) by reflexivity. cbn [op_def].
  rewrite call_scalars; [| |reflexivity]; [|cbn [forallb]; rewrite Hx; reflexivity].
  destruct x as [xv xu xr xo]. cbn [rval] in Hx. subst xv. reflexivity.
Qed.
