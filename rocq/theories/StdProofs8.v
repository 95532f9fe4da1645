(** Splitting and joining texts. *)
From Coq Require Import ZArith QArith Ascii String List Bool Lia.
From Verif Require Import Base BaseProofs Dec Num Bases Formats Units Install Syntax Pos Call CallSpec CallProofs Loop Parse Exec ExecSpec Std StdSpec StdProofs StdProofs5 StdProofs6 StdProofs7.
Import ListNotations.
Open Scope nat_scope.

Lemma sjoin_cons d x l : l <> [] -> sjoin d (x :: l) = x ++ d ++ sjoin d l.
Proof. destruct l; [congruence|reflexivity]. Qed.
Lemma split_nonempty : forall s d cur k, split_at d s cur k <> [].
Proof.
  induction s as [|c s IH]; intros d cur k; cbn [split_at]; [discriminate|]. destruct k; [|apply IH].
  destruct (prefixb d (c :: s)); [discriminate|apply IH].
Qed.
(** Nothing is lost *)
Lemma split_joins : forall s d cur k, d <> [] -> k <= length s -> sjoin d (split_at d s cur k) = cur ++ skipn k s.
Proof.
  induction s as [|c s IH]; intros d cur k Hd Hk; cbn [split_at].
  - cbn in Hk. replace k with 0 by lia. cbn [sjoin skipn]. now rewrite app_nil_r.
  - destruct k.
    + destruct (prefixb d (c :: s)) eqn:E.
      * apply prefixb_iff in E as [t E]. rewrite sjoin_cons by apply split_nonempty.
        destruct d as [|e d]; [congruence|]. cbn in E. injection E as <- E.
        rewrite IH; [|discriminate|subst s; cbn [length]; rewrite app_length; lia].
        cbn [length skipn app]. replace (S (length d) - 1) with (length d) by lia. subst s. rewrite skipn_app, skipn_all, Nat.sub_diag. reflexivity.
      * rewrite IH by (auto; lia). cbn [skipn]. rewrite <- app_assoc. reflexivity.
    + cbn [length] in Hk. rewrite IH by (auto; lia). reflexivity.
Qed.
Lemma split_join s d l : py_split s d = Some l -> sjoin d l = s.
Proof. unfold py_split. destruct d as [|c d]; [discriminate|]. intros H. injection H as <-. rewrite split_joins by (discriminate || lia). reflexivity. Qed.

(** Skipping the rest of the delimiter *)
Lemma split_skip : forall k s d cur, k <= length s -> split_at d s cur k = split_at d (skipn k s) cur 0.
Proof.
  induction k as [|k IH]; intros s d cur Hk; [reflexivity|]. destruct s as [|c s]; [cbn in Hk; lia|]. cbn [split_at skipn]. apply IH. cbn in Hk. lia.
Qed.
(** Up to the first delimiter *)
Lemma split_part : forall t d cur m, d <> [] -> (forall i, i < length t -> ~ found d (t ++ d) i) ->
  split_at d (t ++ d ++ m) cur 0 = (cur ++ t) :: split_at d m [] 0.
Proof.
  induction t as [|c t IH]; intros d cur m Hd H.
  - cbn [app]. destruct d as [|e d]; [congruence|]. change ((e :: d) ++ m) with (e :: (d ++ m)). cbn [split_at].
    replace (e :: d ++ m) with ((e :: d) ++ m) by reflexivity. rewrite prefixb_app. rewrite app_nil_r. f_equal.
    cbn [length]. replace (S (length d) - 1) with (length d) by lia. rewrite split_skip by (rewrite app_length; lia).
    rewrite skipn_app, skipn_all, Nat.sub_diag. reflexivity.
  - cbn [app split_at]. destruct (prefixb d (c :: t ++ d ++ m)) eqn:E.
    + exfalso. apply (H 0); [cbn; lia|]. apply prefixb_iff in E as [r E].
      exists [], (skipn (length d) ((c :: t) ++ d)). split; [|reflexivity]. cbn [app].
      rewrite <- (firstn_skipn (length d) (c :: t ++ d)) at 1. f_equal.
      assert (F : firstn (length d) (c :: t ++ d ++ m) = d) by (rewrite E, firstn_app, Nat.sub_diag, firstn_all; cbn; apply app_nil_r).
      replace (c :: t ++ d ++ m) with ((c :: t ++ d) ++ m) in F by (cbn; now rewrite <- app_assoc).
      rewrite firstn_app in F. replace (length d - length (c :: t ++ d)) with 0 in F by (cbn [length]; rewrite app_length; lia).
      cbn [firstn] in F. rewrite app_nil_r in F. exact F.
    + rewrite IH; [now rewrite <- app_assoc|exact Hd|]. intros i Hi F. apply (H (S i)); [cbn; lia|].
      destruct F as (a & b & F1 & F2). exists (c :: a), b. cbn. rewrite F1, F2. auto.
Qed.
Lemma split_last : forall t d cur, (forall i, ~ found d t i) -> split_at d t cur 0 = [cur ++ t].
Proof.
  induction t as [|c t IH]; intros d cur H; cbn [split_at]; [now rewrite app_nil_r|].
  destruct (prefixb d (c :: t)) eqn:E.
  - exfalso. apply (H 0). apply prefixb_iff in E as [r E]. exists [], r. rewrite E. auto.
  - rewrite IH; [now rewrite <- app_assoc|]. intros i (a & b & F1 & F2). apply (H (S i)). exists (c :: a), b. cbn. rewrite F1, F2. auto.
Qed.
Lemma join_split d ts t : d <> [] -> Forall (ends_part d) ts -> (forall i, ~ found d t i) ->
  py_split (sjoin d (ts ++ [t])) d = Some (ts ++ [t]).
Proof.
  intros Hd H Ht. unfold py_split. assert (E : split_at d (sjoin d (ts ++ [t])) [] 0 = ts ++ [t]).
  { induction H as [|x ts Hx H IH]; [cbn; apply split_last, Ht|].
    cbn [app]. rewrite sjoin_cons by (destruct ts; discriminate). rewrite split_part; [|exact Hd|exact Hx]. rewrite IH. reflexivity. }
  destruct d; [congruence|]. now rewrite E.
Qed.
(** One character: a part without it *)
Lemma one_char_part c t : ~ In c t -> ends_part [c] t.
Proof.
  intros H i Hi (a & b & F1 & F2). apply H. subst i. assert (N : nth_error (t ++ [c]) (length a) = Some c).
  { rewrite F1, nth_error_app2, Nat.sub_diag by lia. reflexivity. }
  rewrite nth_error_app1 in N by lia. eapply nth_error_In; eauto.
Qed.
Lemma one_char_absent c t i : ~ In c t -> ~ found [c] t i.
Proof. intros H (a & b & F1 & F2). apply H. rewrite F1. apply in_or_app. right. left. reflexivity. Qed.

(** * In the calculator *)
Definition d_split (L : lib) : opdef := snd (fdef ($"split") 2 2 (all_are tystr) (fn_split L)).
Definition d_join (L : lib) : opdef := snd (fdef ($"join") 1 2 (each_is 0 [[arr_of ($"string")]; [tystr]]) (fn_join L)).
Lemma find_split L : assoc ($"split") (g_funcs (std L)) = Some (d_split L). Proof. reflexivity. Qed.
Lemma find_join L : assoc ($"join") (g_funcs (std L)) = Some (d_join L). Proof. reflexivity. Qed.

Lemma split_call L h stl x y t d s : rval x = VStr t -> rval y = VStr d ->
  call (std_env L) h (d_split L) stl [x; y] s =
  match py_split t d with
  | Some l => (OOk (mkRes (VList (map text l)) None None), s)
  | None => (OErr (XCalc false (MOp ($"split"))), s)
  end.
Proof.
  intros Hx Hy. rewrite call_scalars; [| |reflexivity].
  2: cbn [forallb]; rewrite Hx, Hy; reflexivity.
  unfold call_plain. replace (o_excs (d_split L)) with false by reflexivity. unfold find_exc. cbn [find map]. rewrite Hx, Hy. cbn [is_exc].
  replace (prepare (std_env L) (d_split L) [VStr t; VStr d] [runit x; runit y] [rref x; rref y])
    with (Ok ([VStr t; VStr d], [runit x; runit y], None : option cast, None : option eunit)) by reflexivity.
  unfold bind, lift. cbn [fst snd d_split fdef o_impl]. unfold fn_split, fn_text2, bind, lift. cbn [string_of].
  destruct (py_split t d) as [l|]; cbn [pym].
  - unfold just, ret, finish. cbn [or_val or_unit or_ref]. rewrite map_map. reflexivity.
  - unfold pyerr. cbn [forallb e_tostr std_env]. rewrite Hx, Hy. reflexivity.
Qed.
Lemma texts_ok L l : forall ts, map rval l = map VStr ts -> texts L l = Ok ts.
Proof.
  induction l as [|r l IH]; intros ts H; destruct ts as [|t ts]; try discriminate; [reflexivity|]. cbn in H. injection H as H1 H2.
  cbn [texts]. rewrite H1. cbn [string_of obind]. rewrite (IH ts H2). reflexivity.
Qed.
Lemma texts_valid L l : forall ts, map rval l = map VStr ts ->
  forallb (fun x => match valid1 L ($"string") (rval x) (rref x) with Some b => b | None => false end) l = true.
Proof.
  induction l as [|r l IH]; intros ts H; [reflexivity|]. destruct ts as [|t ts]; [discriminate|]. cbn in H. injection H as H1 H2.
  cbn [forallb]. rewrite (IH ts H2), H1. reflexivity.
Qed.
Lemma join_call L h stl x y l ts d s : rval x = VList l -> map rval l = map VStr ts -> rval y = VStr d ->
  call (std_env L) h (d_join L) stl [x; y] s = (OOk (mkRes (VStr (sjoin d ts)) None None), s).
Proof.
  intros Hx Hl Hy. rewrite call_allowed; [| |reflexivity].
  - unfold call_plain. replace (o_excs (d_join L)) with false by reflexivity. unfold find_exc. cbn [find map]. rewrite Hx, Hy. cbn [is_exc].
    assert (P : prepare (std_env L) (d_join L) [VList l; VStr d] [runit x; runit y] [rref x; rref y]
      = Ok ([VList l; VStr d], [runit x; runit y], None, None)).
    { unfold prepare. assert (Va : validate (std_env L) (d_join L) [VList l; VStr d] [runit x; runit y] [rref x; rref y] = Ok tt).
      { unfold validate. cbn [d_join snd fdef o_min o_max o_vals o_units length Nat.ltb Nat.leb obind each_is out_each indices rs_from rs_to rs_types Nat.min Nat.add Nat.sub seq nth_error].
        unfold validate_types, validate_input. cbn [tystr ty arr_of e_valid std_env]. unfold std_valid at 1.
        replace (seq_eqb ($"array") ($"array")) with true by reflexivity. replace (seq_eqb ($"string") ($"array")) with false by reflexivity.
        rewrite (texts_valid L l ts Hl). reflexivity. }
      rewrite Va. reflexivity. }
    rewrite P. unfold bind, lift. cbn [fst snd d_join fdef o_impl fn_join]. unfold bind, lift. rewrite (texts_ok L l ts Hl). reflexivity.
  - intros k r Hk Hr. destruct k as [|[|k]]; [reflexivity| |destruct k; discriminate]. cbn in Hk. injection Hk as <-. rewrite Hy in Hr. discriminate.
Qed.
