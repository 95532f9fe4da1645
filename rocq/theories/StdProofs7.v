(** The other functions on arrays; split and join. *)
From Coq Require Import ZArith QArith Qround Ascii String List Bool Lia Lqa Permutation Sorted.
From Verif Require Import Base BaseProofs Dec DecProofs Num NumSpec NumProofs Lex Bases BasesProofs Formats Units Install InstallProofs Syntax Pos Call CallSpec CallProofs Loop Parse Exec ExecSpec Std StdSpec StdProofs StdProofs5 StdProofs6.
Import ListNotations.
Open Scope nat_scope.

(** A call of an operation all of whose inputs may be arrays where they are *)
Lemma call_allowed E h d stl ins s : (forall k r, nth_error ins k = Some r -> is_list (rval r) = true -> can_be d k s_array None = true) ->
  is_packed d ins = false -> call E h d stl ins s = call_plain E h d stl ins s.
Proof.
  intros H Hp. rewrite call_eq. unfold call_step.
  assert (F : existsb (fun b => b) (flags_of d 0 ins) = false).
  { apply (proj2 (CallProofs.no_flags d ins)). intros k r Hk Hs. apply flagged_iff in Hs. unfold flagged in Hs. destruct (is_list (rval r)) eqn:E1; [|discriminate].
    rewrite (H k r Hk E1) in Hs. discriminate. }
  rewrite F, Hp. reflexivity.
Qed.

(** * concat, reverse, count *)
Definition d_concat : opdef := snd (fdef ($"concat") 2 2 (all_are tyarr) fn_concat).
Definition d_reverse : opdef := snd (fdef ($"reverse") 1 1 (all_are tyarr) fn_reverse).
Definition d_count (L : lib) : opdef := snd (fdef ($"count") 1 1 (all_are tyarr) (fn_count L)).
Definition d_element (L : lib) : opdef := snd (fdef ($"element") 2 2 (each_is 0 [[tyarr]; [tynum]]) (fn_element L)).
Definition d_filter : opdef := snd (fdef ($"filter") 2 2 (each_is 0 [[tyarr]; [arr_of ($"boolean")]]) fn_filter).
Lemma find_concat L : assoc ($"concat") (g_funcs (std L)) = Some d_concat. Proof. reflexivity. Qed.
Lemma find_reverse L : assoc ($"reverse") (g_funcs (std L)) = Some d_reverse. Proof. reflexivity. Qed.
Lemma find_count L : assoc ($"count") (g_funcs (std L)) = Some (d_count L). Proof. reflexivity. Qed.
Lemma find_element L : assoc ($"element") (g_funcs (std L)) = Some (d_element L). Proof. reflexivity. Qed.
Lemma find_filter L : assoc ($"filter") (g_funcs (std L)) = Some d_filter. Proof. reflexivity. Qed.

Lemma concat_call L h stl x y a b s : rval x = VList a -> rval y = VList b ->
  call (std_env L) h d_concat stl [x; y] s = (OOk (mkRes (VList (map restore (a ++ b))) None None), s).
Proof.
  intros Hx Hy. rewrite call_allowed; [|intros k r Hk _; reflexivity|reflexivity].
  unfold call_plain. replace (o_excs d_concat) with false by reflexivity. unfold find_exc. cbn [find map]. rewrite Hx, Hy. cbn [is_exc].
  replace (prepare (std_env L) d_concat [VList a; VList b] [runit x; runit y] [rref x; rref y])
    with (Ok ([VList a; VList b], [runit x; runit y], None : option cast, None : option eunit)) by reflexivity.
  reflexivity.
Qed.
Lemma reverse_call L h stl x l s : rval x = VList l ->
  call (std_env L) h d_reverse stl [x] s = (OOk (mkRes (VList (map restore (rev l))) None None), s).
Proof.
  intros Hx. rewrite call_allowed; [|intros k r Hk _; reflexivity|reflexivity].
  unfold call_plain. replace (o_excs d_reverse) with false by reflexivity. unfold find_exc. cbn [find map]. rewrite Hx. cbn [is_exc].
  replace (prepare (std_env L) d_reverse [VList l] [runit x] [rref x])
    with (Ok ([VList l], [runit x], None : option cast, None : option eunit)) by reflexivity.
  reflexivity.
Qed.
Lemma count_call L h stl x l s : rval x = VList l ->
  call (std_env L) h (d_count L) stl [x] s = (OOk (mkRes (VNum (mkNum (Z.of_nat (length l)) 1 None None)) None None), s).
Proof.
  intros Hx. rewrite call_allowed; [|intros k r Hk _; reflexivity|reflexivity].
  unfold call_plain. replace (o_excs (d_count L)) with false by reflexivity. unfold find_exc. cbn [find map]. rewrite Hx. cbn [is_exc].
  replace (prepare (std_env L) (d_count L) [VList l] [runit x] [rref x])
    with (Ok ([VList l], [runit x], None : option cast, None : option eunit)) by reflexivity.
  unfold bind, lift. cbn [fst snd d_count fdef o_impl fn_count]. unfold just, ret, finish. cbn [or_val]. rewrite num_of_Z_eq. reflexivity.
Qed.

(** * element *)
Definition recast (c : option cast) (v : value) : value :=
  match v with
  | VNum n => VNum (match c with Some k => with_cast n (Some k) | None => n end)
  | VList l => VList (map restore l)
  | v => v
  end.
Lemma element_call L h stl x y l n s : rval x = VList l -> rval y = VNum n ->
  call (std_env L) h (d_element L) stl [x; y] s =
  match py_index l (num_int (l_prec L) n - 1) with
  | Some e => (OOk (mkRes (recast (ncast n) (rval e)) (runit e) (rref e)), s)
  | None => if e_tostr (std_env L) x && e_tostr (std_env L) y then (OErr (XCalc false (MOp ($"element"))), s) else (OPy, s)
  end.
Proof.
  intros Hx Hy. rewrite call_allowed; [| |reflexivity].
  - unfold call_plain. replace (o_excs (d_element L)) with false by reflexivity. unfold find_exc. cbn [find map]. rewrite Hx, Hy. cbn [is_exc].
    replace (prepare (std_env L) (d_element L) [VList l; VNum n] [runit x; runit y] [rref x; rref y])
      with (Ok ([VList l; VNum n], [runit x; runit y], ncast n, None : option eunit)) by reflexivity.
    unfold bind, lift. cbn [fst snd d_element fdef o_impl fn_element]. unfold bind.
    destruct (py_index l (num_int (l_prec L) n - 1)) as [e|]; cbn [pym].
    + unfold ret, finish. cbn [or_val or_unit or_ref]. unfold recast. destruct (rval e); reflexivity.
    + unfold pyerr. cbn [forallb]. rewrite andb_true_r. reflexivity.
  - intros k r Hk Hr. destruct k as [|[|k]]; [reflexivity| |destruct k; discriminate]. cbn in Hk. injection Hk as <-. rewrite Hy in Hr. discriminate.
Qed.
Lemma num_int_Z p n i : (1 <= p)%Z -> (val n == inject_Z i)%Q -> (Z.abs i <= 10 ^ p)%Z -> num_int p n = i.
Proof. intros Hp Hv Hi. unfold num_int. rewrite to_decimal_val, (rnd_Z p i _ Hp Hv Hi). unfold qtrunc. cbn [Qnum Qden inject_Z]. apply Z.quot_1_r. Qed.
Lemma py_index_in {A} (l : list A) i : (1 <= i <= Z.of_nat (length l))%Z -> py_index l (i - 1) = nth_error l (Z.to_nat (i - 1)).
Proof. intros H. unfold py_index. destruct (Z.leb_spec 0 (i - 1)); [reflexivity|lia]. Qed.
Lemma py_index_back {A} (l : list A) i : (1 - Z.of_nat (length l) <= i <= 0)%Z -> py_index l (i - 1) = nth_error l (Z.to_nat (Z.of_nat (length l) + i - 1)).
Proof.
  intros H. unfold py_index. destruct (Z.leb_spec 0 (i - 1)); [lia|].
  destruct (Z.leb_spec (- (i - 1)) (Z.of_nat (length l))); [|lia]. f_equal. lia.
Qed.
Lemma py_index_out {A} (l : list A) i : (i > Z.of_nat (length l) \/ i < 1 - Z.of_nat (length l))%Z -> py_index l (i - 1) = None.
Proof.
  intros H. unfold py_index. destruct (Z.leb_spec 0 (i - 1)).
  - apply nth_error_None. lia.
  - destruct (Z.leb_spec (- (i - 1)) (Z.of_nat (length l))); [lia|reflexivity].
Qed.

(** * filter *)
Definition truths (bs : list bool) (us : list (option eunit * option ref)) : list result :=
  map (fun p => mkRes (VBool (fst p)) (fst (snd p)) (snd (snd p))) (combine bs us).
Lemma filter_by_spec : forall t l bs, length t = length l -> map rval t = map VBool bs ->
  filter_by t l = Some (map snd (filter fst (combine bs l))).
Proof.
  induction t as [|x t IH]; intros l bs Hl Hb; destruct l as [|y l]; try discriminate; destruct bs as [|b bs]; try discriminate; [reflexivity|].
  cbn in Hl, Hb. injection Hb as Hb1 Hb2. cbn [filter_by combine filter fst]. rewrite Hb1.
  rewrite (IH l bs) by (lia || exact Hb2). cbn [option_map]. destruct b; reflexivity.
Qed.
Lemma filter_call L h stl x y l t bs s : rval x = VList l -> rval y = VList t -> map rval t = map VBool bs -> length t = length l ->
  call (std_env L) h d_filter stl [x; y] s = (OOk (mkRes (VList (map restore (map snd (filter fst (combine bs l))))) None None), s).
Proof.
  intros Hx Hy Hb Hl. rewrite call_allowed; [| |reflexivity].
  - unfold call_plain. replace (o_excs d_filter) with false by reflexivity. unfold find_exc. cbn [find map]. rewrite Hx, Hy. cbn [is_exc].
    assert (V : forallb (fun x => match valid1 L ($"boolean") (rval x) (rref x) with Some b => b | None => false end) t = true).
    { clear - Hb. revert bs Hb. induction t as [|r t IH]; intros bs Hb; [reflexivity|]. destruct bs as [|b bs]; [discriminate|]. cbn in Hb.
      injection Hb as H1 H2. cbn [forallb]. rewrite (IH bs H2). unfold valid1.
      replace (seq_eqb ($"boolean") ($"number")) with false by reflexivity. replace (seq_eqb ($"boolean") ($"boolean")) with true by reflexivity. rewrite H1. reflexivity. }
    assert (P : prepare (std_env L) d_filter [VList l; VList t] [runit x; runit y] [rref x; rref y]
      = Ok ([VList l; VList t], [runit x; runit y], None, None)).
    { unfold prepare. assert (Va : validate (std_env L) d_filter [VList l; VList t] [runit x; runit y] [rref x; rref y] = Ok tt).
      { unfold validate. cbn [d_filter snd fdef o_min o_max o_vals o_units length Nat.ltb Nat.leb obind each_is out_each indices rs_from rs_to rs_types Nat.min Nat.add Nat.sub seq nth_error].
        unfold validate_types, validate_input. cbn [tyarr ty arr_of e_valid std_env]. unfold std_valid.
        replace (seq_eqb ($"array") ($"array")) with true by reflexivity. replace (seq_eqb ($"boolean") ($"array")) with false by reflexivity.
        rewrite V. reflexivity. }
      rewrite Va. reflexivity. }
    rewrite P. unfold bind, lift. cbn [fst snd d_filter fdef o_impl fn_filter]. unfold bind. rewrite (filter_by_spec t l bs Hl Hb). reflexivity.
  - intros k r Hk Hr. destruct k as [|[|k]]; [reflexivity|reflexivity|destruct k; discriminate].
Qed.
