(** The shared numbers and the functions of the calculator. *)
From Coq Require Import ZArith QArith Ascii String List Bool Lia.
From Verif Require Import Base Dec Num Bases Formats Units Install Syntax Call Loop Exec Std StdSpec StdProofs StdProofs2 CallProofs StdProofs5 StdProofs6 StdProofs7 StdProofs9 StatProofs ArithProofs Heap HeapSpec HeapProofs.
Import ListNotations.
Open Scope nat_scope.

Lemma holds_numeric L l ns : holds_numbers l ns -> numeric L l.
Proof.
  intros H r Hr. induction H as [|x n l ns Hx H IH]; [destruct Hr|]. destruct Hr as [->|Hr]; [|exact (IH Hr)].
  exists n. unfold number_at. rewrite Hx. reflexivity.
Qed.
Lemma array_numbers_cast L l ns : holds_numbers l ns -> forall c,
  array_numbers (std_env L) l c = Ok (map (fun r => VNum (the_num L r)) l, fold_left (fun k n => first_some k (ncast n)) ns c).
Proof.
  intros H. induction H as [|x n l ns Hx H IH]; intros c; [reflexivity|]. cbn [array_numbers map]. rewrite to_number_any. unfold the_num at 1.
  rewrite Hx. cbn [any_number obind]. rewrite (IH (first_some c (ncast n))). cbn [obind fst snd fold_left]. reflexivity.
Qed.
Lemma numbers_prepare_cast L d l ns u f : takes_numbers d -> holds_numbers l ns ->
  prepare (std_env L) d [VList l] [u] [f] = Ok ([VList (map (conv L) l)], [u], first_cast ns, None).
Proof.
  intros (Ev & Emin & Emax & Eu & Ea) Hn. pose proof (holds_numeric L l ns Hn) as Hl.
  pose proof (array_numbers_cast L l ns Hn None) as Ec. unfold prepare, validate. rewrite Ev, Emin, Emax, Eu, Ea.
  cbn [length Nat.ltb Nat.leb obind all_are out_each rs_from rs_to rs_types indices seq Nat.sub nth_error].
  unfold validate_types, validate_input. cbn [arr_of e_valid std_env].
  replace (std_valid L ($"array")) with (std_valid L ($"array")) by reflexivity. unfold std_valid at 1.
  replace (seq_eqb ($"array") ($"array")) with true by reflexivity.
  replace (seq_eqb ($"number") ($"array")) with false by reflexivity.
  rewrite (numbers_valid L l Hl). cbn [obind].
  unfold convert_numbers. rewrite Ev. cbn [all_are fold_left rs_types existsb is_plain_number arr_of orb fst snd].
  cbn [all_numbers]. unfold can_be. rewrite Ev. cbn [all_are existsb rs_types arr_of covers rs_from rs_to Nat.leb andb orb typ_is].
  replace (seq_eqb ($"array") s_number) with false by reflexivity. cbn [orb andb]. 
  cbn [norm_arrays]. unfold must_be. rewrite Ev. cbn [all_are must_be_loop covers rs_from rs_to Nat.leb andb existsb rs_types arr_of typ_is sub_is length Nat.eqb orb].
  replace (seq_eqb ($"array") s_array) with true by reflexivity. replace (seq_eqb ($"number") s_number) with true by reflexivity. cbn [andb orb].
  rewrite Ec. cbn [obind e_norm std_env fst snd]. rewrite put_back_ok. reflexivity.
Qed.
Lemma numbers_call_cast L h d stl x l ns s : takes_numbers d -> o_excs d = false -> rval x = VList l -> holds_numbers l ns ->
  call (std_env L) h d stl [x] s =
    match o_impl d h [VList (map (conv L) l)] [runit x] [rref x] stl s with
    | (OOk o, s') => (OOk (finish d (first_cast ns) None o), s')
    | (OErr e, s') => if wrapped e then (OErr e, s')
                      else if e_tostr (std_env L) x then (OErr (XCalc true (MOp (o_name d))), s') else (OPy, s')
    | (OPy, s') => if e_tostr (std_env L) x then (OErr (XCalc false (MOp (o_name d))), s') else (OPy, s')
    | (OFuel, s') => (OFuel, s')
    end.
Proof.
  intros Hd He Hx Hl. pose proof (numbers_prepare_cast L d l ns (runit x) (rref x) Hd Hl) as P.
  destruct Hd as (Ev & _). rewrite call_eq. unfold call_step.
  assert (F : existsb (fun b => b) (flags_of d 0 [x]) = false).
  { cbn [flags_of existsb]. unfold flagged, can_be. rewrite Ev. cbn. now rewrite andb_false_r. }
  rewrite F. assert (K : is_packed d [x] = false) by (unfold is_packed; now rewrite andb_false_r). rewrite K.
  unfold call_plain. rewrite He. unfold find_exc. cbn [find map]. rewrite Hx. cbn [is_exc].
  rewrite P. unfold bind, lift. cbn [fst snd]. destruct (o_impl d h _ _ _ stl s) as [[o|e| |] s']; unfold ret; cbn [forallb]; rewrite ?andb_true_r; reflexivity.
Qed.

(** * Picking *)
Definition num_or (r : result) : number := match rval r with VNum n => n | _ => mkNum 0 1 None None end.
Lemma pick_same L (bn : number -> number -> bool) (br : result -> result -> bool) :
  (forall x y a b, rval x = VNum a -> rval y = VNum b -> br (conv L x) (conv L y) = bn a b) ->
  forall l ns t, holds_numbers l ns -> forall h, Forall2 (fun a n => nth_error h a = Some n) t ns ->
  forall x n a, rval x = VNum n -> nth_error h a = Some n ->
  exists y m, pick_from br (conv L x) (map (conv L) l) = conv L y /\ rval y = VNum m /\ nth_error h (pick_at bn a n t ns) = Some m.
Proof.
  intros HB. induction l as [|y l IH]; intros ns t Hl h Ht x n a Hx Ha.
  - inversion Hl; subst. inversion Ht; subst. exists x, n. repeat split; assumption.
  - inversion Hl as [|y0 k l0 ks Hy Hr E1 E2]; subst. inversion Ht as [|b k0 t0 ks0 Hb Hs E3 E4]; subst.
    cbn [map pick_from pick_at]. rewrite (HB y x k n Hy Hx). destruct (bn k n).
    + apply (IH ks t0 Hr h Hs y k b Hy Hb).
    + apply (IH ks t0 Hr h Hs x n a Hx Ha).
Qed.
Lemma cast_at h a c n : nth_error h a = Some n -> nth_error (h_cast h a c) a = Some (match c with Some k => with_cast n (Some k) | None => n end).
Proof.
  intros H. unfold h_cast. destruct c as [k|]; [|exact H]. rewrite H, write_nth, Nat.eqb_refl.
  assert (T : (a <? length h) = true) by (apply Nat.ltb_lt, nth_error_Some; congruence). rewrite T. reflexivity.
Qed.
Lemma cast_other h a c b : b <> a -> nth_error (h_cast h a c) b = nth_error h b.
Proof.
  intros H. unfold h_cast. destruct c as [k|]; [|reflexivity]. destruct (nth_error h a); [|reflexivity]. rewrite write_nth.
  apply Nat.eqb_neq in H. rewrite H. reflexivity.
Qed.
Lemma pick_agrees L h d (bn : number -> number -> bool) br stl x l ns s p e hs a t hs1 : takes_numbers d -> o_excs d = false -> o_autores d = true ->
  o_impl d = fn_pick L br -> (forall x y a b, rval x = VNum a -> rval y = VNum b -> br (conv L x) (conv L y) = bn a b) ->
  rval x = VList l -> holds_numbers l ns -> h_eval p e hs = Some (HArr (a :: t), hs1) -> h_read (h_cells hs1) (a :: t) = Some ns ->
  exists r m b hs2, call (std_env L) h d stl [x] s = (OOk r, s) /\ rval r = VNum m /\
    h_eval p (HPick bn e) hs = Some (HNum b, hs2) /\ nth_error (h_cells hs2) b = Some m /\
    (forall c, c <> b -> nth_error (h_cells hs2) c = nth_error (h_cells hs1) c).
Proof.
  intros T Ex Au Im HB Hx Hl He Hr. pose proof Hr as Hr0. apply read_spec in Hr.
  inversion Hr as [|a0 n t0 ks Ha Ht E1 E2]; subst. inversion Hl as [|y n0 l0 ks0 Hy Hk E1 E2]; subst.
  destruct (pick_same L bn br HB l0 ks t Hk (h_cells hs1) Ht y n a Hy Ha) as (z & m & Z1 & Z2 & Z3).
  rewrite (numbers_call_cast L h d stl x _ _ s T Ex Hx Hl), Im. unfold fn_pick. cbn [map].
  change (conv L y :: map (conv L) l0) with (map (conv L) (y :: l0)). rewrite all_nums_conv, Z1. unfold conv at 1. unfold ret, finish. cbn [or_val or_unit or_ref].
  rewrite Au, Z2. eexists _, _, _, _. split; [reflexivity|]. split; [reflexivity|]. cbn [h_eval]. rewrite He, Hr0. split; [reflexivity|].
  cbn [h_cells h_same]. split; [apply cast_at, Z3|apply cast_other].
Qed.
Lemma the_num_num L r n : rval r = VNum n -> the_num L r = n.
Proof. intros H. unfold the_num. rewrite H. reflexivity. Qed.
Lemma lt_nums L x y a b : rval x = VNum a -> rval y = VNum b -> value_lt (l_prec L) (conv L x) (conv L y) = num_ltb (l_prec L) a b.
Proof. intros Hx Hy. unfold value_lt, conv, num_of. cbn [rval]. rewrite (the_num_num L x a Hx), (the_num_num L y b Hy). reflexivity. Qed.

(** * element *)
Lemma py_index_map {A B} (R : A -> B -> Prop) l m i : Forall2 R l m ->
  match py_index l i, py_index m i with Some a, Some b => R a b | None, None => True | _, _ => False end.
Proof.
  intros H.
  assert (N : forall k, match nth_error l k, nth_error m k with Some a, Some b => R a b | None, None => True | _, _ => False end).
  { induction H as [|a b l m Hab H IH]; intros [|k]; cbn [nth_error]; try exact I; [exact Hab|apply IH]. }
  assert (Len : length l = length m) by (clear N; induction H; cbn [length]; congruence).
  unfold py_index. rewrite Len. destruct (0 <=? i)%Z; [apply N|]. destruct (- i <=? _)%Z; [apply N|exact I].
Qed.
Lemma read_numbers h t l : forall ns, holds_numbers l ns -> h_read h t = Some ns -> Forall2 (fun r a => exists n, rval r = VNum n /\ nth_error h a = Some n) l t.
Proof.
  intros ns H R. apply read_spec in R. revert t R. induction H as [|x n l ns Hx H IH]; intros t R; inversion R as [|a n0 t0 ks Ha Ht]; subst; constructor.
  - exists n. split; assumption.
  - apply IH, Ht.
Qed.
Lemma element_agrees L h stl x y l ns n s p e i hs t hs1 b hs2 : p = l_prec L ->
  rval x = VList l -> rval y = VNum n -> holds_numbers l ns ->
  h_eval p e hs = Some (HArr t, hs1) -> h_eval p i hs1 = Some (HNum b, hs2) -> nth_error (h_cells hs2) b = Some n -> h_read (h_cells hs2) t = Some ns ->
  match h_eval p (HElement e i) hs with
  | Some (HNum a, hs3) => exists r m, call (std_env L) h (d_element L) stl [x; y] s = (OOk r, s) /\ rval r = VNum m /\
                                      nth_error (h_cells hs3) a = Some m /\
                                      (forall c, c <> a -> nth_error (h_cells hs3) c = nth_error (h_cells hs2) c)
  | Some (HArr _, _) => False
  | None => forall r s', call (std_env L) h (d_element L) stl [x; y] s <> (OOk r, s')
  end.
Proof.
  intros -> Hx Hy Hl He Hi Hb Hr. cbn [h_eval]. rewrite He, Hi, Hb. rewrite (element_call L h stl x y l n s Hx Hy).
  pose proof (py_index_map _ l t (num_int (l_prec L) n - 1) (read_numbers _ t l ns Hl Hr)) as P.
  destruct (py_index t _) as [a|], (py_index l _) as [r|]; try tauto.
  - destruct P as (m & M1 & M2). unfold h_same. eexists _, _. split; [reflexivity|]. cbn [rval h_cells mkRes]. rewrite M1. split; [reflexivity|].
    split; [|apply cast_other]. rewrite (cast_at _ _ (ncast n) m M2). destruct (ncast n); reflexivity.
  - intros r s'. destruct (e_tostr (std_env L) x && e_tostr (std_env L) y); discriminate.
Qed.

(** * Operators *)
Definition arith2 : list (str * (Z -> number -> number -> option number)) :=
  [($"+", num_add); ($"-", num_sub); ($"*", num_mul); ($"/", num_div); ($"%", num_mod)].
Lemma make_cast p c x d n : num_make p c x d = Some n -> ncast n = c.
Proof.
  unfold num_make. intros E.
  repeat match type of E with
  | context [match ?x with _ => _ end] => destruct x; try discriminate E
  | Some _ = Some _ => injection E as <-
  end; unfold num_reduce; repeat match goal with |- context [match ?x with _ => _ end] => destruct x end; reflexivity.
Qed.
Lemma arith2_cast sym f p a b n : In (sym, f) arith2 -> f p a b = Some n -> ncast n = ncast a.
Proof.
  intros H E. repeat (destruct H as [H|H]; [injection H as <- <-; revert E|]); [..|destruct H];
    unfold num_add, num_sub, num_mul, num_div, num_mod; intros E;
    repeat match type of E with
    | context [match ?x with _ => _ end] => destruct x; try discriminate E
    | Some _ = Some _ => injection E as <-
    end; eapply make_cast, E.
Qed.
Lemma format_first a b : first_cast [a; b] = format_of a b.
Proof. unfold first_cast, format_of. cbn [fold_left]. destruct (ncast a), (ncast b); reflexivity. Qed.
Lemma make_agrees L stl sym f x y a b n s p e1 e2 hs i hs1 j hs2 : In (sym, f) arith2 -> p = l_prec L ->
  rval x = VNum a -> rval y = VNum b -> runit x = None -> runit y = None -> f p a b = Some n ->
  h_eval p e1 hs = Some (HNum i, hs1) -> h_eval p e2 hs1 = Some (HNum j, hs2) ->
  nth_error (h_cells hs2) i = Some a -> nth_error (h_cells hs2) j = Some b ->
  exists r m k hs3, callop (std L) stl sym [x; y] s = (OOk r, s) /\ rval r = VNum m /\
    h_eval p (HMake (on_two (f p)) [e1; e2]) hs = Some (HNum k, hs3) /\ nth_error (h_cells hs3) k = Some m /\
    (forall c, c < length (h_cells hs2) -> nth_error (h_cells hs3) c = nth_error (h_cells hs2) c).
Proof.
  intros Hs -> Hx Hy Ux Uy Hn E1 E2 Hi Hj. pose proof (arith2_cast sym f _ a b n Hs Hn) as Hc.
  assert (Nx : number_at L x a) by (unfold number_at; now rewrite Hx). assert (Ny : number_at L y b) by (unfold number_at; now rewrite Hy).
  assert (C : callop (std L) stl sym [x; y] s = (OOk (mkRes (VNum (with_cast n (format_of a b))) None None), s)).
  { destruct Hs as [H|[H|[H|[H|[H|[]]]]]]; injection H as <- <-.
    - apply (plain2_call L stl ($"+") num_add); auto.
    - apply (plain2_call L stl ($"-") num_sub); auto.
    - apply (scale_call L stl ($"*") 1%Z num_mul); auto.
    - apply (scale_call L stl ($"/") (-1)%Z num_div); auto.
    - apply (plain2_call L stl ($"%") num_mod); auto. }
  rewrite C. eexists _, _, _, _. split; [reflexivity|]. split; [reflexivity|]. rewrite eval_make, !h_list_cons, E1, !h_list_cons, E2.
  change (h_list (l_prec L) [] hs2) with (Some (@nil hv, hs2)). cbn [addresses option_map h_read]. rewrite Hi, Hj. cbn [on_two]. rewrite Hn. split; [reflexivity|].
  cbn [h_cells]. split.
  - rewrite nth_error_app2, Nat.sub_diag; [|apply le_n]. cbn [nth_error]. rewrite format_first. unfold format_of. destruct (ncast a) eqn:Ca; [reflexivity|].
    destruct (ncast b); [reflexivity|]. destruct n as [n1 n2 n3 n4]. cbn [ncast] in Hc. subst n3. reflexivity.
  - intros c Hlt. apply nth_error_app1, Hlt.
Qed.
