(** Sorting and the other functions on arrays. *)
From Coq Require Import ZArith QArith Qround Ascii String List Bool Lia Lqa Permutation Sorted.
From Verif Require Import Base BaseProofs Dec DecProofs Num NumSpec NumProofs Lex Bases Formats Units Install InstallProofs Syntax Pos Call CallSpec CallProofs Loop Parse Exec ExecSpec Std StdSpec StdProofs StdProofs5.
Import ListNotations.
Open Scope nat_scope.

(** * Insertion sort *)
Lemma insert_perm {A} (lt : A -> A -> bool) x l : Permutation (x :: l) (insert_by lt x l).
Proof.
  induction l as [|y l IH]; [apply Permutation_refl|]. cbn [insert_by]. destruct (lt x y); [apply Permutation_refl|].
  eapply perm_trans; [apply perm_swap|]. apply perm_skip, IH.
Qed.
Lemma sort_acc_perm {A} (lt : A -> A -> bool) l : forall acc, Permutation (acc ++ l) (fold_left (fun a x => insert_by lt x a) l acc).
Proof.
  induction l as [|x l IH]; intros acc; [rewrite app_nil_r; apply Permutation_refl|]. cbn [fold_left].
  eapply perm_trans; [|apply IH]. eapply perm_trans; [apply Permutation_sym, Permutation_middle|].
  change (x :: acc ++ l) with ((x :: acc) ++ l). apply Permutation_app_tail, insert_perm.
Qed.
Lemma sort_perm {A} (lt : A -> A -> bool) l : Permutation l (sort_by lt l).
Proof. apply (sort_acc_perm lt l []). Qed.

(** The order is given by keys *)
Definition by_key {A} (key : A -> Q) (a b : A) : bool := negb (Qle_bool (key b) (key a)).
Lemma by_key_iff {A} (key : A -> Q) a b : by_key key a b = true <-> (key a < key b)%Q.
Proof.
  unfold by_key. rewrite negb_true_iff. split; intros H.
  - apply Qnot_le_lt. intros L. apply Qle_bool_iff in L. congruence.
  - destruct (Qle_bool (key b) (key a)) eqn:E; [|reflexivity]. apply Qle_bool_iff in E. lra.
Qed.
Lemma by_key_false {A} (key : A -> Q) a b : by_key key a b = false <-> (key b <= key a)%Q.
Proof. unfold by_key. rewrite negb_false_iff. apply Qle_bool_iff. Qed.
Definition ordered_by {A} (key : A -> Q) : list A -> Prop := StronglySorted (fun a b => (key a <= key b)%Q).
Lemma insert_sorted {A} (key : A -> Q) x l : ordered_by key l -> ordered_by key (insert_by (by_key key) x l).
Proof.
  intros H. induction H as [|y l Hs IH Hall]; [repeat constructor|]. cbn [insert_by]. destruct (by_key key x y) eqn:E.
  - apply by_key_iff in E. constructor; [constructor; assumption|]. constructor; [lra|].
    eapply Forall_impl; [|exact Hall]. cbn. intros a Ha. lra.
  - apply by_key_false in E. constructor; [exact IH|].
    apply Forall_forall. intros z Hz. apply (Permutation_in _ (Permutation_sym (insert_perm (by_key key) x l))) in Hz.
    destruct Hz as [<-|Hz]; [exact E|]. rewrite Forall_forall in Hall. apply Hall, Hz.
Qed.
Lemma sort_acc_sorted {A} (key : A -> Q) l : forall acc, ordered_by key acc -> ordered_by key (fold_left (fun a x => insert_by (by_key key) x a) l acc).
Proof. induction l as [|x l IH]; intros acc H; [exact H|]. cbn [fold_left]. apply IH, insert_sorted, H. Qed.
Lemma sort_sorted {A} (key : A -> Q) l : ordered_by key (sort_by (by_key key) l).
Proof. apply sort_acc_sorted. constructor. Qed.
(** Equal keys keep their order *)
Definition with_key {A} (key : A -> Q) (q : Q) (x : A) : bool := Qeq_bool (key x) q.
Lemma insert_same {A} (key : A -> Q) q x l : ordered_by key l -> filter (with_key key q) (insert_by (by_key key) x l) =
  filter (with_key key q) l ++ filter (with_key key q) [x].
Proof.
  intros H. induction H as [|y l Hs IH Hall]; [reflexivity|]. cbn [insert_by]. destruct (by_key key x y) eqn:E.
  - apply by_key_iff in E. cbn [filter]. destruct (with_key key q x) eqn:Ex; [|now rewrite app_nil_r].
    apply Qeq_bool_iff in Ex. 
    assert (N : filter (with_key key q) (y :: l) = []).
    { assert (K : forall z, In z (y :: l) -> with_key key q z = false).
      { intros z Hz. unfold with_key. destruct (Qeq_bool (key z) q) eqn:Ez; [|reflexivity]. apply Qeq_bool_iff in Ez.
        destruct Hz as [<-|Hz]; [lra|]. rewrite Forall_forall in Hall. specialize (Hall z Hz). lra. }
      revert K. clear. generalize (y :: l). intros m K. induction m as [|z m IH]; [reflexivity|]. cbn [filter].
      rewrite (K z (or_introl eq_refl)). apply IH. intros w Hw. apply K. right. exact Hw. }
    cbn [filter] in N. rewrite N. reflexivity.
  - cbn [filter]. cbn [filter] in IH. rewrite IH. destruct (with_key key q y); reflexivity.
Qed.
Lemma sort_acc_same {A} (key : A -> Q) q l : forall acc, ordered_by key acc ->
  filter (with_key key q) (fold_left (fun a x => insert_by (by_key key) x a) l acc) = filter (with_key key q) acc ++ filter (with_key key q) l.
Proof.
  induction l as [|x l IH]; intros acc H; [now rewrite app_nil_r|]. cbn [fold_left]. rewrite IH by (apply insert_sorted, H).
  rewrite insert_same by exact H. rewrite <- app_assoc. f_equal. cbn [filter]. destruct (with_key key q x); reflexivity.
Qed.
Lemma sort_same {A} (key : A -> Q) q l : filter (with_key key q) (sort_by (by_key key) l) = filter (with_key key q) l.
Proof. unfold sort_by. rewrite sort_acc_same by constructor. reflexivity. Qed.

(** Sorting commutes with maps that keep the order *)
Lemma insert_map {A B} (f : A -> B) lt lt' x l : (forall y, In y l -> lt' (f x) (f y) = lt x y) ->
  map f (insert_by lt x l) = insert_by lt' (f x) (map f l).
Proof.
  induction l as [|y l IH]; intros H; [reflexivity|]. cbn [insert_by map]. rewrite (H y (or_introl eq_refl)).
  destruct (lt x y); [reflexivity|]. cbn [map]. rewrite IH; [reflexivity|]. intros z Hz. apply H. right. exact Hz.
Qed.
Lemma sort_acc_map {A B} (f : A -> B) lt lt' l : forall acc, (forall x y, In x (acc ++ l) -> In y (acc ++ l) -> lt' (f x) (f y) = lt x y) ->
  map f (fold_left (fun a x => insert_by lt x a) l acc) = fold_left (fun a x => insert_by lt' x a) (map f l) (map f acc).
Proof.
  induction l as [|x l IH]; intros acc H; [reflexivity|]. cbn [fold_left map]. rewrite IH.
  - f_equal. apply insert_map. intros y Hy. apply H; apply in_app_iff; [right; left; reflexivity|left; exact Hy].
  - intros a b Ha Hb. apply H.
    + apply in_app_iff in Ha as [Ha|Ha]; [|apply in_app_iff; right; right; exact Ha].
      apply (Permutation_in _ (Permutation_sym (insert_perm lt x acc))) in Ha. destruct Ha as [<-|Ha]; apply in_app_iff; [right; left; reflexivity|left; exact Ha].
    + apply in_app_iff in Hb as [Hb|Hb]; [|apply in_app_iff; right; right; exact Hb].
      apply (Permutation_in _ (Permutation_sym (insert_perm lt x acc))) in Hb. destruct Hb as [<-|Hb]; apply in_app_iff; [right; left; reflexivity|left; exact Hb].
Qed.
Lemma sort_map {A B} (f : A -> B) lt lt' l : (forall x y, In x l -> In y l -> lt' (f x) (f y) = lt x y) ->
  map f (sort_by lt l) = sort_by lt' (map f l).
Proof. intros H. unfold sort_by. apply (sort_acc_map f lt lt' l []). exact H. Qed.

(** * Arrays of numbers as inputs *)
Definition the_num (L : lib) (r : result) : number := match any_number (l_fmt L) (rval r) with Ok n => n | _ => mkNum 0 1 None None end.
Definition conv (L : lib) (r : result) : result := Res (VNum (the_num L r)) (runit r) (rref r) (Some (rval r, runit r)).
Lemma to_number_any L v : to_number (std_env L) v = any_number (l_fmt L) v.
Proof. destruct v; reflexivity. Qed.
Lemma array_numbers_ok L l : numeric L l -> forall c, exists c', array_numbers (std_env L) l c = Ok (map (fun r => VNum (the_num L r)) l, c').
Proof.
  induction l as [|r l IH]; intros H c; [eexists; reflexivity|]. cbn [array_numbers map]. rewrite to_number_any.
  destruct (H r (or_introl eq_refl)) as [n Hn]. unfold the_num at 1. rewrite Hn. cbn [obind].
  destruct (IH (fun x Hx => H x (or_intror Hx)) (first_some c (ncast n))) as [c' E]. rewrite E. cbn [obind fst snd]. eexists. reflexivity.
Qed.
Lemma put_back_ok L l : put_back l (map (fun r => VNum (the_num L r)) l) (map runit l) = Ok (map (conv L) l).
Proof. induction l as [|r l IH]; [reflexivity|]. cbn [map put_back]. rewrite IH. reflexivity. Qed.
Definition takes_numbers (d : opdef) : Prop :=
  o_vals d = all_are (arr_of ($"number")) /\ o_min d = Some 1 /\ o_max d = Some 1 /\ o_units d = [] /\ o_autoin d = true.
Lemma numbers_valid L l : numeric L l -> forallb (fun x => match valid1 L ($"number") (rval x) (rref x) with Some b => b | None => false end) l = true.
Proof.
  intros H. apply forallb_forall. intros r Hr. destruct (H r Hr) as [n Hn]. unfold valid1.
  replace (seq_eqb ($"number") ($"number")) with true by reflexivity. unfold number_at in Hn. rewrite Hn. reflexivity.
Qed.
Lemma numbers_prepare L d l u f : takes_numbers d -> numeric L l ->
  exists c, prepare (std_env L) d [VList l] [u] [f] = Ok ([VList (map (conv L) l)], [u], c, None).
Proof.
  intros (Ev & Emin & Emax & Eu & Ea) Hl.
  destruct (array_numbers_ok L l Hl None) as [c Ec]. exists c. unfold prepare, validate. rewrite Ev, Emin, Emax, Eu, Ea.
  cbn [length Nat.ltb Nat.leb obind all_are out_each rs_from rs_to rs_types indices seq Nat.sub nth_error].
  unfold validate_types, validate_input. cbn [arr_of e_valid std_env].
  replace (std_valid L ($"array")) with (std_valid L ($"array")) by reflexivity. unfold std_valid at 1.
  replace (seq_eqb ($"array") ($"array")) with true by reflexivity.
  replace (seq_eqb ($"number") ($"array")) with false by reflexivity.
  rewrite (numbers_valid L l Hl). cbn [obind].
  unfold convert_numbers. rewrite Ev. cbn [all_are fold_left rs_types existsb is_plain_number arr_of orb fst snd].
  cbn [all_numbers]. unfold can_be. rewrite Ev. cbn [all_are existsb rs_types arr_of covers rs_from rs_to Nat.leb andb orb typ_is].
  replace (seq_eqb ($"array") s_number) with false by reflexivity. cbn [orb andb]. 
  cbn [norm_arrays]. unfold must_be. rewrite Ev. cbn [all_are must_be_loop covers rs_from rs_to Nat.leb andb existsb rs_types arr_of typ_is sub_is length Nat.eqb orb].
  replace (seq_eqb ($"array") s_array) with true by reflexivity. replace (seq_eqb ($"number") s_number) with true by reflexivity. cbn [andb orb].
  rewrite Ec. cbn [obind e_norm std_env fst snd]. rewrite put_back_ok. reflexivity.
Qed.
Lemma numbers_call L h d stl x l s : takes_numbers d -> o_excs d = false -> rval x = VList l -> numeric L l ->
  exists c, call (std_env L) h d stl [x] s =
    match o_impl d h [VList (map (conv L) l)] [runit x] [rref x] stl s with
    | (OOk o, s') => (OOk (finish d c None o), s')
    | (OErr e, s') => if wrapped e then (OErr e, s')
                      else if e_tostr (std_env L) x then (OErr (XCalc true (MOp (o_name d))), s') else (OPy, s')
    | (OPy, s') => if e_tostr (std_env L) x then (OErr (XCalc false (MOp (o_name d))), s') else (OPy, s')
    | (OFuel, s') => (OFuel, s')
    end.
Proof.
  intros Hd He Hx Hl. destruct (numbers_prepare L d l (runit x) (rref x) Hd Hl) as [c P]. exists c.
  destruct Hd as (Ev & _). rewrite call_eq. unfold call_step.
  assert (F : existsb (fun b => b) (flags_of d 0 [x]) = false).
  { cbn [flags_of existsb]. unfold flagged, can_be. rewrite Ev. cbn. now rewrite andb_false_r. }
  rewrite F. assert (K : is_packed d [x] = false) by (unfold is_packed; now rewrite andb_false_r). rewrite K.
  unfold call_plain. rewrite He. unfold find_exc. cbn [find map]. rewrite Hx. cbn [is_exc].
  rewrite P. unfold bind, lift. cbn [fst snd]. destruct (o_impl d h _ _ _ stl s) as [[o|e| |] s']; unfold ret; cbn [forallb]; rewrite ?andb_true_r; reflexivity.
Qed.
Lemma all_nums_conv L l : all_nums (map (conv L) l) = true.
Proof. apply forallb_forall. intros r Hr. apply in_map_iff in Hr as [x [<- _]]. reflexivity. Qed.
Lemma restore_conv L r : restore (conv L r) = plain r.
Proof. reflexivity. Qed.
Lemma key_conv L r : numeric L [r] -> to_decimal (l_prec L) (the_num L r) = key L r.
Proof. intros H. destruct (H r (or_introl eq_refl)) as [n Hn]. unfold the_num, key. unfold number_at in Hn. rewrite Hn. reflexivity. Qed.
Lemma key_plain L r : key L (plain r) = key L r.
Proof. reflexivity. Qed.
Lemma numeric_one L l r : numeric L l -> In r l -> numeric L [r].
Proof. intros H Hr x [<-|[]]. apply H, Hr. Qed.
Lemma lt_conv L l a b : numeric L l -> In a l -> In b l -> value_lt (l_prec L) (conv L a) (conv L b) = by_key (key L) a b.
Proof.
  intros H Ha Hb. unfold value_lt, conv, num_of. cbn [rval]. unfold num_ltb, by_key.
  now rewrite (key_conv L a (numeric_one L l a H Ha)), (key_conv L b (numeric_one L l b H Hb)).
Qed.

(** * sort *)
Definition d_sort (L : lib) : opdef := snd (fdef ($"sort") 1 1 (all_are (arr_of ($"number"))) (fn_sort L)).
Lemma find_sort L : assoc ($"sort") (g_funcs (std L)) = Some (d_sort L).
Proof. reflexivity. Qed.
Lemma sort_call L h stl x l s : rval x = VList l -> numeric L l ->
  call (std_env L) h (d_sort L) stl [x] s = (OOk (mkRes (VList (sort_by (by_key (key L)) (map plain l))) None None), s).
Proof.
  intros Hx Hl. destruct (numbers_call L h (d_sort L) stl x l s) as [c E]; try assumption; [repeat split; reflexivity|reflexivity|].
  rewrite E. unfold d_sort at 1. cbn [snd fdef o_impl]. unfold fn_sort. rewrite all_nums_conv. unfold unitless, ret, finish. cbn [or_val or_unit or_ref].
  f_equal. f_equal. f_equal. f_equal.
  assert (S1 : sort_by (value_lt (l_prec L)) (map (conv L) l) = map (conv L) (sort_by (by_key (key L)) l)).
  { symmetry. apply sort_map. intros a b Ha Hb. apply (lt_conv L l); assumption. }
  rewrite S1, map_map.
  assert (S2 : map plain (sort_by (by_key (key L)) l) = sort_by (by_key (key L)) (map plain l)).
  { apply sort_map. intros a b _ _. reflexivity. }
  rewrite <- S2. apply map_ext. intros r. apply restore_conv.
Qed.
