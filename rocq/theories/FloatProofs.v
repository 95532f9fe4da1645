(** Calls of functions that take any number of numbers, in the calculator with units. *)
From Coq Require Import ZArith QArith Qabs Ascii String List Bool Lia.
From Verif Require Import Base BaseProofs Dec DecProofs Num NumSpec NumProofs NumProofs2 Lex LexProofs Bases Formats Units UnitReg Syntax Pos Call Loop Parse Exec Std StdSpec StdProofs5 StdProofs7 StdProofs9 TextProofs UnitCalc UnitCalcProofs DateSpec Floats FloatSpec.
Import ListNotations.
Open Scope nat_scope.

Lemma out_each_ok {A} (f : A -> out Datatypes.unit) l : (forall x, In x l -> f x = Ok tt) -> out_each f l = Ok tt.
Proof. induction l as [|x l IH]; intros H; [reflexivity|]. cbn [out_each]. rewrite (H x (or_introl eq_refl)). cbn [obind]. apply IH. intros y Hy. apply H. now right. Qed.
Lemma at_number U xs l i : Forall2 (number_at (u_lib U)) xs l -> i < length xs -> exists x a, nth_error xs i = Some x /\ nth_error l i = Some a /\ number_at (u_lib U) x a.
Proof.
  intros H. revert i. induction H as [|x a xs l Hx H IH]; intros i Hi; [cbn in Hi; lia|]. destruct i as [|i]; [exists x, a; auto|].
  cbn [length] in Hi. destruct (IH i ltac:(lia)) as (y & b & E1 & E2 & E3). exists y, b. auto.
Qed.
Lemma convert_all U l : forall pre apre rest c, Forall2 (number_at (u_lib U)) pre apre -> Forall2 (number_at (u_lib U)) rest l ->
  fold_left (convert_one (unit_env U) (map rval (pre ++ rest))) (seq (length pre) (length rest)) (map VNum apre ++ map rval rest, c) =
  (map VNum (apre ++ l), fold_left (fun c a => first_some c (ncast a)) l c).
Proof.
  induction l as [|a l IH]; intros pre apre rest c Hp Hr; inversion Hr as [|x b r' l' Hx Hr' E1 E2]; subst.
  - cbn [length seq fold_left map]. now rewrite !app_nil_r.
  - cbn [length seq fold_left]. unfold convert_one at 2.
    assert (N : nth_error (map rval (pre ++ x :: r')) (length pre) = Some (rval x)) by (rewrite nth_error_map, nth_error_app2, Nat.sub_diag by lia; reflexivity).
    rewrite N, unit_to_number. unfold number_at in Hx. rewrite Hx. cbn [fst snd].
    assert (Ln : length (map VNum apre) = length pre). { rewrite map_length. clear - Hp. induction Hp; [reflexivity|]. cbn [length]. now f_equal. }
    assert (S : list_set (map VNum apre ++ map rval (x :: r')) (length pre) (VNum a) = map VNum (apre ++ [a]) ++ map rval r').
    { rewrite <- Ln, map_app, <- app_assoc. cbn [map app]. clear. induction (map VNum apre) as [|v vs IH]; [reflexivity|]. cbn [app length list_set]. now rewrite IH. }
    rewrite S. replace (pre ++ x :: r') with ((pre ++ [x]) ++ r') by (rewrite <- app_assoc; reflexivity).
    replace (Datatypes.S (length pre)) with (length (pre ++ [x])) by (rewrite app_length; cbn [length]; lia).
    rewrite (IH (pre ++ [x]) (apre ++ [a]) r'); [rewrite <- app_assoc; reflexivity| |exact Hr'].
    apply Forall2_app; [exact Hp|]. constructor; [exact Hx|constructor].
Qed.
Lemma all_numbers_ok U d l : o_vals d = all_are tynum -> forall i, all_numbers (unit_env U) d i (map VNum l) = true.
Proof.
  intros E. induction l as [|a l IH]; intros i; [reflexivity|]. cbn [map all_numbers]. rewrite IH. unfold can_be. rewrite E. reflexivity.
Qed.
Lemma fnum_prepare U d xs l mn mx : takes_number d -> o_norm d = true -> o_min d = Some mn -> o_max d = Some mx -> mn <= length xs -> length xs <= mx ->
  Forall2 (number_at (u_lib U)) xs l ->
  prepare (unit_env U) d (map rval xs) (map runit xs) (map rref xs) =
  do n <- normalise_inputs (u_rels U) (map VNum l) (map runit xs) (o_multi d) (o_rel d); Ok (fst (fst n), snd (fst n), first_format l, snd n).
Proof.
  intros (Ev & Eu & Ea & _) En Emin Emax Hmn Hmx H. unfold prepare.
  assert (V : validate (unit_env U) d (map rval xs) (map runit xs) (map rref xs) = Ok tt).
  { unfold validate. rewrite Emin, Emax, Eu, Ev, map_length.
    destruct (Nat.ltb_spec (length xs) mn); [lia|]. destruct (Nat.ltb_spec mx (length xs)); [lia|]. cbn [obind all_are out_each rs_from rs_to rs_types].
    rewrite out_each_ok; [reflexivity|]. intros i Hi. unfold indices in Hi. apply in_seq in Hi.
    destruct (at_number U xs l i H ltac:(lia)) as (x & a & E1 & _ & Hx). rewrite !nth_error_map, E1. cbn [option_map]. exact (unit_type_num U x a [] Hx). }
  assert (C : convert_numbers (unit_env U) d (map rval xs) = (map VNum l, first_format l)).
  { unfold convert_numbers. rewrite Ev. cbn [all_are fold_left rs_types existsb is_plain_number tynum ty].
    replace (seq_eqb ($"number") s_number) with true by reflexivity. cbn [orb]. unfold convert_range. cbn [rs_from rs_to]. rewrite map_length, Nat.sub_0_r.
    exact (convert_all U l [] [] xs None (Forall2_nil _) H). }
  rewrite V. cbn [obind]. rewrite Ea, C. cbn [fst snd]. rewrite (all_numbers_ok U d l Ev). cbn [e_norm unit_env]. rewrite En. reflexivity.
Qed.
Lemma fnum_call U h d stl xs l mn mx s : takes_number d -> o_norm d = true -> o_min d = Some mn -> o_max d = Some mx -> mn <= length xs -> length xs <= mx ->
  Forall2 (number_at (u_lib U)) xs l ->
  call (unit_env U) h d stl xs s =
  match (let* n := lift (normalise_inputs (u_rels U) (map VNum l) (map runit xs) (o_multi d) (o_rel d)) in
         let* o := o_impl d h (fst (fst n)) (snd (fst n)) (map rref xs) stl in
         ret (finish d (first_format l) (snd n) o)) s with
  | (OErr e, s') => if wrapped e then (OErr e, s') else if forallb (fun x => shows (u_lib U) (rval x)) xs then (OErr (XCalc true (MOp (o_name d))), s') else (OPy, s')
  | (OPy, s') => if forallb (fun x => shows (u_lib U) (rval x)) xs then (OErr (XCalc false (MOp (o_name d))), s') else (OPy, s')
  | r => r
  end.
Proof.
  intros Hd En Emin Emax Hmn Hmx H. rewrite call_scalars; [| |apply must_not_array, Hd].
  - unfold call_plain. pose proof Hd as (_ & _ & _ & Ee). rewrite Ee.
    assert (X : find_exc xs = None).
    { clear - H. unfold find_exc. induction H as [|x a xs l Hx H IH]; [reflexivity|]. cbn [map find]. destruct (is_num_scalar _ _ _ Hx) as [_ ->]. exact IH. }
    rewrite X. rewrite (fnum_prepare U d xs l mn mx Hd En Emin Emax Hmn Hmx H). cbn [e_tostr unit_env].
    destruct (normalise_inputs (u_rels U) (map VNum l) (map runit xs) (o_multi d) (o_rel d)) as [n| |]; reflexivity.
  - clear - H. induction H as [|x a xs l Hx H IH]; [reflexivity|]. cbn [forallb]. destruct (is_num_scalar _ _ _ Hx) as [-> _]. exact IH.
Qed.
(** Too few or too many *)
Lemma fnum_count U h d stl xs l mn mx s : takes_number d -> o_min d = Some mn -> o_max d = Some mx -> length xs < mn \/ mx < length xs ->
  Forall2 (number_at (u_lib U)) xs l ->
  call (unit_env U) h d stl xs s =
  if forallb (fun x => shows (u_lib U) (rval x)) xs then (OErr (XCalc true (MOp (o_name d))), s) else (OPy, s).
Proof.
  intros Hd Emin Emax Hc H. rewrite call_scalars; [| |apply must_not_array, Hd].
  - unfold call_plain. pose proof Hd as (_ & _ & _ & Ee). rewrite Ee.
    assert (X : find_exc xs = None).
    { clear - H. unfold find_exc. induction H as [|x a xs l Hx H IH]; [reflexivity|]. cbn [map find]. destruct (is_num_scalar _ _ _ Hx) as [_ ->]. exact IH. }
    rewrite X. assert (V : prepare (unit_env U) d (map rval xs) (map runit xs) (map rref xs) = Calc).
    { unfold prepare, validate. rewrite Emin, Emax, map_length. destruct (Nat.ltb_spec (length xs) mn); [reflexivity|]. cbn [obind].
      destruct (Nat.ltb_spec mx (length xs)); [reflexivity|lia]. }
    rewrite V. reflexivity.
  - clear - H. induction H as [|x a xs l Hx H IH]; [reflexivity|]. cbn [forallb]. destruct (is_num_scalar _ _ _ Hx) as [-> _]. exact IH.
Qed.
(** Units are left alone if there is one argument, or if there are none. *)
Lemma norm_one rel v u r : normalise_inputs rel [v] [u] false r = Ok ([v], [u], u).
Proof. unfold normalise_inputs. cbn [first_unit]. destruct u as [x|]; reflexivity. Qed.
Lemma norm_none rel vs us m r : Forall (fun u => u = None) us -> normalise_inputs rel vs us m r = Ok (vs, us, None).
Proof.
  intros H. unfold normalise_inputs. assert (F : first_unit us = None). { induction H as [|u us -> H IH]; [reflexivity|exact IH]. }
  rewrite F. reflexivity.
Qed.

(** * The functions *)
Definition d_float (f : str) (k m : nat) (g : impl) : opdef := snd (fdef f k m (all_are tynum) g).
Lemma d_float_takes f k m g : takes_number (d_float f k m g) /\ o_norm (d_float f k m g) = true.
Proof. repeat split. Qed.
(** The names are those of no operator and of no other function. *)
Definition new_names : list str := math_names ++ [$"log"; $"exp"; $"stdev"] ++ special_names.
Lemma special_names_eq L X : map fst (special_funcs L X) = special_names.
Proof. vm_compute. reflexivity. Qed.
Lemma no_ops U : forallb (fun n => match find_op (unit_table U) n with None => true | Some _ => false end) new_names = true.
Proof. vm_compute. reflexivity. Qed.
Fixpoint nodup_b (l : list str) : bool := match l with [] => true | x :: r => if existsb (seq_eqb x) r then false else nodup_b r end.
Lemma nodup_b_ok l : nodup_b l = true -> NoDup l.
Proof.
  induction l as [|x l IH]; intros H; [constructor|]. cbn [nodup_b] in H. destruct (existsb (seq_eqb x) l) eqn:E; [discriminate|].
  constructor; [|now apply IH]. intros I. assert (existsb (seq_eqb x) l = true) by (apply existsb_exists; exists x; split; [exact I|apply seq_eqb_refl]). congruence.
Qed.
Lemma all_distinct U X : nodup_b (map fst (float_funcs U X)) = true.
Proof. vm_compute. reflexivity. Qed.
Lemma assoc_in {A} (l : list (str * A)) n d : NoDup (map fst l) -> In (n, d) l -> assoc n l = Some d.
Proof.
  induction l as [|[m e] l IH]; intros N I; [destruct I|]. cbn [map fst] in N. apply NoDup_cons_iff in N as [N1 N2]. cbn [assoc].
  destruct I as [I|I].
  - assert (E : m = n) by congruence. assert (F : e = d) by congruence. subst. now rewrite seq_eqb_refl.
  - destruct (seq_eqb m n) eqn:E; [|now apply IH]. apply seq_eqb_iff in E. subst m. exfalso. apply N1, in_map_iff. now exists (n, d).
Qed.
Lemma special_outs_in L X f k ints outs : forall i j x, nth_error outs j = Some x ->
  In (special_name f (Some x), d_float (special_name f (Some x)) k k (fn_special L X ($f) (Some (i + j)) ints)) (special_outs L X f k ints i outs).
Proof.
  induction outs as [|o outs IH]; intros i j x H; [destruct j; discriminate|]. cbn [special_outs]. destruct j as [|j]; cbn [nth_error] in H.
  - assert (E : o = x) by congruence. subst. rewrite Nat.add_0_r. now left.
  - right. replace (i + S j) with (S i + j) by lia. now apply IH.
Qed.
Lemma special_in L X name f k o ints : special name f k o ints -> In (name, d_float name k k (fn_special L X ($f) o ints)) (special_funcs L X).
Proof.
  intros (outs & I & H). unfold special_funcs. apply in_flat_map. exists (f, k, outs, ints). split; [exact I|].
  destruct H as [(-> & -> & ->) | (i & x & N & -> & ->)]; [now left|]. destruct outs as [|y r]; [destruct i; discriminate|].
  exact (special_outs_in L X f k ints (y :: r) 0 i x N).
Qed.
Lemma special_name_in name f k o ints : special name f k o ints -> In name special_names.
Proof.
  intros (outs & I & H). unfold special_names. apply in_flat_map. exists (f, k, outs, ints). split; [exact I|].
  destruct H as [(-> & -> & ->) | (i & x & N & -> & ->)]; [now left|]. destruct outs as [|y r]; [destruct i; discriminate|].
  apply in_map_iff. exists x. split; [reflexivity|]. now apply nth_error_In in N.
Qed.
Lemma run_new U X stl n d ins : In n new_names -> In (n, d) (float_funcs U X) ->
  run_named (with_floats U X) stl n ins = call (unit_env U) (callop (with_floats U X) stl) d stl ins.
Proof.
  intros I J. unfold run_named. pose proof (no_ops U) as O. rewrite forallb_forall in O. specialize (O n I).
  change (g_ops (with_floats U X)) with (unit_table U). destruct (find_op (unit_table U) n); [discriminate|].
  change (g_funcs (with_floats U X)) with (float_funcs U X). rewrite (assoc_in _ _ _ (nodup_b_ok _ (all_distinct U X)) J). reflexivity.
Qed.
Lemma run_math U X stl f ins : In f math_names ->
  run_named (with_floats U X) stl f ins = call (unit_env U) (callop (with_floats U X) stl) (d_float f 1 1 (fn_math (u_lib U) X f)) stl ins.
Proof.
  intros I. apply run_new; [apply in_or_app; now left|]. unfold float_funcs. cbv zeta. apply in_or_app. right. apply in_or_app. left.
  apply in_map_iff. exists f. now split.
Qed.
Lemma run_log U X stl ins :
  run_named (with_floats U X) stl ($"log") ins = call (unit_env U) (callop (with_floats U X) stl) (d_float ($"log") 1 2 (fn_log (u_lib U) X)) stl ins.
Proof.
  apply run_new; [apply in_or_app; right; now left|]. unfold float_funcs. cbv zeta. apply in_or_app. right. apply in_or_app. right. now left.
Qed.
Lemma run_exp U X stl ins :
  run_named (with_floats U X) stl ($"exp") ins = call (unit_env U) (callop (with_floats U X) stl) (d_float ($"exp") 1 1 (fn_exp (u_lib U))) stl ins.
Proof.
  apply run_new; [apply in_or_app; right; right; now left|]. unfold float_funcs. cbv zeta. apply in_or_app. right. apply in_or_app. right. right. now left.
Qed.
Lemma run_special U X stl name f k o ints ins : special name f k o ints ->
  run_named (with_floats U X) stl name ins = call (unit_env U) (callop (with_floats U X) stl) (d_float name k k (fn_special (u_lib U) X ($f) o ints)) stl ins.
Proof.
  intros H. apply run_new; [apply in_or_app; right; right; right; right; exact (special_name_in _ _ _ _ _ H)|]. unfold float_funcs. cbv zeta.
  apply in_or_app. right. apply in_or_app. right. right. right. right. exact (special_in _ _ _ _ _ _ _ H).
Qed.
Lemma numbers_of_map l : numbers_of (map VNum l) = Some l.
Proof. induction l as [|a l IH]; [reflexivity|]. cbn [map numbers_of]. now rewrite IH. Qed.
Lemma closest_dec p l : map (to_decimal p) l = map (closest p) l.
Proof. apply map_ext. intros a. unfold closest. apply to_decimal_val. Qed.
Lemma cut_int p a : (1 <= p)%Z -> good a -> (Z.abs (nnum a) < 10 ^ (p - 1))%Z -> num_int p a = cut a.
Proof. intros Hp G B. unfold num_int, cut. rewrite to_decimal_val. unfold val. now apply trunc_rnd. Qed.
(** A result in the format of the arguments *)
Lemma finish_first d c u n : o_autores d = true -> ncast n = None ->
  exists m, finish d c u (mkOR (VNum n) None None) = mkRes (VNum m) u None /\ val m = val n /\ ncast m = c.
Proof.
  intros A C. unfold finish. cbn [or_val or_unit or_ref]. rewrite A. destruct c as [c|]; eexists; (split; [reflexivity|]); split; auto.
Qed.
