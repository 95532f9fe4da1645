(** Functions of integers and bitwise operators. *)
From Coq Require Import ZArith QArith Qround Qabs Ascii String List Bool Lia Lqa.
From Verif Require Import Base BaseProofs Dec DecProofs Num NumSpec NumProofs NumProofs2 Bases BasesProofs Formats Units Install Syntax Pos Call CallSpec CallProofs Loop Parse Exec ExecSpec Std StdSpec StdProofs StdProofs4 StdProofs5 StdProofs6 StdProofs7.
Import ListNotations.
Open Scope nat_scope.

Lemma whole_val p n i : whole p n i -> (val n == inject_Z i)%Q.
Proof. intros (H1 & H2 & _). unfold val. rewrite H1, H2. field. Qed.
Lemma whole_int p n i : (1 <= p)%Z -> whole p n i -> num_int p n = i.
Proof. intros Hp H. apply num_int_Z; [exact Hp|apply (whole_val p), H|]. destruct H as (_ & _ & H). lia. Qed.
Lemma whole_dec p n i : (1 <= p)%Z -> whole p n i -> to_decimal p n = inject_Z i.
Proof. intros Hp H. rewrite to_decimal_val. apply rnd_Z; [exact Hp|apply (whole_val p), H|]. destruct H as (_ & _ & H). lia. Qed.

Definition one_num : number := mkNum 1 1 None None.
Lemma one_eq p : num_of_Z p 1 = one_num. Proof. apply num_of_Z_eq. Qed.
(** Remainder by one *)
Lemma integer_spec L n s : (1 <= l_prec L)%Z -> good n -> mod_fits (l_prec L) n one_num ->
  exists b, integer L n s = (OOk b, s) /\ (b = true <-> exists i, (val n == inject_Z i)%Q).
Proof.
  intros Hp Gn F. destruct (num_mod_spec (l_prec L) n one_num Hp Gn) as (r & k & R1 & R2 & R3 & R4 & _); [reflexivity|discriminate|exact F|].
  unfold integer. rewrite one_eq, R1. unfold pym, bind, ret. eexists. split; [reflexivity|].
  assert (V1 : (val one_num == 1)%Q) by reflexivity. rewrite V1 in R2, R3. rewrite Qmult_1_r in R2.
  rewrite Qeq_bool_iff, to_decimal_val. split.
  - intros H. exists k. destruct (Qeq_dec (val r) 0) as [E|E]; [rewrite R2, E; apply Qplus_0_r|].
    exfalso. apply (rnd_nz (l_prec L) (val r) Hp E). exact H.
  - intros [i Hi]. assert (E : (val r == inject_Z (i - k))%Q) by (rewrite Hi in R2; unfold Z.sub; rewrite inject_Z_plus, inject_Z_opp; lra).
    rewrite E in R3. assert (i - k = 0)%Z.
    { unfold Qlt, Qabs, inject_Z in R3. cbn [Qnum Qden one_num] in R3. lia. }
    rewrite (rnd_0 _ (val r)); [reflexivity|]. rewrite E, H. reflexivity.
Qed.
Lemma whole_integer L n i s : (1 <= l_prec L)%Z -> whole (l_prec L) n i -> integer L n s = (OOk true, s).
Proof.
  intros Hp H. pose proof H as (H1 & H2 & H3). destruct (integer_spec L n s Hp) as (b & E & B).
  - unfold good. rewrite H2. reflexivity.
  - unfold mod_fits, one_num. cbn [nden nnum]. rewrite H1, H2. change (Z.lcm 1 1) with 1%Z. cbn zeta. unfold small.
    pose proof (Z.pow_gt_1 10 (l_prec L)). lia.
  - rewrite E. destruct b; [reflexivity|]. destruct B as [_ B]. rewrite B; [reflexivity|]. exists i. apply (whole_val (l_prec L)), H.
Qed.
Lemma whole_natural L n i s : (1 <= l_prec L)%Z -> whole (l_prec L) n i -> natural L n s = (OOk (0 <=? i)%Z, s).
Proof.
  intros Hp H. unfold natural. rewrite (whole_dec _ n i Hp H). change 0%Q with (inject_Z 0).
  destruct (Z.leb_spec 0 i) as [E|E].
  - assert (Q : Qle_bool (inject_Z 0) (inject_Z i) = true) by (apply Qle_bool_iff; rewrite <- Zle_Qle; exact E). rewrite Q. cbn [negb]. now apply (whole_integer L n i).
  - assert (Q : Qle_bool (inject_Z 0) (inject_Z i) = false).
    { destruct (Qle_bool (inject_Z 0) (inject_Z i)) eqn:Q; [|reflexivity]. apply Qle_bool_iff in Q. rewrite <- Zle_Qle in Q. lia. }
    rewrite Q. reflexivity.
Qed.

(** * Calls of operations that take one or two numbers *)
Definition takes_number (d : opdef) : Prop := o_vals d = all_are tynum /\ o_units d = [] /\ o_autoin d = true /\ o_excs d = false.
Lemma prepare1 L d a u f : takes_number d -> o_min d = Some 1 -> o_max d = Some 1 ->
  prepare (std_env L) d [VNum a] [u] [f] = Ok ([VNum a], [u], ncast a, None).
Proof.
  intros (Ev & Eu & Ea & _) Emin Emax. destruct d as [d1 d2 d3 d4 d5 d6 d7 d8 d9 d10 d11 d12]. cbn [o_vals o_units o_autoin o_min o_max] in *. subst. reflexivity.
Qed.
Lemma prepare2 L d a b u w f g : takes_number d -> o_min d = Some 2 -> o_max d = Some 2 ->
  prepare (std_env L) d [VNum a; VNum b] [u; w] [f; g] = Ok ([VNum a; VNum b], [u; w], format_of a b, None).
Proof.
  intros (Ev & Eu & Ea & _) Emin Emax. destruct d as [d1 d2 d3 d4 d5 d6 d7 d8 d9 d10 d11 d12]. cbn [o_vals o_units o_autoin o_min o_max] in *. subst.
  unfold format_of. destruct a as [an ad [ac|] aw]; reflexivity.
Qed.
Lemma must_not_array d : o_vals d = all_are tynum -> must_be d 0 s_array None = false.
Proof. intros E. unfold must_be. rewrite E. reflexivity. Qed.
Lemma call_num1 L h d stl x a s : takes_number d -> o_min d = Some 1 -> o_max d = Some 1 -> rval x = VNum a ->
  call (std_env L) h d stl [x] s =
  match o_impl d h [VNum a] [runit x] [rref x] stl s with
  | (OOk o, s') => (OOk (finish d (ncast a) None o), s')
  | (OErr e, s') => if wrapped e then (OErr e, s') else if shows L (VNum a) then (OErr (XCalc true (MOp (o_name d))), s') else (OPy, s')
  | (OPy, s') => if shows L (VNum a) then (OErr (XCalc false (MOp (o_name d))), s') else (OPy, s')
  | (OFuel, s') => (OFuel, s')
  end.
Proof.
  intros Hd Emin Emax Hx. rewrite call_scalars; [| |apply must_not_array, Hd].
  2: cbn [forallb]; rewrite Hx; reflexivity.
  unfold call_plain. pose proof Hd as (_ & _ & _ & Ee). rewrite Ee. unfold find_exc. cbn [find map]. rewrite Hx. cbn [is_exc].
  rewrite (prepare1 L d a _ _ Hd Emin Emax). unfold bind, lift. cbn [fst snd forallb e_tostr std_env]. rewrite Hx, andb_true_r.
  destruct (o_impl d h _ _ _ stl s) as [[o|e| |] s']; reflexivity.
Qed.
Lemma call_num2 L h d stl x y a b s : takes_number d -> o_min d = Some 2 -> o_max d = Some 2 -> rval x = VNum a -> rval y = VNum b ->
  call (std_env L) h d stl [x; y] s =
  match o_impl d h [VNum a; VNum b] [runit x; runit y] [rref x; rref y] stl s with
  | (OOk o, s') => (OOk (finish d (format_of a b) None o), s')
  | (OErr e, s') => if wrapped e then (OErr e, s') else if shows L (VNum a) && shows L (VNum b) then (OErr (XCalc true (MOp (o_name d))), s') else (OPy, s')
  | (OPy, s') => if shows L (VNum a) && shows L (VNum b) then (OErr (XCalc false (MOp (o_name d))), s') else (OPy, s')
  | (OFuel, s') => (OFuel, s')
  end.
Proof.
  intros Hd Emin Emax Hx Hy. rewrite call_scalars; [| |apply must_not_array, Hd].
  2: cbn [forallb]; rewrite Hx, Hy; reflexivity.
  unfold call_plain. pose proof Hd as (_ & _ & _ & Ee). rewrite Ee. unfold find_exc. cbn [find map]. rewrite Hx, Hy. cbn [is_exc].
  rewrite (prepare2 L d a b _ _ _ _ Hd Emin Emax). unfold bind, lift. cbn [fst snd forallb e_tostr std_env]. rewrite Hx, Hy, andb_true_r.
  destruct (o_impl d h _ _ _ stl s) as [[o|e| |] s']; reflexivity.
Qed.

(** * gcd, lcm, fact *)
Definition d_ints (L : lib) (nm : str) (f : Z -> Z -> Z) : opdef := snd (fdef nm 2 2 (all_are tynum) (fn_ints L f)).
Definition d_fact (L : lib) : opdef := snd (fdef ($"fact") 1 1 (all_are tynum) (fn_fact L)).
Lemma find_gcd L : assoc ($"gcd") (g_funcs (std L)) = Some (d_ints L ($"gcd") Z.gcd). Proof. reflexivity. Qed.
Lemma find_lcm L : assoc ($"lcm") (g_funcs (std L)) = Some (d_ints L ($"lcm") Z.lcm). Proof. reflexivity. Qed.
Lemma find_fact L : assoc ($"fact") (g_funcs (std L)) = Some (d_fact L). Proof. reflexivity. Qed.
Lemma cast_Z c z : match c with Some k => with_cast (mkNum z 1 None None) (Some k) | None => mkNum z 1 None None end = mkNum z 1 c None.
Proof. destruct c; reflexivity. Qed.
Lemma ints_call L h nm f stl x y a b i j s : (1 <= l_prec L)%Z -> rval x = VNum a -> rval y = VNum b ->
  whole (l_prec L) a i -> whole (l_prec L) b j ->
  call (std_env L) h (d_ints L nm f) stl [x; y] s = (OOk (mkRes (VNum (mkNum (f i j) 1 (format_of a b) None)) (runit x) None), s).
Proof.
  intros Hp Hx Hy Ha Hb. rewrite (call_num2 L h (d_ints L nm f) stl x y a b s); [|repeat split; reflexivity|reflexivity|reflexivity|exact Hx|exact Hy].
  cbn [d_ints snd fdef o_impl fn_ints]. unfold bind. rewrite (whole_integer L a i s Hp Ha), (whole_integer L b j s Hp Hb).
  rewrite (whole_int _ a i Hp Ha), (whole_int _ b j Hp Hb), num_of_Z_eq. unfold with_unit, ret, finish. cbn [or_val or_unit or_ref o_autores].
  rewrite cast_Z. reflexivity.
Qed.
(** Refused otherwise *)
Lemma ints_refused L h nm f stl x y a b s : (1 <= l_prec L)%Z -> rval x = VNum a -> rval y = VNum b -> good a -> good b ->
  mod_fits (l_prec L) a one_num -> mod_fits (l_prec L) b one_num ->
  (~ exists i, (val a == inject_Z i)%Q) \/ (~ exists i, (val b == inject_Z i)%Q) ->
  exists o, call (std_env L) h (d_ints L nm f) stl [x; y] s = (o, s) /\ forall r, o <> OOk r.
Proof.
  intros Hp Hx Hy Ga Gb Fa Fb H. rewrite (call_num2 L h (d_ints L nm f) stl x y a b s); [|repeat split; reflexivity|reflexivity|reflexivity|exact Hx|exact Hy].
  cbn [d_ints snd fdef o_impl fn_ints]. unfold bind.
  destruct (integer_spec L a s Hp Ga Fa) as (ba & Ea & Ba). destruct (integer_spec L b s Hp Gb Fb) as (bb & Eb & Bb).
  rewrite Ea. destruct ba.
  - rewrite Eb. destruct bb; [exfalso; destruct H as [H|H]; apply H; [now apply Ba|now apply Bb]|].
    unfold calc_err, raise. cbn [wrapped]. destruct (shows L (VNum a) && shows L (VNum b)); eexists; (split; [reflexivity|discriminate]).
  - unfold ret, calc_err, raise. cbn [wrapped]. destruct (shows L (VNum a) && shows L (VNum b)); eexists; (split; [reflexivity|discriminate]).
Qed.
Lemma factorial_spec n : factorial n = fold_right Z.mul 1%Z (map Z.of_nat (seq 1 n)).
Proof.
  induction n as [|n IH]; [reflexivity|]. rewrite seq_S, map_app, fold_right_app. cbn [factorial map fold_right plus]. rewrite IH, Z.mul_1_r.
  generalize (Z.of_nat (S n)). intros z. clear IH. induction (map Z.of_nat (seq 1 n)) as [|y l IHl]; cbn [fold_right]; [ring|]. rewrite <- IHl. ring.
Qed.
Lemma fact_call L h stl x a i s : (1 <= l_prec L)%Z -> rval x = VNum a -> whole (l_prec L) a i -> (0 <= i)%Z ->
  call (std_env L) h (d_fact L) stl [x] s = (OOk (mkRes (VNum (mkNum (factorial (Z.to_nat i)) 1 (ncast a) None)) (runit x) None), s).
Proof.
  intros Hp Hx Ha Hi. rewrite (call_num1 L h (d_fact L) stl x a s); [|repeat split; reflexivity|reflexivity|reflexivity|exact Hx].
  cbn [d_fact snd fdef o_impl fn_fact]. unfold bind. rewrite (whole_natural L a i s Hp Ha).
  replace (0 <=? i)%Z with true by (symmetry; apply Z.leb_le; exact Hi).
  rewrite (whole_int _ a i Hp Ha), num_of_Z_eq. unfold with_unit, ret, finish. cbn [or_val or_unit or_ref o_autores]. rewrite cast_Z. reflexivity.
Qed.
Lemma natural_refused L a s : (1 <= l_prec L)%Z -> good a -> mod_fits (l_prec L) a one_num ->
  (~ exists i, (0 <= i)%Z /\ (val a == inject_Z i)%Q) -> natural L a s = (OOk false, s).
Proof.
  intros Hp Ga Fa H. unfold natural. destruct (Qle_bool 0 (to_decimal (l_prec L) a)) eqn:E; [|reflexivity]. cbn [negb].
  destruct (integer_spec L a s Hp Ga Fa) as (b & Eb & B). rewrite Eb. destruct b; [|reflexivity]. exfalso.
  destruct (proj1 B eq_refl) as [i Hi]. apply H. exists i. split; [|exact Hi].
  apply Qle_bool_iff in E. rewrite to_decimal_val in E. destruct (Z_le_gt_dec 0 i) as [L0|G]; [exact L0|]. exfalso.
  assert (N : (val a < 0)%Q) by (rewrite Hi; change 0%Q with (inject_Z 0); rewrite <- Zlt_Qlt; lia).
  assert (P : (0 < rnd (l_prec L) (- val a))%Q) by (apply rnd_pos; [exact Hp|lra]). rewrite rnd_opp in P. lra.
Qed.
Lemma fact_refused L h stl x a s : (1 <= l_prec L)%Z -> rval x = VNum a -> good a -> mod_fits (l_prec L) a one_num ->
  (~ exists i, (0 <= i)%Z /\ (val a == inject_Z i)%Q) ->
  exists o, call (std_env L) h (d_fact L) stl [x] s = (o, s) /\ forall r, o <> OOk r.
Proof.
  intros Hp Hx Ga Fa H. rewrite (call_num1 L h (d_fact L) stl x a s); [|repeat split; reflexivity|reflexivity|reflexivity|exact Hx].
  cbn [d_fact snd fdef o_impl fn_fact]. unfold bind. rewrite (natural_refused L a s Hp Ga Fa H).
  unfold calc_err, raise. cbn [wrapped]. destruct (shows L (VNum a)); eexists; (split; [reflexivity|discriminate]).
Qed.
