(** Functions of numbers, given what they are not defined for. *)
From Coq Require Import ZArith QArith Qabs Qround Ascii String List Bool Lia Lqa.
From Verif Require Import Base BaseProofs Dec DecProofs Num NumSpec NumProofs NumProofs2 NumProofs3 NumProofs4 Lex LexSpec Bases BasesProofs Formats Units Install Syntax Pos Call CallSpec CallProofs Loop Parse Exec ExecSpec ErrorSpec Std StdSpec StdProofs StdProofs2 StdProofs4 StdProofs5 StdProofs6 StdProofs7 StdProofs9 ArithSpec ArithProofs RoundSpec RoundProofs ArithTextSpec ArithRunSpec ArithTextProofs4 ArithFunProofs ArithErrSpec ArithErrProofs ArithErrProofs2.
Import ListNotations.
Open Scope nat_scope.

(** * Nothing, as an argument *)
Lemma fun_takes L f : takes_number (fun_def L f) /\ o_min (fun_def L f) = Some 1 /\ (o_max (fun_def L f) = Some 1 \/ o_max (fun_def L f) = Some 2).
Proof. destruct f; repeat split; auto. Qed.
Lemma fun2_takes L f : takes_number (fun2_def L f) /\ o_min (fun2_def L f) = Some 2 /\ o_max (fun2_def L f) = Some 2.
Proof. destruct f; repeat split; auto. Qed.
Lemma none_refused1 L h d stl x s : takes_number d -> o_min d = Some 1 -> o_max d = Some 1 \/ o_max d = Some 2 -> rval x = VNone ->
  exists e, call (std_env L) h d stl [x] s = (OErr e, s).
Proof.
  intros (Ev & Eu & Ea & Ee) Hmin Hmax Rx. rewrite call_scalars; [|cbn [forallb]; rewrite Rx; reflexivity|unfold must_be; rewrite Ev; reflexivity]. unfold call_plain. rewrite Ee. unfold find_exc. cbn [find map]. rewrite Rx. cbn [is_exc].
  assert (V : validate (std_env L) d [VNone] [runit x] [rref x] <> Ok tt).
  { unfold validate. rewrite Hmin, Eu, Ev. pose proof (none_type L [tynum] (runit x) (rref x) (or_introl eq_refl)) as N.
    destruct Hmax as [-> | ->]; cbn [all_are each_is length Nat.ltb Nat.leb obind out_each indices rs_from rs_to rs_types Nat.min Nat.add Nat.sub seq nth_error];
    (destruct (validate_types _ [tynum] VNone _ _) as [[]| |]; [congruence|discriminate|discriminate]). }
  unfold prepare. cbn [forallb e_tostr std_env]. assert (Sx : shows L (rval x) && true = true) by (rewrite Rx; reflexivity). rewrite Sx. destruct (validate (std_env L) d _ _ _) as [[]| |]; [congruence| |]; unfold bind, lift; cbn [obind wrapped]; eauto.
Qed.
Lemma none_refused2 L h d stl x y s : takes_number d -> o_min d = Some 2 -> o_max d = Some 2 -> is_list (rval x) = false -> is_list (rval y) = false -> is_exc (rval x) || is_exc (rval y) = false ->
  rval x = VNone \/ rval y = VNone -> shows L (rval x) = true -> shows L (rval y) = true ->
  exists e, call (std_env L) h d stl [x; y] s = (OErr e, s).
Proof.
  intros (Ev & Eu & Ea & Ee) Hmin Hmax Lx Ly He Hn Sx Sy. apply orb_false_iff in He as [Ex Ey].
  rewrite call_scalars; [|cbn [forallb]; rewrite Lx, Ly; reflexivity|unfold must_be; rewrite Ev; reflexivity]. unfold call_plain. rewrite Ee. unfold find_exc. cbn [find map]. rewrite Ex, Ey.
  assert (V : validate (std_env L) d [rval x; rval y] [runit x; runit y] [rref x; rref y] <> Ok tt).
  { unfold validate. rewrite Hmin, Hmax, Eu, Ev. cbn [all_are each_is length Nat.ltb Nat.leb obind out_each indices rs_from rs_to rs_types Nat.min Nat.add Nat.sub seq nth_error].
    pose proof (none_type L [tynum] (runit x) (rref x) (or_introl eq_refl)) as N1. pose proof (none_type L [tynum] (runit y) (rref y) (or_introl eq_refl)) as N2.
    destruct Hn as [E|E]; rewrite E in *.
    - destruct (validate_types _ [tynum] VNone (runit x) _) as [[]| |]; [congruence|discriminate|discriminate].
    - destruct (validate_types _ [tynum] (rval x) (runit x) _) as [[]| |]; [|discriminate|discriminate]. destruct (validate_types _ [tynum] VNone (runit y) _) as [[]| |]; [congruence|discriminate|discriminate]. }
  unfold prepare. cbn [forallb e_tostr std_env]. rewrite Sx, Sy. cbn [andb]. destruct (validate (std_env L) d _ _ _) as [[]| |]; [congruence| |]; unfold bind, lift; cbn [obind wrapped]; eauto.
Qed.

(** * Numbers that are not whole, or negative *)
Lemma size_mods p k a : (0 <= k)%Z -> (2 * k <= p)%Z -> (1 <= p)%Z -> good a -> size_le k a -> mod_fits p a one_num.
Proof.
  intros Hk Hp H1 G [S1 S2]. unfold mod_fits, one_num, small. cbn [nnum nden]. unfold good in G. rewrite Z.lcm_1_r, (Z.abs_eq (nden a)) by lia. cbv zeta.
  assert (P : (10 ^ k * 10 ^ k <= 10 ^ p)%Z) by (rewrite <- Z.pow_add_r by lia; apply Z.pow_le_mono_r; lia).
  assert (Q : (nden a < 10 ^ p)%Z) by (assert (0 < 10 ^ k)%Z by (apply Z.pow_pos_nonneg; lia); nia).
  repeat split; rewrite ?Z.mul_1_l, ?Z.abs_mul, ?(Z.abs_eq (nden a)) by lia; [|exact Q|exact Q]. pose proof (Z.abs_nonneg (nnum a)). nia.
Qed.
Lemma not_whole n q : good n -> lowest n -> (val n == q)%Q -> whole q = None -> ~ exists i, (val n == inject_Z i)%Q.
Proof.
  intros G Lo V W [i Hi]. rewrite V in Hi. unfold whole in W. rewrite (Qred_complete _ _ Hi) in W. replace (Qden (Qred (inject_Z i))) with 1%positive in W; [discriminate W|].
  assert (E : Qred (inject_Z i) = inject_Z i) by (unfold Qred, inject_Z; pose proof (Z.ggcd_gcd i 1) as K; pose proof (Z.ggcd_correct_divisors i 1) as K2; destruct (Z.ggcd i 1) as [g [aa bb]]; cbn [fst] in K; rewrite Z.gcd_1_r in K; subst g; destruct K2 as [K1 K2]; rewrite Z.mul_1_l in K1, K2; subst; reflexivity).
  rewrite E. reflexivity.
Qed.
Lemma fact_wrong L h stl x a s : (1 <= l_prec L)%Z -> rval x = VNum a -> good a -> mod_fits (l_prec L) a one_num -> shows L (VNum a) = true ->
  (~ exists i, (0 <= i)%Z /\ (val a == inject_Z i)%Q) -> exists e, call (std_env L) h (d_fact L) stl [x] s = (OErr e, s).
Proof.
  intros Hp Hx Ga Fa Sa H. rewrite (call_num1 L h (d_fact L) stl x a s); [|repeat split; reflexivity|reflexivity|reflexivity|exact Hx].
  cbn [d_fact snd fdef o_impl fn_fact]. unfold bind. rewrite (natural_refused L a s Hp Ga Fa H).
  unfold calc_err, raise. cbn [wrapped]. rewrite Sa. eexists. reflexivity.
Qed.
Lemma ints_wrong L h nm f stl x y a b s : (1 <= l_prec L)%Z -> rval x = VNum a -> rval y = VNum b -> good a -> good b ->
  mod_fits (l_prec L) a one_num -> mod_fits (l_prec L) b one_num -> shows L (VNum a) = true -> shows L (VNum b) = true ->
  (~ exists i, (val a == inject_Z i)%Q) \/ (~ exists i, (val b == inject_Z i)%Q) ->
  exists e, call (std_env L) h (d_ints L nm f) stl [x; y] s = (OErr e, s).
Proof.
  intros Hp Hx Hy Ga Gb Fa Fb Sa Sb H. rewrite (call_num2 L h (d_ints L nm f) stl x y a b s); [|repeat split; reflexivity|reflexivity|reflexivity|exact Hx|exact Hy].
  cbn [d_ints snd fdef o_impl fn_ints]. unfold bind. rewrite Sa, Sb. cbn [andb].
  destruct (integer_spec L a s Hp Ga Fa) as (ba & Ea & Ba). destruct (integer_spec L b s Hp Gb Fb) as (bb & Eb & Bb).
  rewrite Ea. destruct ba.
  - rewrite Eb. destruct bb; [exfalso; destruct H as [H|H]; apply H; [now apply Ba|now apply Bb]|]. unfold calc_err, raise. cbn [wrapped]. eexists. reflexivity.
  - unfold ret, calc_err, raise. cbn [wrapped]. eexists. reflexivity.
Qed.

(** * What they give *)
Lemma fun_gives L h stl f x v k s : showable L k -> (3 * k + 1 <= l_prec L)%Z -> room (l_prec L) k f -> gives x v -> within k v -> v <> Open -> v <> Wrong ->
  (exists r, call (std_env L) h (fun_def L f) stl [x] s = (OOk r, s) /\ gives r (decide_fun f v) /\ no_error r) \/
  (decide_fun f v = Wrong /\ exists e, call (std_env L) h (fun_def L f) stl [x] s = (OErr e, s)).
Proof.
  intros Hs Hp Rm Gx Dx No Nw. destruct v as [q| | |]; try congruence; cbn [decide_fun within] in *.
  - pose proof Gx as (a & Ra & Ua & Ga & La & Va & Ca). destruct (apply_fun f q) as [z|] eqn:A.
    + left. destruct (fun_value L h stl f x q z k s (proj1 Hs) Hp (gives_holds _ _ Gx) Dx Rm A) as (n & C & Gn & Ln & Vn & Nc).
      exists (mkRes (VNum n) None None). split; [exact C|]. split; [|intros e; discriminate]. exists n. repeat (split; [assumption || reflexivity|]). rewrite (Nc a Ra). exact Ca.
    + right. split; [reflexivity|]. pose proof (gives_shows L k x (Worth q) Hs Gx Dx) as Sx. rewrite Ra in Sx. pose proof (lowest_size k a q Ga La Va Dx) as Sa.
      assert (F : mod_fits (l_prec L) a one_num) by (apply (size_mods _ k); try assumption; destruct Hs; lia).
      destruct f; cbn [apply_fun] in A; try discriminate A. cbn [fun_def]. apply (fact_wrong L h stl x a s); try assumption; [destruct Hs; lia|].
      destruct (whole q) as [z|] eqn:W.
      * destruct (z <? 0)%Z eqn:Z0; [|discriminate A]. apply Z.ltb_lt in Z0. intros (i & Hi & Ei). rewrite Va, (whole_red q z W) in Ei. rewrite inject_Z_injective in Ei. lia.
      * intros (i & _ & Ei). apply (not_whole a q Ga La Va W). eauto.
  - right. split; [reflexivity|]. destruct (fun_takes L f) as (T & T1 & T2). apply none_refused1; try assumption. apply Gx.
Qed.
Lemma fun2_gives L h stl f x y v w k s : showable L k -> (3 * k + 1 <= l_prec L)%Z -> gives x v -> gives y w -> within k v -> within k w -> v <> Open -> v <> Wrong -> w <> Open -> w <> Wrong ->
  (exists r, call (std_env L) h (fun2_def L f) stl [x; y] s = (OOk r, s) /\ gives r (decide_fun2 f v w) /\ no_error r) \/
  (decide_fun2 f v w = Wrong /\ exists e, call (std_env L) h (fun2_def L f) stl [x; y] s = (OErr e, s)).
Proof.
  intros Hs Hp Gx Gy Dx Dy No Nw No' Nw'. pose proof (gives_no_list _ _ Gx) as Lx. pose proof (gives_no_list _ _ Gy) as Ly.
  pose proof (gives_shows L k x v Hs Gx Dx) as Sx. pose proof (gives_shows L k y w Hs Gy Dy) as Sy.
  assert (R : is_exc (rval x) || is_exc (rval y) = false -> rval x = VNone \/ rval y = VNone -> exists e, call (std_env L) h (fun2_def L f) stl [x; y] s = (OErr e, s)).
  { intros He Hn. destruct (fun2_takes L f) as (T & T1 & T2). apply none_refused2; assumption. }
  destruct v as [q| | |]; try congruence; destruct w as [q'| | |]; try congruence; cbn [decide_fun2 within] in *.
  - pose proof Gx as (a & Ra & Ua & Ga & La & Va & Ca). pose proof Gy as (b & Rb & Ub & Gb & Lb & Vb & Cb). destruct (apply_fun2 f q q') as [z|] eqn:A.
    + left. destruct (fun2_value L h stl f x y q q' z k s (proj1 Hs) Hp (gives_holds _ _ Gx) (gives_holds _ _ Gy) Dx Dy A) as (n & C & Gn & Ln & Vn & Nc).
      exists (mkRes (VNum n) None None). split; [exact C|]. split; [|intros e; discriminate]. exists n. repeat (split; [assumption || reflexivity|]). rewrite (Nc a b Ra Rb). unfold format_of. rewrite Ca. exact Cb.
    + right. split; [reflexivity|]. rewrite Ra in Sx. rewrite Rb in Sy. pose proof (lowest_size k a q Ga La Va Dx) as Sa. pose proof (lowest_size k b q' Gb Lb Vb Dy) as Sb.
      assert (F : mod_fits (l_prec L) a one_num) by (apply (size_mods _ k); try assumption; destruct Hs; lia).
      assert (F' : mod_fits (l_prec L) b one_num) by (apply (size_mods _ k); try assumption; destruct Hs; lia).
      assert (N : (~ exists i, (val a == inject_Z i)%Q) \/ (~ exists i, (val b == inject_Z i)%Q)).
      { unfold apply_fun2 in A. destruct (whole q) as [z|] eqn:W; [|left; exact (not_whole a q Ga La Va W)]. destruct (whole q') as [z'|] eqn:W'; [|right; exact (not_whole b q' Gb Lb Vb W')]. discriminate A. }
      destruct f; cbn [fun2_def]; apply (ints_wrong L h _ _ stl x y a b s); try assumption; destruct Hs; lia.
  - right. split; [reflexivity|]. destruct Gx as (a & Ra & _). destruct Gy as [Rb _]. apply R; [rewrite Ra, Rb; reflexivity|auto].
  - right. split; [reflexivity|]. destruct Gy as (a & Ra & _). destruct Gx as [Rb _]. apply R; [rewrite Ra, Rb; reflexivity|auto].
  - right. split; [reflexivity|]. destruct Gy as [Ra _]. destruct Gx as [Rb _]. apply R; [rewrite Ra, Rb; reflexivity|auto].
Qed.
