(** What functions of numbers give. *)
From Coq Require Import ZArith QArith Qabs Qround Ascii String List Bool Lia Lqa.
From Verif Require Import Base BaseProofs Dec DecProofs Num NumSpec NumProofs NumProofs2 NumProofs3 NumProofs4 Lex LexSpec Bases BasesProofs Formats Units Install Syntax Pos Call CallSpec CallProofs Loop Parse Exec ExecSpec Std StdSpec StdProofs StdProofs4 StdProofs5 StdProofs6 StdProofs7 StdProofs9 ArithSpec ArithProofs RoundSpec RoundProofs ArithTextSpec ArithRunSpec ArithTextProofs4.
Import ListNotations.
Open Scope nat_scope.

(** * Whole numbers *)
Lemma whole_red q z : whole q = Some z -> (q == inject_Z z)%Q.
Proof.
  unfold whole. destruct (Pos.eqb_spec (Qden (Qred q)) 1) as [D|]; [|discriminate]. intros E. injection E as <-. rewrite <- (Qred_correct q) at 1.
  destruct (Qred q) as [a b]. cbn [Qnum Qden] in *. subst b. reflexivity.
Qed.
Lemma whole_number p k n q z : good n -> lowest n -> (val n == q)%Q -> digits_le k q -> (k <= p)%Z -> whole q = Some z -> StdSpec.whole p n z.
Proof.
  intros G Lo V D Hk W. destruct (lowest_parts n q G Lo V) as [E1 E2]. unfold whole in W. destruct (Pos.eqb_spec (Qden (Qred q)) 1) as [D1|]; [|discriminate]. injection W as W.
  split; [congruence|]. split; [rewrite <- E2, D1; reflexivity|]. destruct D as [D _]. rewrite <- W. apply (Z.lt_le_trans _ _ _ D). apply Z.pow_le_mono_r; lia.
Qed.
Lemma whole_lowest z c w : good (mkNum z 1 c w) /\ lowest (mkNum z 1 c w) /\ (val (mkNum z 1 c w) == inject_Z z)%Q.
Proof.
  split; [reflexivity|]. split; [intros d _ H2; cbn [nden] in H2; destruct (Z.divide_1_r d H2) as [->| ->]; [left|right]; reflexivity|]. unfold val. cbn [nnum nden]. field.
Qed.

(** * Rounding *)
Lemma floor_unique q z : floor_of q z -> z = Qfloor q.
Proof.
  intros [H1 H2]. pose proof (Qfloor_le q) as F1. pose proof (Qlt_floor q) as F2.
  assert (A : (inject_Z z < inject_Z (Qfloor q + 1))%Q) by (eapply Qle_lt_trans; eassumption). assert (B : (inject_Z (Qfloor q) < inject_Z (z + 1))%Q) by (rewrite inject_Z_plus; eapply Qle_lt_trans; eassumption).
  rewrite <- Zlt_Qlt in A, B. lia.
Qed.
Lemma ceil_unique q z : ceil_of q z -> z = Qceiling q.
Proof.
  intros [H1 H2]. unfold Qceiling. rewrite <- (floor_unique (- q) (- z)); [lia|]. unfold floor_of. rewrite inject_Z_opp. split; lra.
Qed.
Lemma nearest_unique q z : nearest_of q z -> z = (if Qle_bool 0 q then Qfloor (q + (1#2)) else Qceiling (q - (1#2)))%Q.
Proof.
  intros [H1 H2]. destruct (Qle_bool 0 q) eqn:E.
  - apply Qle_bool_iff in E. specialize (H1 E). apply floor_unique. unfold floor_of. lra.
  - assert (N : (q <= 0)%Q) by (destruct (Qlt_le_dec 0 q) as [K|K]; [|exact K]; apply Qlt_le_weak, Qle_bool_iff in K; congruence). specialize (H2 N). apply ceil_unique. unfold ceil_of. lra.
Qed.

(** * The functions *)
Definition d_abs (L : lib) : opdef := snd (fdef ($"abs") 1 1 (all_are tynum) (fn_abs L)).
Lemma find_abs L : assoc ($"abs") (g_funcs (std L)) = Some (d_abs L). Proof. reflexivity. Qed.
Definition fun_def (L : lib) (f : afun) : opdef :=
  match f with
  | Abs => d_abs L | Fact => d_fact L
  | Floor => rounding_def L ($"floor") (fun p x => Some (num_floor p x)) | Ceil => rounding_def L ($"ceil") (fun p x => Some (num_ceil p x)) | Round => rounding_def L ($"round") num_round
  end.
Definition fun2_def (L : lib) (f : afun2) : opdef := match f with Gcd => d_ints L ($"gcd") Z.gcd | Lcm => d_ints L ($"lcm") Z.lcm end.
Lemma find_fun L f : assoc (fname f) (g_funcs (std L)) = Some (fun_def L f). Proof. destruct f; reflexivity. Qed.
Lemma find_fun2 L f : assoc (fname2 f) (g_funcs (std L)) = Some (fun2_def L f). Proof. destruct f; reflexivity. Qed.
Lemma fun_excs L f : o_excs (fun_def L f) = false. Proof. destruct f; reflexivity. Qed.
Lemma fun2_excs L f : o_excs (fun2_def L f) = false. Proof. destruct f; reflexivity. Qed.
Lemma abs_val n : good n -> (val (mkNum (Z.abs (nnum n)) (nden n) (ncast n) None) == Qabs (val n))%Q.
Proof.
  intros G. unfold val. cbn [nnum nden]. unfold good in G. unfold Qdiv. rewrite Qabs_Qmult. rewrite (Qabs_pos (/ _)); [reflexivity|]. apply Qinv_le_0_compat. change 0%Q with (inject_Z 0). rewrite <- Zle_Qle. lia.
Qed.
Lemma fun_value L h stl f x qx q k s : (0 <= k)%Z -> (3 * k + 1 <= l_prec L)%Z -> holds_value x qx -> digits_le k qx -> room (l_prec L) k f -> apply_fun f qx = Some q ->
  exists n, call (std_env L) h (fun_def L f) stl [x] s = (OOk (mkRes (VNum n) None None), s) /\ good n /\ lowest n /\ (val n == q)%Q /\ forall a, rval x = VNum a -> ncast n = ncast a.
Proof.
  intros Hk Hp (a & Ra & Ua & Ga & La & Va & Pa) Dx Rm Hq. pose proof (lowest_size k a qx Ga La Va Dx) as Sa. assert (P1 : (1 <= l_prec L)%Z) by lia.
  assert (W : forall n, call (std_env L) h (fun_def L f) stl [x] s = (OOk (mkRes (VNum n) None None), s) -> good n -> lowest n -> (val n == q)%Q -> ncast n = ncast a ->
    exists n, call (std_env L) h (fun_def L f) stl [x] s = (OOk (mkRes (VNum n) None None), s) /\ good n /\ lowest n /\ (val n == q)%Q /\ forall a, rval x = VNum a -> ncast n = ncast a).
  { intros n H1 H2 H3 H4 H5. exists n. repeat (split; [assumption|]). intros a' E. congruence. }
  assert (K1 : (1 < 10 ^ k)%Z) by (destruct Dx as [_ D]; lia).
  assert (R : forall name g kind, fun_def L f = rounding_def L name g -> In (name, g, kind) rounding_fns -> room (l_prec L) k Floor ->
    (forall z, kind qx z -> inject_Z z = q) -> exists n, call (std_env L) h (fun_def L f) stl [x] s = (OOk (mkRes (VNum n) None None), s) /\ good n /\ lowest n /\ (val n == q)%Q /\ forall a, rval x = VNum a -> ncast n = ncast a).
  { intros name g kind Ed Hf Hr Hz. destruct (rounding_fn name g kind Hf) as (R1 & R2 & _). assert (Hd : hidden_digits (ncast a) = 0%Z) by (destruct (ncast a) as [[]|]; congruence || reflexivity).
    destruct (round_whole L h name g kind stl x a s k R1 R2) as (n & C & (z & Kz & Vz & Gn & Ln) & Nc); try assumption.
    - unfold number_at. rewrite Ra. reflexivity.
    - rewrite Hd, Z.pow_0_r. exact K1.
    - rewrite Hd, Z.add_0_l, Z.pow_0_r in *. rewrite Ua in C. apply (W n); try assumption; [rewrite Ed; exact C|]. rewrite Vz. rewrite <- (Hz z); [change (inject_Z 1) with 1%Q; field|].
      apply (R2 (val a * inject_Z 1)%Q); [|exact Kz]. change (inject_Z 1) with 1%Q. rewrite Qmult_1_r. exact Va. }
  destruct f; cbn [apply_fun] in Hq.
  - injection Hq as <-. apply (W (mkNum (Z.abs (nnum a)) (nden a) (ncast a) None)); try reflexivity.
    + rewrite (call_num1 L h (fun_def L Abs) stl x a s); [|repeat split; reflexivity|reflexivity|reflexivity|exact Ra]. cbn [fun_def d_abs snd fdef o_impl fn_abs]. unfold with_unit, ret, finish. cbn [or_val or_unit or_ref o_autores]. rewrite Ua.
      unfold num_abs. rewrite (floor_rnd_small (l_prec L) (Z.abs (nnum a))); [destruct (ncast a); reflexivity|exact P1|reflexivity|].
      rewrite Z.abs_involutive. destruct Sa as [Sa _]. apply Z.lt_le_incl. eapply Z.lt_le_trans; [exact Sa|]. apply Z.pow_le_mono_r; lia.
    + exact Ga.
    + intros d D1 D2. cbn [nnum nden] in D1, D2. apply (La d); [apply Z.divide_abs_r, D1|exact D2].
    + rewrite abs_val by exact Ga. rewrite Va. reflexivity.
  - injection Hq as <-. apply (R ($"floor") (fun p x => Some (num_floor p x)) floor_of eq_refl); [now left|exact Rm|]. intros z Hz. now rewrite (floor_unique _ _ Hz).
  - injection Hq as <-. apply (R ($"ceil") (fun p x => Some (num_ceil p x)) ceil_of eq_refl); [right; now left|exact Rm|]. intros z Hz. now rewrite (ceil_unique _ _ Hz).
  - injection Hq as <-. apply (R ($"round") num_round nearest_of eq_refl); [right; right; now left|exact Rm|]. intros z Hz. rewrite (nearest_unique _ _ Hz). destruct (Qle_bool 0 qx); reflexivity.
  - destruct (whole qx) as [z|] eqn:Wz; [|discriminate]. destruct (z <? 0)%Z eqn:Z0; [discriminate|]. injection Hq as <-. apply Z.ltb_ge in Z0.
    pose proof (whole_number (l_prec L) k a qx z Ga La Va Dx ltac:(lia) Wz) as Wa. cbn [fun_def].
    destruct (whole_lowest (factorial (Z.to_nat z)) (ncast a) None) as (G1 & G2 & G3). apply (W (mkNum (factorial (Z.to_nat z)) 1 (ncast a) None)); try assumption; [|rewrite G3, factorial_spec; reflexivity|reflexivity].
    cbn [fun_def]. rewrite (fact_call L h stl x a z s P1 Ra Wa Z0), Ua. reflexivity.
Qed.
Lemma fun2_value L h stl f x y qx qy q k s : (0 <= k)%Z -> (3 * k + 1 <= l_prec L)%Z -> holds_value x qx -> holds_value y qy -> digits_le k qx -> digits_le k qy -> apply_fun2 f qx qy = Some q ->
  exists n, call (std_env L) h (fun2_def L f) stl [x; y] s = (OOk (mkRes (VNum n) None None), s) /\ good n /\ lowest n /\ (val n == q)%Q /\ forall a b, rval x = VNum a -> rval y = VNum b -> ncast n = format_of a b.
Proof.
  intros Hk Hp (a & Ra & Ua & Ga & La & Va & _) (b & Rb & Ub & Gb & Lb & Vb & _) Dx Dy Hq. unfold apply_fun2 in Hq. destruct (whole qx) as [i|] eqn:Wi; [|discriminate]. destruct (whole qy) as [j|] eqn:Wj; [|discriminate]. injection Hq as <-.
  pose proof (whole_number (l_prec L) k a qx i Ga La Va Dx ltac:(lia) Wi) as Wa. pose proof (whole_number (l_prec L) k b qy j Gb Lb Vb Dy ltac:(lia) Wj) as Wb.
  assert (P1 : (1 <= l_prec L)%Z) by lia.
  set (g := match f with Gcd => Z.gcd | Lcm => Z.lcm end). destruct (whole_lowest (g i j) (format_of a b) None) as (G1 & G2 & G3). exists (mkNum (g i j) 1 (format_of a b) None).
  split; [|split; [exact G1|split; [exact G2|split; [rewrite G3; unfold g; destruct f; reflexivity|intros a' b' Ea Eb; rewrite Ra in Ea; rewrite Rb in Eb; injection Ea as <-; injection Eb as <-; reflexivity]]]].
  unfold g. destruct f; cbn [fun2_def]; rewrite (ints_call L h _ _ stl x y a b i j s P1 Ra Rb Wa Wb), Ua; reflexivity.
Qed.

(** * Numerals have no format *)
Lemma lit_cast p l n : number_of_lit p l = Some n -> ncast n = None.
Proof.
  assert (R : forall c a b, ncast (num_reduce p c a b) = c).
  { intros c a b. unfold num_reduce. destruct (b <? 0)%Z; cbv zeta; match goal with |- ncast (if ?t then _ else _) = _ => destruct t end; reflexivity. }
  unfold number_of_lit, num_make. destruct (Qeq_bool 1 0); [discriminate|].
  match goal with |- (let '(_, _) := ?x in _) = _ -> _ => destruct x as [u v] end.
  match goal with |- (let '(_, _) := ?x in _) = _ -> _ => destruct x as [u' v'] end.
  intros H. injection H as <-. apply R.
Qed.
