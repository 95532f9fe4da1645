(** The unit chosen when units are simplified is the best of the candidates. *)
From Coq Require Import ZArith QArith Qpower Ascii String List Bool Lia Lqa.
From Verif Require Import Base Dec Num NumSpec Bases Units UnitsSpec UnitReg Syntax UnitCalcSpec UnitCalc SimplifySpec UnitsProofs2 SimplifyProofs.
Import ListNotations.
Open Scope Q_scope.

Lemma inv_le_one a : 1 <= a -> / a <= 1.
Proof. intros H. assert (0 < a) by lra. apply Qle_shift_inv_r; [assumption|]. lra. Qed.
Lemma inv_ge_one a : 0 < a -> a <= 1 -> 1 <= / a.
Proof. intros P H. apply Qle_shift_inv_l; [assumption|]. lra. Qed.
Lemma inv_anti a b : 0 < a -> a <= b -> / b <= / a.
Proof.
  intros P H. assert (P2 : 0 < b) by lra. apply Qle_shift_inv_l; [assumption|]. setoid_replace (/ b * a) with (a * / b) by apply Qmult_comm. 
  apply Qle_shift_div_r; [assumption|]. lra.
Qed.
Lemma away_within a b : 0 < a -> 0 < b -> away a <= away b -> within b a.
Proof.
  intros Pa Pb. unfold away, within. destruct (Qle_bool 1 a) eqn:A, (Qle_bool 1 b) eqn:B; intros H;
    try (apply Qle_bool_iff in A); try (apply Qle_bool_iff in B);
    try (assert (A' : a < 1) by (apply Qnot_le_lt; intros K; apply Qle_bool_iff in K; congruence));
    try (assert (B' : b < 1) by (apply Qnot_le_lt; intros K; apply Qle_bool_iff in K; congruence)).
  - right. split; [|exact H]. pose proof (inv_le_one b B). lra.
  - left. split; [lra|exact H].
  - right. split; [|lra]. apply inv_anti in H; [|apply Qinv_lt_0_compat, Pa]. setoid_rewrite Qinv_involutive in H. exact H.
  - left. split.
    + apply inv_anti in H; [|apply Qinv_lt_0_compat, Pa]. rewrite !Qinv_involutive in H. exact H.
    + assert (1 <= / b) by (apply inv_ge_one; lra). lra.
Qed.
Lemma nearer_true a b : nearer_one a b = true -> away a <= away b.
Proof. unfold nearer_one. intros H. apply negb_true_iff in H. apply Qlt_le_weak, Qnot_le_lt. intros K. apply Qle_bool_iff in K. congruence. Qed.
Lemma nearer_false a b : nearer_one a b = false -> away b <= away a.
Proof. unfold nearer_one. intros H. apply negb_false_iff in H. apply Qle_bool_iff, H. Qed.
Lemma choose_zero_from U v f m p : v == 0 -> forall cs b t x, choose U v f m p (map TUnit cs) (Some (TUnit b, v)) = Ok (Some (t, x)) ->
  exists c, t = TUnit c /\ x = v /\ In c (b :: cs) /\ forall d, In d (b :: cs) -> away (uscale (c_unit c)) <= away (uscale (c_unit d)).
Proof.
  intros V. assert (V' : Qeq_bool v 0 = true) by (apply Qeq_bool_iff, V).
  induction cs as [|c0 cs IH]; intros b t x; cbn [map choose].
  - intros H. assert (E : t = TUnit b) by congruence. assert (E2 : x = v) by congruence. exists b. split; [exact E|]. split; [exact E2|]. split; [left; reflexivity|].
    intros d [<-|[]]. apply Qle_refl.
  - rewrite V'. destruct (nearer_one (uscale (c_unit c0)) (uscale (c_unit b))) eqn:N; cbn [obind]; intros H; apply IH in H; destruct H as (c & E1 & E2 & Hin & Hd); exists c; (split; [exact E1|]); (split; [exact E2|]).
    + split; [destruct Hin as [Hin|Hin]; [right; left; exact Hin|right; right; exact Hin]|].
      intros d [<-|[<-|K]]; [|apply Hd; left; reflexivity|apply Hd; right; exact K].
      apply nearer_true in N. eapply Qle_trans; [apply Hd; left; reflexivity|exact N].
    + split; [destruct Hin as [Hin|Hin]; [left; exact Hin|right; right; exact Hin]|].
      intros d [<-|[<-|K]]; [apply Hd; left; reflexivity| |apply Hd; right; exact K].
      apply nearer_false in N. eapply Qle_trans; [apply Hd; left; reflexivity|exact N].
Qed.
Theorem choose_zero : forall U v f m p cs t x, v == 0 -> Forall (fun c => 0 < uscale (c_unit c)) cs -> choose U v f m p (map TUnit cs) None = Ok (Some (t, x)) ->
  exists c, t = TUnit c /\ x = v /\ In c cs /\ forall d, In d cs -> within (uscale (c_unit d)) (uscale (c_unit c)).
Proof.
  intros U v f m p cs t x V P H. destruct cs as [|b cs]; [discriminate H|]. cbn [map choose] in H.
  assert (V' : Qeq_bool v 0 = true) by (apply Qeq_bool_iff, V). rewrite V' in H. cbn [obind] in H.
  apply choose_zero_from in H; [|exact V]. destruct H as (c & E1 & E2 & Hin & Hd). exists c. split; [exact E1|]. split; [exact E2|]. split; [exact Hin|].
  intros d K. rewrite Forall_forall in P. apply away_within; [apply P, Hin|apply P, K|apply Hd, K].
Qed.

Definition worth (f : upl) (m p : Z) (v : Q) (t : target) (x : Q) : Prop := exists w, convert_found f v m = Ok w /\ tconvert t w (p * m)%Z = Ok x.
Lemma choose_best U v f m p : ~ v == 0 -> orders (u_closer U) -> forall ts best t x, choose U v f m p ts best = Ok (Some (t, x)) ->
  (best = Some (t, x) \/ (In t ts /\ worth f m p v t x)) /\
  (forall b y, best = Some (b, y) -> u_closer U y x = false) /\
  forall t', In t' ts -> exists x', worth f m p v t' x' /\ u_closer U x' x = false.
Proof.
  intros V [As Tr]. assert (V' : Qeq_bool v 0 = false) by (destruct (Qeq_bool v 0) eqn:E; [apply Qeq_bool_iff in E; contradiction|reflexivity]).
  assert (Irr : forall a, u_closer U a a = false) by (intros a; destruct (u_closer U a a) eqn:E; [rewrite <- E; apply As, E|reflexivity]).
  induction ts as [|t0 ts IH]; intros best t x; cbn [choose].
  - intros H. split; [left; congruence|]. split; [|intros t' []]. intros b y E. assert (Ey : y = x) by congruence. subst y. apply Irr.
  - rewrite V'. destruct (convert_found f v m) as [w| |] eqn:F; cbn [obind]; try discriminate. destruct (tconvert t0 w (p * m)%Z) as [x0| |] eqn:T; cbn [obind]; try discriminate.
    assert (W : worth f m p v t0 x0) by (exists w; auto).
    destruct best as [[b y]|].
    + destruct (u_closer U x0 y) eqn:C; cbn [obind]; intros H; apply IH in H; destruct H as (H1 & H2 & H3).
      * pose proof (H2 _ _ eq_refl) as H2'. split; [|split].
        -- right. destruct H1 as [H1|[H1 H1']]; [|split; [right; exact H1|exact H1']]. assert (Et : t = t0) by congruence. assert (Ex : x = x0) by congruence. subst t x.
           split; [left; reflexivity|exact W].
        -- intros b' y' E. assert (Ey : y' = y) by congruence. subst y'. eapply Tr; [apply As, C|exact H2'].
        -- intros t' [<-|K]; [exists x0; auto|apply H3, K].
      * pose proof (H2 _ _ eq_refl) as H2'. split; [|split].
        -- destruct H1 as [H1|[H1 H1']]; [left; exact H1|right; split; [right; exact H1|exact H1']].
        -- exact H2.
        -- intros t' [<-|K]; [exists x0; split; [exact W|]; eapply Tr; [exact C|exact H2']|apply H3, K].
    + cbn [obind]. intros H. apply IH in H. destruct H as (H1 & H2 & H3). pose proof (H2 _ _ eq_refl) as H2'. split; [|split; [intros b' y' E; discriminate E|]].
      * right. destruct H1 as [H1|[H1 H1']]; [|split; [right; exact H1|exact H1']]. assert (Et : t = t0) by congruence. assert (Ex : x = x0) by congruence. subst t x.
        split; [left; reflexivity|exact W].
      * intros t' [<-|K]; [exists x0; auto|apply H3, K].
Qed.
Lemma found_amount : forall f v m, all_scaled f -> exists w, convert_found f v m = Ok w /\ w == v * Qpower (factor f) m.
Proof.
  induction f as [|[u q] f IH]; intros v m H; cbn [convert_found factor].
  - exists v. split; [reflexivity|]. rewrite Qpower_1. ring.
  - apply Forall_cons_iff in H. destruct H as [A B]. cbn [fst] in A. destruct (uconvert_scaled u v (- (q * m)) false A) as (x & -> & X). cbn [obind].
    destruct (IH x m B) as (w & -> & W). exists w. split; [reflexivity|]. rewrite W, X, Qmult_power, Qpower_opp, Qpower_mult. field. destruct A as [_ A]. apply qp_nz, qp_nz, A.
Qed.
Lemma worth_amount f m p v t x : all_scaled f -> all_scaled (tlist t) -> worth f m p v t x -> as_much f (tlist t) m p v x.
Proof.
  intros F T (w & W & X). destruct (found_amount f v m F) as (w' & W' & E). rewrite tconvert_list in X.
  destruct (lconvert_scaled (tlist t) false T w (p * m)) as (x' & X' & E'). unfold as_much.
  assert (Ew : w = w') by congruence. assert (Ex : x = x') by congruence. subst w' x'. rewrite E', E. field. apply qp_nz, factor_nz, T.
Qed.
Theorem choose_closest : forall U v f m p ts t x, ~ v == 0 -> orders (u_closer U) -> all_scaled f -> Forall (fun t => all_scaled (tlist t)) ts ->
  choose U v f m p ts None = Ok (Some (t, x)) ->
  In t ts /\ as_much f (tlist t) m p v x /\ forall t', In t' ts -> exists x', as_much f (tlist t') m p v x' /\ u_closer U x' x = false.
Proof.
  intros U v f m p ts t x V O F T H. apply choose_best in H; [|assumption|assumption]. destruct H as [[H|[H1 H2]] [_ H3]]; [discriminate H|].
  rewrite Forall_forall in T. split; [exact H1|]. split; [apply worth_amount; auto|]. intros t' K. destruct (H3 t' K) as (x' & W & C). exists x'. split; [apply worth_amount; auto|exact C].
Qed.
