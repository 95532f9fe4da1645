(** The simplification ends when the registry has no compound units. *)
From Coq Require Import ZArith QArith Qpower Qround Ascii String List Bool Lia.
From Verif Require Import Base BaseProofs Dec Num Bases Units UnitsSpec UnitsProofs UnitsProofs2 UnitsProofs3 UnitsProofs4 UnitReg Install Syntax Parse UnitCalc SimplifySpec SimplifyProofs EndlessProofs.
Import ListNotations.
Open Scope Z_scope.

Definition wt (l : upl) : Z := wsum [] l.
Lemma wt_nonneg l : 0 <= wt l. Proof. apply wsum_nonneg. Qed.
Lemma wt_add u q l : wt (pl_add ueqb u q l) <= wt l + Z.abs q.
Proof.
  unfold wt. induction l as [|[k p] l IH]; cbn [pl_add wsum outside existsb negb]; [lia|]. unfold outside in *. cbn [existsb negb] in *.
  destruct (ueqb k u); cbn [wsum]; unfold outside; cbn [existsb negb]; [|lia]. destruct (p + q =? 0) eqn:E; cbn [wsum]; unfold outside; cbn [existsb negb]; lia.
Qed.
Lemma all_outside rel l : other_units rel [] l = subunits rel l.
Proof.
  unfold other_units. cbn [existsb negb]. induction (subunits rel l) as [|x s IH]; cbn [filter]; [reflexivity|]. now rewrite IH.
Qed.
(** What the search finds in [l] *)
Definition part_of (l f : upl) : Prop := once ueqb f /\ nonzero f /\ forall u n, In (u, n) f -> exists q, pl_find ueqb u l = Some q /\ between q n.
Lemma found_part rel l c : once ueqb l -> Forall2 between (upow (subunits rel l)) c -> part_of l (found_units (subunits rel l) c).
Proof.
  intros O F. rewrite <- (all_outside rel l) in *. destruct (found_shape rel [] l c O F) as (A & B & C). split; [exact A|]. split; [exact B|].
  intros u n I. apply C in I as [_ I]. exact I.
Qed.
Lemma ratio_bound q n m k : between q n -> n <> 0 -> (m <= inject_Z q / inject_Z n)%Q -> (m == inject_Z k)%Q -> 0 <= k -> between q (n * k).
Proof.
  intros B N H E K. rewrite E in H. clear E m. unfold between in *.
  assert (Nq : ~ (inject_Z n == 0)%Q) by (unfold Qeq; cbn; lia).
  destruct (Z.lt_ge_cases 0 n) as [P|P].
  - apply (Qmult_le_compat_r _ _ (inject_Z n)) in H; [|unfold Qle; cbn; lia].
    assert (E : (inject_Z q / inject_Z n * inject_Z n == inject_Z q)%Q) by (field; exact Nq). rewrite E in H. rewrite <- inject_Z_mult, <- Zle_Qle in H. left. nia.
  - apply (Qmult_le_compat_r _ _ (inject_Z (- n))) in H; [|unfold Qle; cbn; lia].
    assert (E : (inject_Z q / inject_Z n * inject_Z (- n) == inject_Z (- q))%Q) by (rewrite !inject_Z_opp; field; exact Nq). rewrite E in H.
    rewrite <- inject_Z_mult, <- Zle_Qle in H. right. nia.
Qed.
Lemma ratio_one q n : between q n -> n <> 0 -> (1 <= inject_Z q / inject_Z n)%Q.
Proof.
  intros B N. assert (Nq : ~ (inject_Z n == 0)%Q) by (unfold Qeq; cbn; lia). unfold between in B. destruct (Z.lt_ge_cases 0 n) as [P|P].
  - apply (Qmult_lt_0_le_reg_r _ _ (inject_Z n)); [unfold Qlt; cbn; lia|].
    assert (E : (inject_Z q / inject_Z n * inject_Z n == inject_Z q)%Q) by (field; exact Nq). rewrite E, Qmult_1_l, <- Zle_Qle. lia.
  - apply (Qmult_lt_0_le_reg_r _ _ (inject_Z (- n))); [unfold Qlt; cbn; lia|].
    assert (E : (inject_Z q / inject_Z n * inject_Z (- n) == inject_Z (- q))%Q) by (rewrite !inject_Z_opp; field; exact Nq). rewrite E, Qmult_1_l, <- Zle_Qle. lia.
Qed.
Lemma power_ratio_spec l : forall f o, (forall u n, In (u, n) f -> n <> 0 /\ exists q, pl_find ueqb u l = Some q /\ between q n) -> power_ratio l f = Ok o ->
  match o with
  | None => f = []
  | Some m => (1 <= m)%Q /\ f <> [] /\ forall u n q, In (u, n) f -> pl_find ueqb u l = Some q -> (m <= inject_Z q / inject_Z n)%Q
  end.
Proof.
  induction f as [|[u n] f IH]; intros o H; cbn [power_ratio]; [intros E; injection E as <-; reflexivity|].
  destruct (H u n (or_introl eq_refl)) as (N & q & F & B). rewrite F.
  destruct (power_ratio l f) as [o'| |]; cbn [obind]; try discriminate. cbv zeta. intros E. injection E as <-.
  assert (H' : forall u n, In (u, n) f -> n <> 0 /\ exists q, pl_find ueqb u l = Some q /\ between q n) by (intros; apply H; now right).
  specialize (IH o' H' eq_refl). pose proof (ratio_one q n B N) as R1. destruct o' as [y|].
  - destruct IH as (I1 & _ & I3). destruct (Qle_bool (inject_Z q / inject_Z n) y) eqn:L.
    + apply Qle_bool_iff in L. split; [exact R1|]. split; [discriminate|]. intros w p z [I|I] G.
      * injection I as <- <-. rewrite F in G. injection G as <-. apply Qle_refl.
      * eapply Qle_trans; [exact L|]. now apply (I3 w).
    + assert (L' : (y <= inject_Z q / inject_Z n)%Q).
      { apply Qnot_lt_le. intros Z. apply Qlt_le_weak in Z. apply Qle_bool_iff in Z. congruence. }
      split; [exact I1|]. split; [discriminate|]. intros w p z [I|I] G.
      * injection I as <- <-. rewrite F in G. injection G as <-. exact L'.
      * now apply (I3 w).
  - subst f. split; [exact R1|]. split; [discriminate|]. intros w p z [I|[]] G. injection I as <- <-. rewrite F in G. injection G as <-. apply Qle_refl.
Qed.
Lemma whole_eq m k : whole m = Ok k -> (m == inject_Z k)%Q.
Proof.
  unfold whole. destruct (Qnum m mod Zpos (Qden m) =? 0) eqn:E; [|discriminate]. apply Z.eqb_eq in E. intros H. injection H as <-.
  unfold Qfloor, Qeq. destruct m as [a b]. cbn [Qnum Qden inject_Z] in *. rewrite Z.mul_1_r. pose proof (Z.div_mod a (Zpos b)). lia.
Qed.
Lemma mult_power_spec l f m k : part_of l f -> mult_power l f = Ok m -> whole m = Ok k ->
  1 <= k /\ f <> [] /\ forall u n, In (u, n) f -> exists q, pl_find ueqb u l = Some q /\ between q (n * k).
Proof.
  intros (_ & NZ & P). unfold mult_power. unfold nonzero in NZ. rewrite Forall_forall in NZ.
  assert (H : forall u n, In (u, n) f -> n <> 0 /\ exists q, pl_find ueqb u l = Some q /\ between q n) by (intros u n I; split; [exact (NZ _ I)|now apply P]).
  destruct (power_ratio l f) as [o| |] eqn:E; cbn [obind]; try discriminate. apply power_ratio_spec in E; [|exact H].
  destruct o as [x|]; [|discriminate]. intros Hm Hw. injection Hm as <-. apply whole_eq in Hw. destruct E as (E1 & E2 & E3).
  assert (K : 1 <= k) by (rewrite Hw in E1; change 1%Q with (inject_Z 1) in E1; now rewrite Zle_Qle).
  split; [exact K|]. split; [exact E2|]. intros u n I. destruct (H u n I) as (N & q & F & B). exists q. split; [exact F|].
  apply (ratio_bound q n x k B N); [now apply (E3 u)|exact Hw|lia].
Qed.
Lemma wt_without l k : forall f, part_of l f -> (forall u n, In (u, n) f -> exists q, pl_find ueqb u l = Some q /\ between q (n * k)) -> 1 <= k ->
  wt (without f k l) = wt l - k * zsum (map (fun e => Z.abs (snd e)) f).
Proof.
  intros f (O & _ & _) H K. unfold wt, without.
  pose proof (wsum_remove_list [] (map (fun e => (fst e, snd e * k)) f) l) as W.
  assert (E : forall l, fold_left (fun l e => pl_add ueqb (fst e) (- (snd e * k)) l) f l = fold_left (fun l e => pl_add ueqb (fst e) (- snd e) l) (map (fun e => (fst e, snd e * k)) f) l).
  { clear. induction f as [|e f IH]; intros l; cbn [fold_left map fst snd]; [reflexivity|]. apply IH. }
  rewrite E, W.
  - f_equal. clear - K. induction f as [|e f IH]; cbn [map zsum fold_right fst snd]; [lia|]. unfold zsum in *. rewrite IH. rewrite Z.abs_mul. nia.
  - clear - O. induction f as [|[u n] f IH]; cbn [map once fst]; [exact I|]. destruct O as [O1 O2]. split; [|now apply IH]. apply Forall_map. exact O1.
  - intros u c I. apply in_map_iff in I as ([w n] & E' & I). cbn [fst snd] in E'. injection E' as <- <-. split; [reflexivity|]. now apply H.
Qed.
Lemma remove_found_list m : forall f v l w l', remove_found f m v l = Ok (w, l') -> l' = without f m l.
Proof.
  unfold without. induction f as [|[u q] f IH]; intros v l w l'; cbn [remove_found fold_left fst snd]; [intros H; now injection H|].
  unfold removeandconvert. destruct (uconvert u v (- (q * m)) false); cbn [obind]; try discriminate. cbn [fst snd].
  unfold removeall, addall, ulist. cbn [fold_left fst snd]. rewrite Z.mul_1_l. apply IH.
Qed.
(** What gets smaller *)
Definition lone (l : upl) : Z := match l with [(_, q)] => if q <? 0 then 1 else 0 | _ => 0 end.
Definition todo (l : upl) : Z := 2 * wt l + lone l.
Lemma lone_bound l : 0 <= lone l <= 1.
Proof. unfold lone. destruct l as [|[u q] [|]]; try lia. destruct (q <? 0); lia. Qed.
Lemma two_abs (f : upl) : nonzero f -> (1 < length f)%nat -> 2 <= zsum (map (fun e => Z.abs (snd e)) f).
Proof.
  destruct f as [|[u n] [|[w m] f]]; cbn [length]; try lia. intros H _. inversion H as [|? ? A B]; subst. inversion B as [|? ? C D]; subst. cbn [snd] in A, C.
  cbn [map zsum fold_right snd]. assert (0 <= zsum (map (fun e : unit * Z => Z.abs (snd e)) f)).
  { clear. induction f as [|e f IH]; cbn [map zsum fold_right]; [lia|]. unfold zsum in IH. lia. }
  unfold zsum in *. lia.
Qed.
Lemma without_once f k l : once ueqb l -> once ueqb (without f k l).
Proof. unfold without. apply (fold_add_once (fun e => - (snd e * k)) f l). Qed.
Lemma try_found_less U systems power : Z.abs power = 1 -> forall ts, Forall (fun t => exists c, t = TUnit c) ts ->
  forall fs v l y, once ueqb l -> Forall (part_of l) fs -> try_found U systems ts power fs v l = Ok (Some y) -> todo (snd y) < todo l /\ once ueqb (snd y).
Proof.
  intros Hp ts Ht. induction fs as [|f fs IH]; intros v l y O Hf; cbn [try_found]; [discriminate|].
  inversion Hf as [|? ? F1 F2]; subst.
  destruct (mult_power l f) as [m| |] eqn:M; cbn [obind]; try discriminate. cbv zeta. set (ts' := filter _ ts).
  set (single := match l with [(_, q)] => _ | _ => false end).
  destruct (((1 <? length f)%nat || single) && negb (is_nil ts')) eqn:Cond; [|apply IH; auto].
  apply andb_true_iff in Cond as [Cond _].
  destruct (whole m) as [k| |] eqn:W; cbn [obind]; try discriminate.
  destruct (choose U v f k power ts' None) as [[[t x]|]| |] eqn:C; cbn [obind]; try discriminate; [|apply IH; auto].
  apply choose_in in C as [C|[? C]]; [|discriminate]. apply filter_In in C as [C _]. rewrite Forall_forall in Ht. destruct (Ht t C) as [cd ->].
  destruct (remove_found f k v l) as [[v1 l1]| |] eqn:R; cbn [obind fst snd]; try discriminate. apply remove_found_list in R. subst l1.
  unfold add_target. destruct (tconvert (TUnit cd) v1 (power * k)) as [v2| |]; cbn [obind]; try discriminate.
  assert (EA : addall (without f k l) (tlist (TUnit cd)) (power * k) = pl_add ueqb (c_unit cd) (power * k) (without f k l)).
  { unfold addall, tlist, ulist. cbn [fold_left fst snd]. now rewrite Z.mul_1_l. }
  rewrite EA. clear EA. set (l2 := pl_add ueqb (c_unit cd) (power * k) (without f k l)). intros H. injection H as <-. cbn [snd]. subst l2.
  destruct (mult_power_spec l f m k F1 M W) as (K & NE & Q).
  pose proof (wt_without l k f F1 Q K) as WW. split; [|apply pl_add_once; [apply equiv_unit|now apply without_once]].
  destruct (1 <? length f)%nat eqn:L.
  - apply Nat.ltb_lt in L. pose proof (two_abs f (proj1 (proj2 F1)) L) as T. unfold todo.
    pose proof (wt_add (c_unit cd) (power * k) (without f k l)) as A. rewrite Z.abs_mul, Hp, Z.mul_1_l, (Z.abs_eq k) in A by lia.
    pose proof (lone_bound (pl_add ueqb (c_unit cd) (power * k) (without f k l))). pose proof (lone_bound l). nia.
  - cbn [orb] in Cond. unfold single in Cond. destruct l as [|[u q] [|]]; try discriminate. apply andb_true_iff in Cond as [Neg Eq].
    apply Z.ltb_lt in Neg. apply Qeq_bool_iff in Eq. apply whole_eq in W. rewrite W in Eq.
    assert (Eq' : q = - (power * k)) by (unfold Qeq in Eq; cbn in Eq; lia).
    assert (P1 : power = 1) by nia. subst power.
    apply Nat.ltb_ge in L. destruct f as [|[w n] [|]]; [congruence| |cbn [length] in L; lia].
    destruct (Q w n (or_introl eq_refl)) as (q0 & Fw & B). cbn [pl_find] in Fw. destruct (ueqb u w) eqn:Euw; [|discriminate]. injection Fw as <-.
    assert (n * k = q).
    { unfold between in B. destruct F1 as (_ & NZ & F1). inversion NZ as [|? ? N0 _]; subst. cbn [snd] in N0. destruct (F1 w n (or_introl eq_refl)) as (q1 & Fq & B1).
      cbn [pl_find] in Fq. rewrite Euw in Fq. injection Fq as <-. unfold between in B1. nia. }
    unfold without. cbn [fold_left fst snd pl_add]. rewrite Euw. replace (q + - (n * k)) with 0 by lia. cbn [Z.eqb pl_add].
    unfold todo, wt, lone. cbn [wsum]. unfold outside. cbn [existsb negb]. destruct (1 * k <? 0) eqn:K0; [apply Z.ltb_lt in K0; lia|].
    destruct (q <? 0) eqn:Q0; [|apply Z.ltb_ge in Q0; lia]. lia.
Qed.
Lemma try_goals_less U systems v l : once ueqb l -> n_multis (u_norm U) = [] -> forall gs y,
  Forall (fun g => Z.abs (snd (fst g)) = 1 /\ Forall (part_of l) (snd g)) gs -> try_goals U systems gs v l = Ok (Some y) -> todo (snd y) < todo l /\ once ueqb (snd y).
Proof.
  intros O NM. induction gs as [|[[dim p] fs] gs IH]; intros y H; cbn [try_goals]; [discriminate|]. inversion H as [|? ? [H1 H2] H3]; subst. cbn [fst snd] in H1, H2.
  destruct (try_found U systems (targets (u_norm U) dim) p fs v l) as [[z|]| |] eqn:E; cbn [obind]; try discriminate; [|apply IH, H3].
  intros Z. injection Z as <-. refine (try_found_less U systems p H1 (targets (u_norm U) dim) _ fs v l z O H2 E). unfold targets. rewrite NM. cbn [assoc]. rewrite app_nil_r.
  destruct (assoc dim (n_units (u_norm U))); [|constructor]. apply Forall_map, Forall_forall. intros c _. now exists c.
Qed.
(** More rounds than [todo] change nothing. *)
Lemma simplify_settles U : n_multis (u_norm U) = [] -> (forall dim cs, In (dim, cs) (n_units (u_norm U)) -> proper_dim (u_rels U) dim) ->
  forall n k v l, once ueqb l -> todo l < Z.of_nat n -> simplify_loop (n + k) U v l = simplify_loop n U v l.
Proof.
  intros NM PD. induction n as [|n IH]; intros k v l O L.
  - exfalso. unfold todo in L. pose proof (wt_nonneg l). pose proof (lone_bound l). lia.
  - cbn [Nat.add simplify_loop]. cbv zeta.
    assert (GP : forall g, In g (goal_dims (u_norm U)) -> Z.abs (snd g) = 1 /\ proper_dim (u_rels U) (fst g)).
    { intros [d p] Hg. unfold goal_dims in Hg. apply in_flat_map in Hg as ([k' cs] & Hk & Hg). cbn [fst In] in Hg.
      destruct Hg as [Hg|[Hg|[]]]; injection Hg as <- <-; cbn [fst snd]; (split; [reflexivity|eapply PD; eauto]). }
    set (gs := goal_dims (u_norm U)) in *. set (goals := map (fun g => pl_multiply (snd g) (norm_dim (n_rels (u_norm U)) (fst g))) gs).
    assert (PG : forall g, In g goals -> once seq_eqb g /\ nonzero g /\ g <> []).
    { intros g Hg. unfold goals in Hg. apply in_map_iff in Hg as (e & <- & He). destruct (GP e He) as (E1 & (E2 & E3 & E4)).
      apply once_psum_multiply; auto. lia. }
    destruct (find_units_spec goals (subunits (n_rels (u_norm U)) l)) as (res & R1 & R2 & R3);
      [apply Forall_forall; intros g Hg; apply PG, Hg..|]. rw_find R1. cbn [obind].
    destruct (try_goals U _ (combine gs res) v l) as [[y|]| |] eqn:T; cbn [obind]; try reflexivity.
    apply try_goals_less in T as [T1 T2]; [|exact O|exact NM|].
    + apply IH; [exact T2|lia].
    + apply Forall_combine. intros j [dim p] fs Hj Hf. cbn [fst snd]. split; [apply (GP (dim, p)), (nth_error_In _ _ Hj)|].
      assert (Hg : nth_error goals j = Some (pl_multiply p (norm_dim (n_rels (u_norm U)) dim))) by (unfold goals; rewrite nth_error_map, Hj; reflexivity).
      destruct (R3 j _ Hg) as (cs & C1 & _ & C3). rewrite Hf in C1. injection C1 as ->.
      apply Forall_forall. intros f Hin. apply in_map_iff in Hin as (c & <- & Hc). apply C3 in Hc as [Hc _]. now apply found_part.
Qed.
