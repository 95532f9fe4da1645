(** The order in which features are installed, over several calls. *)
From Coq Require Import ZArith QArith Ascii String List Bool Lia Permutation.
From Verif Require Import Base BaseProofs Bases Units UnitsProofs5 Install InstallSpec InstallProofs InstallProofs2 UnitReg UnitData InstallRun InstallRunSpec InstallRunProofs InstallRunProofs2 InstallRunProofs3.
Import ListNotations.
Open Scope nat_scope.

(** Marking takes the dependencies along *)
Definition closes (ti ti' : list str) : Prop := incl ti ti' /\ forall x, In x ti' -> ~ In x ti -> forall ft, find_feat features x = Some ft -> incl (fdeps ft) ti'.
Lemma closes_refl ti : closes ti ti.
Proof. split; [apply incl_refl|]. intros x I N. contradiction. Qed.
Lemma closes_trans a b c : closes a b -> closes b c -> closes a c.
Proof.
  intros [A1 A2] [B1 B2]. split; [eapply incl_tran; eauto|]. intros x I N ft F. destruct (in_dec (list_eq_dec ascii_dec) x b) as [J|J].
  - eapply incl_tran; [eapply A2; eauto|exact B1].
  - eapply B2; eauto.
Qed.
Lemma mark_closes : forall fuel name ti ti', mark fuel features name ti = IOk ti' -> closes ti ti' /\ In name ti'.
Proof.
  induction fuel as [|fuel IH]; intros name ti ti'; cbn [mark]; [discriminate|]. destruct (mem_str name ti) eqn:M.
  - intros [= <-]. split; [apply closes_refl|now apply mem_str_iff].
  - destruct (find_feat features name) as [ft|] eqn:F; [|discriminate]. intros E.
    destruct (each_inv closes (fun x s => In x s) (mark fuel features)) with (l := fdeps ft) (s0 := ti ++ [name]) (s' := ti') as [[A B] C].
    + intros s. apply closes_refl.
    + intros a b c. apply closes_trans.
    + intros x s s' I [J _]. apply J, I.
    + intros x s s' _ _ H. apply (IH x s s' H).
    + exact E.
    + split; [|apply A, in_or_app; right; now left]. split; [intros x I; apply A, in_or_app; now left|].
      intros x I N ft' F'. destruct (list_eq_dec ascii_dec x name) as [->|Ne].
      * rewrite F in F'. injection F' as <-. intros y J. apply C, J.
      * apply (B x I); [|exact F']. intros J. apply in_app_or in J as [J|[J|[]]]; [contradiction|congruence].
Qed.
Lemma marks_close fuel names ti ti' : each (mark fuel features) names ti = IOk ti' -> closes ti ti'.
Proof.
  intros E. destruct (each_inv closes (fun x s => In x s) (mark fuel features)) with (l := names) (s0 := ti) (s' := ti') as [A _]; auto.
  - intros s. apply closes_refl.
  - intros a b c. apply closes_trans.
  - intros x s s' I [J _]. apply J, I.
  - intros x s s' _ _ H. apply (mark_closes fuel x s s' H).
Qed.

(** Nothing needs [units.unitconstants] *)
Lemma constants_unneeded y : ~ needs features y unitconstants.
Proof.
  assert (C : forallb (fun ft => negb (mem_str unitconstants (fdeps ft ++ match fsubs ft with Some l => l | None => [] end))) features = true) by (vm_compute; reflexivity).
  intros (ft & F & D). assert (I : In ft features).
  { revert F. generalize features. intros l. induction l as [|x l IH]; cbn [find_feat]; [discriminate|]. destruct (seq_eqb (fid x) y); [intros [= ->]; now left|right; auto]. }
  rewrite forallb_forall in C. specialize (C ft I). assert (M : mem_str unitconstants (fdeps ft ++ match fsubs ft with Some l => l | None => [] end) = true).
  { apply mem_str_iff, in_or_app. destruct D as [D|(l & -> & D)]; auto. }
  rewrite M in C. discriminate.
Qed.
Lemma reach_constants s : reach features s unitconstants -> In unitconstants s.
Proof. intros R. remember unitconstants as u eqn:E. destruct R as [x I|x y R N]; [exact I|]. subst. destruct (constants_unneeded _ N). Qed.
Lemma constants_need : needs features unitconstants kilo /\ needs features unitconstants mass.
Proof.
  assert (C : match find_feat features unitconstants with Some ft => mem_str kilo (fdeps ft) && mem_str mass (fdeps ft) | None => false end = true) by (vm_compute; reflexivity).
  destruct (find_feat features unitconstants) as [ft|] eqn:F; [|discriminate]. apply andb_true_iff in C as [C1 C2]. apply mem_str_iff in C1, C2.
  split; exists ft; auto.
Qed.
Lemma mass_after_kilo : exists ft, find_feat features mass = Some ft /\ In kilo (fafter ft).
Proof.
  assert (C : match find_feat features mass with Some ft => mem_str kilo (fafter ft) | None => false end = true) by (vm_compute; reflexivity).
  destruct (find_feat features mass) as [ft|]; [|discriminate]. exists ft. split; [reflexivity|now apply mem_str_iff].
Qed.

Lemma rank_bound n : (S (rank0 n) < 100)%nat.
Proof. pose proof (index_le n feature_order) as B. unfold rank0. assert (List.length feature_order <= 98)%nat; [|lia]. apply Nat.leb_le. vm_compute. reflexivity. Qed.

(** One call *)
Lemma split_once {A} (p1 p2 s1 s2 : list A) x : NoDup (p1 ++ x :: s1) -> p1 ++ x :: s1 = p2 ++ x :: s2 -> p1 = p2.
Proof.
  revert p2. induction p1 as [|a p1 IH]; intros p2 ND E; destruct p2 as [|b p2]; cbn [app] in *.
  - reflexivity.
  - injection E as E1 E2. subst b. apply NoDup_cons_iff in ND as [ND _]. destruct ND. rewrite E2. apply in_or_app. right. now left.
  - injection E as E1 E2. subst a. apply NoDup_cons_iff in ND as [ND _]. destruct ND. apply in_or_app. right. now left.
  - injection E as E1 E2. subst b. apply NoDup_cons_iff in ND as [_ ND]. f_equal. eapply IH; eauto.
Qed.

Lemma call_order names st s : (forall n, In n names -> find_feat features n <> None) -> known features st -> in_good_order (trace st) ->
  (forall x, In x names -> reach features s x) -> (forall x, In x (to_install st) -> reach features s x) -> (forall x, In x (trace st) -> reach features s x) ->
  trace st = [] /\ to_install st = [] \/ ~ In unitconstants names /\ (In unitconstants (to_install st) -> In unitconstants (trace st)) ->
  exists st' new, install 100 features names st = IOk st' /\ trace st' = trace st ++ new /\ known features st' /\ in_good_order (trace st') /\
    incl names (trace st') /\ (forall x, In x (to_install st') -> reach features s x) /\ (forall x, In x (trace st') -> reach features s x) /\
    (In unitconstants (to_install st') -> In unitconstants (trace st')).
Proof.
  intros Kn Ks G R1 R2 R3 Cond.
  destruct (install_total features rank0 features_acyclic 100 names st) as (st' & E & Ks'); [lia|exact Ks|intros n I; split; [apply rank_bound|auto]|].
  destruct (install_grows features 100 names st st' E) as ((Gi & new & Tn & Wo) & Inc & ti & Mk & (Gi2 & new' & Tn' & Wo')).
  cbn [trace to_install] in *. assert (new' = new) by (rewrite Tn' in Tn; now apply app_inv_head in Tn). subst new'.
  destruct (install_reach features s 100 names st st' E R1 R2 R3) as [Rt Rr].
  destruct (install_rank features rank0 features_acyclic 100 names st st' 100 E) as (new2 & _ & _ & ND); [intros n _; pose proof (rank_bound n); lia|].
  destruct G as (ND0 & H0 & K0). specialize (ND ND0).
  assert (H' : forall p x r, trace st' = p ++ x :: r -> find_feat features x <> None /\ forall y, needs features x y -> In y p).
  { intros p x r Ep. rewrite Tn in Ep. destruct (app_eq_app _ _ _ _ Ep) as (l & [[E1 E2]|[E1 E2]]).
    - destruct l as [|z l].
      + cbn [app] in E2. rewrite app_nil_r in E1. destruct (Wo [] x r (eq_sym E2)) as (ft & F & N & _). rewrite app_nil_r in N. subst p.
        split; [rewrite F; discriminate|exact N].
      + cbn [app] in E2. injection E2 as -> E2. eapply H0; eauto.
    - destruct (Wo l x r E2) as (ft & F & N & _). subst p. split; [rewrite F; discriminate|exact N]. }
  assert (Cl : In unitconstants (to_install st') -> In unitconstants (trace st')).
  { intros I. pose proof (reach_constants _ (Rt _ I)) as Is. clear Is.
    assert (Rn : In unitconstants names \/ In unitconstants (to_install st) \/ In unitconstants (trace st)).
    { destruct (install_reach features (names ++ to_install st ++ trace st) 100 names st st' E) as [Q _];
        try (intros x J; constructor; rewrite !in_app_iff; auto). specialize (Q _ I). apply reach_constants in Q. rewrite !in_app_iff in Q. exact Q. }
    destruct Rn as [Rn|[Rn|Rn]]; [apply Inc, Rn| |rewrite Tn; apply in_or_app; now left].
    destruct Cond as [[C1 C2]|[_ C2]]; [rewrite C2 in Rn; destruct Rn|]. rewrite Tn. apply in_or_app. left. apply C2, Rn. }
  exists st', new. split; [exact E|]. split; [exact Tn|]. split; [exact Ks'|]. split; [|split; [exact Inc|split; [exact Rt|split; [exact Rr|exact Cl]]]].
  split; [exact ND|]. split; [exact H'|]. intros p r Ep Iu. destruct Cond as [[C1 C2]|[C1 C2]].
  - (* the first call *)
    assert (Iu' : In unitconstants names).
    { destruct (install_reach features names 100 names st st' E) as [_ Q]; [intros x J; now constructor|rewrite C2; intros x []|rewrite C1; intros x []|].
      apply reach_constants, Q, Iu. }
    destruct (marks_spec features [] 100 names (to_install st) ti Mk) as (_ & Min & _). pose proof (marks_close _ _ _ _ Mk) as [_ Cs].
    assert (Ik : In kilo ti).
    { destruct constants_need as [(ft & F & Nk) _]. refine (Cs unitconstants (Min _ Iu') _ ft F kilo _); [rewrite C2; intros []|].
      destruct Nk as [Nk|(l & L & Nk)]; [exact Nk|]. vm_compute in F. injection F as <-. discriminate L. }
    rewrite Tn, C1 in Ep. cbn [app] in Ep. destruct (Wo' p mass r Ep) as (ft & F & _ & A). destruct mass_after_kilo as (ft' & F' & A').
    rewrite F in F'. injection F' as <-. specialize (A kilo A' Ik). rewrite C1 in A. exact A.
  - (* a later call *)
    assert (It : In unitconstants (trace st)).
    { destruct (install_reach features (names ++ to_install st ++ trace st) 100 names st st' E) as [_ Q];
        try (intros x J; constructor; rewrite !in_app_iff; auto). specialize (Q _ Iu). apply reach_constants in Q. rewrite !in_app_iff in Q. tauto. }
    assert (Im : In mass (trace st)).
    { pose proof It as It'. apply in_split in It as (a & b & Ea). destruct (H0 a unitconstants b Ea) as [_ Nd]. rewrite Ea. apply in_or_app. left. apply Nd, constants_need. }
    apply in_split in Im as (a & b & Ea). pose proof (K0 a b Ea It) as Ik. assert (a = p); [|subst; exact Ik].
    rewrite Tn, Ea, <- app_assoc in Ep, ND. cbn [app] in Ep, ND. rewrite Ep in ND. symmetry. eapply split_once; [exact ND|]. symmetry. exact Ep.
Qed.

(** Several calls *)
Lemma run_features_app : forall a b K, run_features (a ++ b) K = do K' <- run_features a K; run_features b K'.
Proof. induction a as [|f a IH]; intros b K; cbn [app run_features obind]; [reflexivity|]. destruct (run_effects f (effects_of f) K); cbn [obind]; auto. Qed.
Lemma skipn_len {A} (a b : list A) : skipn (List.length a) (a ++ b) = b.
Proof. induction a; auto. Qed.

Lemma call_runs names st K s : (forall n, In n names -> find_feat features n <> None) -> known features st -> in_good_order (trace st) ->
  (forall x, In x names -> reach features s x) -> (forall x, In x (to_install st) -> reach features s x) -> (forall x, In x (trace st) -> reach features s x) ->
  trace st = [] /\ to_install st = [] \/ ~ In unitconstants names /\ (In unitconstants (to_install st) -> In unitconstants (trace st)) ->
  run_features (trace st) new_calc = Ok K ->
  exists st' K', install_calc names st K = Ok (st', K') /\ run_features (trace st') new_calc = Ok K' /\ known features st' /\ in_good_order (trace st') /\
    incl names (trace st') /\ incl (trace st) (trace st') /\ (forall x, In x (to_install st') -> reach features s x) /\ (forall x, In x (trace st') -> reach features s x) /\
    (In unitconstants (to_install st') -> In unitconstants (trace st')).
Proof.
  intros Kn Ks G R1 R2 R3 Cond R. destruct (call_order names st s Kn Ks G R1 R2 R3 Cond) as (st' & new & E & Tn & Ks' & G' & Inc & Q1 & Q2 & Q3).
  destruct (good_installs (trace st') G') as (K' & RK & _). exists st', K'. split; [|split; [exact RK|]]; [|split; [exact Ks'|split; [exact G'|split; [exact Inc|]]]].
  - unfold install_calc. rewrite E, Tn, skipn_len. rewrite Tn, run_features_app, R in RK. cbn [obind] in RK. rewrite RK. reflexivity.
  - split; [rewrite Tn; apply incl_appl, incl_refl|auto].
Qed.
Lemma good_nil : in_good_order [].
Proof. split; [constructor|]. split; intros p; [intros x s E|intros s E]; destruct p; discriminate E. Qed.

Lemma later_calls s : forall rs st K, (forall r n, In r rs -> In n r -> find_feat features n <> None /\ reach features s n) -> ~ In unitconstants (concat rs) ->
  known features st -> in_good_order (trace st) -> (forall x, In x (to_install st) -> reach features s x) -> (forall x, In x (trace st) -> reach features s x) ->
  (In unitconstants (to_install st) -> In unitconstants (trace st)) -> run_features (trace st) new_calc = Ok K ->
  exists st' K', install_calls rs st K = Ok (st', K') /\ run_features (trace st') new_calc = Ok K' /\ in_good_order (trace st') /\
    incl (trace st) (trace st') /\ incl (concat rs) (trace st') /\ forall x, In x (trace st') -> reach features s x.
Proof.
  induction rs as [|r rs IH]; intros st K Kn Nu Ks G R2 R3 C R; cbn [install_calls concat] in *.
  - exists st, K. split; [reflexivity|]. split; [exact R|]. split; [exact G|]. split; [apply incl_refl|]. split; [intros x []|exact R3].
  - destruct (call_runs r st K s) as (st1 & K1 & E1 & RK1 & Ks1 & G1 & I1 & I1' & Q1 & Q2 & Q3); auto.
    { intros n I. apply (Kn r n (or_introl eq_refl) I). } { intros n I. apply (Kn r n (or_introl eq_refl) I). }
    { right. split; [|exact C]. intros I. apply Nu, in_or_app. now left. }
    rewrite E1. cbn [obind fst snd].
    destruct (IH st1 K1) as (st2 & K2 & E2 & RK2 & G2 & I2 & I2' & Q); auto.
    { intros r' n I J. apply (Kn r' n (or_intror I) J). } { intros I. apply Nu, in_or_app. now right. }
    exists st2, K2. split; [exact E2|]. split; [exact RK2|]. split; [exact G2|]. split; [eapply incl_tran; eauto|]. split; [|exact Q].
    apply incl_app; [eapply incl_tran; eauto|exact I2'].
Qed.
Lemma all_calls r rs : (forall n, In n (concat (r :: rs)) -> find_feat features n <> None) -> ~ In unitconstants (concat rs) ->
  exists st K, install_calls (r :: rs) (mkIst [] []) new_calc = Ok (st, K) /\ in_good_order (trace st) /\ run_features (trace st) new_calc = Ok K /\
    forall x, In x (trace st) <-> reach features (concat (r :: rs)) x.
Proof.
  intros Kn Nu. cbn [concat] in *. set (s := r ++ concat rs) in *.
  assert (Rs : forall x, In x s -> reach features s x) by (intros x I; now constructor).
  destruct (call_runs r (mkIst [] []) new_calc s) as (st1 & K1 & E1 & RK1 & Ks1 & G1 & I1 & _ & Q1 & Q2 & Q3).
  { intros n I. apply Kn, in_or_app. now left. } { intros n []. } { apply good_nil. } { intros n I. apply Rs, in_or_app. now left. }
  { intros n []. } { intros n []. } { left. auto. } { reflexivity. }
  destruct (later_calls s rs st1 K1) as (st2 & K2 & E2 & RK2 & G2 & I2 & I2' & Q); auto.
  { intros r' n I J. assert (In n s) by (apply in_or_app; right; apply in_concat; eauto). split; [apply Kn; assumption|now apply Rs]. }
  exists st2, K2. cbn [install_calls]. rewrite E1. cbn [obind fst snd]. split; [exact E2|]. split; [exact G2|]. split; [exact RK2|].
  intros x. split; [apply Q|]. intros H. induction H as [x I|x y H IH N].
  - apply in_app_or in I as [I|I]; [apply I2, I1, I|apply I2', I].
  - apply in_split in IH as (a & b & Ea). destruct G2 as (_ & G2 & _). destruct (G2 a x b Ea) as [_ Nd]. rewrite Ea. apply in_or_app. left. apply Nd, N.
Qed.

(** * The same features give the same parts *)
Lemma sub_rest {A} (a : list A) : forall b, NoDup a -> incl a b -> exists c, Permutation b (a ++ c).
Proof.
  induction a as [|x a IH]; intros b ND I; [exists b; reflexivity|]. apply NoDup_cons_iff in ND as [N1 N2].
  destruct (in_split x b) as (b1 & b2 & ->); [apply I; now left|]. destruct (IH (b1 ++ b2) N2) as (c & P).
  { intros y J. specialize (I y (or_intror J)). apply in_app_or in I as [I|[I|I]]; [apply in_or_app; now left|subst; contradiction|apply in_or_app; now right]. }
  exists c. cbn [app]. rewrite <- Permutation_middle. now constructor.
Qed.
Lemma flat_map_perm {A B} (g : A -> list B) a b : Permutation a b -> Permutation (flat_map g a) (flat_map g b).
Proof.
  induction 1; cbn [flat_map]; auto.
  - now apply Permutation_app_head.
  - rewrite !app_assoc. apply Permutation_app_tail, Permutation_app_comm.
  - etransitivity; eauto.
Qed.
Lemma part_nodup {A} (g : str -> list (str * A)) tr : NoDup tr -> incl tr all_names -> NoDup (map fst (flat_map g all_names)) -> NoDup (map fst (flat_map g tr)).
Proof.
  intros N I D. destruct (sub_rest tr all_names N I) as (c & P). apply (flat_map_perm g) in P. rewrite flat_map_app in P.
  apply (Permutation_map fst) in P. rewrite map_app in P. eapply Permutation_NoDup in D; [|exact P]. now apply nodup_parts in D as (D & _).
Qed.
Lemma parts_once : NoDup (map fst (parsers_of all_names)) /\ NoDup (map fst (ops_of all_names)).
Proof.
  assert (C : distinct (map fst (parsers_of all_names)) && distinct (map fst (ops_of all_names)) = true) by (vm_cast_no_check (@eq_refl bool true)).
  apply andb_true_iff in C as [C1 C2]. split; apply distinct_nodup; assumption.
Qed.

Lemma order_names tr : in_good_order tr -> incl tr all_names.
Proof. intros (_ & H & _) f I. apply in_split in I as (p & s & E). apply known_name. exact (proj1 (H p f s E)). Qed.
Lemma same_features tr tr' K K' : in_good_order tr -> in_good_order tr' -> (forall x, In x tr <-> In x tr') -> made_of tr K -> made_of tr' K' -> same_parts K K'.
Proof.
  intros G G' E (P & O & T & Ke) (P' & O' & T' & Ke'). pose proof (order_names _ G) as I. pose proof (order_names _ G') as I'.
  destruct G as (N & _), G' as (N' & _). assert (Pm : Permutation tr tr') by (apply NoDup_Permutation; auto). destruct parts_once as [U1 U2].
  assert (Lp : forall n, last_op n (parsers_of tr) = last_op n (parsers_of tr')).
  { apply last_op_perm; [apply part_nodup; assumption|apply flat_map_perm, Pm]. }
  assert (Lo : forall n, last_op n (ops_of tr) = last_op n (ops_of tr')).
  { apply last_op_perm; [apply part_nodup; assumption|apply flat_map_perm, Pm]. }
  split; [|split].
  - rewrite P, P'. unfold in_map_order. apply flat_map_ext. intros n. now rewrite Lp.
  - unfold table_ok in O, O'. assert (Fl : filter (used (ops_of tr)) op_map = filter (used (ops_of tr')) op_map).
    { apply filter_ext. intros lv. apply eq_true_iff_eq. rewrite !used_in. pose proof (flat_map_perm (fun f => flat_map (fun e => match e with EOp s r w => [(s, (r, w))] | _ => [] end) (effects_of f)) _ _ Pm) as Po.
      fold (ops_of tr) in Po. fold (ops_of tr') in Po. split; intros (s & o & J & L); exists s, o; (split; [|exact L]).
      - eapply Permutation_in; eauto. - eapply Permutation_in; [symmetry; exact Po|exact J]. }
    rewrite Fl in O. revert O O'. generalize (filter (used (ops_of tr')) op_map) (k_ops K) (k_ops K'). intros l a b. revert a b.
    induction l as [|lv l IH]; intros a b A B.
    + inversion A. inversion B. constructor.
    + destruct a as [|x a]; [inversion A|]. destruct b as [|y b]; [inversion B|]. constructor.
      * assert (Hx : holds (ops_of tr) lv x) by (inversion A; tauto). assert (Hy : holds (ops_of tr') lv y) by (inversion B; tauto).
        intros s. rewrite Hx, Hy, Lo. reflexivity.
      * apply IH; [inversion A|inversion B]; assumption.
  - intros a. split.
    + assert (X : assoc a (k_dicts K) <> None <-> assoc a (k_dicts K') <> None).
      { rewrite T, T'. split; (intros [H|(f & J & M)]; [now left|right; exists f; split; [now apply E|exact M]]). }
      destruct (assoc a (k_dicts K)), (assoc a (k_dicts K')).
      * split; discriminate.
      * exfalso. apply (proj1 X); [discriminate|reflexivity].
      * exfalso. apply (proj2 X); [discriminate|reflexivity].
      * tauto.
    + intros l l' A A' k. rewrite (Ke a l k A), (Ke' a l' k A'). split; (intros [H|(f & J & M)]; [now left|right; exists f; split; [now apply E|exact M]]).
Qed.

(** * Units are known by their names *)
Lemma base_prefix_first : forallb (fun f => match steps_of f with [] => true | _ => seq_eqb f ($"units.units") || mem_str ($"units.units") (direct f) end) all_names = true.
Proof. vm_cast_no_check (@eq_refl bool true). Qed.
Lemma unit_named tr f st n : in_good_order tr -> In f tr -> In st (steps_of f) ->
  match st with SUnit _ d p _ => In n (prefixed (pname p) (d_names d)) | SPrefixed _ d lo hi => within lo hi 1 = true /\ In n (d_names d) | _ => False end ->
  named (flat_map steps_of tr) n.
Proof.
  intros G If Is H. pose proof (order_names _ G f If) as Nf. destruct G as (_ & G & _). apply in_split in If as (p & s & E). destruct (G p f s E) as [_ Nd].
  rewrite E, flat_map_app. cbn [flat_map]. apply in_split in Is as (x & y & Ex). rewrite Ex, <- app_assoc. cbn [app]. rewrite app_assoc.
  eexists _, st, _, n. split; [reflexivity|]. split; [|reflexivity]. destruct st as [d rel|dim d q systems|dim d lo hi|names syms units|dim l|m sy|l|l]; try contradiction; cbn [registers].
  - exact H.
  - destruct H as [W H]. apply in_flat_map. exists (mkPre None None 1). cbn [p_scale p_name prefixed]. rewrite W. split; [|exact H].
    rewrite prefixes_app. apply in_or_app. left. pose proof base_prefix_first as C. rewrite forallb_forall in C. specialize (C f Nf). cbv beta in C.
    assert (C' : seq_eqb f ($"units.units") || mem_str ($"units.units") (direct f) = true) by (rewrite Ex in C; destruct x; exact C). clear C.
    apply orb_true_iff in C' as [C|C].
    + apply seq_eqb_iff in C. subst f. change (steps_of ($"units.units")) with [SPrefixes [mkPre None None 1]] in Ex.
      destruct x as [|x1 x]; cbn [app] in Ex; [discriminate Ex|]. assert (E2 : [] = x ++ SPrefixed dim d lo hi :: y) by (injection Ex; auto). destruct x; discriminate E2.
    + apply mem_str_iff, direct_needs, Nd in C. apply in_flat_map. exists (SPrefixes [mkPre None None 1]). split; [|now left]. apply in_flat_map. exists ($"units.units"). split; [exact C|now left].
Qed.
