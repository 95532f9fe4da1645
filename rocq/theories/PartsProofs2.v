(** Proofs about [format]: C65, the whole function. *)
From Coq Require Import ZArith QArith Qpower Qround Qfield Lqa Lia Ascii String List Sorted.
From Verif Require Import Base Num NumSpec BaseProofs Parse Bases Formats Call Std Units UnitsSpec UnitsProofs2 UnitsProofs4 UnitReg Syntax UnitCalcSpec UnitCalc InstallProofs SimplifySpec SimplifyProofs UnitCalcProofs PartsSpec PartsProofs.
Import ListNotations.
Open Scope Q_scope.

Lemma factor_pos us l : positive us -> over us l -> 0 < factor l.
Proof.
  intros P. induction l as [|[u q] l IH]; intros O; cbn [factor]; [reflexivity|]. apply Forall_cons_iff in O as [I O]. cbn [fst] in I.
  unfold positive in P. rewrite Forall_forall in P. apply Qmult_lt_0_compat; [|now apply IH]. specialize (P u I).
  apply Qnot_le_lt. intros Z. apply (qp_nz (uscale u) q); [intros E; rewrite E in P; discriminate|].
  apply Qle_antisym; [exact Z|]. apply Qpower_pos. lra.
Qed.
Lemma offered_in N us sys u c : goes_with N us -> In u us -> offered N sys (udim u) c -> In (c_unit c) us.
Proof.
  intros G I (cs & A & J & _). apply assoc_some_in in A. destruct (G _ _ A) as [_ [[C _]|(d & D & F)]].
  - now destruct (C cs c A J).
  - rewrite Forall_forall in F. now specialize (F u I).
Qed.
Lemma setting_ok N us sys u : units_ok us -> positive us -> goes_with N us -> In u us ->
  exists all, get_system N sys (udim u) = Ok all /\ setting N sys (udim u) all.
Proof.
  intros [C S] P G I.
  assert (Gd : forall c, offered N sys (udim u) c -> good c).
  { intros c O. pose proof (offered_in N us sys u c G I O) as J. rewrite Forall_forall in S. unfold positive in P. rewrite Forall_forall in P. split; [apply (S _ J)|apply (P _ J)]. }
  destruct (get_system_spec N sys (udim u) Gd) as (all & E & So & Ia). exists all. split; [exact E|]. split; [exact So|]. split; [exact Ia|]. split.
  - apply Forall_forall. intros c J. apply Gd, Ia, J.
  - intros c d Jc Jd Eq. apply Ia in Jc, Jd. unfold size. f_equal. apply C; [now apply (offered_in N us sys u)|now apply (offered_in N us sys u)|exact Eq].
Qed.
Lemma preferred_used prefs systems : forall s, preferred_system prefs systems = Some s ->
  exists a b, prefs = a ++ s :: b /\ In s systems /\ forall t, In t a -> ~ In t systems.
Proof.
  induction prefs as [|x prefs IH]; intros s H; cbn [preferred_system] in H; [discriminate H|].
  destruct (mem_str x systems) eqn:M.
  - injection H as <-. exists [], prefs. split; [reflexivity|]. split; [now apply mem_str_in|intros t []].
  - destruct (IH s H) as (a & b & E & I & F). exists (x :: a), b. split; [now rewrite E|]. split; [exact I|]. intros t [<- |J]; [|now apply F].
    intros K. apply mem_str_in in K. congruence.
Qed.
Definition plain_cand (c : cand) : bool := match c_prefix c with None => true | Some _ => false end.
Lemma plain_cand_ok c : plain_cand c = true <-> unprefixed c.
Proof. unfold plain_cand, unprefixed. destruct (c_prefix c); split; congruence. Qed.
Lemma format_spec U us v u asked ps : units_ok us -> positive us -> goes_with (u_norm U) us -> over us u -> has_unprefixed (u_norm U) ->
  format_parts U v u asked = Ok ps ->
  total_worth ps == v * factor u /\
  exists w sys, In w us /\ system_used (u_norm U) w asked sys /\
    (0 <= v -> largest_first (u_norm U) sys (udim w) ps) /\
    (v < 0 -> exists p, ps = [p] /\ smallest (u_norm U) sys (udim w) (snd p)).
Proof.
  intros HU P G O HP. unfold format_parts. cbv zeta. destruct (simplify U v u) as [[x l]| |] eqn:E; cbn [obind fst snd]; try discriminate.
  apply (simplify_spec U us) in E as [E Ol]; auto. unfold same_quantity in E. destruct l as [|[w q] [|? ?]]; try discriminate.
  destruct (q =? 1)%Z eqn:Eq; [|discriminate]. apply Z.eqb_eq in Eq. subst q.
  assert (Iw : In w us) by (apply Forall_cons_iff in Ol as [Ol _]; exact Ol).
  match goal with |- obind ?y _ = _ -> _ => destruct y as [sys| |] eqn:Y; cbn [obind]; try discriminate end.
  assert (SU : system_used (u_norm U) w asked sys).
  { destruct asked as [s|]; cbn [system_used].
    - injection Y as ->. reflexivity.
    - destruct (is_nil (usystems w)); [discriminate Y|]. destruct (preferred_system (n_prefs (u_norm U)) (usystems w)) as [s|] eqn:Pr; [|discriminate Y].
      injection Y as ->. now apply preferred_used. }
  destruct (setting_ok (u_norm U) us sys w HU P G Iw) as (all & Ea & HS). rewrite Ea. cbn [obind]. destruct (is_nil all) eqn:Na; [discriminate|].
  intros H. fold plain_cand in H. pose proof HS as (So & Oa & Ga & Ua).
  assert (T : forall c, In c (filter plain_cand all) -> In c all /\ unprefixed c).
  { intros c J. apply filter_In in J as [J K]. split; [exact J|now apply plain_cand_ok]. }
  assert (Nn : filter plain_cand all <> []).
  { destruct all as [|c all]; [discriminate Na|]. destruct (HP sys (udim w) c) as (d & Od & Pd); [apply Oa; now left|]. apply Oa in Od.
    assert (J : In d (filter plain_cand (c :: all))) by (apply filter_In; split; [exact Od|now apply plain_cand_ok]). intros Q. rewrite Q in J. destruct J. }
  assert (A : all_scaled [(w, 1%Z)]).
  { destruct HU as [_ S]. rewrite Forall_forall in S. constructor; [apply (S w Iw)|constructor]. }
  pose proof (factor_pos us u P O) as Fp.
  destruct (loop_spec _ _ _ _ HS _ _ _ _ T A H) as [T1 T2]. specialize (T1 Nn). split; [rewrite T1; exact E|].
  exists w, sys. split; [exact Iw|]. split; [exact SU|]. split.
  - intros V. apply T2. rewrite E. apply Qmult_le_0_compat; lra.
  - intros V. apply (loop_negative _ _ _ _ HS _ _ _ _ T A) with (3 := H); [|exact Nn]. rewrite E.
    assert (v * factor u < 0 * factor u) by (apply Qmult_lt_compat_r; assumption). lra.
Qed.
Lemma last_filter l c : StronglySorted bigger l -> last_cand (filter plain_cand l) = Some c -> forall d, In d l -> unprefixed d -> size c <= size d.
Proof.
  intros S H d I P. apply (last_small _ _ (sorted_filter plain_cand l S) H). apply filter_In. split; [exact I|now apply plain_cand_ok].
Qed.
Lemma format_ok U us v u x w sys : units_ok us -> positive us -> goes_with (u_norm U) us -> over us u ->
  simplify U v u = Ok (x, [(w, 1%Z)]) -> (exists c, offered (u_norm U) sys (udim w) c) -> ends_well (u_norm U) sys (udim w) ->
  exists ps, format_parts U v u (Some sys) = Ok ps.
Proof.
  intros HU P G O E (c0 & O0) W. unfold format_parts. cbv zeta. rewrite E. cbn [obind fst snd]. rewrite Z.eqb_refl.
  apply (simplify_spec U us) in E as [E Ol]; auto. assert (Iw : In w us) by (apply Forall_cons_iff in Ol as [Ol _]; exact Ol).
  destruct (setting_ok (u_norm U) us sys w HU P G Iw) as (all & Ea & HS). rewrite Ea. cbn [obind]. pose proof HS as (So & Oa & Ga & Ua).
  destruct (is_nil all) eqn:Na; [exfalso; destruct all; [apply Oa in O0; destruct O0|discriminate Na]|].
  fold plain_cand. apply (loop_ok _ _ _ _ HS).
  - intros c J. apply filter_In in J as [J K]. split; [exact J|now apply plain_cand_ok].
  - destruct HU as [_ S]. rewrite Forall_forall in S. constructor; [apply (S w Iw)|constructor].
  - intros c L. destruct (last_cand all) as [z|] eqn:Z.
    + exists z. split; [reflexivity|]. apply W.
      * pose proof (last_in _ _ L) as J. apply filter_In in J as [J K]. split; [now apply Oa|]. split; [now apply plain_cand_ok|].
        intros d Od. apply (last_filter all c So L), Oa, Od.
      * split; [apply Oa; now apply last_in|]. intros d Od. apply (last_small all z So Z), Oa, Od.
    + exfalso. unfold last_cand in Z. destruct (rev all) as [|? ?] eqn:R; [|discriminate Z]. apply (f_equal (@length cand)) in R. rewrite rev_length in R.
      destruct all; [discriminate Na|discriminate R].
Qed.

(** *** The functions *)
Lemma part_texts_spec L c : forall ps ts, part_texts L c ps = Ok ts -> Forall2 (written (l_fmt L) c) ps ts.
Proof.
  induction ps as [|[x u] ps IH]; intros ts H; cbn [part_texts] in H; [injection H as <-; constructor|].
  set (m := mkNum (Qnum (Qred x)) (Z.pos (Qden (Qred x))) c None) in *.
  destruct (num_to_string (l_fmt L) m) as [t| |] eqn:E; cbn [obind] in H; try discriminate H.
  destruct (name_for (Qeq_bool x 1) (c_unit u)) as [n| |] eqn:Nm; cbn [obind] in H; try discriminate H.
  destruct (part_texts L c ps) as [r| |]; cbn [obind] in H; try discriminate H. injection H as <-. constructor; [|now apply IH].
  exists m, t, n. cbn [fst snd]. split; [|split; [reflexivity|split; [exact E|split; [|split; [|reflexivity]]]]].
  - unfold val, m. cbn [nnum nden]. rewrite <- Qmake_Qdiv. destruct (Qred x) as [a b] eqn:R. cbn [Qnum Qden]. rewrite <- R. apply Qred_correct.
  - intros O. apply Qeq_bool_iff in O. rewrite O in Nm. unfold name_for in Nm. destruct (unames (c_unit u)) as [|p [|q l]]; try discriminate Nm. injection Nm as <-. reflexivity.
  - intros O. destruct (Qeq_bool x 1) eqn:Q; [apply Qeq_bool_iff in Q; contradiction|]. unfold name_for in Nm.
    destruct (unames (c_unit u)) as [|p [|q l]]; try discriminate Nm; injection Nm as <-; reflexivity.
Qed.
Lemma fn_format_spec U us h n more x units rs stl s r s' : units_ok us -> positive us -> goes_with (u_norm U) us -> over us (eu_list x) -> has_unprefixed (u_norm U) ->
  fn_format U h (VNum n :: more) (Some x :: units) rs stl s = (OOk r, s') ->
  exists ps ts, r = mkOR (VStr (sjoin ($", ") ts)) (Some None) None /\ s' = s /\ Forall2 (written (l_fmt (u_lib U)) (ncast n)) ps ts /\
    total_worth ps == val n * factor (eu_list x).
Proof.
  intros HU P G O HP. cbn [fn_format]. unfold bind at 1.
  destruct (match more with [] => ret None | [VStr t] => ret (Some t) | _ => pyerr end s) as [o st] eqn:M.
  assert (Es : st = s). { destruct more as [|[ | | | | | | | ] [|? ?]]; injection M as _ <-; reflexivity. } subst st.
  destruct o as [sys| | |]; try discriminate. unfold bind at 1, lift. fold (val n). change (num_q n) with (val n).
  destruct (format_parts U (val n) (eu_list x) sys) as [ps| |] eqn:E; try discriminate.
  unfold bind. destruct (part_texts (u_lib U) (ncast n) ps) as [ts| |] eqn:T; try discriminate. unfold unitless, ret. intros H. injection H as <- <-.
  exists ps, ts. split; [reflexivity|]. split; [reflexivity|]. split; [now apply part_texts_spec|]. now apply (format_spec U us) in E as [E _].
Qed.
Lemma fn_compact_spec U us h n x rs stl s r s' : units_ok us -> goes_with (u_norm U) us -> over us (eu_list x) ->
  fn_compact U h [VNum n] [Some x] rs stl s = (OOk r, s') ->
  exists m u, r = mkOR (VNum m) (Some u) None /\ s' = s /\ val m * size_of u == val n * factor (eu_list x) /\ ncast m = ncast n.
Proof.
  intros HU G O. cbn [fn_compact]. unfold bind, lift. cbn [simplify_value]. change (num_q n) with (val n).
  destruct (simplify U (val n) (eu_list x)) as [[q l]| |] eqn:E; cbn [obind fst snd]; try discriminate. unfold with_unit, ret. intros H. injection H as <- <-.
  apply (simplify_spec U us) in E as [E _]; auto. unfold same_quantity in E.
  eexists. eexists. split; [reflexivity|]. split; [reflexivity|]. split; [|apply of_q_cast]. rewrite of_q_val, <- E. destruct l; cbn [is_nil size_of eu_list factor]; [ring|reflexivity].
Qed.
