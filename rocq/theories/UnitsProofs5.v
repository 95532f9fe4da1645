From Coq Require Import ZArith QArith Qpower Qfield Ascii String List Bool Lia Permutation Setoid.
From Verif Require Import Base Bases Units UnitsSpec BaseProofs UnitsProofs UnitsProofs2 UnitsProofs3 UnitsProofs4.
Import ListNotations.
Open Scope Z_scope.

Lemma seq_eqb_sym a b : seq_eqb a b = seq_eqb b a.
Proof. destruct equiv_seq as (_ & S & _). apply S. Qed.
Lemma named_comm a b : named (a ++ b) -> named (b ++ a).
Proof.
  intros [A B]. split.
  - intros u I. apply A. apply in_app_or in I. apply in_or_app. tauto.
  - intros u v I J. apply B; apply in_or_app; [apply in_app_or in I|apply in_app_or in J]; tauto.
Qed.

Lemma conversion_back rel n a b relative w u : all_scaled a -> all_scaled b -> named (map fst a ++ map fst b) ->
  unit_conversion rel n (Some a) (Some b) relative = Ok (w, u) ->
  exists v c, unit_conversion rel w (Some b) (Some a) relative = Ok (v, c) /\ (v == n)%Q.
Proof.
  intros Sa Sb N H. pose proof (unit_conversion_value rel n a b relative w u Sa Sb N H) as [V _].
  assert (E : exists v c, unit_conversion rel w (Some b) (Some a) relative = Ok (v, c)).
  { unfold unit_conversion in *. destruct (upl_eqb a b) eqn:E1.
    - unfold upl_eqb in *. rewrite seq_eqb_sym, E1. eauto.
    - unfold upl_eqb in *. rewrite seq_eqb_sym, E1. unfold pl_eqb in *. rewrite seq_eqb_sym. destruct (seq_eqb (pl_text (unit_dims rel a)) (pl_text (unit_dims rel b))); [|discriminate H].
      unfold convertfrom, convertto in *.
      destruct (lconvert_scaled b relative Sb w (-1)) as (x & X1 & X2). rewrite X1. cbn [obind].
      destruct (lconvert_scaled a relative Sa x 1) as (y & Y1 & Y2). rewrite Y1. cbn [obind]. eauto. }
  destruct E as (v & c & E). exists v, c. split; auto.
  pose proof (unit_conversion_value rel w b a relative v c Sb Sa (named_comm _ _ N) E) as [V' _].
  rewrite V', V. field. split; apply factor_nz; auto.
Qed.


Lemma kelvin_inverse k x : (from_kelvin k (to_kelvin k x) == x /\ to_kelvin k (from_kelvin k x) == x)%Q.
Proof. destruct k; cbn [from_kelvin to_kelvin]; split; field. Qed.

Lemma temp_to u n relative : temperature u -> exists w, uconvert u n (-1) relative = Ok w /\ (w == if relative then n * degree (ukind_of u) else to_kelvin (ukind_of u) n)%Q.
Proof.
  unfold temperature, uconvert. destruct (ukind_of u); intros T; cbn [to_kelvin degree].
  - assert (E : Qeq_bool (uscale u) 0 = false) by (destruct (Qeq_bool (uscale u) 0) eqn:E; auto; apply Qeq_bool_eq in E; rewrite T in E; discriminate).
    rewrite E. eexists. split; [reflexivity|]. change (Qpower (uscale u) (-1)) with (/ uscale u)%Q.
    assert (X : (n / / uscale u == n)%Q) by (rewrite T; field). destruct relative; rewrite X; field.
  - destruct relative; cbn [Z.eqb]; eexists; split; try reflexivity; unfold q27315; try field.
  - destruct relative; cbn [Z.eqb]; eexists; split; try reflexivity; unfold q45967; try field.
    all: try (change (Qpower (5 # 9) (-1)) with (/ (5 # 9))%Q; field).
Qed.
Lemma temp_from u n relative : temperature u -> exists w, uconvert u n 1 relative = Ok w /\ (w == if relative then n / degree (ukind_of u) else from_kelvin (ukind_of u) n)%Q.
Proof.
  unfold temperature, uconvert. destruct (ukind_of u); intros T; cbn [from_kelvin degree].
  - assert (E : Qeq_bool (uscale u) 0 = false) by (destruct (Qeq_bool (uscale u) 0) eqn:E; auto; apply Qeq_bool_eq in E; rewrite T in E; discriminate).
    rewrite E. eexists. split; [reflexivity|]. change (Qpower (uscale u) 1) with (uscale u)%Q.
    assert (X : (n / uscale u == n)%Q) by (rewrite T; field). destruct relative; rewrite X; field.
  - destruct relative; cbn [Z.eqb]; eexists; split; try reflexivity; unfold q27315; try field.
  - destruct relative; cbn [Z.eqb]; eexists; split; try reflexivity; unfold q45967; try field.
Qed.

Lemma single_dims rel a b : udim a = udim b -> pl_eqb (unit_dims rel [(a, 1)]) (unit_dims rel [(b, 1)]) = true.
Proof.
  intros H. unfold unit_dims, expand_dims, subunits. cbn [map flat_map fst snd]. rewrite H. apply seq_eqb_refl.
Qed.
Lemma temp_conversion rel n a b relative : temperature a -> temperature b -> udim a = udim b -> named [a; b] ->
  exists w c, unit_conversion rel n (Some [(a, 1)]) (Some [(b, 1)]) relative = Ok (w, Some c) /\ Permutation c [(b, 1)] /\
  (w == if relative then n * degree (ukind_of a) / degree (ukind_of b) else from_kelvin (ukind_of b) (to_kelvin (ukind_of a) n))%Q.
Proof.
  intros Ta Tb D N. unfold unit_conversion. destruct (upl_eqb [(a, 1)] [(b, 1)]) eqn:E.
  - apply upl_eqb_perm in E; auto. exists n, [(a, 1)]. split; auto. split; auto.
    apply Permutation_length_1 in E. inversion E; subst. destruct relative.
    + destruct (ukind_of b); cbn [degree]; field.
    + symmetry. apply kelvin_inverse.
  - rewrite single_dims by auto. unfold convertfrom, convertto. cbn [lconvert]. change (1 * -1) with (-1). change (1 * 1) with 1.
    destruct (temp_to a n relative Ta) as (x & X1 & X2). rewrite X1. cbn [obind].
    destruct (temp_from b x relative Tb) as (y & Y1 & Y2). rewrite Y1. cbn [obind]. exists y, [(b, 1)]. split; auto. split; auto.
    rewrite Y2. destruct relative.
    + rewrite X2. reflexivity.
    + destruct (ukind_of b); cbn [from_kelvin]; rewrite X2; reflexivity.
Qed.

Lemma assoc_in {A} k (l : list (str * A)) v : NoDup (map fst l) -> (assoc k l = Some v <-> In (k, v) l).
Proof.
  induction l as [|[k' v'] l IH]; cbn [assoc map fst In]; intros N; [split; [discriminate|tauto]|].
  inversion N as [|? ? N1 N2]; subst. destruct (seq_eqb k' k) eqn:E.
  - apply seq_eqb_iff in E. subst k'. split; [intros X; inversion X; auto|]. intros [X|X]; [inversion X; auto|].
    exfalso. apply N1. apply (in_map fst) in X. auto.
  - rewrite IH by auto. split; [tauto|]. intros [X|X]; auto. inversion X; subst. rewrite seq_eqb_refl in E. discriminate.
Qed.
Lemma assoc_none {A} k (l : list (str * A)) : assoc k l = None <-> ~ In k (map fst l).
Proof.
  induction l as [|[k' v'] l IH]; cbn [assoc map fst In]; [tauto|]. destruct (seq_eqb k' k) eqn:E.
  - apply seq_eqb_iff in E. subst. split; [discriminate|tauto].
  - rewrite IH. split; [|tauto]. intros H [X|X]; auto. subst. rewrite seq_eqb_refl in E. discriminate.
Qed.

Lemma ambig_add_aux u ss : forall a, NoDup (map fst (aunits a)) ->
  let r := fold_left (fun acc s => match acc with None => None | Some a => match assoc s (aunits a) with Some _ => None | None => Some (mkAmbig (anames a) (asyms a) (aunits a ++ [(s, u)])) end end) ss (Some a) in
  (NoDup (map fst (aunits a) ++ ss) -> exists a', r = Some a' /\ anames a' = anames a /\ asyms a' = asyms a /\ aunits a' = aunits a ++ map (fun s => (s, u)) ss) /\
  (~ NoDup (map fst (aunits a) ++ ss) -> r = None).
Proof.
  induction ss as [|s ss IH]; intros a Na; cbn [fold_left].
  - split; [intros _; exists a; cbn; rewrite app_nil_r; auto|]. rewrite app_nil_r. tauto.
  - destruct (assoc s (aunits a)) eqn:E.
    + assert (I : In s (map fst (aunits a))).
      { destruct (in_dec (list_eq_dec ascii_dec) s (map fst (aunits a))); auto. apply assoc_none in n. congruence. }
      assert (G : forall l, fold_left (fun acc s0 => match acc with None => None | Some a0 => match assoc s0 (aunits a0) with Some _ => None | None => Some (mkAmbig (anames a0) (asyms a0) (aunits a0 ++ [(s0, u)])) end end) l None = None) by (induction l; auto).
      rewrite G. split; auto. intros N. exfalso. apply (NoDup_remove_2 (map fst (aunits a)) ss s N). apply in_or_app; auto.
    + apply assoc_none in E. set (a1 := mkAmbig _ _ _).
      assert (M : map fst (aunits a1) = map fst (aunits a) ++ [s]) by (cbn [aunits a1]; rewrite map_app; auto).
      assert (N1 : NoDup (map fst (aunits a1))).
      { rewrite M. apply nodup_app; auto. - repeat constructor; auto. - intros x I [X|[]]; subst. auto. }
      destruct (IH a1 N1) as [A B]. rewrite M, <- app_assoc in A, B. cbn [app] in A, B. split; auto.
      intros N. destruct (A N) as (a' & A1 & A2 & A3 & A4). exists a'. split; auto. split; auto. split; auto.
      rewrite A4. cbn [aunits a1 map]. rewrite <- app_assoc. auto.
Qed.
Lemma nodup_app_inv {A} (a b : list A) : NoDup (a ++ b) -> NoDup a.
Proof. induction a as [|x a IH]; cbn; intros H; [constructor|]. inversion H; subst. constructor; auto. intros I. apply H2. apply in_or_app; auto. Qed.
Lemma map_systems us : map fst (systems_of us) = flat_map usystems us.
Proof. unfold systems_of. induction us as [|u us IH]; cbn [flat_map]; auto. rewrite map_app, IH, map_map. f_equal. cbn. apply map_id. Qed.
Lemma ambig_all_spec us : forall a, NoDup (map fst (aunits a)) ->
  (NoDup (map fst (aunits a) ++ flat_map usystems us) -> exists a', ambig_all a us = Some a' /\ anames a' = anames a /\ asyms a' = asyms a /\ aunits a' = aunits a ++ systems_of us) /\
  (~ NoDup (map fst (aunits a) ++ flat_map usystems us) -> ambig_all a us = None).
Proof.
  induction us as [|u us IH]; intros a Na; cbn [ambig_all flat_map].
  - rewrite app_nil_r. split; [|tauto]. intros _. exists a. cbn. rewrite app_nil_r. auto.
  - destruct (ambig_add_aux u (usystems u) a Na) as [A B]. fold (ambig_add a u) in A, B. cbn zeta in *.
    destruct (ListDec.NoDup_dec (list_eq_dec ascii_dec) (map fst (aunits a) ++ usystems u)) as [D|D].
    + destruct (A D) as (a1 & A1 & A2 & A3 & A4). unfold ambig_add in *. rewrite A1.
      assert (M : map fst (aunits a1) = map fst (aunits a) ++ usystems u) by (rewrite A4, map_app, map_map; cbn; rewrite map_id; auto).
      destruct (IH a1) as [C E]; [rewrite M; auto|]. rewrite M in C, E. rewrite app_assoc. split; auto.
      intros N. destruct (C N) as (a' & C1 & C2 & C3 & C4). exists a'. split; auto. split; [congruence|]. split; [congruence|].
      rewrite C4, A4. unfold systems_of. cbn [flat_map]. rewrite <- app_assoc. auto.
    + unfold ambig_add in *. rewrite (B D). split; auto. intros N. exfalso. apply D. rewrite app_assoc in N. eapply nodup_app_inv; eauto.
Qed.

Lemma mem_str_iff x l : mem_str x l = true <-> In x l.
Proof.
  unfold mem_str. rewrite existsb_exists. split.
  - intros (y & I & E). apply seq_eqb_iff in E. subst; auto.
  - intros I. exists x. split; auto. apply seq_eqb_refl.
Qed.
Lemma preferred_system_spec prefs systems : match preferred_system prefs systems with
  | Some s => exists i, nth_error prefs i = Some s /\ In s systems /\ forall j s', (j < i)%nat -> nth_error prefs j = Some s' -> ~ In s' systems
  | None => forall s, In s prefs -> ~ In s systems end.
Proof.
  induction prefs as [|p prefs IH]; cbn [preferred_system]; [intros s []|].
  destruct (mem_str p systems) eqn:E.
  - apply mem_str_iff in E. exists 0%nat. split; auto. split; auto. intros; lia.
  - assert (N : ~ In p systems) by (rewrite <- mem_str_iff; congruence).
    destruct (preferred_system prefs systems) as [s|].
    + destruct IH as (i & A & B & C). exists (S i). split; auto. split; auto. intros [|j] s' L X; cbn in X; [inversion X; subst; auto|].
      apply (C j); auto. lia.
    + intros s [<-|I]; auto.
Qed.
Lemma preferred_unit_spec prefs a : NoDup (map fst (aunits a)) ->
  (forall u, preferred_unit prefs a = Ok u <-> most_preferred prefs (aunits a) u) /\
  (preferred_unit prefs a = Py <-> forall s u, In s prefs -> ~ In (s, u) (aunits a)).
Proof.
  intros N. unfold preferred_unit. pose proof (preferred_system_spec prefs (map fst (aunits a))) as P.
  assert (K : forall s w, In (s, w) (aunits a) -> In s (map fst (aunits a))) by (intros s w I; apply (in_map fst) in I; auto).
  destruct (preferred_system _ _) as [s|].
  - destruct P as (i & A & B & C). apply in_map_iff in B. destruct B as ((s0 & u0) & E & B). cbn in E. subst s0.
    assert (X : assoc s (aunits a) = Some u0) by (apply assoc_in; auto). rewrite X. split.
    + intros u. split.
      * intros Y. inversion Y; subst. exists i, s. split; auto. split; auto. intros j s' L J w I. apply (C j s' L J). eauto.
      * intros (i' & s' & A' & B' & C'). destruct (Nat.lt_trichotomy i i') as [L|[L|L]].
        -- exfalso. apply (C' i s L A u0). auto.
        -- subst. rewrite A in A'. inversion A'; subst. f_equal. apply assoc_in in B'; auto. congruence.
        -- exfalso. apply (C i' s' L A'). eauto.
    + split; [discriminate|]. intros H. exfalso. apply (H s u0); auto. eapply nth_error_In; eauto.
  - split.
    + intros u. split; [discriminate|]. intros (i & s & A & B & _). exfalso. apply (P s); eauto. eapply nth_error_In; eauto.
    + split; auto. intros _ s u I J. apply (P s I). eauto.
Qed.

Lemma most_preferred_perm prefs a b u : Permutation a b -> most_preferred prefs a u -> most_preferred prefs b u.
Proof.
  intros P (i & s & A & B & C). exists i, s. split; auto. split; [eapply Permutation_in; eauto|].
  intros j s' L J w I. apply (C j s' L J w). eapply Permutation_in; [apply Permutation_sym; exact P|auto].
Qed.
Lemma systems_perm us us' : Permutation us us' -> Permutation (systems_of us) (systems_of us').
Proof. intros P. unfold systems_of. apply Permutation_flat_map. auto. Qed.

(** Any registration order gives the same answers. *)
Lemma ambiguous_order prefs names syms us us' : Permutation us us' ->
  match ambig_all (mkAmbig names syms []) us, ambig_all (mkAmbig names syms []) us' with
  | Some a, Some b => preferred_unit prefs a = preferred_unit prefs b
  | None, None => True
  | _, _ => False
  end.
Proof.
  intros P. destruct (ambig_all_spec us (mkAmbig names syms [])) as [A1 A2]; [constructor|].
  destruct (ambig_all_spec us' (mkAmbig names syms [])) as [B1 B2]; [constructor|]. cbn [aunits map app] in *.
  pose proof (Permutation_flat_map usystems P) as Q.
  destruct (ListDec.NoDup_dec (list_eq_dec ascii_dec) (flat_map usystems us)) as [D|D].
  - assert (D' : NoDup (flat_map usystems us')) by (eapply Permutation_NoDup; eauto).
    destruct (A1 D) as (a & -> & _ & _ & Ea). destruct (B1 D') as (b & -> & _ & _ & Eb).
    destruct (preferred_unit_spec prefs a) as [PA PA']; [rewrite Ea, map_systems; auto|].
    destruct (preferred_unit_spec prefs b) as [PB PB']; [rewrite Eb, map_systems; auto|].
    rewrite Ea in *. rewrite Eb in *. pose proof (systems_perm us us' P) as S.
    destruct (preferred_unit prefs a) as [u| |] eqn:X.
    + symmetry. apply PB. eapply most_preferred_perm; [exact S|]. apply PA. auto.
    + exfalso. unfold preferred_unit in X. destruct (preferred_system _ _); [destruct (assoc _ _)|]; discriminate.
    + symmetry. apply PB'. intros s u I J. destruct PA' as [PA' _]. apply (PA' eq_refl s u I). eapply Permutation_in; [apply Permutation_sym; exact S|auto].
  - assert (D' : ~ NoDup (flat_map usystems us')) by (intros N; apply D; eapply Permutation_NoDup; [apply Permutation_sym; exact Q|auto]).
    rewrite A2, B2; auto.
Qed.

(** Lookup of a name. *)
Lemma find_ambig_app name l l' : find_ambig name (l ++ l') = match find_ambig name l with Some a => Some a | None => find_ambig name l' end.
Proof. induction l as [|a l IH]; cbn [find_ambig app]; auto. destruct (isunit _ _ _); auto. Qed.
Lemma isunit_iff names syms n : isunit names syms n = true <-> own_name names syms n.
Proof.
  unfold isunit, own_name. rewrite orb_true_iff, !mem_str_iff, in_map_iff. firstorder.
Qed.
Lemma fill_aunits prefs r names : forall a a', ambig_fill prefs r names a = Ok a' ->
  exists us, ambig_all a us = Some a' /\ Forall2 (fun n u => get_unit prefs r n = Ok (Some (UDef u))) names us.
Proof.
  induction names as [|n names IH]; intros a a'; cbn [ambig_fill].
  - intros H. inversion H; subst. exists []. split; [reflexivity|constructor].
  - destruct (get_unit prefs r n) as [[[u|x]|]| |] eqn:G; cbn [obind]; try discriminate.
    destruct (ambig_add a u) as [a1|] eqn:A; [|discriminate]. intros H. destruct (IH _ _ H) as (us & U1 & U2).
    exists (u :: us). cbn [ambig_all]. rewrite A. split; auto.
Qed.
Lemma registered_lookup prefs a names r r' n : aunits a = [] -> reg_add_ambiguous prefs a names r = Ok r' ->
  own_name (anames a) (asyms a) n -> find_ambig n (ambigs r) = None ->
  exists us, Forall2 (fun m u => get_unit prefs r m = Ok (Some (UDef u))) names us /\
    forall prefs', (forall u, get_unit prefs' r' n = Ok (Some (UDef u)) <-> most_preferred prefs' (systems_of us) u) /\
      (get_unit prefs' r' n = Py <-> forall s u, In s prefs' -> ~ In (s, u) (systems_of us)).
Proof.
  intros Ea H O F. unfold reg_add_ambiguous in H. destruct (ambig_fill prefs r names a) as [a'| |] eqn:A; cbn [obind] in H; try discriminate.
  inversion H; subst; clear H. destruct (fill_aunits _ _ _ _ _ A) as (us & U1 & U2). exists us. split; auto. intros prefs'.
  assert (Na : NoDup (map fst (aunits a))) by (rewrite Ea; constructor).
  destruct (ambig_all_spec us a Na) as [B1 B2]. rewrite Ea in *. cbn [map app] in *.
  destruct (ListDec.NoDup_dec (list_eq_dec ascii_dec) (flat_map usystems us)) as [D|D]; [|rewrite (B2 D) in U1; discriminate].
  destruct (B1 D) as (a2 & X1 & X2 & X3 & X4). rewrite X1 in U1. inversion U1; subst a2.
  assert (G : get_unit prefs' (reg_names (anames a) (asyms a) (UAmb a') (mkReg (ambigs r ++ [a']) (rnames r) (rsyms r))) n = do u <- preferred_unit prefs' a'; Ok (Some (UDef u))).
  { unfold get_unit, reg_names. cbn [ambigs]. rewrite find_ambig_app, F. cbn [find_ambig].
    assert (isunit (anames a') (asyms a') n = true) as -> by (apply isunit_iff; rewrite X2, X3; auto). auto. }
  rewrite G. destruct (preferred_unit_spec prefs' a') as [P1 P2]; [rewrite X4, map_systems; auto|]. rewrite X4 in *.
  destruct (preferred_unit prefs' a') as [u0| |] eqn:Y; cbn [obind].
  - split.
    + intros u. rewrite <- P1. split; intros E; inversion E; subst; auto.
    + split; [discriminate|]. intros N. apply P2 in N. discriminate.
  - exfalso. unfold preferred_unit in Y. destruct (preferred_system _ _); [destruct (assoc _ _)|]; discriminate.
  - split; [|tauto]. intros u. rewrite <- P1. split; discriminate.
Qed.
