(** Simplifying the units of an answer keeps the quantity. *)
From Coq Require Import ZArith QArith Qpower Ascii String List Bool Lia.
From Verif Require Import Base BaseProofs Dec Num NumSpec NumProofs Bases Units UnitsSpec UnitsProofs UnitsProofs2 UnitsProofs3 UnitsProofs4 UnitReg Install InstallProofs Syntax UnitCalc UnitCalcSpec UnitCalcProofs SimplifySpec.
Import ListNotations.
Open Scope Z_scope.

Lemma remove_found_spec us rel m : units_ok us -> forall f v l v' l', over us f -> over us l -> remove_found f m v l = Ok (v', l') ->
  same_quantity v l v' l' /\ over us l' /\ (once ueqb l -> once ueqb l') /\ forall d, dim_total rel l' d = dim_total rel l d - m * dim_total rel f d.
Proof.
  intros U. induction f as [|[u q] f IH]; intros v l v' l' Of Ol; cbn [remove_found dim_total].
  - intros H. inversion H; subst. split; [unfold same_quantity; reflexivity|]. split; [assumption|]. split; [auto|]. intros; lia.
  - inversion Of as [|? ? A B]; subst. cbn in A.
    destruct (removeandconvert_spec us rel l v u (q * m) false U A Ol) as (v1 & R1 & R2 & R3 & R4). rewrite R1. cbn [obind fst snd].
    intros H. destruct (IH v1 _ v' l' B R3 H) as (S1 & S2 & S3 & S4). split; [eapply sq_trans; eauto|]. split; auto. split.
    + intros O. apply S3. apply pl_add_once; auto. apply equiv_unit.
    + intros d. rewrite S4, R4. lia.
Qed.
Lemma add_target_spec us rel p : units_ok us -> forall ts v l, over us ts -> over us l ->
  exists v', lconvert ts v p false = Ok v' /\ same_quantity v l v' (addall l ts p) /\ over us (addall l ts p) /\
    (once ueqb l -> once ueqb (addall l ts p)) /\
    forall d, dim_total rel (addall l ts p) d = dim_total rel l d + p * dim_total rel ts d.
Proof.
  intros U. unfold addall. induction ts as [|[u q] ts IH]; intros v l Ot Ol; cbn [lconvert fold_left dim_total fst snd].
  - exists v. split; [reflexivity|]. split; [unfold same_quantity; reflexivity|]. split; [assumption|]. split; [auto|]. intros; lia.
  - inversion Ot as [|? ? A B]; subst. cbn in A.
    destruct (addandconvert_spec us rel l v u (q * p) false U A Ol) as (v1 & R1 & R2 & R3 & R4).
    unfold addandconvert in R1. destruct (uconvert u v (q * p) false) as [w| |]; cbn [obind] in *; try discriminate.
    injection R1 as -> _. destruct (IH v1 _ B R3) as (v2 & S1 & S2 & S3 & S4 & S5). exists v2. split; [exact S1|].
    split; [eapply sq_trans; eauto|]. split; [exact S3|]. split.
    + intros O. apply S4. apply pl_add_once; auto. apply equiv_unit.
    + intros d. rewrite S5, R4. lia.
Qed.
Lemma tconvert_list t v p : tconvert t v p = lconvert (tlist t) v p false.
Proof.
  destruct t; cbn [tconvert tlist ulist lconvert]; [|reflexivity]. rewrite Z.mul_1_l. destruct (uconvert _ v p false); reflexivity.
Qed.
(** A target for [dim]: units in use whose total dimension is [dim] *)
Definition target_ok (rel : rels) (us : list unit) (dim : str) (t : target) : Prop :=
  over us (tlist t) /\ forall d, dim_total rel (tlist t) d = psum seq_eqb d (norm_dim rel dim).
Lemma choose_in U v f m p : forall ts best t x, choose U v f m p ts best = Ok (Some (t, x)) -> In t ts \/ exists y, best = Some (t, y).
Proof.
  induction ts as [|t0 ts IH]; intros best t x; cbn [choose].
  - intros H. right. exists x. congruence.
  - set (B := if Qeq_bool v 0 then _ else _). destruct B as [b| |] eqn:E; cbn [obind]; try discriminate.
    intros H. apply IH in H as [H|[y H]]; [left; now right|]. subst b B.
    destruct (Qeq_bool v 0).
    + destruct best as [[[b|b] z]|]; [destruct t0; try discriminate|discriminate|].
      * destruct (nearer_one _ _); inversion E; subst; [left; now left|right; eauto].
      * injection E as <- _. left. now left.
    + destruct (convert_found f v m); cbn [obind] in E; try discriminate. destruct (tconvert t0 a (p * m)); cbn [obind] in E; try discriminate.
      destruct best as [[b z]|].
      * destruct (u_closer U a0 z); inversion E; subst; [left; now left|right; eauto].
      * injection E as <- _. left. now left.
Qed.

Definition found_ok (rel : rels) (us : list unit) (dim : str) (power : Z) (f : upl) : Prop :=
  over us f /\ forall d, dim_total rel f d = power * psum seq_eqb d (norm_dim rel dim).
Lemma try_found_spec U us systems dim power : units_ok us -> forall ts, Forall (target_ok (u_rels U) us dim) ts ->
  forall fs v l y, Forall (found_ok (u_rels U) us dim power) fs -> over us l ->
  try_found U systems ts power fs v l = Ok (Some y) -> keeps (u_rels U) us v l (fst y) (snd y).
Proof.
  intros HU ts Ht. induction fs as [|f fs IH]; intros v l y Hf Ol; cbn [try_found]; [discriminate|].
  inversion Hf as [|? ? [F1 F2] Hf']; subst.
  destruct (mult_power l f) as [m| |]; cbn [obind]; try discriminate. cbv zeta. set (ts' := filter _ ts).
  match goal with |- (if ?b then _ else _) = _ -> _ => destruct b end; [|apply IH; auto].
  destruct (whole m) as [k| |]; cbn [obind]; try discriminate.
  destruct (choose U v f k power ts' None) as [[[t x]|]| |] eqn:C; cbn [obind]; try discriminate; [|apply IH; auto].
  apply choose_in in C as [C|[? C]]; [|discriminate]. apply filter_In in C as [C _]. rewrite Forall_forall in Ht. destruct (Ht t C) as [T1 T2].
  destruct (remove_found f k v l) as [[v1 l1]| |] eqn:R; cbn [obind fst snd]; try discriminate.
  destruct (remove_found_spec us (u_rels U) k HU f v l v1 l1 F1 Ol R) as (R1 & R2 & R3 & R4).
  unfold add_target. rewrite tconvert_list.
  destruct (add_target_spec us (u_rels U) (power * k) HU (tlist t) v1 l1 T1 R2) as (v2 & S1 & S2 & S3 & S4 & S5).
  rewrite S1. cbn [obind]. intros H. injection H as <-. cbn [fst snd]. split; [eapply sq_trans; eauto|]. split; [exact S3|]. split; [auto|].
  intros d. rewrite S5, R4, T2, F2. lia.
Qed.
Lemma try_goals_spec U us systems v l : units_ok us -> over us l -> forall gs y,
  Forall (fun g => (Forall (target_ok (u_rels U) us (fst (fst g))) (targets (u_norm U) (fst (fst g))) \/ snd g = []) /\
                   Forall (found_ok (u_rels U) us (fst (fst g)) (snd (fst g))) (snd g)) gs ->
  try_goals U systems gs v l = Ok (Some y) -> keeps (u_rels U) us v l (fst y) (snd y).
Proof.
  intros HU Ol. induction gs as [|[[dim p] fs] gs IH]; intros y H; cbn [try_goals]; [discriminate|].
  inversion H as [|? ? [H1 H2] H3]; subst. cbn [fst snd] in H1, H2.
  destruct (try_found U systems (targets (u_norm U) dim) p fs v l) as [[z|]| |] eqn:E; cbn [obind]; try discriminate.
  - intros Z. injection Z as <-. destruct H1 as [H1|H1]; [|rewrite H1 in E; discriminate E]. eapply try_found_spec; eauto.
  - apply IH, H3.
Qed.
Lemma targets_ok N us dim : covered N us dim -> Forall (target_ok (n_rels N) us dim) (targets N dim).
Proof.
  intros [C1 C2]. unfold targets. apply Forall_app. split.
  - destruct (assoc dim (n_units N)) as [cs|] eqn:E; [|constructor]. apply assoc_some_in in E. apply Forall_forall. intros t Ht.
    apply in_map_iff in Ht as (c & <- & Hc). destruct (C1 cs c E Hc) as [A B]. split; cbn [tlist ulist].
    + apply Forall_cons; [exact A|apply Forall_nil].
    + intros d. unfold ulist. cbn [dim_total]. rewrite B. lia.
  - destruct (assoc dim (n_multis N)) as [ms|] eqn:E; [|constructor]. apply assoc_some_in in E. apply Forall_forall. intros t Ht.
    apply in_map_iff in Ht as (m & <- & Hm). exact (C2 ms m E Hm).
Qed.
Lemma foreign_total rel us l d : over us l -> Forall (fun u => psum seq_eqb d (norm_dim rel (udim u)) = 0) us -> dim_total rel l d = 0.
Proof.
  intros O H. rewrite Forall_forall in H. induction l as [|[u q] l IH]; cbn [dim_total]; [reflexivity|]. inversion O as [|? ? A B]; subst.
  rewrite IH by exact B. cbn in A. rewrite (H u A). lia.
Qed.
Lemma goals_proper N us : goes_with N us -> Forall (fun g => (snd g = 1 \/ snd g = -1) /\ proper_dim (n_rels N) (fst g) /\ (covered N us (fst g) \/ foreign N us (fst g))) (goal_dims N).
Proof.
  intros H. apply Forall_forall. intros [dim p] Hg. unfold goal_dims in Hg. apply in_flat_map in Hg as ([k cs] & Hk & Hg).
  destruct (H k cs Hk) as [P C]. cbn [fst In] in Hg. destruct Hg as [Hg|[Hg|[]]]; injection Hg as <- <-; cbn [fst snd]; auto.
Qed.
Lemma Forall_combine {A B} (P : A * B -> Prop) (l : list A) (l' : list B) :
  (forall j a b, nth_error l j = Some a -> nth_error l' j = Some b -> P (a, b)) -> Forall P (combine l l').
Proof.
  revert l'. induction l as [|a l IH]; intros [|b l'] H; cbn [combine]; try constructor.
  - apply (H O); reflexivity.
  - apply IH. intros j x y Hx Hy. apply (H (S j)); assumption.
Qed.
Lemma simplify_loop_spec U us : units_ok us -> goes_with (u_norm U) us -> forall fuel v l v' l', over us l ->
  simplify_loop fuel U v l = Ok (v', l') -> keeps (u_rels U) us v l v' l'.
Proof.
  intros HU G. induction fuel as [|k IH]; intros v l v' l' Ol; cbn [simplify_loop]; [discriminate|]. cbv zeta.
  pose proof (goals_proper (u_norm U) us G) as GP. rewrite Forall_forall in GP.
  set (gs := goal_dims (u_norm U)) in *. set (goals := map (fun g => pl_multiply (snd g) (norm_dim (n_rels (u_norm U)) (fst g))) gs).
  assert (PG : forall g, In g goals -> once seq_eqb g /\ nonzero g /\ g <> []).
  { intros g Hg. unfold goals in Hg. apply in_map_iff in Hg as (e & <- & He). destruct (GP e He) as (E1 & (E2 & E3 & E4) & _).
    apply once_psum_multiply; auto. lia. }
  destruct (find_units_spec goals (subunits (n_rels (u_norm U)) l)) as (res & R1 & R2 & R3);
    [apply Forall_forall; intros g Hg; apply PG, Hg..|]. rw_find R1. cbn [obind].
  destruct (try_goals U _ (combine gs res) v l) as [[y|]| |] eqn:T; cbn [obind]; try discriminate.
  2:{ intros H. injection H as <- <-. apply keeps_refl, Ol. }
  intros H. apply (try_goals_spec U us) in T; [|exact HU|exact Ol|].
  - eapply keeps_trans; [exact T|]. apply IH in H; [exact H|]. apply T.
  - apply Forall_combine. intros j [dim p] fs Hj Hf. cbn [fst snd].
    assert (Hg : nth_error goals j = Some (pl_multiply p (norm_dim (n_rels (u_norm U)) dim))) by (unfold goals; rewrite nth_error_map, Hj; reflexivity).
    destruct (R3 j _ Hg) as (cs & C1 & _ & C3). rewrite Hf in C1. injection C1 as ->.
    destruct (GP (dim, p) (nth_error_In _ _ Hj)) as (E1 & _ & E3). cbn [fst snd] in E1, E3.
    assert (F : Forall (found_ok (u_rels U) us dim p) (map (found_units (subunits (n_rels (u_norm U)) l)) cs)).
    { apply Forall_forall. intros f Hin. apply in_map_iff in Hin as (c & <- & Hc). apply C3 in Hc as [_ Hc].
      pose proof (subunits_ok (n_rels (u_norm U)) us l Ol) as SO. split.
      - apply found_over. eapply Forall_impl; [|exact SO]. cbn; tauto.
      - intros d. unfold u_rels. rewrite found_total by (eapply Forall_impl; [|exact SO]; cbn; tauto). rewrite Hc, psum_multiply. lia. }
    split; [|exact F]. destruct E3 as [E3|(d & D1 & D2)]; [left; now apply targets_ok|right].
    match goal with |- ?x = [] => destruct x as [|f fs] eqn:Ef; [reflexivity|exfalso] end. inversion F as [|? ? [F1 F2] _]; subst.
    specialize (F2 d). rewrite (foreign_total (u_rels U) us f d F1 D2) in F2. unfold u_rels in F2. destruct E1; subst p; lia.
Qed.
Lemma simplify_spec U us v l v' l' : units_ok us -> goes_with (u_norm U) us -> over us l -> simplify U v l = Ok (v', l') -> 
  same_quantity v l v' l' /\ over us l'.
Proof.
  intros HU G Ol. unfold simplify. cbv zeta.
  match goal with |- context [if ?b then simplify_loop _ _ _ _ else _] => destruct b end.
  - destruct (simplify_loop simplify_fuel U v l) as [[v1 l1]| |] eqn:E; cbn [obind fst snd]; try discriminate.
    apply (simplify_loop_spec U us HU G) in E; [|exact Ol]. destruct E as (E1 & E2 & _). unfold dedupe. destruct (1 <? length l1)%nat.
    + intros H. apply (dedupe_quantity us (u_rels U) HU) in H as (A & B & _); [|exact E2]. split; [eapply sq_trans; eauto|exact B].
    + intros H. injection H as <- <-. auto.
  - cbn [obind fst snd]. unfold dedupe. destruct (1 <? length l)%nat.
    + intros H. apply (dedupe_quantity us (u_rels U) HU) in H as (A & B & _); [|exact Ol]. auto.
    + intros H. injection H as <- <-. split; [unfold same_quantity; reflexivity|exact Ol].
Qed.
Lemma finalize_spec U us : units_ok us -> goes_with (u_norm U) us -> forall r r', units_from us r -> finalize U r = Ok r' -> same_answer r r'.
Proof.
  intros HU G. fix IH 1. intros [v u f o] r' Hu.
  destruct v as [|n|s|b|w|l|e|i].
  all: try (cbn [finalize]; destruct u as [x|]; [|intros H; injection H as <-; apply SameRes];
    destruct (u_simplify U && negb (eu_nosimp x)); [|intros H; injection H as <-; apply SameRes]; cbn [simplify_value obind]; try discriminate).
  - inversion Hu as [|? ? ? ? _ Hx]; subst. specialize (Hx x eq_refl).
    destruct (simplify U (num_q n) (eu_list x)) as [[q l]| |] eqn:E; cbn [obind fst snd]; try discriminate. intros H. injection H as <-.
    apply (simplify_spec U us) in E as [E _]; auto. unfold same_quantity in E. apply SameNum; [|apply of_q_cast].
    rewrite of_q_val. cbn [size_of]. fold (val n) in E. rewrite <- E. destruct l; cbn; reflexivity.
  - cbn [finalize].
    set (all := fix all (l : list result) : out (list result) := match l with [] => Ok [] | x :: t => do y <- finalize U x; do z <- all t; Ok (y :: z) end).
    assert (A : forall l', Forall (units_from us) l -> all l = Ok l' -> Forall2 same_answer l l').
    { clear Hu. induction l as [|x l IHl]; intros l' F; cbn [all].
      - intros H. injection H as <-. constructor.
      - destruct (finalize U x) as [y| |] eqn:E; cbn [obind]; try discriminate. fold all. destruct (all l) as [z| |] eqn:Z; cbn [obind]; try discriminate.
        intros H. injection H as <-. constructor; [apply (IH x y); [now inversion F|exact E]|]. apply IHl; [now inversion F|reflexivity]. }
    inversion Hu as [? ? ? ? Fl|? ? ? ? NL]; subst; [|exfalso; now apply (NL l)].
    destruct (all l) as [l'| |] eqn:E; cbn [obind]; try discriminate. intros H. injection H as <-. apply SameList. now apply A.
Qed.
