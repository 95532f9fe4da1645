From Coq Require Import ZArith QArith Qpower Qfield Ascii String List Bool Lia Permutation Setoid.
From Verif Require Import Base Bases Units UnitsSpec BaseProofs UnitsProofs UnitsProofs2 UnitsProofs3.
Import ListNotations.
Open Scope Z_scope.


Lemma over_scaled us l : units_ok us -> over us l -> all_scaled l.
Proof. intros [_ S] O. unfold all_scaled. eapply Forall_impl; [|exact O]. cbn. rewrite Forall_forall in S. auto. Qed.

Lemma pl_add_over us u q l : In u us -> over us l -> over us (pl_add ueqb u q l).
Proof. intros H O. apply pl_add_forall; auto. intros k' q' I. unfold over in O. rewrite Forall_forall in O. apply (O _ I). Qed.

Lemma pl_add_factor us u q l : units_ok us -> In u us -> over us l -> (factor (pl_add ueqb u q l) == factor l * Qpower (uscale u) q)%Q.
Proof.
  intros [C S] Iu. induction l as [|[k q'] l IH]; intros O; cbn [pl_add factor]; [ring|].
  inversion O as [|? ? O1 O2]; subst. cbn in O1. destruct (ueqb k u) eqn:E; unfold ueqb in E.
  - apply Z.eqb_eq in E. assert (k = u) as -> by (apply C; auto).
    assert (Nz : ~ (uscale u == 0)%Q) by (rewrite Forall_forall in S; apply S; auto).
    destruct (q' + q =? 0) eqn:Zq.
    + apply Z.eqb_eq in Zq. assert (Qpower (uscale u) q' * Qpower (uscale u) q == 1)%Q as H.
      { rewrite <- Qpower_plus by auto. rewrite Zq. reflexivity. }
      setoid_replace (Qpower (uscale u) q' * factor l * Qpower (uscale u) q)%Q with (factor l * (Qpower (uscale u) q' * Qpower (uscale u) q))%Q by ring.
      rewrite H. ring.
    + cbn [factor]. rewrite Qpower_plus by auto. ring.
  - cbn [factor]. rewrite IH by auto. ring.
Qed.
Lemma pl_add_dims us rel u q l d : coherent us -> In u us -> over us l ->
  dim_total rel (pl_add ueqb u q l) d = dim_total rel l d + q * psum seq_eqb d (norm_dim rel (udim u)).
Proof.
  intros C Iu. induction l as [|[k q'] l IH]; intros O; cbn [pl_add dim_total]; [lia|].
  inversion O as [|? ? O1 O2]; subst. cbn in O1. destruct (ueqb k u) eqn:E; unfold ueqb in E.
  - apply Z.eqb_eq in E. assert (k = u) as -> by (apply C; auto). destruct (q' + q =? 0) eqn:Zq; cbn [dim_total]; [apply Z.eqb_eq in Zq|]; nia.
  - cbn [dim_total]. rewrite IH by auto. lia.
Qed.

(** Adding or removing a unit with conversion keeps the quantity. *)
Definition same_quantity (v : Q) (l : upl) (v' : Q) (l' : upl) : Prop := (v' * factor l' == v * factor l)%Q.
Lemma sq_trans v l v1 l1 v2 l2 : same_quantity v l v1 l1 -> same_quantity v1 l1 v2 l2 -> same_quantity v l v2 l2.
Proof. unfold same_quantity. intros A B. rewrite B. auto. Qed.

Lemma addandconvert_spec us rel l v u q relative : units_ok us -> In u us -> over us l ->
  exists v', addandconvert l v u q relative = Ok (v', pl_add ueqb u q l) /\ same_quantity v l v' (pl_add ueqb u q l) /\
    over us (pl_add ueqb u q l) /\
    forall d, dim_total rel (pl_add ueqb u q l) d = dim_total rel l d + q * psum seq_eqb d (norm_dim rel (udim u)).
Proof.
  intros U Iu O. assert (Su : scaled u) by (destruct U as [_ S]; rewrite Forall_forall in S; auto).
  unfold addandconvert. destruct (uconvert_scaled u v q relative Su) as (w & W1 & W2). rewrite W1. cbn [obind].
  exists w. unfold addall, ulist. cbn [fold_left fst snd]. rewrite Z.mul_1_l. split; auto. split; [|split].
  - unfold same_quantity. rewrite W2. rewrite (pl_add_factor us u q l U Iu O). field. apply qp_nz. apply Su.
  - apply pl_add_over; auto.
  - intros d. destruct U as [C _]. apply (pl_add_dims us); auto.
Qed.
Lemma removeandconvert_spec us rel l v u q relative : units_ok us -> In u us -> over us l ->
  exists v', removeandconvert l v u q relative = Ok (v', pl_add ueqb u (- q) l) /\ same_quantity v l v' (pl_add ueqb u (- q) l) /\
    over us (pl_add ueqb u (- q) l) /\
    forall d, dim_total rel (pl_add ueqb u (- q) l) d = dim_total rel l d - q * psum seq_eqb d (norm_dim rel (udim u)).
Proof.
  intros U Iu O. destruct (addandconvert_spec us rel l v u (- q) relative U Iu O) as (v' & A & B & C & D).
  unfold addandconvert in A. unfold removeandconvert, removeall, addall, ulist in *. cbn [fold_left fst snd] in *.
  destruct (uconvert u v (- q) relative) as [w| |]; cbn [obind] in *; try discriminate. rewrite Z.mul_1_l in *. inversion A; subst.
  exists v'. split; auto. split; auto. split; auto. intros d. rewrite D. lia.
Qed.

Lemma remove_list_spec us rel relative : units_ok us -> forall f v l, over us f -> over us l ->
  exists v', remove_list f v l relative = Ok (v', fold_left (fun l e => pl_add ueqb (fst e) (- snd e) l) f l) /\
    same_quantity v l v' (fold_left (fun l e => pl_add ueqb (fst e) (- snd e) l) f l) /\
    over us (fold_left (fun l e => pl_add ueqb (fst e) (- snd e) l) f l) /\
    forall d, dim_total rel (fold_left (fun l e => pl_add ueqb (fst e) (- snd e) l) f l) d = dim_total rel l d - dim_total rel f d.
Proof.
  intros U. induction f as [|[u q] f IH]; intros v l Of Ol; cbn [remove_list fold_left fst snd dim_total].
  - exists v. split; [reflexivity|]. split; [unfold same_quantity; reflexivity|]. split; [assumption|]. intros; lia.
  - inversion Of as [|? ? A B]; subst. cbn in A.
    destruct (removeandconvert_spec us rel l v u q relative U A Ol) as (v1 & R1 & R2 & R3 & R4). rewrite R1. cbn [obind fst snd].
    destruct (IH v1 _ B R3) as (v2 & S1 & S2 & S3 & S4). exists v2. split; auto. split; [eapply sq_trans; eauto|]. split; auto.
    intros d. rewrite S4, R4. lia.
Qed.
Lemma add_list_spec us rel relative p : Z.abs p = 1 -> units_ok us -> forall f v l, over us f -> over us l ->
  exists v', add_list f p v l relative = Ok (v', fold_left (fun l e => pl_add ueqb (fst e) (snd e) l) f l) /\
    same_quantity v l v' (fold_left (fun l e => pl_add ueqb (fst e) (snd e) l) f l) /\
    over us (fold_left (fun l e => pl_add ueqb (fst e) (snd e) l) f l) /\
    forall d, dim_total rel (fold_left (fun l e => pl_add ueqb (fst e) (snd e) l) f l) d = dim_total rel l d + dim_total rel f d.
Proof.
  intros Hp U. induction f as [|[u q] f IH]; intros v l Of Ol; cbn [add_list fold_left fst snd dim_total].
  - exists v. split; [reflexivity|]. split; [unfold same_quantity; reflexivity|]. split; [assumption|]. intros; lia.
  - inversion Of as [|? ? A B]; subst. cbn in A. rewrite Hp, Z.mul_1_r.
    destruct (addandconvert_spec us rel l v u q relative U A Ol) as (v1 & R1 & R2 & R3 & R4). rewrite R1. cbn [obind fst snd].
    destruct (IH v1 _ B R3) as (v2 & S1 & S2 & S3 & S4). exists v2. split; auto. split; [eapply sq_trans; eauto|]. split; auto.
    intros d. rewrite S4, R4. lia.
Qed.

(** ** Dedupe keeps value times factor *)
Lemma replace_loop_quantity us rel ru : units_ok us -> In ru us -> forall idx v l v' l', over us l ->
  replace_loop idx ru v l = Ok (v', l') -> same_quantity v l v' l' /\ over us l' /\
  ((forall u, In u us -> norm_dim rel (udim u) = norm_dim rel (udim ru)) -> forall d, dim_total rel l' d = dim_total rel l d).
Proof.
  intros U Ir. induction idx as [|i idx IH]; intros v l v' l' O; cbn [replace_loop].
  - intros H; inversion H; subst. split; [unfold same_quantity; reflexivity|]. repeat split; auto.
  - destruct (nth_error l i) as [[u q]|] eqn:N; [|discriminate].
    assert (Iu : In u us) by (apply nth_error_In in N; unfold over in O; rewrite Forall_forall in O; apply (O _ N)).
    destruct (ueqb u ru); [apply IH; auto|].
    destruct (removeandconvert_spec us rel l v u q false U Iu O) as (v1 & R1 & R2 & R3 & R4). rewrite R1. cbn [obind fst snd].
    destruct (addandconvert_spec us rel _ v1 ru q false U Ir R3) as (v2 & S1 & S2 & S3 & S4). rewrite S1. cbn [obind fst snd].
    intros H. destruct (IH _ _ _ _ S3 H) as (A & B & C). split; [|split; auto].
    + eapply sq_trans; [exact R2|]. eapply sq_trans; eauto.
    + intros D d. rewrite C, S4, R4 by auto. rewrite (D u Iu). lia.
Qed.
Lemma get_all_over us idx l : over us l -> forall es, get_all idx l = Ok es -> over us es /\
  (forall i e, nth_error idx i = Some e -> nth_error es i = nth_error l e).
Proof.
  intros O. induction idx as [|i idx IH]; cbn [get_all]; intros es H.
  - inversion H; subst. split; [constructor|]. intros [|i] e; discriminate.
  - destruct (nth_error l i) as [e|] eqn:N; [|discriminate]. destruct (get_all idx l) as [x| |]; cbn [obind] in H; try discriminate.
    inversion H; subst. destruct (IH x eq_refl) as [A B]. split.
    + constructor; auto. apply nth_error_In in N. unfold over in O. rewrite Forall_forall in O. auto.
    + intros [|j] e' E; cbn in *; [inversion E; subst; auto|auto].
Qed.
Lemma fold_sum (l : list (unit * Z)) a : fold_left (fun a e => a + snd e) l a = a + zsum (map snd l).
Proof. revert a. induction l as [|e l IH]; intros a; cbn [fold_left map zsum fold_right]; [lia|]. rewrite IH. unfold zsum. lia. Qed.
Lemma dims_uniform rel (l : upl) D d : (forall e, In e l -> norm_dim rel (udim (fst e)) = D) -> dim_total rel l d = zsum (map snd l) * psum seq_eqb d D.
Proof.
  induction l as [|[u q] l IH]; intros H; cbn [dim_total map zsum fold_right snd]; [lia|].
  rewrite IH by (intros; apply H; right; auto). pose proof (H (u, q) (or_introl eq_refl)) as E. cbn [fst] in E. rewrite E. unfold zsum. lia.
Qed.
Lemma dedupe_quantity us rel : units_ok us -> forall groups v l v' l', over us l ->
  dedupe_loop groups v l = Ok (v', l') -> same_quantity v l v' l' /\ over us l' /\
  ((forall u w, In u us -> In w us -> norm_dim rel (udim u) = norm_dim rel (udim w)) -> forall d, dim_total rel l' d = dim_total rel l d).
Proof.
  intros U. induction groups as [|[dn idx] groups IH]; intros v l v' l' O; cbn [dedupe_loop].
  - intros H; inversion H; subst. split; [unfold same_quantity; reflexivity|]. repeat split; auto.
  - destruct (1 <? length idx)%nat; [|apply IH; auto].
    destruct (get_all idx l) as [es| |] eqn:G; cbn [obind]; try discriminate.
    destruct (get_all_over us idx l O es G) as [Oe _].
    destruct (negb _) eqn:Z0.
    + destruct l as [|[ru rq] l0] eqn:L; [discriminate|]. rewrite <- L in *.
      assert (Ir : In ru us) by (rewrite L in O; inversion O; auto).
      destruct (replace_loop idx ru v l) as [[v1 l1]| |] eqn:R; cbn [obind fst snd]; try discriminate.
      destruct (replace_loop_quantity us rel ru U Ir idx v l v1 l1 O R) as (A & B & C).
      intros H. destruct (IH _ _ _ _ B H) as (A' & B' & C'). split; [eapply sq_trans; eauto|]. split; auto.
      intros D d. rewrite C', C; auto.
    + destruct (remove_list_spec us rel false U es v l Oe O) as (v1 & R1 & R2 & R3 & R4). rewrite R1. cbn [obind fst snd].
      intros H. destruct (IH _ _ _ _ R3 H) as (A' & B' & C'). split; [eapply sq_trans; eauto|]. split; auto.
      intros D d. rewrite C', R4 by auto. apply negb_false_iff, Z.eqb_eq in Z0. rewrite fold_sum in Z0.
      destruct es as [|[u0 q0] es]; [cbn; lia|].
      rewrite (dims_uniform rel ((u0, q0) :: es) (norm_dim rel (udim u0))); [rewrite Z.add_0_l in Z0; rewrite Z0; lia|].
      intros e I. apply D; [|inversion Oe; auto]. unfold over in Oe. rewrite Forall_forall in Oe. auto.
Qed.


(** What holds of the entries of [units_by_dim]. *)
Definition entry_ok (rel : rels) (us : list unit) (e : dlist * unit) : Prop :=
  In (snd e) us /\ once seq_eqb (fst e) /\ nonzero (fst e) /\ fst e <> [] /\ Forall (fun x => clean (fst x)) (fst e) /\
  forall d, psum seq_eqb d (fst e) = psum seq_eqb d (norm_dim rel (udim (snd e))).
Lemma psum_perm d (a b : dlist) : Permutation a b -> psum seq_eqb d a = psum seq_eqb d b.
Proof. induction 1 as [|[k q] x y|[k q] [k' q'] x|]; cbn [psum]; lia. Qed.
Lemma dict_set_ok rel us u dict : In u us -> dim_ok rel u -> Forall (entry_ok rel us) dict ->
  Forall (entry_ok rel us) (dict_set (norm_dim rel (udim u)) u dict).
Proof.
  intros Iu (D1 & D2 & D3 & D4). induction dict as [|[k w] dict IH]; intros H; cbn [dict_set].
  - repeat constructor; auto.
  - inversion H as [|? ? A B]; subst. destruct (pl_eqb k _) eqn:E; constructor; auto.
    destruct A as (A1 & A2 & A3 & A4 & A5 & A6). cbn [fst snd] in *. repeat split; auto.
    intros d. apply psum_perm. apply pl_eqb_iff in E; auto.
Qed.
Lemma units_by_dim_ok rel us l : Forall (dim_ok rel) us -> over us l -> Forall (entry_ok rel us) (units_by_dim rel l).
Proof.
  intros D O. unfold units_by_dim. assert (G : forall l dict, over us l -> Forall (entry_ok rel us) dict ->
    Forall (entry_ok rel us) (fold_left (fun d e => dict_set (norm_dim rel (udim (fst e))) (fst e) d) l dict)).
  { clear l O. induction l as [|[u q] l IH]; intros dict O H; cbn [fold_left fst]; auto. inversion O as [|? ? A B]; subst. cbn in A.
    apply IH; auto. apply dict_set_ok; auto. rewrite Forall_forall in D. auto. }
  apply G; auto.
Qed.

(** Units found by the search, as a list of powers. *)
Lemma found_over us units c : Forall (fun s => In (fst (fst s)) us) units -> over us (found_units units c).
Proof.
  intros H. unfold over, found_units. apply Forall_forall. intros e I. apply filter_In in I. destruct I as [I _].
  apply in_map_iff in I. destruct I as ((s & n) & <- & I). cbn. apply in_combine_l in I. rewrite Forall_forall in H. auto.
Qed.
Lemma found_total rel units : Forall (fun s => snd s = norm_dim rel (udim (fst (fst s)))) units -> forall c d,
  dim_total rel (found_units units c) d = combo_total units c d.
Proof.
  intros H. unfold found_units. induction units as [|[[u q] ds] us IH]; intros c d; cbn [combine map filter combo_total dim_total]; auto.
  inversion H as [|? ? A B]; subst. cbn in A. destruct c as [|n c]; cbn [combine map filter fst snd dim_total]; auto.
  destruct (n =? 0) eqn:Z0; cbn [negb dim_total].
  - apply Z.eqb_eq in Z0. subst n. rewrite IH; auto.
  - rewrite IH by auto. rewrite A. auto.
Qed.
Lemma subunits_ok rel us l : over us l -> Forall (fun s => In (fst (fst s)) us /\ snd s = norm_dim rel (udim (fst (fst s)))) (subunits rel l).
Proof. intros O. unfold subunits. apply Forall_map. eapply Forall_impl; [|exact O]. cbn. auto. Qed.
Lemma Forall_filter {A} (P : A -> Prop) f l : Forall P l -> Forall P (filter f l).
Proof. intros H. rewrite Forall_forall in *. intros x I. apply filter_In in I. apply H; tauto. Qed.

Lemma once_psum_multiply p (dl : dlist) : p <> 0 -> once seq_eqb dl -> nonzero dl -> dl <> [] ->
  once seq_eqb (pl_multiply p dl) /\ nonzero (pl_multiply p dl) /\ pl_multiply p dl <> [].
Proof.
  intros Hp A B C. split; [apply once_multiply; auto|]. split.
  - unfold nonzero, pl_multiply. apply Forall_map. eapply Forall_impl; [|exact B]. cbn. intros e H. nia.
  - unfold pl_multiply. destruct dl; [congruence|discriminate].
Qed.

(** Search for one goal. *)
Lemma find_one (goal : dlist) units : once seq_eqb goal -> nonzero goal -> goal <> [] ->
  exists fs, find_units [goal] units = Ok [fs] /\ forall f, In f fs -> exists c, f = found_units units c /\
     Forall2 between (upow units) c /\ forall d, combo_total units c d = psum seq_eqb d goal.
Proof.
  intros A B C. destruct (find_units_spec [goal] units) as (res & R1 & R2 & R3); try (repeat constructor; auto; fail).
  destruct (R3 0%nat goal eq_refl) as (cs & C1 & C2 & C3). destruct res as [|fs [|? ?]]; try discriminate.
  cbn in C1. inversion C1; subst. eexists. split; [exact R1|]. intros f I. apply in_map_iff in I. destruct I as (c & <- & I).
  exists c. split; auto. apply C3; auto.
Qed.

Ltac rw_find H := match type of H with _ = ?r => match goal with |- context [find_units ?g ?u] => replace (find_units g u) with r by (symmetry; exact H) end end.

(** Invariant of all the rewriting loops. *)
Definition keeps (rel : rels) (us : list unit) (v : Q) (l : upl) (v' : Q) (l' : upl) : Prop :=
  same_quantity v l v' l' /\ over us l' /\ (once ueqb l -> once ueqb l') /\ forall d, dim_total rel l' d = dim_total rel l d.
Lemma keeps_refl rel us v l : over us l -> keeps rel us v l v l.
Proof. intros. split; [unfold same_quantity; reflexivity|]. repeat split; auto. Qed.
Lemma keeps_trans rel us v l v1 l1 v2 l2 : keeps rel us v l v1 l1 -> keeps rel us v1 l1 v2 l2 -> keeps rel us v l v2 l2.
Proof.
  intros (A & B & C & D) (A' & B' & C' & D'). split; [eapply sq_trans; eauto|]. split; auto. split; auto. intros. rewrite D', D. auto.
Qed.
Lemma fold_add_once (g : unit * Z -> Z) (f : list (unit * Z)) l : once ueqb l -> once ueqb (fold_left (fun l e => pl_add ueqb (fst e) (g e) l) f l).
Proof. revert l. induction f as [|e f IH]; intros l O; cbn [fold_left]; auto. apply IH. apply pl_add_once; auto. apply equiv_unit. Qed.

Lemma right_powers_spec rel us units1 u dl relative : units_ok us -> entry_ok rel us (dl, u) ->
  Forall (fun s => In (fst (fst s)) us /\ snd s = norm_dim rel (udim (fst (fst s)))) units1 ->
  forall ps v l, Forall (fun p => Z.abs p = 1) ps -> over us l ->
  exists v' l', right_powers rel units1 u dl ps v l relative = Ok (v', l') /\ keeps rel us v l v' l'.
Proof.
  intros U (E1 & E2 & E3 & E4 & E5 & E6) H1. cbn [fst snd] in *. induction ps as [|p ps IH]; intros v l Hp O; cbn [right_powers].
  - exists v, l. split; auto. apply keeps_refl; auto.
  - inversion Hp as [|? ? P1 P2]; subst.
    destruct (once_psum_multiply p dl ltac:(lia) E2 E3 E4) as (M1 & M2 & M3).
    destruct (find_one (pl_multiply p dl) units1 M1 M2 M3) as (fs & F1 & F2). rw_find F1. cbn [obind].
    destruct fs as [|f fs]; [cbn [obind fst snd]; apply IH; auto|].
    destruct (F2 f (or_introl eq_refl)) as (c & -> & _ & F3).
    destruct (removeandconvert_spec us rel l v u p relative U E1 O) as (v1 & R1 & R2 & R3 & R4). rewrite R1. cbn [obind fst snd].
    assert (Of : over us (found_units units1 c)) by (apply found_over; eapply Forall_impl; [|exact H1]; cbn; tauto).
    destruct (add_list_spec us rel relative p P1 U (found_units units1 c) v1 _ Of R3) as (v2 & S1 & S2 & S3 & S4). rewrite S1. cbn [obind fst snd].
    destruct (IH v2 _ P2 S3) as (v3 & l3 & T1 & T2). exists v3, l3. split; auto. eapply keeps_trans; [|exact T2].
    split; [eapply sq_trans; eauto|]. split; auto. split.
    + intros Oo. apply fold_add_once. apply pl_add_once; auto. apply equiv_unit.
    + intros d. rewrite S4, R4, found_total, F3, psum_multiply, E6; [lia|]. eapply Forall_impl; [|exact H1]. cbn; tauto.
Qed.
Lemma normalise_from_right_spec rel us unit1 unit2 v relative : units_ok us -> Forall (dim_ok rel) us -> over us unit1 -> over us unit2 ->
  exists v' l', normalise_from_right rel unit1 v unit2 relative = Ok (v', l') /\ keeps rel us v unit2 v' l'.
Proof.
  intros U D O1 O2. unfold normalise_from_right. pose proof (units_by_dim_ok rel us unit2 D O2) as He. revert He.
  assert (G : forall todo v l, over us l -> Forall (entry_ok rel us) todo ->
    exists v' l', right_units rel (subunits rel unit1) todo v l relative = Ok (v', l') /\ keeps rel us v l v' l').
  { clear v. induction todo as [|[dl u] todo IH]; intros v l O H; cbn [right_units].
    - exists v, l. split; auto. apply keeps_refl; auto.
    - inversion H as [|? ? A B]; subst.
      destruct (right_powers_spec rel us (subunits rel unit1) u dl relative U A (subunits_ok rel us unit1 O1) [1; -1] v l) as (v1 & l1 & R1 & R2); auto.
      rewrite R1. cbn [obind fst snd]. destruct (IH v1 l1) as (v2 & l2 & S1 & S2); auto; [apply R2|].
      exists v2, l2. split; auto. eapply keeps_trans; eauto. }
  intros He. apply G; auto.
Qed.

(** Weight of the units outside [known]. *)
Definition outside (known : list unit) (u : unit) : bool := negb (existsb (ueqb u) known).
Fixpoint wsum (known : list unit) (l : upl) : Z :=
  match l with
  | [] => 0
  | (u, q) :: r => (if outside known u then Z.abs q else 0) + wsum known r
  end.
Lemma weight_wsum rel known l : weight (other_units rel known l) = Z.to_nat (wsum known l).
Proof.
  unfold weight, other_units, subunits. f_equal. induction l as [|[u q] l IH]; cbn [map filter fst snd wsum fold_right]; auto.
  unfold outside in *. destruct (negb _); cbn [fold_right fst snd]; rewrite IH; lia.
Qed.
Lemma wsum_nonneg known l : 0 <= wsum known l.
Proof. induction l as [|[u q] l IH]; cbn [wsum]; [lia|]. destruct (outside known u); lia. Qed.
Lemma outside_eq known u w : ueqb u w = true -> outside known u = outside known w.
Proof.
  intros H. unfold outside. f_equal. induction known as [|x known IH]; cbn [existsb]; auto. rewrite IH. f_equal.
  apply (equiv_ne ueqb equiv_unit). auto.
Qed.
Lemma wsum_known known u q l : outside known u = false -> wsum known (pl_add ueqb u q l) = wsum known l.
Proof.
  intros H. induction l as [|[k q'] l IH]; cbn [pl_add wsum]; [rewrite H; lia|].
  destruct (ueqb k u) eqn:E.
  - pose proof (outside_eq known k u E) as X. rewrite H in X. destruct (q' + q =? 0); cbn [wsum]; rewrite ?X; lia.
  - cbn [wsum]. rewrite IH. auto.
Qed.
Lemma wsum_remove known u c q l : outside known u = true -> pl_find ueqb u l = Some q -> between q c ->
  wsum known (pl_add ueqb u (- c) l) = wsum known l - Z.abs c.
Proof.
  intros H. induction l as [|[k q'] l IH]; cbn [pl_add wsum pl_find]; [discriminate|].
  destruct (ueqb k u) eqn:E.
  - intros X B. inversion X; subst. pose proof (outside_eq known k u E) as Y. rewrite H in Y. unfold between in B.
    destruct (q + - c =? 0) eqn:Z0; cbn [wsum]; rewrite ?Y; [apply Z.eqb_eq in Z0|]; lia.
  - intros X B. cbn [wsum]. rewrite IH by auto. lia.
Qed.
Lemma pl_find_add_other u w q l : ueqb w u = false -> pl_find ueqb u (pl_add ueqb w q l) = pl_find ueqb u l.
Proof.
  intros H. induction l as [|[k q'] l IH]; cbn [pl_add pl_find]; [rewrite H; auto|].
  destruct (ueqb k w) eqn:E.
  - rewrite (equiv_ne ueqb equiv_unit k w u E). rewrite H. destruct (q' + q =? 0); auto. cbn [pl_find].
    rewrite (equiv_ne ueqb equiv_unit k w u E), H. auto.
  - cbn [pl_find]. rewrite IH. auto.
Qed.
Lemma wsum_remove_list known : forall f l, once ueqb f ->
  (forall u c, In (u, c) f -> outside known u = true /\ exists q, pl_find ueqb u l = Some q /\ between q c) ->
  wsum known (fold_left (fun l e => pl_add ueqb (fst e) (- snd e) l) f l) = wsum known l - zsum (map (fun e => Z.abs (snd e)) f).
Proof.
  induction f as [|[u c] f IH]; intros l O H; cbn [fold_left fst snd map zsum fold_right]; [lia|].
  destruct O as [O1 O2]. destruct (H u c (or_introl eq_refl)) as (H1 & q & H2 & H3).
  rewrite IH; auto.
  - rewrite (wsum_remove known u c q l) by auto. unfold zsum. lia.
  - intros u' c' I. destruct (H u' c' (or_intror I)) as (K1 & q' & K2 & K3). split; auto. exists q'. split; auto.
    rewrite pl_find_add_other; auto. rewrite Forall_forall in O1. specialize (O1 _ I). cbn in O1. destruct equiv_unit as (_ & S & _). rewrite S. auto.
Qed.

Lemma find_other_add u w q l p : ueqb w u = false -> pl_find ueqb u l = Some p -> pl_find ueqb u (pl_add ueqb w q l) = Some p.
Proof. intros. rewrite pl_find_add_other; auto. Qed.

(** Shape of [found_units] over the outside units of a list. *)
Lemma found_shape rel known l c : once ueqb l -> Forall2 between (upow (other_units rel known l)) c ->
  once ueqb (found_units (other_units rel known l) c) /\ nonzero (found_units (other_units rel known l) c) /\
  forall u n, In (u, n) (found_units (other_units rel known l) c) -> outside known u = true /\ exists q, pl_find ueqb u l = Some q /\ between q n.
Proof.
  revert c. unfold other_units, subunits, found_units, upow. induction l as [|[k q] l IH]; intros c O F; cbn [map filter fst snd] in *.
  - cbn. repeat split; try constructor. all: intros; contradiction.
  - destruct O as [O1 O2]. fold (outside known k) in *. destruct (outside known k) eqn:Ok.
    + cbn [map] in F. inversion F as [|? n ? c' F1 F2]; subst. cbn [fst snd] in F1. destruct (IH c' O2 F2) as (I1 & I2 & I3).
      cbn [combine map filter fst snd].
      assert (G : forall u n', In (u, n') (filter (fun e => negb (snd e =? 0)) (map (fun sn : unit * Z * dlist * Z => (fst (fst (fst sn)), snd sn)) (combine (filter (fun s => negb (existsb (ueqb (fst (fst s))) known)) (map (fun e => (fst e, snd e, norm_dim rel (udim (fst e)))) l)) c'))) -> ueqb u k = false).
      { intros u n' I. apply filter_In in I. destruct I as [I _]. apply in_map_iff in I. destruct I as ((s & m) & E & I). inversion E; subst.
        apply in_combine_l in I. apply filter_In in I. destruct I as [I _]. apply in_map_iff in I. destruct I as (e & <- & I). cbn.
        rewrite Forall_forall in O1. apply O1; auto. }
      assert (G2 : forall u n', In (u, n') (filter (fun e => negb (snd e =? 0)) (map (fun sn : unit * Z * dlist * Z => (fst (fst (fst sn)), snd sn)) (combine (filter (fun s => negb (existsb (ueqb (fst (fst s))) known)) (map (fun e => (fst e, snd e, norm_dim rel (udim (fst e)))) l)) c'))) ->
         outside known u = true /\ exists q0, pl_find ueqb u ((k, q) :: l) = Some q0 /\ between q0 n').
      { intros u n' I. destruct (I3 u n' I) as (J1 & q0 & J2 & J3). split; auto. exists q0. split; auto. cbn [pl_find].
        destruct equiv_unit as (_ & S & _). rewrite S, (G u n' I). auto. }
      destruct (n =? 0) eqn:Z0; cbn [negb].
      * split; auto.
      * apply Z.eqb_neq in Z0. split; [|split].
        -- cbn [once]. split; auto. apply Forall_forall. intros [u n'] I. cbn. apply (G u n'); auto.
        -- constructor; auto.
        -- intros u n' [I|I]; [|apply G2; auto]. inversion I; subst. split; auto. exists q. cbn [pl_find].
           rewrite (proj1 equiv_unit). auto.
    + destruct (IH c O2 F) as (I1 & I2 & I3). split; auto. split; auto. intros u n I. destruct (I3 u n I) as (J1 & q0 & J2 & J3).
      split; auto. exists q0. split; auto. cbn [pl_find]. destruct (ueqb k u) eqn:E; auto.
      rewrite (outside_eq known k u E) in Ok. congruence.
Qed.

Lemma zsum_pos (f : list (unit * Z)) : nonzero f -> f <> [] -> 0 < zsum (map (fun e => Z.abs (snd e)) f).
Proof.
  intros N H. destruct f as [|e f]; [congruence|]. inversion N as [|? ? A B]; subst. cbn [map zsum fold_right].
  assert (0 <= zsum (map (fun e => Z.abs (snd e)) f)) by (clear; induction f as [|e f IH]; cbn [map zsum fold_right]; unfold zsum in *; lia).
  unfold zsum in *. lia.
Qed.

Lemma left_loop_spec rel us known u dl p relative : units_ok us -> Z.abs p = 1 -> entry_ok rel us (dl, u) -> outside known u = false ->
  forall fuel v l, over us l -> once ueqb l -> wsum known l <= Z.of_nat fuel ->
  exists v' l', left_loop fuel rel known u (pl_multiply p dl) p v l relative = Ok (v', l') /\ keeps rel us v l v' l'.
Proof.
  intros U Hp (E1 & E2 & E3 & E4 & E5 & E6) Hk. cbn [fst snd] in *.
  destruct (once_psum_multiply p dl ltac:(lia) E2 E3 E4) as (M1 & M2 & M3).
  induction fuel as [|fuel IH]; intros v l O On W.
  - cbn [left_loop]. destruct (find_one (pl_multiply p dl) (other_units rel known l) M1 M2 M3) as (fs & F1 & F2).
    rw_find F1. cbn [obind]. destruct fs as [|f fs]; [exists v, l; split; auto; apply keeps_refl; auto|].
    exfalso. destruct (F2 f (or_introl eq_refl)) as (c & -> & F3 & F4).
    destruct (found_shape rel known l c On F3) as (S1 & S2 & S3).
    assert (Nf : found_units (other_units rel known l) c <> []).
    { intros Hf. assert (T : forall d, dim_total rel (found_units (other_units rel known l) c) d = psum seq_eqb d (pl_multiply p dl)).
      { intros d. rewrite found_total, F4; auto. apply Forall_filter. eapply Forall_impl; [|exact (subunits_ok rel us l O)]. cbn; tauto. }
      rewrite Hf in T. cbn [dim_total] in T. destruct (pl_multiply p dl) as [|[k q] r]; [congruence|].
      assert (I : In (k, q) ((k, q) :: r)) by (left; auto). apply (in_psum _ seq_eqb) in I; auto; [|intros; apply seq_eqb_iff].
      destruct I as [I1 I2]. rewrite <- T in I2. congruence. }
    pose proof (wsum_remove_list known _ l S1 S3) as X. pose proof (zsum_pos _ S2 Nf).
    pose proof (wsum_nonneg known (fold_left (fun l e => pl_add ueqb (fst e) (- snd e) l) (found_units (other_units rel known l) c) l)). lia.
  - cbn [left_loop]. destruct (find_one (pl_multiply p dl) (other_units rel known l) M1 M2 M3) as (fs & F1 & F2).
    rw_find F1. cbn [obind]. destruct fs as [|f fs]; [exists v, l; split; auto; apply keeps_refl; auto|].
    destruct (F2 f (or_introl eq_refl)) as (c & -> & F3 & F4).
    destruct (found_shape rel known l c On F3) as (S1 & S2 & S3).
    set (f := found_units (other_units rel known l) c) in *.
    assert (T : forall d, dim_total rel f d = psum seq_eqb d (pl_multiply p dl)).
    { intros d. unfold f. rewrite found_total, F4; auto. apply Forall_filter. eapply Forall_impl; [|exact (subunits_ok rel us l O)]. cbn; tauto. }
    assert (Nf : f <> []).
    { intros Hf. rewrite Hf in T. cbn [dim_total] in T. destruct (pl_multiply p dl) as [|[k q] r]; [congruence|].
      assert (I : In (k, q) ((k, q) :: r)) by (left; auto). apply (in_psum _ seq_eqb) in I; auto; [|intros; apply seq_eqb_iff].
      destruct I as [I1 I2]. rewrite <- T in I2. congruence. }
    assert (Of : over us f).
    { apply found_over. apply Forall_filter. eapply Forall_impl; [|exact (subunits_ok rel us l O)]. cbn; tauto. }
    destruct (addandconvert_spec us rel l v u p relative U E1 O) as (v1 & R1 & R2 & R3 & R4). rewrite R1. cbn [obind fst snd].
    destruct (remove_list_spec us rel relative U f v1 _ Of R3) as (v2 & T1 & T2 & T3 & T4). rewrite T1. cbn [obind fst snd].
    assert (O1 : once ueqb (pl_add ueqb u p l)) by (apply pl_add_once; auto; apply equiv_unit).
    assert (W2 : wsum known (fold_left (fun l e => pl_add ueqb (fst e) (- snd e) l) f (pl_add ueqb u p l)) = wsum known l - zsum (map (fun e => Z.abs (snd e)) f)).
    { rewrite wsum_remove_list; auto; [rewrite wsum_known; auto|]. intros w n I. destruct (S3 w n I) as (A & q & B & C). split; auto. exists q. split; auto.
      rewrite pl_find_add_other; auto. destruct (ueqb u w) eqn:Q; auto. rewrite (outside_eq known u w Q) in Hk. congruence. }
    pose proof (zsum_pos f S2 Nf).
    destruct (IH v2 _ T3 (fold_add_once (fun e => - snd e) f _ O1)) as (v3 & l3 & X1 & X2); [lia|].
    exists v3, l3. split; auto. eapply keeps_trans; [|exact X2]. split; [eapply sq_trans; eauto|]. split; auto. split.
    + intros _. apply (fold_add_once (fun e => - snd e)). auto.
    + intros d. rewrite T4, R4, T, psum_multiply, E6. lia.
Qed.

Lemma normalise_from_left_spec rel us unit1 unit2 v relative : units_ok us -> Forall (dim_ok rel) us -> over us unit1 -> over us unit2 -> once ueqb unit2 ->
  exists v' l', normalise_from_left rel unit1 v unit2 relative = Ok (v', l') /\ keeps rel us v unit2 v' l'.
Proof.
  intros U D O1 O2 On. unfold normalise_from_left. pose proof (units_by_dim_ok rel us unit1 D O1) as He.
  set (known := map snd (units_by_dim rel unit1)).
  assert (G : forall todo v l, over us l -> once ueqb l -> Forall (entry_ok rel us) todo -> Forall (fun e => outside known (snd e) = false) todo ->
    exists v' l', left_units rel known todo v l relative = Ok (v', l') /\ keeps rel us v l v' l').
  { clear v. induction todo as [|[dl u] todo IH]; intros v l O Ol H Hk; cbn [left_units].
    - exists v, l. split; auto. apply keeps_refl; auto.
    - inversion H as [|? ? A B]; subst. inversion Hk as [|? ? A' B']; subst. cbn [snd] in A'.
      assert (P : exists v' l', powers_loop rel known u dl [1; -1] v l relative = Ok (v', l') /\ keeps rel us v l v' l').
      { cbn [powers_loop].
        destruct (left_loop_spec rel us known u dl 1 relative U eq_refl A A' (weight (other_units rel known l)) v l O Ol) as (v1 & l1 & X1 & X2).
        { rewrite weight_wsum. pose proof (wsum_nonneg known l). lia. }
        rewrite X1. cbn [obind fst snd].
        destruct X2 as (Y1 & Y2 & Y3 & Y4).
        destruct (left_loop_spec rel us known u dl (-1) relative U eq_refl A A' (weight (other_units rel known l1)) v1 l1 Y2 (Y3 Ol)) as (v2 & l2 & Z1 & Z2).
        { rewrite weight_wsum. pose proof (wsum_nonneg known l1). lia. }
        rewrite Z1. cbn [obind fst snd]. exists v2, l2. split; auto. eapply keeps_trans; [|exact Z2]. repeat split; auto. }
      destruct P as (v1 & l1 & P1 & P2). rewrite P1. cbn [obind fst snd]. destruct P2 as (Q1 & Q2 & Q3 & Q4).
      destruct (IH v1 l1) as (v2 & l2 & S1 & S2); auto. exists v2, l2. split; auto. eapply keeps_trans; [|exact S2]. repeat split; auto. }
  apply G; auto. apply Forall_forall. intros e I. unfold outside. apply negb_false_iff. apply existsb_exists. exists (snd e). split.
  - unfold known. apply in_map; auto. - apply equiv_unit.
Qed.
