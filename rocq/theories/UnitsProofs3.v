From Coq Require Import ZArith QArith Qpower Qfield Ascii String List Bool Lia Permutation Setoid.
From Verif Require Import Base Bases Units UnitsSpec BaseProofs UnitsProofs UnitsProofs2.
Import ListNotations.
Open Scope Z_scope.

(** ** The odometer *)
Definition zrange (a b : Z) : list Z := map (fun i => a + Z.of_nat i) (seq 0 (Z.to_nat (b - a + 1))).
Lemma zrange_in a b z : In z (zrange a b) <-> a <= z <= b.
Proof.
  unfold zrange. rewrite in_map_iff. split.
  - intros (i & <- & I). apply in_seq in I. lia.
  - intros H. exists (Z.to_nat (z - a)). rewrite in_seq. lia.
Qed.
Lemma zrange_cons a b : a <= b -> zrange a b = a :: zrange (a + 1) b.
Proof.
  intros H. unfold zrange. replace (Z.to_nat (b - a + 1)) with (S (Z.to_nat (b - (a + 1) + 1))) by lia.
  cbn [seq map]. f_equal; [lia|]. rewrite <- seq_shift, map_map. apply map_ext. intros. lia.
Qed.
Lemma zrange_nil a b : b < a -> zrange a b = [].
Proof. intros H. unfold zrange. replace (Z.to_nat (b - a + 1)) with O by lia. auto. Qed.
Lemma zrange_nodup a b : NoDup (zrange a b).
Proof. unfold zrange. apply FinFun.Injective_map_NoDup; [|apply seq_NoDup]. intros x y H. lia. Qed.
Lemma zrange_length a b : length (zrange a b) = Z.to_nat (b - a + 1).
Proof. unfold zrange. rewrite map_length, seq_length. auto. Qed.

Definition cur (l : list (Z * Z * Z)) : list Z := map (fun c => fst (fst c)) l.
Definition valid (l : list (Z * Z * Z)) : Prop := Forall (fun c => snd (fst c) <= fst (fst c) <= snd c) l.
Definition bounds (l : list (Z * Z * Z)) : list (Z * Z) := map (fun c => (snd (fst c), snd c)) l.
(** Counters still to visit, the current one first. *)
Fixpoint rem (l : list (Z * Z * Z)) : list (list Z) :=
  match l with
  | [] => [[]]
  | (c, mn, mx) :: r => map (fun x => x :: cur r) (zrange c mx) ++ flat_map (fun rest => map (fun x => x :: rest) (zrange mn mx)) (tl (rem r))
  end.
Lemma rem_cur l : valid l -> exists t, rem l = cur l :: t.
Proof.
  destruct l as [|[[c mn] mx] r]; intros V; [eexists; reflexivity|]. inversion V as [|? ? A B]; subst. cbn in A.
  cbn [rem]. rewrite zrange_cons by lia. eexists. reflexivity.
Qed.
Lemma odo_0 l : valid l -> odo l 0 = Some l.
Proof.
  induction l as [|[[c mn] mx] r IH]; intros V; cbn [odo]; auto. inversion V as [|? ? A B]; subst. cbn in A.
  rewrite Z.add_0_r. assert (mx <? c = false) as -> by (apply Z.ltb_ge; lia). rewrite IH; auto.
Qed.
Lemma odo_1 l : valid l -> l <> [] ->
  match odo l 1 with
  | None => tl (rem l) = []
  | Some l' => valid l' /\ bounds l' = bounds l /\ rem l' = tl (rem l)
  end.
Proof.
  induction l as [|[[c mn] mx] r IH]; intros V N; [congruence|]. inversion V as [|? ? A B]; subst. cbn in A.
  cbn [odo rem]. rewrite (zrange_cons c mx) by lia. cbn [map app tl].
  destruct (mx <? c + 1) eqn:L.
  - apply Z.ltb_lt in L. rewrite (zrange_nil (c + 1) mx) by lia. cbn [map app].
    destruct r as [|x r]; [reflexivity|]. set (r' := x :: r) in *.
    specialize (IH B ltac:(unfold r'; discriminate)). destruct (odo r' 1) as [l'|]; cbn [option_map].
    + destruct IH as (V' & B' & R'). split; [constructor; auto; cbn; lia|]. split; [cbn [bounds map fst snd] in *; unfold bounds in *; congruence|].
      cbn [rem]. rewrite <- R'. destruct (rem_cur l' V') as [t T]. rewrite T. cbn [tl flat_map]. auto.
    + rewrite IH. reflexivity.
  - apply Z.ltb_ge in L. rewrite odo_0 by auto. cbn [option_map]. split; [constructor; auto; cbn; lia|]. split; auto.
Qed.
Lemma odo_run_spec : forall fuel l, valid l -> l <> [] -> (length (rem l) <= fuel)%nat -> odo_run fuel l = Some (map (@rev Z) (rem l)).
Proof.
  induction fuel as [|f IH]; intros l V N H.
  - destruct (rem_cur l V) as [t T]. rewrite T in H. cbn in H. lia.
  - cbn [odo_run]. pose proof (odo_1 l V N) as O. destruct (rem_cur l V) as [t T]. rewrite T in O, H |- *. cbn [tl length] in *.
    destruct (odo l 1) as [l'|].
    + destruct O as (V' & B' & R'). rewrite IH; auto; [|destruct l; [congruence|destruct l'; [discriminate|discriminate]]|rewrite R'; lia].
      cbn [option_map map]. rewrite R'. reflexivity.
    + subst t. reflexivity.
Qed.

(** From the initial counter, everything within bounds, once. *)
Definition start (b : list (Z * Z)) : list (Z * Z * Z) := map (fun r => (fst r, fst r, snd r)) b.
Lemma start_valid b : Forall (fun r => fst r <= snd r) b -> valid (start b).
Proof. intros H. unfold valid, start. apply Forall_map. eapply Forall_impl; [|exact H]. cbn. lia. Qed.
Lemma start_rem mn mx b : Forall (fun r => fst r <= snd r) b ->
  rem (start ((mn, mx) :: b)) = flat_map (fun rest => map (fun x => x :: rest) (zrange mn mx)) (rem (start b)).
Proof.
  intros H. cbn [start map fst snd rem]. destruct (rem_cur _ (start_valid b H)) as [t T].
  change (map (fun r => (fst r, fst r, snd r)) b) with (start b). rewrite T. cbn [tl flat_map]. auto.
Qed.
Lemma start_in b : Forall (fun r => fst r <= snd r) b -> forall c, In c (rem (start b)) <-> Forall2 (fun r x => fst r <= x <= snd r) b c.
Proof.
  induction b as [|[mn mx] b IH]; intros H c.
  - cbn. split; [intros [<-|[]]; constructor|intros X; inversion X; auto].
  - inversion H as [|? ? A B]; subst. rewrite start_rem by auto. rewrite in_flat_map. split.
    + intros (r & R1 & R2). apply in_map_iff in R2. destruct R2 as (x & <- & R2). apply zrange_in in R2.
      constructor; auto. apply IH; auto.
    + intros X. inversion X as [|? x ? r X1 X2]; subst. exists r. split; [apply IH; auto|]. apply in_map_iff. exists x. split; auto. apply zrange_in. auto.
Qed.
Lemma nodup_app {A} (a b : list A) : NoDup a -> NoDup b -> (forall x, In x a -> ~ In x b) -> NoDup (a ++ b).
Proof.
  induction a as [|x a IH]; cbn [app]; auto. intros H1 H2 D. inversion H1; subst. constructor.
  - intros I. apply in_app_or in I. destruct I; [auto|]. apply (D x); cbn; auto.
  - apply IH; auto. intros y Y. apply D. right; auto.
Qed.
Lemma start_nodup b : Forall (fun r => fst r <= snd r) b -> NoDup (rem (start b)).
Proof.
  induction b as [|[mn mx] b IH]; intros H; [cbn; constructor; [intros []|constructor]|].
  inversion H as [|? ? A B]; subst. rewrite start_rem by auto. specialize (IH B). revert IH. generalize (rem (start b)).
  induction l as [|r l IHl]; intros N; cbn [flat_map]; [constructor|]. inversion N; subst. apply nodup_app; auto.
  - apply FinFun.Injective_map_NoDup; [intros x y E; congruence|apply zrange_nodup].
  - intros x X Y. apply in_map_iff in X. destruct X as (z & <- & X). apply in_flat_map in Y. destruct Y as (r' & Y1 & Y2).
    apply in_map_iff in Y2. destruct Y2 as (z' & E & _). inversion E; subst. auto.
Qed.
Definition size (b : list (Z * Z)) : Z := fold_right (fun r a => (snd r - fst r + 1) * a) 1 b.
Lemma size_pos b : Forall (fun r => fst r <= snd r) b -> 0 < size b.
Proof. induction 1 as [|r b A B IH]; cbn [size fold_right]; [lia|]. apply Z.mul_pos_pos; auto. lia. Qed.
Lemma flat_map_length_const {A B} (f : A -> list B) n l : (forall x, length (f x) = n) -> length (flat_map f l) = (n * length l)%nat.
Proof. intros H. induction l as [|x l IH]; cbn [flat_map length]; [lia|]. rewrite app_length, IH, H. lia. Qed.
Lemma start_length b : Forall (fun r => fst r <= snd r) b -> Z.of_nat (length (rem (start b))) = size b.
Proof.
  induction b as [|[mn mx] b IH]; intros H; [reflexivity|]. inversion H as [|? ? A B]; subst. cbn in A. rewrite start_rem by auto.
  rewrite (flat_map_length_const _ (Z.to_nat (mx - mn + 1))) by (intros; rewrite map_length; apply zrange_length).
  rewrite Nat2Z.inj_mul, IH by auto. cbn [size fold_right fst snd]. fold (size b). lia.
Qed.

Lemma size_app a b : size (a ++ b) = size a * size b.
Proof.
  induction a as [|x a IH]; cbn [size fold_right app]; [change (fold_right _ 1 b) with (size b); lia|].
  fold (size (a ++ b)) (size a). rewrite IH. lia.
Qed.
Lemma size_rev b : size (rev b) = size b.
Proof.
  induction b as [|x b IH]; cbn [rev]; auto. rewrite size_app, IH. cbn [size fold_right]. fold (size b). lia.
Qed.

Lemma crange_le p : fst (crange p) <= snd (crange p).
Proof. unfold crange. destruct (p <? 0) eqn:E; cbn; [apply Z.ltb_lt in E|apply Z.ltb_ge in E]; lia. Qed.
Lemma crange_between p c : fst (crange p) <= c <= snd (crange p) <-> between p c.
Proof. unfold crange, between. destruct (p <? 0) eqn:E; cbn; [apply Z.ltb_lt in E|apply Z.ltb_ge in E]; lia. Qed.

Lemma Forall2_rev {A B} (R : A -> B -> Prop) a b : Forall2 R a b -> Forall2 R (rev a) (rev b).
Proof. induction 1; cbn [rev]; auto. apply Forall2_app; auto. Qed.
Lemma Forall2_map_l {A B C} (f : A -> C) (R : C -> B -> Prop) a b : Forall2 R (map f a) b <-> Forall2 (fun x => R (f x)) a b.
Proof.
  revert b. induction a as [|x a IH]; intros b; cbn [map]; split; intros H; inversion H; subst; constructor; auto; apply IH; auto.
Qed.
Lemma Forall2_impl {A B} (R S : A -> B -> Prop) a b : (forall x y, R x y -> S x y) -> Forall2 R a b -> Forall2 S a b.
Proof. intros H F. induction F; constructor; auto. Qed.
Lemma Forall2_iff {A B} (R S : A -> B -> Prop) a b : (forall x y, R x y <-> S x y) -> (Forall2 R a b <-> Forall2 S a b).
Proof. intros H. split; intros F; (eapply Forall2_impl; [|exact F]); intros; apply H; auto. Qed.


Lemma counters_spec units : units <> [] -> exists cs, counters units = Some cs /\ NoDup cs /\
  forall c, In c cs <-> Forall2 between (upow units) c.
Proof.
  intros N. unfold counters. fold (upow units).
  set (b := rev (map crange (upow units))).
  assert (S : rev (map (fun p => let '(mn, mx) := crange p in (mn, mn, mx)) (upow units)) = start b).
  { unfold start, b. rewrite map_rev. f_equal. rewrite map_map. apply map_ext. intros p. destruct (crange p); auto. }
  rewrite S.
  assert (Hb : Forall (fun r => fst r <= snd r) b).
  { unfold b. apply Forall_rev, Forall_map, Forall_forall. intros; apply crange_le. }
  assert (Nb : start b <> []).
  { unfold start, b, upow. destruct units; [congruence|]. cbn [map rev]. rewrite map_app. cbn. destruct (map _ (rev _)); discriminate. }
  rewrite odo_run_spec; auto using start_valid.
  - eexists. split; [reflexivity|]. split.
    + apply FinFun.Injective_map_NoDup; [|apply start_nodup; auto]. intros x y E. rewrite <- (rev_involutive x), E. apply rev_involutive.
    + intros c. rewrite in_map_iff. split.
      * intros (x & <- & I). apply start_in in I; auto. unfold b in I. apply Forall2_rev in I. rewrite rev_involutive in I.
        apply Forall2_map_l in I. eapply Forall2_impl; [|exact I]. intros p y. cbn. apply crange_between.
      * intros F. exists (rev c). split; [apply rev_involutive|]. apply start_in; auto. unfold b. apply Forall2_rev.
        apply Forall2_map_l. eapply Forall2_impl; [|exact F]. intros p y. cbn. apply crange_between.
  - apply Nat2Z.inj_le. rewrite start_length by auto. unfold odo_fuel. unfold b. rewrite size_rev.
    assert (E : fold_right (fun p a => (Z.abs p + 1) * a) 1 (upow units) = size (map crange (upow units))).
    { clear. induction (upow units) as [|p ps IH]; cbn [fold_right map size]; auto. fold (size (map crange ps)). rewrite IH. f_equal.
      unfold crange. destruct (p <? 0) eqn:E; cbn; [apply Z.ltb_lt in E|apply Z.ltb_ge in E]; lia. }
    rewrite E. pose proof (size_pos (map crange (upow units)) ltac:(apply Forall_map, Forall_forall; intros; apply crange_le)). lia.
Qed.

(** ** Dimension vectors *)
Lemma dim_index_some d m i : dim_index d m = Some i -> nth_error m i = Some d.
Proof.
  revert i. induction m as [|x m IH]; cbn [dim_index]; [discriminate|]. intros i. destruct (seq_eqb x d) eqn:E.
  - intros H. inversion H; subst. apply seq_eqb_iff in E. subst. auto.
  - destruct (dim_index d m); [|discriminate]. intros H. inversion H; subst. cbn. auto.
Qed.
Lemma dim_index_none d m : dim_index d m = None <-> ~ In d m.
Proof.
  induction m as [|x m IH]; cbn [dim_index In]; [tauto|]. destruct (seq_eqb x d) eqn:E.
  - apply seq_eqb_iff in E. subst. split; [discriminate|tauto].
  - assert (x <> d) by (intros ->; rewrite seq_eqb_refl in E; discriminate).
    destruct (dim_index d m); cbn [option_map]; split; try discriminate; try tauto.
    intros Hn. exfalso. destruct IH as [_ IH]. assert (~ In d m) by tauto. specialize (IH H0). discriminate.
Qed.
Lemma dim_map_spec ds : NoDup (dim_map ds) /\ forall d, In d (dim_map ds) <-> In d ds.
Proof.
  unfold dim_map. assert (G : forall ds m, NoDup m -> NoDup (fold_left (fun m d => match dim_index d m with Some _ => m | None => m ++ [d] end) ds m) /\
    forall d, In d (fold_left (fun m d => match dim_index d m with Some _ => m | None => m ++ [d] end) ds m) <-> In d m \/ In d ds).
  { clear. induction ds as [|x ds IH]; intros m N; cbn [fold_left].
    - split; auto. intros. cbn. tauto.
    - destruct (dim_index x m) as [i|] eqn:E.
      + destruct (IH m N) as [A B]. split; auto. intros d. rewrite B. cbn [In].
        apply dim_index_some in E. apply nth_error_In in E. split; [tauto|]. intros [H|[H|H]]; subst; auto.
      + destruct (IH (m ++ [x])) as [A B].
        * apply dim_index_none in E. apply nodup_app; auto; [constructor; [intros []|constructor]|]. intros y Y [->|[]]. auto.
        * split; auto. intros d. rewrite B, in_app_iff. cbn [In]. tauto. }
  destruct (G ds [] (NoDup_nil _)) as [A B]. split; auto. intros d. rewrite B. cbn. tauto.
Qed.
Lemma vupd_map f (g : str -> Z) m i d : NoDup m -> nth_error m i = Some d ->
  vupd f i (map g m) = map (fun x => if seq_eqb x d then f (g x) else g x) m.
Proof.
  revert i. induction m as [|x m IH]; intros i N E; [destruct i; discriminate|]. inversion N as [|? ? N1 N2]; subst.
  destruct i as [|i]; cbn [nth_error map vupd] in *.
  - inversion E; subst. rewrite seq_eqb_refl. f_equal. apply map_ext_in. intros y Y. destruct (seq_eqb y d) eqn:Q; auto.
    apply seq_eqb_iff in Q. subst. contradiction.
  - rewrite (IH i) by auto. f_equal. destruct (seq_eqb x d) eqn:Q; auto. apply seq_eqb_iff in Q. subst.
    exfalso. apply N1. eapply nth_error_In; eauto.
Qed.
Lemma vupd_dim_map f (g : str -> Z) m d : NoDup m -> In d m ->
  vupd_dim m d f (map g m) = map (fun x => if seq_eqb x d then f (g x) else g x) m.
Proof.
  intros N I. unfold vupd_dim. destruct (dim_index d m) as [i|] eqn:E.
  - apply vupd_map; auto. apply dim_index_some; auto.
  - apply dim_index_none in E. contradiction.
Qed.
Lemma repeat_map m : repeat 0 (length m) = map (fun _ : str => 0) m.
Proof. induction m; cbn; congruence. Qed.

Lemma goal_vec_spec m (g : dlist) : NoDup m -> (forall d, In d (map fst g) -> In d m) -> once seq_eqb g ->
  goal_vec m g = map (fun d => psum seq_eqb d g) m.
Proof.
  intros N I O. unfold goal_vec. rewrite repeat_map.
  assert (G : forall f : str -> Z, fold_left (fun v e => vupd_dim m (fst e) (fun _ => snd e) v) g (map f m)
    = map (fun d => match pl_find seq_eqb d g with Some q => q | None => f d end) m).
  { revert I O. induction g as [|[k q] g IH]; intros I O f; cbn [fold_left pl_find fst snd]; auto.
    rewrite vupd_dim_map by (auto; apply I; left; auto). destruct O as [O1 O2].
    rewrite IH by (auto; intros; apply I; right; auto). apply map_ext. intros d.
    destruct (seq_eqb k d) eqn:K.
    - apply seq_eqb_iff in K. subst.
      assert (pl_find seq_eqb d g = None) as ->.
      { clear - O1. induction g as [|[x y] g IH]; cbn [pl_find]; auto. inversion O1; subst. cbn in H1. rewrite H1. auto. }
      rewrite seq_eqb_refl. auto.
    - destruct (pl_find seq_eqb d g); auto. destruct (seq_eqb d k) eqn:Q; auto. apply seq_eqb_iff in Q. subst. rewrite seq_eqb_refl in K. discriminate. }
  rewrite G. apply map_ext. intros d. rewrite (psum_find seq_eqb d g equiv_seq O). auto.
Qed.

Lemma this_vec_spec m units c : NoDup m -> (forall d, In d (map fst (flat_map snd units)) -> In d m) ->
  this_vec m units c = map (combo_total units c) m.
Proof.
  intros N I. unfold this_vec. rewrite repeat_map.
  assert (G1 : forall n (ds : dlist) (f : str -> Z), (forall d, In d (map fst ds) -> In d m) ->
    fold_left (fun v e => vupd_dim m (fst e) (fun x => x + n * snd e) v) ds (map f m) = map (fun d => f d + n * psum seq_eqb d ds) m).
  { intros n. induction ds as [|[k q] ds IH]; intros f J; cbn [fold_left fst snd psum].
    - apply map_ext. intros; lia.
    - rewrite vupd_dim_map by (auto; apply J; left; auto). rewrite IH by (intros; apply J; right; auto). apply map_ext. intros d.
      destruct (seq_eqb d k) eqn:A.
      + apply seq_eqb_iff in A. subst. rewrite seq_eqb_refl. lia.
      + destruct (seq_eqb k d) eqn:B; [apply seq_eqb_iff in B; subst; rewrite seq_eqb_refl in A; discriminate|]. lia. }
  assert (G2 : forall units c (f : str -> Z), (forall d, In d (map fst (flat_map snd units)) -> In d m) ->
    fold_left (fun v sn => fold_left (fun v e => vupd_dim m (fst e) (fun x => x + snd sn * snd e) v) (snd (fst sn)) v) (combine units c) (map f m)
    = map (fun d => f d + combo_total units c d) m).
  { clear units c I. induction units as [|[[u q] ds] us IH]; intros c f J; cbn [combine fold_left combo_total].
    - apply map_ext. intros; lia.
    - destruct c as [|n c]; cbn [combine fold_left fst snd]; [apply map_ext; intros; lia|].
      cbn [flat_map snd] in J. rewrite G1 by (intros; apply J; rewrite map_app, in_app_iff; auto).
      rewrite IH by (intros; apply J; rewrite map_app, in_app_iff; auto). apply map_ext. intros; lia. }
  rewrite G2 by auto. apply map_ext. intros; lia.
Qed.

Lemma vec_eqb_map (f g : str -> Z) m : vec_eqb (map f m) (map g m) = true <-> forall d, In d m -> f d = g d.
Proof.
  unfold vec_eqb. rewrite !map_length, Nat.eqb_refl. cbn [andb]. induction m as [|x m IH]; cbn [map combine forallb].
  - split; auto. intros _ d [].
  - rewrite andb_true_iff, IH, Z.eqb_eq. cbn [fst snd In]. split.
    + intros [A B] d [<-|H]; auto.
    + intros H. split; auto.
Qed.

Lemma psum_absent d (l : dlist) : ~ In d (map fst l) -> psum seq_eqb d l = 0.
Proof.
  induction l as [|[k q] l IH]; cbn [map fst In psum]; auto. intros H. destruct (seq_eqb k d) eqn:E.
  - apply seq_eqb_iff in E. subst. tauto.
  - rewrite IH; tauto.
Qed.
Lemma combo_absent units d : ~ In d (map fst (flat_map snd units)) -> forall c, combo_total units c d = 0.
Proof.
  induction units as [|[[u q] ds] us IH]; intros H c; cbn [combo_total]; auto. destruct c as [|n c]; auto.
  cbn [flat_map snd] in H. rewrite map_app, in_app_iff in H. rewrite (psum_absent d ds), IH by tauto. lia.
Qed.

Lemma nth_error_Forall {A} (P : A -> Prop) l i x : Forall P l -> nth_error l i = Some x -> P x.
Proof. intros H E. rewrite Forall_forall in H. apply H. eapply nth_error_In; eauto. Qed.

(** The search is total, sound and complete. *)
Lemma find_units_spec goals units : Forall (once seq_eqb) goals -> Forall nonzero goals -> Forall (fun g => g <> []) goals ->
  exists res, find_units goals units = Ok res /\ length res = length goals /\
    forall j g, nth_error goals j = Some g -> exists cs, nth_error res j = Some (map (found_units units) cs) /\ NoDup cs /\
      forall c, In c cs <-> Forall2 between (upow units) c /\ forall d, combo_total units c d = psum seq_eqb d g.
Proof.
  intros HO HN HE. unfold find_units.
  set (udims := map fst (flat_map snd units)). set (gdims := map fst (concat goals)).
  destruct (existsb _ gdims) eqn:X.
  - assert (Nu : units <> []).
    { intros ->. apply existsb_exists in X. destruct X as (d & _ & X). discriminate. }
    destruct (counters_spec units Nu) as (cs & C1 & C2 & C3). rewrite C1.
    eexists. split; [reflexivity|]. split; [apply map_length|]. intros j g Hg.
    eexists. split; [exact (map_nth_error _ j goals Hg)|]. split; [apply NoDup_filter; auto|]. intros c.
    rewrite filter_In, C3. destruct (dim_map_spec (gdims ++ udims)) as [M1 M2]. set (m := dim_map (gdims ++ udims)) in *.
    assert (Ig : forall d, In d (map fst g) -> In d m).
    { intros d D. apply M2, in_or_app. left. unfold gdims. apply in_map_iff in D. destruct D as (e & <- & D). apply in_map.
      apply in_concat. exists g. split; auto. eapply nth_error_In; eauto. }
    assert (Iu : forall d, In d udims -> In d m) by (intros; apply M2, in_or_app; auto).
    rewrite goal_vec_spec; auto; [|eapply nth_error_Forall; eauto]. rewrite this_vec_spec by auto. rewrite vec_eqb_map.
    split; intros [A B]; (split; [exact A|]).
    + intros d. destruct (in_dec (list_eq_dec ascii_dec) d m) as [D|D]; [symmetry; auto|].
      rewrite (psum_absent d g) by (intros H; apply D; auto). apply (combo_absent units d). intros H. apply D, Iu, H.
    + intros d _. symmetry; auto.
  - eexists. split; [reflexivity|]. split; [apply map_length|]. intros j g Hg.
    exists []. split; [exact (map_nth_error (fun _ => []) j goals Hg)|]. split; [constructor|]. intros c. split; [intros []|]. intros [_ B]. exfalso.
    pose proof (nth_error_Forall _ _ _ _ HE Hg) as E1. pose proof (nth_error_Forall _ _ _ _ HN Hg) as E2. pose proof (nth_error_Forall _ _ _ _ HO Hg) as E3.
    destruct g as [|[k q] g]; [congruence|].
    assert (K : ~ In k udims).
    { intros I. assert (existsb (fun d => existsb (seq_eqb d) udims) gdims = true); [|congruence].
      apply existsb_exists. exists k. split.
      - unfold gdims. apply in_map_iff. exists (k, q). split; auto. apply in_concat. exists ((k, q) :: g). split; [eapply nth_error_In; eauto|left; auto].
      - apply existsb_exists. exists k. split; auto. apply seq_eqb_refl. }
    specialize (B k). rewrite combo_absent in B by auto.
    assert (In (k, q) ((k, q) :: g)) as I by (left; auto).
    apply (in_psum _ seq_eqb k q) in I; auto; [|intros; apply seq_eqb_iff]. destruct I as [I1 I2]. congruence.
Qed.
