From Coq Require Import ZArith Ascii String List Bool Lia Permutation.
From Verif Require Import Base Bases Units Install InstallSpec BaseProofs UnitsProofs UnitsProofs5 InstallProofs.
Import ListNotations.

(** Adding an operator whose direction differs from that of its level is refused. *)
Lemma add_loop_mismatch {A} (rtl : A -> bool) (added : list (str * A)) sym op l m2 : forall m1 ops,
  In sym l -> disjoint_levels (m1 ++ l :: m2) -> table_ok added (m1 ++ l :: m2) ops ->
  (exists s o, In s l /\ In (s, o) added) -> (forall s o, In s l -> In (s, o) added -> rtl op <> rtl o) ->
  add_op_loop rtl sym op (Some l) (concat m2) ops = Calc.
Proof.
  intros m1 ops I. revert ops. induction m1 as [|x m1 IH]; intros ops D T W R; cbn [app] in *.
  - unfold table_ok in T. cbn [filter] in T. assert (U : used added l = true) by (apply used_in; destruct W as (s & o & W1 & W2); eauto).
    rewrite U in T. inversion T as [|? t ? r [T1 T2] T3]; subst. cbn [add_op_loop]. destruct t as [|[s o] t]; [congruence|]. cbn [scan_prec].
    destruct (holds_head _ _ _ _ _ T2) as [H1 H2]. pose proof (R s o H1 H2) as N. apply mem_str_iff in H1. rewrite H1.
    destruct (Bool.eqb (rtl op) (rtl o)) eqn:E; auto. apply eqb_prop in E. congruence.
  - destruct D as [D1 D2]. unfold table_ok in T. cbn [filter] in T. destruct (used added x) eqn:U; [|apply (IH ops); auto].
    inversion T as [|? t ? r [T1 T2] T3]; subst. cbn [add_op_loop]. rewrite scan_prec_skip; [rewrite (IH r); auto|].
    intros s J. pose proof (holds_keys _ _ _ T2 s J) as K. specialize (D1 s K). rewrite concat_app in D1. cbn [concat] in D1. rewrite !in_app_iff in D1. tauto.
Qed.
Lemma add_op_mismatch {A} (rtl : A -> bool) (added : list (str * A)) m level ops sym op s o :
  disjoint_levels m -> rtl_ok rtl m added -> table_ok added m ops -> In level m -> In sym level -> In s level -> In (s, o) added ->
  rtl op <> rtl o -> add_op rtl m ops (sym, op) = Calc.
Proof.
  intros D R T L I J K N. assert (Ic : In sym (concat m)) by (apply in_concat; eauto).
  destruct (disjoint_split m sym D Ic) as (m1 & lv & m2 & E & I' & N1 & N2).
  assert (Elv : lv = level).
  { subst m. apply in_app_or in L. destruct L as [L|[L|L]]; auto; exfalso; [apply N1|apply N2]; apply in_concat; eauto. }
  subst lv. unfold add_op. cbn [fst snd]. rewrite E at 1. rewrite scan_map_spec; auto. subst m.
  apply (add_loop_mismatch rtl added sym op level m2 m1); auto; [exists s, o; auto|].
  intros s' o' J' K'. rewrite (R level s' o' s o); auto.
Qed.

Lemma used_perm {A} (a b : list (str * A)) level : Permutation a b -> used a level = used b level.
Proof.
  intros P. destruct (used b level) eqn:E.
  - apply used_in in E. destruct E as (s & o & I & J). apply used_in. exists s, o. split; auto. eapply Permutation_in; [apply Permutation_sym; eauto|auto].
  - destruct (used a level) eqn:F; auto. apply used_in in F. destruct F as (s & o & I & J).
    assert (used b level = true); [|congruence]. apply used_in. exists s, o. split; auto. eapply Permutation_in; eauto.
Qed.
Lemma rtl_perm {A} (rtl : A -> bool) m (a b : list (str * A)) : Permutation a b -> rtl_ok rtl m a -> rtl_ok rtl m b.
Proof.
  intros P R level s1 o1 s2 o2 L A1 A2 I J. apply Permutation_sym in P. apply (R level s1 o1 s2 o2); auto; eapply Permutation_in; eauto.
Qed.
Lemma forall2_and {A B} (P Q : A -> B -> Prop) l a b : Forall2 P l a -> Forall2 Q l b -> Forall2 (fun x y => exists z, P z x /\ Q z y) a b.
Proof. intros H. revert b. induction H; intros b' H'; inversion H'; subst; constructor; eauto. Qed.
Lemma add_ops_perm {A} (rtl : A -> bool) m l1 l2 : disjoint_levels m -> NoDup (map fst l1) -> Permutation l1 l2 ->
  (forall s, In s (map fst l1) -> In s (concat m)) -> rtl_ok rtl m l1 ->
  exists t1 t2, add_ops rtl m [] l1 = Ok t1 /\ add_ops rtl m [] l2 = Ok t2 /\ Forall2 (fun a b : list (str * A) => forall s, assoc s a = assoc s b) t1 t2.
Proof.
  intros D N P K R. assert (T0 : table_ok (@nil (str * A)) m []).
  { unfold table_ok. clear. induction m as [|x m IH]; cbn [filter used existsb]; auto. }
  destruct (add_ops_spec rtl m D l1 [] [] K R T0) as (t1 & E1 & T1).
  destruct (add_ops_spec rtl m D l2 [] []) as (t2 & E2 & T2); auto.
  { intros s I. apply K. eapply Permutation_in; [apply Permutation_map, Permutation_sym; exact P|auto]. }
  { cbn [app]. eapply rtl_perm; eauto. }
  exists t1, t2. split; auto. split; auto. cbn [app] in *. unfold table_ok in *.
  assert (F : filter (used l1) m = filter (used l2) m) by (apply filter_ext; intros; apply used_perm; auto). rewrite F in T1.
  pose proof (forall2_and _ _ _ _ _ T1 T2) as Z. clear T1 T2 E1 E2. induction Z as [|a b ra rb (lv & [_ A1] & [_ A2]) Z IH]; constructor; auto. intros s. rewrite A1, A2.
  rewrite (last_op_perm l1 l2); auto.
Qed.

Lemma in_map_order_perm {A} m (a b : list (str * A)) : NoDup (map fst a) -> Permutation a b -> in_map_order m a = in_map_order m b.
Proof.
  intros N P. unfold in_map_order. induction m as [|n m IH]; cbn [flat_map]; auto. rewrite IH, (last_op_perm a b); auto.
Qed.

(** ** The repository *)
Lemma disjoint_bool m : (fix go (m : list (list str)) := match m with [] => true | l :: r => forallb (fun s => negb (mem_str s (concat r))) l && go r end) m = true -> disjoint_levels m.
Proof.
  induction m as [|l m IH]; cbn [disjoint_levels]; auto. intros H. apply andb_true_iff in H. destruct H as [H1 H2]. split; auto.
  intros s I J. rewrite forallb_forall in H1. specialize (H1 s I). apply mem_str_iff in J. rewrite J in H1. discriminate.
Qed.
Lemma op_map_disjoint : disjoint_levels op_map.
Proof. apply disjoint_bool. vm_compute. reflexivity. Qed.
Lemma find_in fl x ft : find_feat fl x = Some ft -> In ft fl.
Proof. induction fl as [|f fl IH]; cbn [find_feat]; [discriminate|]. destruct (seq_eqb _ _); [intros E; inversion E; left; auto|right; auto]. Qed.
Definition rank0 (x : str) : nat := index_of x feature_order.
Definition ok_feat (ft : feat) : bool :=
  forallb (fun y => match find_feat features y with Some _ => Nat.ltb (rank0 y) (rank0 (fid ft)) | None => false end) (fdeps ft ++ match fsubs ft with Some l => l | None => [] end) &&
  forallb (fun a => Nat.ltb (rank0 a) (rank0 (fid ft))) (fafter ft).
Lemma features_ok : forallb ok_feat features = true.
Proof. vm_compute. reflexivity. Qed.
Lemma find_fid fl x ft : find_feat fl x = Some ft -> fid ft = x.
Proof. induction fl as [|f fl IH]; cbn [find_feat]; [discriminate|]. destruct (seq_eqb (fid f) x) eqn:E; auto. intros X. inversion X; subst. apply seq_eqb_iff; auto. Qed.
Lemma features_acyclic : acyclic features rank0.
Proof.
  intros x ft F. pose proof (find_in _ _ _ F) as I. pose proof (find_fid _ _ _ F) as Ef. pose proof features_ok as O. rewrite forallb_forall in O. specialize (O ft I).
  unfold ok_feat in O. rewrite Ef in O. apply andb_true_iff in O. destruct O as [O1 O2]. rewrite forallb_forall in O1, O2. split.
  - intros y (ft' & F' & D). rewrite F in F'. inversion F'; subst ft'. assert (J : In y (fdeps ft ++ match fsubs ft with Some l => l | None => [] end)).
    { apply in_or_app. destruct D as [D|(l & L1 & L2)]; [auto|rewrite L1; auto]. }
    specialize (O1 y J). destruct (find_feat features y); [|discriminate]. apply Nat.ltb_lt in O1. split; [discriminate|auto].
  - intros a J. apply Nat.ltb_lt. auto.
Qed.
Lemma index_le x l : (index_of x l <= List.length l)%nat.
Proof. induction l as [|y l IH]; cbn [index_of List.length]; [lia|]. destruct (seq_eqb y x); lia. Qed.

(** Any list of features of the repository installs. *)
Lemma repo_installs names : (forall n, In n names -> find_feat features n <> None) ->
  exists st, install 100 features names (mkIst [] []) = IOk st /\ NoDup (trace st) /\ (forall x, In x (trace st) <-> reach features names x).
Proof.
  intros H. assert (L : forall n, (S (rank0 n) < 100)%nat).
  { intros n. pose proof (index_le n feature_order) as B. unfold rank0. assert (List.length feature_order <= 98)%nat; [|lia]. apply Nat.leb_le. vm_compute. reflexivity. }
  destruct (install_total features rank0 features_acyclic 100 names (mkIst [] [])) as (st & E & _); [lia|intros ? []|auto|].
  exists st. split; auto. split; [|apply (install_exact _ _ _ _ E)].
  destruct (install_rank _ _ features_acyclic _ _ _ _ 100 E) as (new & _ & _ & N); [|apply N; constructor].
  intros n _. specialize (L n). lia.
Qed.
Lemma reach_mono fl a b x : incl a b -> reach fl a x -> reach fl b x.
Proof. intros I. induction 1 as [x J|x y R IH N]; [constructor; auto|]. exact (reach_step fl b x y IH N). Qed.
