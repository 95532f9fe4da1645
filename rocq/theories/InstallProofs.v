From Coq Require Import ZArith Ascii String List Bool Lia Permutation.
From Verif Require Import Base Bases Units Install InstallSpec BaseProofs UnitsProofs UnitsProofs5.
Import ListNotations.

(** ** Operator table *)
Lemma assoc_dset {A} k (v : A) l s : assoc s (dset k v l) = if seq_eqb k s then Some v else assoc s l.
Proof.
  induction l as [|[k' v'] l IH]; cbn [dset assoc]; [destruct (seq_eqb k s); auto|].
  destruct (seq_eqb k' k) eqn:E.
  - apply seq_eqb_iff in E. subst k'. cbn [assoc]. destruct (seq_eqb k s); auto.
  - cbn [assoc]. rewrite IH. destruct (seq_eqb k' s) eqn:F; auto. apply seq_eqb_iff in F. subst. destruct (seq_eqb k s) eqn:G; auto.
    apply seq_eqb_iff in G. subst. rewrite seq_eqb_refl in E. discriminate.
Qed.
Lemma last_op_app {A} s (l : list (str * A)) s' o : last_op s (l ++ [(s', o)]) = if seq_eqb s' s then Some o else last_op s l.
Proof.
  induction l as [|[k v] l IH]; cbn [last_op app]; [destruct (seq_eqb s' s); auto|]. rewrite IH. destruct (seq_eqb s' s); auto.
Qed.
Lemma last_op_in {A} s (l : list (str * A)) o : last_op s l = Some o -> In (s, o) l.
Proof.
  induction l as [|[k v] l IH]; cbn [last_op]; [discriminate|]. destruct (last_op s l).
  - intros E. right. apply IH. auto.
  - destruct (seq_eqb k s) eqn:F; [|discriminate]. intros E. inversion E; subst. apply seq_eqb_iff in F. subst. left; auto.
Qed.
Lemma last_op_none {A} s (l : list (str * A)) : last_op s l = None -> ~ In s (map fst l).
Proof.
  induction l as [|[k v] l IH]; cbn [last_op map fst]; [auto|]. destruct (last_op s l); [discriminate|].
  destruct (seq_eqb k s) eqn:F; [discriminate|]. intros _ [E|I]; [subst; rewrite seq_eqb_refl in F; discriminate|]. apply IH; auto.
Qed.
Lemma mem_false x l : mem_str x l = false <-> ~ In x l.
Proof. rewrite <- mem_str_iff. destruct (mem_str x l); split; congruence. Qed.

Lemma scan_map_spec sym m1 l m2 : In sym l -> ~ In sym (concat m1) -> ~ In sym (concat m2) ->
  scan_map sym false None [] (m1 ++ l :: m2) = (Some l, concat m2).
Proof.
  intros I N1 N2. assert (G : forall m after, ~ In sym (concat m) -> scan_map sym true (Some l) after m = (Some l, after ++ concat m)).
  { clear. induction m as [|x m IH]; intros after N; cbn [scan_map concat]; [rewrite app_nil_r; auto|].
    cbn [concat] in N. rewrite in_app_iff in N. destruct (mem_str sym x) eqn:E; [apply mem_str_iff in E; tauto|].
    rewrite IH by tauto. rewrite app_assoc. auto. }
  induction m1 as [|x m1 IH]; cbn [app scan_map].
  - apply mem_str_iff in I. rewrite I. apply G; auto.
  - cbn [concat] in N1. rewrite in_app_iff in N1. destruct (mem_str sym x) eqn:E; [apply mem_str_iff in E; tauto|]. apply IH. tauto.
Qed.

Definition keys_in {A} (level : list str) (t : list (str * A)) : Prop := forall s o, In (s, o) t -> In s level.
Lemma scan_prec_skip {A} rtl (op : A) target after items : (forall s, In s (map fst items) -> ~ In s target /\ ~ In s after) ->
  scan_prec rtl op (Some target) after items = NextPrec.
Proof.
  induction items as [|[s i] items IH]; cbn [scan_prec map fst]; auto. intros H.
  destruct (H s (or_introl eq_refl)) as [H1 H2]. apply mem_false in H1, H2. rewrite H1, H2. apply IH. intros; apply H; right; auto.
Qed.
Lemma assoc_some_in {A} s (l : list (str * A)) v : assoc s l = Some v -> In (s, v) l.
Proof.
  induction l as [|[k x] l IH]; cbn [assoc]; [discriminate|]. destruct (seq_eqb k s) eqn:E.
  - intros X. inversion X; subst. apply seq_eqb_iff in E. subst. left; auto.
  - intros X. right. auto.
Qed.
Lemma holds_keys {A} (added : list (str * A)) level t : holds added level t -> forall s, In s (map fst t) -> In s level.
Proof.
  intros H s I. specialize (H s). destruct (mem_str s level) eqn:E; [apply mem_str_iff; auto|]. apply assoc_none in H. contradiction.
Qed.
Lemma holds_head {A} (added : list (str * A)) level s o t : holds added level ((s, o) :: t) -> In s level /\ In (s, o) added.
Proof.
  intros H. pose proof (holds_keys _ _ _ H s (or_introl eq_refl)) as I. split; auto. specialize (H s). cbn [assoc] in H. rewrite seq_eqb_refl in H.
  apply mem_str_iff in I. rewrite I in H. symmetry in H. apply last_op_in; auto.
Qed.

Lemma holds_other {A} (added : list (str * A)) level t sym o : ~ In sym level -> holds added level t -> holds (added ++ [(sym, o)]) level t.
Proof.
  intros N H s. rewrite last_op_app, H. destruct (mem_str s level) eqn:E; auto. destruct (seq_eqb sym s) eqn:F; auto.
  apply seq_eqb_iff in F. subst. apply mem_str_iff in E. contradiction.
Qed.
Lemma used_app {A} (added : list (str * A)) sym o level : used (added ++ [(sym, o)]) level = used added level || mem_str sym level.
Proof. unfold used. rewrite existsb_app. cbn [existsb fst]. rewrite orb_false_r. auto. Qed.
Lemma table_other {A} (added : list (str * A)) m ops sym o : ~ In sym (concat m) -> table_ok added m ops -> table_ok (added ++ [(sym, o)]) m ops.
Proof.
  unfold table_ok. intros N. revert ops. induction m as [|l m IH]; intros ops H; cbn [filter concat] in *; [inversion H; constructor|].
  rewrite in_app_iff in N. rewrite used_app. assert (mem_str sym l = false) as -> by (apply mem_false; tauto). rewrite orb_false_r.
  destruct (used added l); auto. inversion H; subst. constructor; auto. destruct H2. split; auto. apply holds_other; tauto.
Qed.
Lemma used_in {A} (added : list (str * A)) level : used added level = true <-> exists s o, In (s, o) added /\ In s level.
Proof.
  unfold used. rewrite existsb_exists. split.
  - intros ([s o] & I & M). apply mem_str_iff in M. eauto.
  - intros (s & o & I & M). exists (s, o). split; auto. apply mem_str_iff; auto.
Qed.

Lemma add_loop_spec {A} (rtl : A -> bool) (added : list (str * A)) sym op l m2 : forall m1 ops,
  In sym l -> disjoint_levels (m1 ++ l :: m2) -> table_ok added (m1 ++ l :: m2) ops ->
  (forall s o, In s l -> In (s, o) added -> rtl op = rtl o) ->
  exists ops', add_op_loop rtl sym op (Some l) (concat m2) ops = Ok ops' /\ table_ok (added ++ [(sym, op)]) (m1 ++ l :: m2) ops'.
Proof.
  intros m1 ops I. revert ops. induction m1 as [|x m1 IH]; intros ops D T R; cbn [app] in *.
  - destruct D as [D1 D2]. unfold table_ok in T. cbn [filter] in T. destruct (used added l) eqn:U.
    + inversion T as [|? t ? r [T1 T2] T3]; subst. cbn [add_op_loop]. destruct t as [|[s o] t]; [congruence|]. cbn [scan_prec].
      destruct (holds_head _ _ _ _ _ T2) as [H1 H2]. apply mem_str_iff in H1. rewrite H1. apply mem_str_iff in H1.
      rewrite (R s o H1 H2). rewrite eqb_reflx. eexists. split; [reflexivity|]. unfold table_ok. cbn [filter]. rewrite used_app, U. cbn [orb].
      constructor.
      * split; [cbn [dset]; destruct (seq_eqb s sym); discriminate|]. intros s'. rewrite assoc_dset, last_op_app, T2.
        destruct (seq_eqb sym s') eqn:E; auto. apply seq_eqb_iff in E. subst. apply mem_str_iff in I. rewrite I. auto.
      * apply (table_other added m2 r sym op); auto.
    + assert (N : holds (added ++ [(sym, op)]) l [(sym, op)]).
      { intros s. cbn [assoc]. rewrite last_op_app. destruct (seq_eqb sym s) eqn:E.
        - apply seq_eqb_iff in E. subst. apply mem_str_iff in I. rewrite I. auto.
        - destruct (mem_str s l) eqn:M; auto. destruct (last_op s added) as [o|] eqn:L; auto. exfalso. apply last_op_in in L.
          assert (used added l = true) by (apply used_in; exists s, o; split; auto; apply mem_str_iff; auto). congruence. }
      assert (F : forall ops, table_ok added m2 ops -> Forall2 (fun level t => t <> [] /\ holds (added ++ [(sym, op)]) level t) (filter (used (added ++ [(sym, op)])) (l :: m2)) ([(sym, op)] :: ops)).
      { intros o T2. cbn [filter]. rewrite used_app. apply mem_str_iff in I. rewrite I, orb_true_r. apply mem_str_iff in I. constructor; [split; auto; discriminate|].
        apply (table_other added m2 o sym op); auto. }
      destruct ops as [|t r]; cbn [add_op_loop].
      * eexists. split; [reflexivity|]. apply F. auto.
      * assert (B : scan_prec rtl op (Some l) (concat m2) t = Before).
        { destruct (filter (used added) m2) as [|y ys] eqn:Fm; [inversion T|]. inversion T as [|? ? ? ? [T1 T2] T3]; subst.
          destruct t as [|[s o] t]; [congruence|]. cbn [scan_prec]. destruct (holds_head _ _ _ _ _ T2) as [H1 H2].
          assert (Iy : In y m2) by (apply (filter_In (used added)); rewrite Fm; left; auto).
          assert (Ic : In s (concat m2)) by (apply in_concat; eauto).
          assert (mem_str s l = false) as -> by (apply mem_false; intros J; apply (D1 s J Ic)).
          apply mem_str_iff in Ic. rewrite Ic. auto. }
        rewrite B. eexists. split; [reflexivity|]. apply F. exact T.
  - destruct D as [D1 D2]. unfold table_ok in T. cbn [filter] in T.
    assert (Nx : ~ In sym x).
    { intros J. apply (D1 sym J). rewrite concat_app. cbn [concat]. rewrite !in_app_iff. auto. }
    unfold table_ok. cbn [filter]. rewrite used_app. assert (mem_str sym x = false) as -> by (apply mem_false; auto). rewrite orb_false_r.
    destruct (used added x) eqn:U; [|apply IH; auto].
    inversion T as [|? t ? r [T1 T2] T3]; subst. cbn [add_op_loop]. rewrite scan_prec_skip.
    + destruct (IH r D2 T3 R) as (ops' & O1 & O2). rewrite O1. cbn [obind]. eexists. split; [reflexivity|]. constructor; auto. split; auto. apply holds_other; auto.
    + intros s J. pose proof (holds_keys _ _ _ T2 s J) as K. specialize (D1 s K). rewrite concat_app in D1. cbn [concat] in D1. rewrite !in_app_iff in D1. tauto.
Qed.

Lemma disjoint_split m sym : disjoint_levels m -> In sym (concat m) -> exists m1 l m2, m = m1 ++ l :: m2 /\ In sym l /\ ~ In sym (concat m1) /\ ~ In sym (concat m2).
Proof.
  induction m as [|x m IH]; cbn [concat]; intros D I; [destruct I|]. destruct D as [D1 D2]. apply in_app_or in I.
  destruct (in_dec (list_eq_dec ascii_dec) sym x) as [J|J].
  - exists [], x, m. repeat split; auto.
  - destruct I as [I|I]; [contradiction|]. destruct (IH D2 I) as (m1 & l & m2 & -> & A & B & C). exists (x :: m1), l, m2. repeat split; auto.
    cbn [concat]. rewrite in_app_iff. tauto.
Qed.
Lemma add_ops_spec {A} (rtl : A -> bool) m : disjoint_levels m -> forall l added ops,
  (forall s, In s (map fst l) -> In s (concat m)) -> rtl_ok rtl m (added ++ l) -> table_ok added m ops ->
  exists ops', add_ops rtl m ops l = Ok ops' /\ table_ok (added ++ l) m ops'.
Proof.
  intros D. induction l as [|[s o] l IH]; intros added ops K R T; cbn [add_ops].
  - rewrite app_nil_r. eauto.
  - destruct (disjoint_split m s D (K s (or_introl eq_refl))) as (m1 & lv & m2 & E & I & N1 & N2).
    unfold add_op. cbn [fst snd]. assert (SM : scan_map s false None [] m = (Some lv, concat m2)) by (rewrite E; apply scan_map_spec; auto). rewrite SM.
    rewrite E in T, D. destruct (add_loop_spec rtl added s o lv m2 m1 ops I D T) as (ops' & A1 & A2).
    { intros s' o' I' J. apply (R lv s o s' o'); auto.
      - rewrite E. apply in_or_app. right. left. auto.
      - apply in_or_app. right. left; auto. - apply in_or_app; auto. }
    rewrite A1. cbn [obind]. rewrite <- E in A2, D. destruct (IH (added ++ [(s, o)]) ops') as (o2 & B1 & B2); auto.
    + intros; apply K; right; auto. + rewrite <- app_assoc. auto. + rewrite <- app_assoc in B2. eauto.
Qed.

Lemma last_op_perm {A} (a b : list (str * A)) : NoDup (map fst a) -> Permutation a b -> forall s, last_op s a = last_op s b.
Proof.
  intros N P s. assert (N' : NoDup (map fst b)) by (eapply Permutation_NoDup; [apply Permutation_map; exact P|auto]).
  destruct (last_op s a) as [o|] eqn:E.
  - apply last_op_in in E. assert (I : In (s, o) b) by (eapply Permutation_in; eauto). destruct (last_op s b) as [o'|] eqn:F.
    + apply last_op_in in F. assert (o = o'); [|subst; auto]. apply assoc_in in I; auto. apply assoc_in in F; auto. congruence.
    + apply last_op_none in F. exfalso. apply F. apply (in_map fst) in I. auto.
  - apply last_op_none in E. destruct (last_op s b) as [o'|] eqn:F; auto. apply last_op_in in F. exfalso. apply E.
    assert (I : In (s, o') a) by (eapply Permutation_in; [apply Permutation_sym|]; eauto). apply (in_map fst) in I. auto.
Qed.

(** ** Parsers *)
Lemma to_dict_assoc {A} (l : list (str * A)) : forall d s, assoc s (fold_left (fun d e => dset (fst e) (snd e) d) l d) = match last_op s l with Some v => Some v | None => assoc s d end.
Proof.
  induction l as [|[k v] l IH]; intros d s; cbn [fold_left last_op fst snd]; auto. rewrite IH, assoc_dset. destruct (last_op s l); auto. destruct (seq_eqb k s); auto.
Qed.
Lemma last_op_app_gen {A} s (a b : list (str * A)) : last_op s (a ++ b) = match last_op s b with Some v => Some v | None => last_op s a end.
Proof. induction a as [|[k v] a IH]; cbn [last_op app]; [destruct (last_op s b); auto|]. rewrite IH. destruct (last_op s b); auto. Qed.
Lemma last_op_in_map_order {A} m (added : list (str * A)) s : last_op s (in_map_order m added) = if mem_str s m then last_op s added else None.
Proof.
  induction m as [|n m IH]; cbn [in_map_order flat_map]; auto. fold (in_map_order m added). rewrite last_op_app_gen, IH.
  unfold mem_str in *. cbn [existsb]. destruct (existsb (seq_eqb s) m) eqn:E.
  - rewrite orb_true_r. destruct (last_op s added) eqn:F; auto. destruct (last_op n added) eqn:G; auto. cbn [last_op].
    destruct (seq_eqb n s) eqn:H; auto. apply seq_eqb_iff in H. subst. congruence.
  - rewrite orb_false_r. destruct (last_op n added) eqn:G; cbn [last_op].
    + rewrite (seq_eqb_sym s n). destruct (seq_eqb n s) eqn:H; auto. apply seq_eqb_iff in H. subst. auto.
    + destruct (seq_eqb s n) eqn:H; auto. apply seq_eqb_iff in H. subst. auto.
Qed.
Lemma add_parser_spec {A} m (added : list (str * A)) p : add_parser m (in_map_order m added) p = in_map_order m (added ++ [p]).
Proof.
  unfold add_parser, to_dict, in_map_order at 2. destruct p as [n r].
  assert (G : forall l, incl l m -> flat_map (fun k => match assoc k (fold_left (fun d e => dset (fst e) (snd e) d) (in_map_order m added ++ [(n, r)]) []) with Some x => [(k, x)] | None => [] end) l = flat_map (fun k => match last_op k (added ++ [(n, r)]) with Some x => [(k, x)] | None => [] end) l).
  { induction l as [|k l IH]; intros H; cbn [flat_map]; auto. rewrite IH by (intros x I; apply H; right; auto). f_equal.
    rewrite to_dict_assoc, !last_op_app, last_op_in_map_order. cbn [assoc].
    assert (mem_str k m = true) as -> by (apply mem_str_iff, H; left; auto). destruct (seq_eqb n k); auto. destruct (last_op k added); auto. }
  apply G. apply incl_refl.
Qed.
Lemma add_parsers_spec {A} m (l : list (str * A)) : fold_left (add_parser m) l [] = in_map_order m l.
Proof.
  assert (G : forall (l added : list (str * A)), fold_left (add_parser m) l (in_map_order m added) = in_map_order m (added ++ l)).
  { clear. induction l as [|p l IH]; intros added; cbn [fold_left]; [rewrite app_nil_r; auto|]. rewrite add_parser_spec, IH, <- app_assoc. auto. }
  assert (E : in_map_order m (@nil (str * A)) = []) by (unfold in_map_order; clear; induction m; auto).
  pose proof (G l []) as H. rewrite E in H. exact H.
Qed.

(** ** Installation *)
Lemma each_inv {S} (R : S -> S -> Prop) (Q : str -> S -> Prop) step : (forall s, R s s) -> (forall a b c, R a b -> R b c -> R a c) ->
  (forall x s s', Q x s -> R s s' -> Q x s') -> forall l s0, (forall x s s', In x l -> R s0 s -> step x s = IOk s' -> R s s' /\ Q x s') ->
  forall s', each step l s0 = IOk s' -> R s0 s' /\ forall x, In x l -> Q x s'.
Proof.
  intros Rr Rt Qm. induction l as [|x l IH]; intros s0 H s'; cbn [each].
  - intros E. inversion E; subst. split; auto. intros ? [].
  - destruct (step x s0) as [s1| | |] eqn:E; cbn [ibind]; try discriminate. intros F.
    destruct (H x s0 s1 (or_introl eq_refl) (Rr _) E) as [A B].
    destruct (IH s1 (fun y a b I J => H y a b (or_intror I) (Rt _ _ _ A J)) s' F) as [C D].
    split; [eapply Rt; eauto|]. intros y [<-|I]; [eapply Qm; eauto|auto].
Qed.
Lemma each_total {S} (I : S -> Prop) step l : (forall x s, In x l -> I s -> exists s', step x s = IOk s' /\ I s') ->
  forall s, I s -> exists s', each step l s = IOk s' /\ I s'.
Proof.
  induction l as [|x l IH]; intros H s Hs; cbn [each]; [eauto|]. destruct (H x s (or_introl eq_refl) Hs) as (s1 & E & H1). rewrite E. cbn [ibind].
  apply IH; auto. intros y t J. apply H. right; auto.
Qed.

Lemma mark_spec fl s : forall fuel name ti ti', mark fuel fl name ti = IOk ti' ->
  incl ti ti' /\ In name ti' /\ (reach fl s name -> (forall x, In x ti -> reach fl s x) -> forall x, In x ti' -> reach fl s x) /\
  ((forall x, In x ti -> find_feat fl x <> None) -> forall x, In x ti' -> find_feat fl x <> None).
Proof.
  induction fuel as [|fuel IH]; intros name ti ti'; cbn [mark]; [discriminate|].
  destruct (mem_str name ti) eqn:M.
  - intros E. inversion E; subst. apply mem_str_iff in M. repeat split; auto. apply incl_refl.
  - destruct (find_feat fl name) as [ft|] eqn:F; [|discriminate]. intros E.
    destruct (each_inv (fun a b => incl a b /\ ((forall x, In x a -> find_feat fl x <> None) -> forall x, In x b -> find_feat fl x <> None)) (fun x b => In x b) (mark fuel fl)) with (l := fdeps ft) (s0 := ti ++ [name]) (s' := ti') as [[A1 A2] B]; auto.
    + intros a. split; auto. apply incl_refl.
    + intros a b c [X1 X2] [Y1 Y2]. split; auto. eapply incl_tran; eauto.
    + intros x a b I [J _]. auto.
    + intros x a b I _ E'. destruct (IH _ _ _ E') as (X1 & X2 & X3 & X4). auto.
    + split; [intros x I; apply A1; apply in_or_app; auto|]. split; [apply A1, in_or_app; right; left; auto|]. split.
      * intros Rn Rt.
        assert (G : forall l ti0 ti1, incl l (fdeps ft) -> (forall x, In x ti0 -> reach fl s x) -> each (mark fuel fl) l ti0 = IOk ti1 -> forall x, In x ti1 -> reach fl s x).
        { clear E. induction l as [|d l IHl]; intros t0 t1 Hl H0; cbn [each].
          - intros E. inversion E; subst. auto.
          - destruct (mark fuel fl d t0) as [t| | |] eqn:E; cbn [ibind]; try discriminate. apply IHl.
            + intros z Z. apply Hl. right; auto.
            + destruct (IH _ _ _ E) as (X1 & X2 & X3 & X4). apply X3; auto. eapply reach_step; [exact Rn|]. exists ft. split; auto. left. apply Hl. left; auto. }
        apply (G (fdeps ft) (ti ++ [name]) ti'); auto. apply incl_refl.
        intros x I. apply in_app_or in I. destruct I as [I|[<-|[]]]; auto.
      * intros H. apply A2. intros x I. apply in_app_or in I. destruct I as [I|[<-|[]]]; auto. congruence.
Qed.
Lemma marks_spec fl s fuel names ti ti' : each (mark fuel fl) names ti = IOk ti' ->
  incl ti ti' /\ incl names ti' /\ ((forall x, In x names -> reach fl s x) -> (forall x, In x ti -> reach fl s x) -> forall x, In x ti' -> reach fl s x) /\
  ((forall x, In x ti -> find_feat fl x <> None) -> forall x, In x ti' -> find_feat fl x <> None).
Proof.
  revert ti. induction names as [|n names IH]; intros ti; cbn [each].
  - intros E. inversion E; subst. repeat split; auto. apply incl_refl. intros ? [].
  - destruct (mark fuel fl n ti) as [t| | |] eqn:E; cbn [ibind]; try discriminate. intros F.
    destruct (mark_spec fl s _ _ _ _ E) as (A1 & A2 & A3 & A4). destruct (IH _ F) as (B1 & B2 & B3 & B4). repeat split.
    + eapply incl_tran; eauto. + intros x [<-|I]; auto.
    + intros H1 H2. apply B3; [intros; apply H1; right; auto|]. apply A3; auto. apply H1; left; auto.
    + intros H. apply B4, A4. auto.
Qed.

Lemma well_ordered_app fl w tr a b : well_ordered fl w tr a -> well_ordered fl w (tr ++ a) b -> well_ordered fl w tr (a ++ b).
Proof.
  intros A B p x s E. destruct (app_eq_app _ _ _ _ E) as (l & [[E1 E2]|[E1 E2]]).
  - destruct l as [|y l].
    + cbn in E2. rewrite app_nil_r in E1. subst a. destruct (B [] x s (eq_sym E2)) as (ft & F1 & F2 & F3). exists ft. rewrite app_nil_r in F2, F3. auto.
    + inversion E2; subst y. destruct (A p x l E1) as (ft & F1 & F2 & F3). exists ft. auto.
  - destruct (B l x s E2) as (ft & F1 & F2 & F3). exists ft. subst p. rewrite app_assoc. auto.
Qed.
Lemma well_ordered_nil fl w tr : well_ordered fl w tr [].
Proof. intros p x s E. destruct p; discriminate. Qed.
Lemma well_ordered_incl fl w w' tr new : incl w' w -> well_ordered fl w tr new -> well_ordered fl w' tr new.
Proof. intros I H p x s E. destruct (H p x s E) as (ft & F1 & F2 & F3). exists ft. split; auto. Qed.

(** How any part of an installation changes the state. *)
Definition grows fl (st st' : ist) : Prop :=
  incl (to_install st) (to_install st') /\ exists new, trace st' = trace st ++ new /\ well_ordered fl (to_install st) (trace st) new.
Lemma grows_refl fl st : grows fl st st.
Proof. split; [apply incl_refl|]. exists []. rewrite app_nil_r. split; auto. apply well_ordered_nil. Qed.
Lemma grows_trans fl a b c : grows fl a b -> grows fl b c -> grows fl a c.
Proof.
  intros (A1 & n1 & A2 & A3) (B1 & n2 & B2 & B3). split; [eapply incl_tran; eauto|]. exists (n1 ++ n2). rewrite B2, A2, app_assoc. split; auto.
  apply well_ordered_app; auto. rewrite <- A2. eapply well_ordered_incl; eauto.
Qed.
Lemma grows_in fl a b x : In x (trace a) -> grows fl a b -> In x (trace b).
Proof. intros I (_ & n & E & _). rewrite E. apply in_or_app; auto. Qed.

Lemma install_grows fl : forall fuel names st st', install fuel fl names st = IOk st' ->
  grows fl st st' /\ incl names (trace st') /\
  exists ti, each (mark fuel fl) names (to_install st) = IOk ti /\ grows fl (mkIst ti (trace st)) st'.
Proof.
  induction fuel as [|fuel IH]; intros names st st'; cbn [install]; [discriminate|].
  destruct (each (mark (S fuel) fl) names (to_install st)) as [ti| | |] eqn:M; cbn [ibind]; try discriminate. intros E.
  destruct (marks_spec fl [] _ _ _ _ M) as (M1 & M2 & _ & _).
  assert (G : grows fl (mkIst ti (trace st)) st' /\ forall x, In x names -> In x (trace st')).
  { revert E. apply (each_inv (grows fl) (fun x s => In x (trace s))).
    - apply grows_refl. - apply grows_trans. - intros x s s' I H. eapply grows_in; eauto.
    - intros x s s' I _. destruct (mem_str x (trace s)) eqn:Mx.
      { intros E. inversion E; subst. apply mem_str_iff in Mx. split; auto. apply grows_refl. }
      destruct (find_feat fl x) as [ft|] eqn:F; [|discriminate].
      destruct (each _ (fafter ft) s) as [s1| | |] eqn:E1; cbn [ibind]; try discriminate.
      destruct (each _ (fdeps ft) s1) as [s2| | |] eqn:E2; cbn [ibind]; try discriminate.
      destruct (match fsubs ft with None => IOk s2 | Some l => install fuel fl l s2 end) as [s3| | |] eqn:E3; cbn [ibind]; try discriminate.
      intros E. inversion E; subst; clear E.
      assert (H1 : grows fl s s1 /\ forall a, In a (fafter ft) -> In a (to_install s) -> In a (trace s1)).
      { revert E1. apply (each_inv (grows fl) (fun a t => In a (to_install s) -> In a (trace t))).
        - apply grows_refl. - apply grows_trans. - intros a t t' H G J. eapply grows_in; eauto.
        - intros a t t' _ G. destruct (mem_str a (trace t)) eqn:Ma; cbn [negb andb].
          + intros E. inversion E; subst. apply mem_str_iff in Ma. split; auto. apply grows_refl.
          + destruct (mem_str a (to_install t)) eqn:Mb.
            * intros E. destruct (IH _ _ _ E) as (A & B & _). split; auto. intros _. apply B. left; auto.
            * intros E. inversion E; subst. split; [apply grows_refl|]. intros J. apply mem_false in Mb. destruct G as [G _]. apply G in J. contradiction. }
      assert (H2 : grows fl s1 s2 /\ forall a, In a (fdeps ft) -> In a (trace s2)).
      { revert E2. apply (each_inv (grows fl) (fun a t => In a (trace t))).
        - apply grows_refl. - apply grows_trans. - intros a t t' H G. eapply grows_in; eauto.
        - intros a t t' _ _. destruct (mem_str a (trace t)) eqn:Ma; cbn [negb].
          + intros E. inversion E; subst. apply mem_str_iff in Ma. split; auto. apply grows_refl.
          + intros E. destruct (IH _ _ _ E) as (A & B & _). split; auto. apply B. left; auto. }
      assert (H3 : grows fl s2 s3 /\ forall l, fsubs ft = Some l -> incl l (trace s3)).
      { destruct (fsubs ft) as [l|].
        - destruct (IH _ _ _ E3) as (A & B & _). split; auto. intros l' E. inversion E; subst. auto.
        - inversion E3; subst. split; [apply grows_refl|discriminate]. }
      destruct H1 as [G1 P1]. destruct H2 as [G2 P2]. destruct H3 as [G3 P3].
      assert (G : grows fl s s3) by (eapply grows_trans; [exact G1|eapply grows_trans; eauto]).
      split; [|cbn [trace]; apply in_or_app; right; left; auto].
      destruct G as (T & new & N1 & N2). split; [exact T|]. exists (new ++ [x]). cbn [trace]. rewrite N1, app_assoc. split; auto.
      apply well_ordered_app; auto. intros p y r Ey. destruct p as [|z p]; [|destruct p; discriminate]. inversion Ey; subst y r.
      exists ft. split; auto. rewrite app_nil_r, <- N1. split.
      + intros y (ft' & F' & D). rewrite F in F'. inversion F'; subst ft'. destruct D as [D|(l & L1 & L2)].
        * apply grows_in with (fl := fl) (a := s2); auto.
        * apply (P3 l L1 y L2).
      + intros a Ia Ja. apply grows_in with (fl := fl) (a := s1); [auto|eapply grows_trans; eauto]. }
  destruct G as [G1 G2]. split; [|split; auto].
  - destruct G1 as (T & new & N1 & N2). cbn [to_install trace] in *. split; [eapply incl_tran; eauto|]. exists new. split; auto. eapply well_ordered_incl; eauto.
  - exists ti. split; auto.
Qed.

(** Only what is reachable is installed. *)
Lemma install_reach fl s : forall fuel names st st', install fuel fl names st = IOk st' ->
  (forall x, In x names -> reach fl s x) -> (forall x, In x (to_install st) -> reach fl s x) -> (forall x, In x (trace st) -> reach fl s x) ->
  (forall x, In x (to_install st') -> reach fl s x) /\ forall x, In x (trace st') -> reach fl s x.
Proof.
  induction fuel as [|fuel IH]; intros names st st'; cbn [install]; [discriminate|].
  destruct (each (mark (S fuel) fl) names (to_install st)) as [ti| | |] eqn:M; cbn [ibind]; try discriminate. intros E Hn Ht Hr.
  destruct (marks_spec fl s _ _ _ _ M) as (_ & _ & M3 & _). specialize (M3 Hn Ht).
  set (R := fun a b : ist => ((forall x, In x (to_install a) -> reach fl s x) /\ (forall x, In x (trace a) -> reach fl s x)) -> ((forall x, In x (to_install b) -> reach fl s x) /\ (forall x, In x (trace b) -> reach fl s x))).
  assert (G : R (mkIst ti (trace st)) st' /\ forall x, In x names -> True); [|apply G; split; auto].
  revert E. apply (each_inv R (fun _ _ => True)); unfold R; clear R; auto.
  intros x a b I _. destruct (mem_str x (trace a)); [intros E; inversion E; subst; auto|].
  destruct (find_feat fl x) as [ft|] eqn:F; [|discriminate].
  destruct (each _ (fafter ft) a) as [s1| | |] eqn:E1; cbn [ibind]; try discriminate.
  destruct (each _ (fdeps ft) s1) as [s2| | |] eqn:E2; cbn [ibind]; try discriminate.
  destruct (match fsubs ft with None => IOk s2 | Some l => install fuel fl l s2 end) as [s3| | |] eqn:E3; cbn [ibind]; try discriminate.
  intros E. inversion E; subst; clear E. split; auto. intros Ha. cbn [to_install trace].
  set (R := fun a b : ist => ((forall x, In x (to_install a) -> reach fl s x) /\ (forall x, In x (trace a) -> reach fl s x)) -> ((forall x, In x (to_install b) -> reach fl s x) /\ (forall x, In x (trace b) -> reach fl s x))).
  assert (R1 : R a s1).
  { assert (Z : R a s1 /\ forall x, In x (fafter ft) -> True); [|apply Z]. revert E1. apply (each_inv R (fun _ _ => True)); unfold R; auto.
    intros y t t' _ _. destruct (negb _ && mem_str y (to_install t)) eqn:B; [|intros E; inversion E; subst; auto].
    intros E. split; auto. intros [T1 T2]. apply (IH _ _ _ E); auto. intros z [<-|[]]. apply andb_true_iff in B. apply T1, mem_str_iff. tauto. }
  assert (R2 : R s1 s2).
  { assert (Z : R s1 s2 /\ forall x, In x (fdeps ft) -> True); [|apply Z]. revert E2. apply (each_inv R (fun _ _ => True)); unfold R; auto.
    intros y t t' Iy _. destruct (negb _); [|intros E; inversion E; subst; auto].
    intros E. split; auto. intros [T1 T2]. apply (IH _ _ _ E); auto. intros z [<-|[]]. eapply reach_step; [apply Hn; exact I|]. exists ft. auto. }
  assert (R3 : R s2 s3).
  { destruct (fsubs ft) as [l|] eqn:L; [|inversion E3; subst; unfold R; auto]. intros [T1 T2]. apply (IH _ _ _ E3); auto.
    intros z Z. eapply reach_step; [apply Hn; exact I|]. exists ft. eauto. }
  destruct (R3 (R2 (R1 Ha))) as [X1 X2]. split; auto. intros z Z. apply in_app_or in Z. destruct Z as [Z|[<-|[]]]; auto.
Qed.

Lemma nodup_app {A} (a b : list A) : NoDup a -> NoDup b -> (forall x, In x a -> ~ In x b) -> NoDup (a ++ b).
Proof.
  induction a as [|x a IH]; intros Ha Hb H; cbn; auto. inversion Ha; subst. constructor.
  - intros I. apply in_app_or in I. destruct I as [I|I]; [contradiction|]. apply (H x); auto. left; auto.
  - apply IH; auto. intros y I. apply H. right; auto.
Qed.

(** In a graph without cycles nothing is installed twice. *)
Lemma install_rank fl rank : acyclic fl rank -> forall fuel names st st' b, install fuel fl names st = IOk st' ->
  (forall n, In n names -> (rank n < b)%nat) -> exists new, trace st' = trace st ++ new /\ (forall y, In y new -> (rank y < b)%nat) /\ (NoDup (trace st) -> NoDup (trace st')).
Proof.
  intros AC. induction fuel as [|fuel IH]; intros names st st' b; cbn [install]; [discriminate|].
  destruct (each (mark (S fuel) fl) names (to_install st)) as [ti| | |] eqn:M; cbn [ibind]; try discriminate. intros E Hn.
  set (R := fun b (a c : ist) => exists new, trace c = trace a ++ new /\ (forall y, In y new -> (rank y < b)%nat) /\ (NoDup (trace a) -> NoDup (trace c))).
  assert (Rr : forall b a, R b a a) by (intros b0 a; exists []; rewrite app_nil_r; repeat split; auto; intros ? []).
  assert (Rt : forall b a c d, R b a c -> R b c d -> R b a d).
  { intros b0 a c d (n1 & A1 & A2 & A3) (n2 & B1 & B2 & B3). exists (n1 ++ n2). rewrite B1, A1, app_assoc. repeat split; auto.
    - intros y I. apply in_app_or in I. destruct I; auto. - rewrite <- A1, <- B1. auto. }
  assert (G : R b (mkIst ti (trace st)) st' /\ forall x, In x names -> True); [|apply G].
  revert E. apply (each_inv (R b) (fun _ _ => True)); eauto.
  intros x a c I _. destruct (mem_str x (trace a)) eqn:Mx; [intros E; inversion E; subst; auto|].
  destruct (find_feat fl x) as [ft|] eqn:F; [|discriminate].
  destruct (each _ (fafter ft) a) as [s1| | |] eqn:E1; cbn [ibind]; try discriminate.
  destruct (each _ (fdeps ft) s1) as [s2| | |] eqn:E2; cbn [ibind]; try discriminate.
  destruct (match fsubs ft with None => IOk s2 | Some l => install fuel fl l s2 end) as [s3| | |] eqn:E3; cbn [ibind]; try discriminate.
  intros E. inversion E; subst; clear E. split; auto. destruct (AC x ft F) as [AC1 AC2].
  assert (R1 : R (rank x) a s1).
  { assert (Z : R (rank x) a s1 /\ forall x, In x (fafter ft) -> True); [|apply Z]. revert E1. apply (each_inv (R (rank x)) (fun _ _ => True)); eauto.
    intros y t t' Iy _. destruct (negb _ && mem_str y (to_install t)) eqn:B; [|intros E; inversion E; subst; auto].
    intros E. split; auto. apply (IH _ _ _ _ E). intros n [<-|[]]. auto. }
  assert (R2 : R (rank x) s1 s2).
  { assert (Z : R (rank x) s1 s2 /\ forall x, In x (fdeps ft) -> True); [|apply Z]. revert E2. apply (each_inv (R (rank x)) (fun _ _ => True)); eauto.
    intros y t t' Iy _. destruct (negb _); [|intros E; inversion E; subst; auto].
    intros E. split; auto. apply (IH _ _ _ _ E). intros n [<-|[]]. apply AC1. exists ft. auto. }
  assert (R3 : R (rank x) s2 s3).
  { destruct (fsubs ft) as [l|] eqn:L; [|inversion E3; subst; auto]. apply (IH _ _ _ _ E3).
    intros z Z. apply AC1. exists ft. eauto. }
  destruct (Rt _ _ _ _ R1 (Rt _ _ _ _ R2 R3)) as (new & N1 & N2 & N3). exists (new ++ [x]). cbn [trace]. rewrite N1, app_assoc. split; auto.
  pose proof (Hn x I) as Hx. split.
  - intros y J. apply in_app_or in J. destruct J as [J|[<-|[]]]; auto. specialize (N2 y J). lia.
  - intros Nd. rewrite <- N1. specialize (N3 Nd). apply nodup_app; auto.
    + repeat constructor. intros []. + intros y Iy [<-|[]]. rewrite N1 in Iy. apply in_app_or in Iy. destruct Iy as [Iy|Iy].
      * apply mem_false in Mx. contradiction. * specialize (N2 x Iy). lia.
Qed.

(** It terminates, without error. *)
Lemma mark_total fl rank : acyclic fl rank -> forall fuel name ti, (rank name < fuel)%nat -> find_feat fl name <> None -> exists ti', mark fuel fl name ti = IOk ti'.
Proof.
  intros AC. induction fuel as [|fuel IH]; intros name ti L N; [lia|]. cbn [mark]. destruct (mem_str name ti); [eauto|].
  destruct (find_feat fl name) as [ft|] eqn:F; [|congruence]. destruct (AC name ft F) as [A _].
  destruct (each_total (fun _ => True) (mark fuel fl) (fdeps ft)) with (s := ti ++ [name]) as (ti' & E & _); [|exact I|eauto].
  intros x s J _. destruct (A x) as [A1 A2]; [exists ft; auto|]. destruct (IH x s) as (s' & E'); [lia|auto|eauto].
Qed.
Lemma marks_total fl rank fuel names ti : acyclic fl rank -> (forall n, In n names -> (rank n < fuel)%nat /\ find_feat fl n <> None) ->
  exists ti', each (mark fuel fl) names ti = IOk ti'.
Proof.
  intros AC H. destruct (each_total (fun _ => True) (mark fuel fl) names) with (s := ti) as (ti' & E & _); [|exact I|eauto].
  intros x s J _. destruct (H x J). destruct (mark_total fl rank AC fuel x s) as (s' & E'); eauto.
Qed.
Lemma mark_known fl fuel name ti ti' : mark fuel fl name ti = IOk ti' -> (forall x, In x ti -> find_feat fl x <> None) -> forall x, In x ti' -> find_feat fl x <> None.
Proof.
  revert name ti ti'. induction fuel as [|fuel IH]; intros name ti ti'; cbn [mark]; [discriminate|].
  destruct (mem_str name ti); [intros E; inversion E; subst; auto|]. destruct (find_feat fl name) as [ft|] eqn:F; [|discriminate].
  intros E H. set (R := fun a b => (forall x, In x a -> find_feat fl x <> None) -> forall x, In x b -> find_feat fl x <> None).
  assert (Z : R (ti ++ [name]) ti' /\ forall x, In x (fdeps ft) -> True).
  { revert E. apply (each_inv R (fun _ _ => True)); unfold R; auto. intros x a b _ _ E. split; auto. eapply IH; eauto. }
  apply Z. intros x I. apply in_app_or in I. destruct I as [I|[<-|[]]]; auto. congruence.
Qed.
Lemma marks_known fl fuel names ti ti' : each (mark fuel fl) names ti = IOk ti' -> (forall x, In x ti -> find_feat fl x <> None) -> forall x, In x ti' -> find_feat fl x <> None.
Proof.
  intros E H. set (R := fun a b => (forall x, In x a -> find_feat fl x <> None) -> forall x, In x b -> find_feat fl x <> None).
  assert (Z : R ti ti' /\ forall x, In x names -> True); [|apply Z; auto].
  revert E. apply (each_inv R (fun _ _ => True)); unfold R; auto. intros x a b _ _ E. split; auto. eapply mark_known; eauto.
Qed.
Lemma install_total fl rank : acyclic fl rank -> forall fuel names st, (0 < fuel)%nat -> known fl st ->
  (forall n, In n names -> (S (rank n) < fuel)%nat /\ find_feat fl n <> None) -> exists st', install fuel fl names st = IOk st' /\ known fl st'.
Proof.
  intros AC. induction fuel as [|fuel IH]; intros names st L K H; [lia|]. cbn [install].
  destruct (marks_total fl rank (S fuel) names (to_install st) AC) as (ti & M); [intros n I; destruct (H n I); split; auto; lia|].
  rewrite M. cbn [ibind]. apply each_total.
  - intros x s I Ks. destruct (mem_str x (trace s)); [eauto|]. destruct (H x I) as [H1 H2].
    destruct (find_feat fl x) as [ft|] eqn:F; [|congruence]. destruct (AC x ft F) as [A1 A2].
    assert (Fu : (0 < fuel)%nat) by lia.
    match goal with |- exists _, ibind ?e _ = _ /\ _ => assert (S1 : exists s1, e = IOk s1 /\ known fl s1) end.
    { apply each_total; auto. intros a t Ia Kt. destruct (negb _ && mem_str a (to_install t)) eqn:B; [|eauto].
      apply IH; auto. intros n [<-|[]]. apply andb_true_iff in B. destruct B as [_ B]. apply mem_str_iff in B. split; [specialize (A2 a Ia); lia|auto]. }
    destruct S1 as (s1 & S1 & K1). rewrite S1. cbn [ibind].
    match goal with |- exists _, ibind ?e _ = _ /\ _ => assert (S2 : exists s2, e = IOk s2 /\ known fl s2) end.
    { apply each_total; auto. intros a t Ia Kt. destruct (negb _); [|eauto].
      apply IH; auto. intros n [<-|[]]. destruct (A1 a); [exists ft; auto|]. split; auto. lia. }
    destruct S2 as (s2 & S2 & K2). rewrite S2. cbn [ibind].
    assert (S3 : exists s3, match fsubs ft with None => IOk s2 | Some l => install fuel fl l s2 end = IOk s3 /\ known fl s3).
    { destruct (fsubs ft) as [l|] eqn:E; [|eauto]. apply IH; auto. intros n J. destruct (A1 n); [exists ft; eauto|]. split; auto. lia. }
    destruct S3 as (s3 & S3 & K3). rewrite S3. cbn [ibind]. eauto.
  - exact (marks_known _ _ _ _ _ M K).
Qed.

(** Installing what is installed already changes nothing. *)
Lemma install_idem fuel fl names st st' : install fuel fl names st = IOk st' -> incl names (trace st) -> trace st' = trace st.
Proof.
  destruct fuel as [|fuel]; cbn [install]; [discriminate|]. destruct (each (mark _ _) _ _) as [ti| | |]; cbn [ibind]; try discriminate.
  intros E I. set (R := fun a b : ist => incl names (trace a) -> trace b = trace a).
  assert (Z : R (mkIst ti (trace st)) st' /\ forall x, In x names -> True); [|apply Z; auto].
  revert E. apply (each_inv R (fun _ _ => True)); unfold R; auto.
  - intros a b c H1 H2 J. rewrite H2, H1; auto. rewrite H1; auto.
  - intros x a b J _. destruct (mem_str x (trace a)) eqn:Mx; [intros E; inversion E; auto|].
    intros E. split; auto. intros K. apply mem_false in Mx. elim Mx. auto.
Qed.

(** A name that is not a feature. *)
Lemma mark_unknown fuel fl name ti : find_feat fl name = None -> ~ In name ti -> mark (S fuel) fl name ti = IKey.
Proof. intros F N. cbn [mark]. rewrite F. destruct (mem_str name ti) eqn:M; auto. apply mem_str_iff in M. contradiction. Qed.
Lemma each_safe {S} (I : S -> Prop) (step : str -> S -> ires S) l : (forall x s, In x l -> I s -> step x s <> INotFound /\ forall s', step x s = IOk s' -> I s') ->
  forall s, I s -> each step l s <> INotFound /\ forall s', each step l s = IOk s' -> I s'.
Proof.
  induction l as [|x l IH]; intros H s Hs; cbn [each]; [split; [discriminate|intros s' E; inversion E; subst; auto]|].
  destruct (H x s (or_introl eq_refl) Hs) as [A B]. destruct (step x s) as [s1| | |] eqn:E; cbn [ibind]; try (split; [congruence|discriminate]).
  apply IH; auto. intros y t J. apply H. right; auto.
Qed.
Lemma mark_never fl : forall fuel name ti, mark fuel fl name ti <> INotFound.
Proof.
  induction fuel as [|fuel IH]; intros name ti; cbn [mark]; [discriminate|]. destruct (mem_str name ti); [discriminate|].
  destruct (find_feat fl name); [|discriminate]. apply (each_safe (fun _ => True)); auto.
Qed.
Lemma install_never_not_found fl : forall fuel names st, known fl st -> install fuel fl names st <> INotFound /\ forall st', install fuel fl names st = IOk st' -> known fl st'.
Proof.
  induction fuel as [|fuel IH]; intros names st K; cbn [install]; [split; discriminate|].
  pose proof (each_safe (fun _ => True) (mark (S fuel) fl) names (fun x s _ _ => conj (mark_never fl (S fuel) x s) (fun _ _ => I)) (to_install st) I) as [Z _].
  destruct (each (mark (S fuel) fl) names (to_install st)) as [ti| | |] eqn:M; cbn [ibind]; try (split; [congruence|discriminate]). clear Z.
  pose proof (marks_known _ _ _ _ _ M K) as K1. destruct (marks_spec fl [] _ _ _ _ M) as (_ & M2 & _ & _).
  assert (Hn : forall x, In x names -> find_feat fl x <> None) by (intros x J; apply K1, M2, J).
  apply each_safe; auto. intros x s J Ks. destruct (mem_str x (trace s)); [split; [discriminate|intros s' E; inversion E; subst; auto]|].
  destruct (find_feat fl x) as [ft|] eqn:F; [|elim (Hn x J); auto].
  match goal with |- ibind ?e _ <> _ /\ _ => assert (S1 : e <> INotFound /\ forall s', e = IOk s' -> known fl s') end.
  { apply each_safe; auto. intros y t _ Kt. destruct (negb _ && _); [apply IH; auto|split; [discriminate|intros s' E; inversion E; subst; auto]]. }
  destruct (each _ (fafter ft) s) as [s1| | |]; cbn [ibind]; destruct S1 as [S1 K2]; try (split; [congruence|discriminate]). specialize (K2 _ eq_refl).
  match goal with |- ibind ?e _ <> _ /\ _ => assert (S2 : e <> INotFound /\ forall s', e = IOk s' -> known fl s') end.
  { apply each_safe; auto. intros y t _ Kt. destruct (negb _); [apply IH; auto|split; [discriminate|intros s' E; inversion E; subst; auto]]. }
  destruct (each _ (fdeps ft) s1) as [s2| | |]; cbn [ibind]; destruct S2 as [S2 K3]; try (split; [congruence|discriminate]). specialize (K3 _ eq_refl).
  match goal with |- ibind ?e _ <> _ /\ _ => assert (S3 : e <> INotFound /\ forall s', e = IOk s' -> known fl s') end.
  { destruct (fsubs ft); [apply IH; auto|split; [discriminate|intros s' E; inversion E; subst; auto]]. }
  match goal with |- ibind ?e _ <> _ /\ _ => destruct e as [s3| | |] end; cbn [ibind]; destruct S3 as [S3 K4]; try (split; [congruence|discriminate]).
  specialize (K4 _ eq_refl). split; [discriminate|]. intros s' E. inversion E; subst. exact K4.
Qed.

(** What a successful installation from nothing leaves: exactly what the names need. *)
Lemma install_exact fuel fl names st' : install fuel fl names (mkIst [] []) = IOk st' ->
  (forall x, In x (trace st') <-> reach fl names x) /\ exists wanted, incl names wanted /\ well_ordered fl wanted [] (trace st').
Proof.
  intros E. destruct (install_grows fl _ _ _ _ E) as ((_ & new & N1 & N2) & G2 & ti & M & (_ & new' & N3 & N4)).
  cbn [trace to_install app] in *. subst new'. rewrite <- N1 in N2.
  destruct (marks_spec fl [] _ _ _ _ M) as (_ & M2 & _ & _).
  split; [|exists ti; rewrite N1 in *; auto].
  intros x. split.
  - destruct (install_reach fl names _ _ _ _ E) as [_ R]; auto; [intros; constructor; auto|intros ? []|intros ? []].
  - induction 1 as [x I|x y R IH N]; [auto|]. destruct (in_split _ _ IH) as (p & s & P). destruct (N2 p x s P) as (ft & _ & W & _).
    specialize (W y N). cbn [app] in W. rewrite P. apply in_or_app. auto.
Qed.
