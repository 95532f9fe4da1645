(** Removing units of the same dimension: where it does what it is for. *)
From Coq Require Import ZArith QArith Qpower Ascii String List Bool Lia.
From Verif Require Import Base BaseProofs Bases Units UnitsSpec UnitsProofs UnitsProofs2 UnitsProofs3 UnitsProofs4.
Import ListNotations.
Open Scope Z_scope.

Definition has_dim (l : upl) (d : str) (i : nat) : bool := match nth_error l i with Some e => seq_eqb (udim (fst e)) d | None => false end.
Definition places (l : upl) (d : str) : list nat := filter (has_dim l d) (seq 0 (length l)).
Definition groups_ok (l : upl) (g : list (str * list nat)) : Prop :=
  NoDup (map fst g) /\ (forall d is, In (d, is) g -> is = places l d) /\ forall d, In d (map fst g) <-> In d (map (fun e => udim (fst e)) l).
Lemma has_dim_app l e d i : (i < length l)%nat -> has_dim (l ++ [e]) d i = has_dim l d i.
Proof. intros H. unfold has_dim. rewrite nth_error_app1 by exact H. reflexivity. Qed.
Lemma places_app l e d : places (l ++ [e]) d = places l d ++ (if seq_eqb (udim (fst e)) d then [length l] else []).
Proof.
  unfold places. rewrite app_length. cbn [length]. rewrite Nat.add_1_r, seq_S, filter_app. cbn [filter Nat.add]. f_equal.
  - apply filter_ext_in. intros i Hi. apply in_seq in Hi. apply has_dim_app. lia.
  - unfold has_dim. rewrite nth_error_app2 by lia. rewrite Nat.sub_diag. cbn [nth_error]. reflexivity.
Qed.
Lemma group_add_spec d i g : NoDup (map fst g) ->
  NoDup (map fst (group_add d i g)) /\ (forall k, In k (map fst (group_add d i g)) <-> k = d \/ In k (map fst g)) /\
  forall k is, In (k, is) (group_add d i g) -> (k <> d /\ In (k, is) g) \/ (k = d /\ exists js, is = js ++ [i] /\ (In (d, js) g \/ (js = [] /\ ~ In d (map fst g)))).
Proof.
  induction g as [|[k is] g IH]; intros ND; cbn [group_add].
  - cbn [map fst In]. split; [repeat constructor; auto|]. split; [intros k; intuition|].
    intros k is [H|[]]. injection H as <- <-. right. split; [reflexivity|]. exists []. split; [reflexivity|]. right. split; auto.
  - cbn [map fst] in ND. inversion ND as [|? ? N1 N2]; subst. destruct (seq_eqb k d) eqn:E.
    + apply seq_eqb_iff in E. subst k. cbn [map fst In]. split; [exact ND|]. split; [intros k; intuition|].
      intros k js [H|H].
      * injection H as <- <-. right. split; [reflexivity|]. exists is. split; [reflexivity|]. left. now left.
      * left. split; [|now right]. intros ->. apply N1. apply (in_map fst) in H. exact H.
    + destruct (IH N2) as (A & B & C). cbn [map fst In]. split; [|split].
      * constructor; [|exact A]. rewrite B. intros [->|H]; [|auto]. rewrite seq_eqb_refl in E. discriminate E.
      * intros x. rewrite B. intuition.
      * intros x js [H|H].
        -- injection H as <- <-. left. split; [|now left]. intros ->. rewrite seq_eqb_refl in E. discriminate E.
        -- apply C in H as [[H1 H2]|(H1 & ys & H2 & H3)]; [left; auto|]. right. split; [exact H1|]. exists ys. split; [exact H2|].
           destruct H3 as [H3|[H3 H4]]; [left; auto|]. right. split; [exact H3|]. intros [->|H]; [|auto]. rewrite seq_eqb_refl in E. discriminate E.
Qed.
Lemma places_absent l d : ~ In d (map (fun e => udim (fst e)) l) -> places l d = [].
Proof.
  intros H. unfold places. assert (G : forall i, has_dim l d i = false).
  { intros i. unfold has_dim. destruct (nth_error l i) as [e|] eqn:E; [|reflexivity]. destruct (seq_eqb (udim (fst e)) d) eqn:F; [|reflexivity].
    exfalso. apply H. apply seq_eqb_iff in F. subst d. apply nth_error_In in E. now apply (in_map (fun e => udim (fst e))). }
  generalize (seq 0 (length l)). intros s. induction s as [|i s IH]; cbn [filter]; [reflexivity|]. now rewrite G.
Qed.
Lemma combine_seq_app {A} (l : list A) (e : A) k : combine (seq k (length (l ++ [e]))) (l ++ [e]) = combine (seq k (length l)) l ++ [((k + length l)%nat, e)].
Proof.
  revert k. induction l as [|x l IH]; intros k; cbn [app length seq combine].
  - rewrite Nat.add_0_r. reflexivity.
  - rewrite IH. cbn [app]. rewrite Nat.add_succ_r. reflexivity.
Qed.
Lemma group_dims_ok l : groups_ok l (group_dims l).
Proof.
  unfold group_dims. induction l as [|e l IH] using rev_ind.
  - cbn. split; [constructor|]. split; [intros ? ? []|tauto].
  - rewrite combine_seq_app, fold_left_app. cbn [fold_left fst snd Nat.add]. set (g := fold_left _ _ _) in *. destruct IH as (I1 & I2 & I3).
    destruct (group_add_spec (udim (fst e)) (length l) g I1) as (A & B & C). split; [exact A|]. split.
    + intros d is H. rewrite places_app. apply C in H as [[H1 H2]|(-> & js & -> & H3)].
      * rewrite (I2 d is H2). destruct (seq_eqb (udim (fst e)) d) eqn:E; [apply seq_eqb_iff in E; congruence|]. now rewrite app_nil_r.
      * rewrite seq_eqb_refl. f_equal. destruct H3 as [H3|[-> H3]]; [now apply I2|]. symmetry. apply places_absent. rewrite <- I3. exact H3.
    + intros d. rewrite B, I3, map_app, in_app_iff. cbn [map In]. intuition.
Qed.

Lemma dedupe_singles v l : forall g, Forall (fun e => (length (snd e) <= 1)%nat) g -> dedupe_loop g v l = Ok (v, l).
Proof.
  induction g as [|[d is] g IH]; intros H; cbn [dedupe_loop]; [reflexivity|]. inversion H as [|? ? A B]; subst. cbn [snd] in A.
  destruct (1 <? length is)%nat eqn:E; [apply Nat.ltb_lt in E; lia|]. cbn [obind fst snd]. apply IH, B.
Qed.
Lemma dedupe_one v l d is : forall g, NoDup (map fst g) -> In (d, is) g -> (1 < length is)%nat ->
  (forall k js, In (k, js) g -> k <> d -> (length js <= 1)%nat) -> dedupe_loop g v l = dedupe_loop [(d, is)] v l.
Proof.
  induction g as [|[k js] g IH]; intros ND HI L H; [destruct HI|]. cbn [map fst] in ND. inversion ND as [|? ? N1 N2]; subst.
  destruct HI as [HI|HI].
  - injection HI as -> ->. cbn [dedupe_loop]. destruct (if (1 <? length is)%nat then _ else _) as [[v1 l1]| |]; cbn [obind fst snd]; try reflexivity.
    apply dedupe_singles. apply Forall_forall. intros [k js] Hk. cbn [snd]. apply (H k js); [now right|]. intros ->. apply N1. now apply (in_map fst) in Hk.
  - assert (kd : k <> d) by (intros ->; apply N1; now apply (in_map fst) in HI).
    cbn [dedupe_loop]. destruct (1 <? length js)%nat eqn:E; [apply Nat.ltb_lt in E; specialize (H k js (or_introl eq_refl) kd); lia|]. cbn [obind fst snd].
    rewrite (IH N2 HI L); [reflexivity|]. intros x ys Hx. apply H. now right.
Qed.
Lemma places_cons u l d : places (u :: l) d = (if seq_eqb (udim (fst u)) d then [0%nat] else []) ++ map S (places l d).
Proof.
  unfold places. cbn [length seq filter]. unfold has_dim at 1. cbn [nth_error]. rewrite <- seq_shift.
  assert (E : filter (has_dim (u :: l) d) (map S (seq 0 (length l))) = map S (filter (has_dim l d) (seq 0 (length l)))).
  { generalize (seq 0 (length l)). intros s. induction s as [|i s IH]; cbn [map filter]; [reflexivity|]. rewrite IH.
    change (has_dim (u :: l) d (S i)) with (has_dim l d i). destruct (has_dim l d i); reflexivity. }
  rewrite E. destruct (seq_eqb (udim (fst u)) d); reflexivity.
Qed.
Lemma places_skip pre l d : ~ In d (map (fun e => udim (fst e)) pre) -> places (pre ++ l) d = map (Nat.add (length pre)) (places l d).
Proof.
  induction pre as [|e pre IH]; intros H; cbn [app length].
  - rewrite map_ext with (g := fun x => x) by reflexivity. now rewrite map_id.
  - cbn [map In] in H. rewrite places_cons. destruct (seq_eqb (udim (fst e)) d) eqn:E; [apply seq_eqb_iff in E; exfalso; apply H; now left|].
    cbn [app]. rewrite IH by (intros Z; apply H; now right). rewrite map_map. reflexivity.
Qed.
Lemma nodup_places l d : NoDup (map (fun e => udim (fst e)) l) -> (length (places l d) <= 1)%nat.
Proof.
  induction l as [|e l IH]; intros H; [cbn; lia|]. cbn [map] in H. inversion H as [|? ? A B]; subst. rewrite places_cons, app_length, map_length.
  destruct (seq_eqb (udim (fst e)) d) eqn:E; cbn [length]; [|now apply IH]. apply seq_eqb_iff in E. rewrite places_absent by (rewrite <- E; exact A). cbn. lia.
Qed.
Lemma dedupe_distinct v l : NoDup (map (fun e => udim (fst e)) l) -> dedupe v l = Ok (v, l).
Proof.
  intros H. unfold dedupe. destruct (1 <? length l)%nat; [|reflexivity]. apply dedupe_singles. destruct (group_dims_ok l) as (_ & G & _).
  apply Forall_forall. intros [d is] Hd. cbn [snd]. rewrite (G d is Hd). now apply nodup_places.
Qed.

(** How many units have a dimension *)
Lemma places_count l d : length (places l d) = length (filter (fun e : unit * Z => seq_eqb (udim (fst e)) d) l).
Proof.
  induction l as [|e l IH]; [reflexivity|]. rewrite places_cons, app_length, map_length. cbn [filter]. rewrite IH.
  destruct (seq_eqb (udim (fst e)) d); reflexivity.
Qed.
Lemma places_other pre e post d : udim (fst e) <> d -> NoDup (map (fun x : unit * Z => udim (fst x)) (pre ++ post)) -> (length (places (pre ++ e :: post) d) <= 1)%nat.
Proof.
  intros H N. pose proof (nodup_places (pre ++ post) d N) as P. rewrite places_count in *. rewrite filter_app in *. cbn [filter].
  destruct (seq_eqb (udim (fst e)) d) eqn:E; [apply seq_eqb_iff in E; contradiction|exact P].
Qed.
Lemma once_before (pre post : upl) w p : once ueqb (pre ++ (w, p) :: post) -> Forall (fun e => ueqb (fst e) w = false) pre /\ once ueqb (pre ++ post).
Proof.
  induction pre as [|[k q] pre IH]; cbn [app once]; [intros [_ H]; split; [constructor|exact H]|]. intros [H1 H2]. destruct (IH H2) as [I1 I2].
  apply Forall_app in H1 as [H1 H3]. inversion H3 as [|? ? A B]; subst. cbn [fst] in A. split; [|split; [apply Forall_app; auto|exact I2]].
  constructor; [|exact I1]. cbn [fst]. unfold ueqb in *. rewrite Z.eqb_sym. exact A.
Qed.
Lemma pl_add_before (pre post : upl) w p q : Forall (fun e => ueqb (fst e) w = false) pre ->
  pl_add ueqb w q (pre ++ (w, p) :: post) = pre ++ (if p + q =? 0 then post else (w, p + q) :: post).
Proof.
  induction pre as [|[k z] pre IH]; intros H; cbn [app pl_add].
  - unfold ueqb. rewrite Z.eqb_refl. destruct (p + q =? 0); reflexivity.
  - inversion H as [|? ? A B]; subst. cbn [fst] in A. rewrite A, IH by exact B. reflexivity.
Qed.
Lemma take_out (pre post : upl) w p : once ueqb (pre ++ (w, p) :: post) -> pl_add ueqb w (- p) (pre ++ (w, p) :: post) = pre ++ post.
Proof. intros H. destruct (once_before pre post w p H) as [B _]. rewrite pl_add_before by exact B. rewrite Z.add_opp_diag_r. reflexivity. Qed.
Lemma places_pair pre mid post u q w p d : udim u = d -> udim w = d -> NoDup (map (fun e : unit * Z => udim (fst e)) (pre ++ (u, q) :: mid ++ post)) ->
  places (pre ++ (u, q) :: mid ++ (w, p) :: post) d = [length pre; (length pre + S (length mid))%nat].
Proof.
  intros Hu Hw ND. rewrite map_app in ND. cbn [map fst] in ND. apply NoDup_remove in ND as [_ ND]. rewrite map_app in ND. rewrite Hu in ND.
  rewrite !in_app_iff in ND.
  rewrite places_skip by tauto. rewrite places_cons. cbn [fst]. rewrite Hu, seq_eqb_refl. cbn [app]. rewrite places_skip by tauto.
  rewrite places_cons. cbn [fst]. rewrite Hw, seq_eqb_refl. cbn [app]. rewrite places_absent by tauto. cbn [map]. rewrite !Nat.add_0_r. reflexivity.
Qed.
Lemma dedupe_pair_loop v pre mid post u q w p : udim w = udim u -> NoDup (map (fun e : unit * Z => udim (fst e)) (pre ++ (u, q) :: mid ++ post)) ->
  let l := pre ++ (u, q) :: mid ++ (w, p) :: post in
  dedupe v l = dedupe_loop [(udim u, [length pre; (length pre + S (length mid))%nat])] v l /\
  nth_error l (length pre) = Some (u, q) /\ nth_error l (length pre + S (length mid)) = Some (w, p).
Proof.
  intros Hw ND l. destruct (group_dims_ok l) as (G1 & G2 & G3). pose proof (places_pair pre mid post u q w p (udim u) eq_refl Hw ND) as P. fold l in P.
  assert (L : (1 <? length l)%nat = true).
  { apply Nat.ltb_lt. unfold l. rewrite app_length. cbn [length]. rewrite app_length. cbn [length]. lia. }
  split; [|split].
  - unfold dedupe. rewrite L. assert (I : In (udim u) (map fst (group_dims l))).
    { apply G3. unfold l. rewrite map_app. apply in_or_app. right. now left. }
    apply in_map_iff in I as ([d is] & Hd & I). cbn [fst] in Hd. subst d. pose proof (G2 _ _ I) as E. rewrite P in E. subst is.
    apply (dedupe_one v l (udim u)); [exact G1|exact I|cbn [length]; lia|].
    intros k js Hk Hn. rewrite (G2 k js Hk). unfold l. rewrite app_comm_cons, app_assoc. apply places_other; [cbn [fst]; congruence|].
    rewrite <- app_assoc. exact ND.
  - unfold l. rewrite nth_error_app2 by lia. rewrite Nat.sub_diag. reflexivity.
  - unfold l. rewrite nth_error_app2 by lia. replace (length pre + S (length mid) - length pre)%nat with (S (length mid)) by lia. cbn [nth_error].
    rewrite nth_error_app2 by lia. rewrite Nat.sub_diag. reflexivity.
Qed.
Lemma dedupe_pair us rel v mid post u q w p : units_ok us -> over us ((u, q) :: mid ++ (w, p) :: post) -> once ueqb ((u, q) :: mid ++ (w, p) :: post) ->
  udim w = udim u -> NoDup (map (fun e : unit * Z => udim (fst e)) ((u, q) :: mid ++ post)) -> q + p <> 0 ->
  exists v', dedupe v ((u, q) :: mid ++ (w, p) :: post) = Ok (v', (u, q + p) :: mid ++ post) /\
    same_quantity v ((u, q) :: mid ++ (w, p) :: post) v' ((u, q + p) :: mid ++ post) /\
    forall d, dim_total rel ((u, q + p) :: mid ++ post) d = dim_total rel ((u, q) :: mid ++ (w, p) :: post) d.
Proof.
  intros HU O On Hw ND Hs. destruct (dedupe_pair_loop v [] mid post u q w p Hw ND) as (E & _ & N2). cbn [app length Nat.add] in E, N2.
  rewrite E. cbn [dedupe_loop length Nat.ltb Nat.leb get_all]. cbn [nth_error] in N2 |- *. rewrite N2. cbn [obind fold_left fst snd]. rewrite Z.add_0_l.
  destruct (q + p =? 0) eqn:Z; [apply Z.eqb_eq in Z; contradiction|]. cbn [negb replace_loop nth_error].
  rewrite (proj1 equiv_unit u). rewrite N2.
  assert (Wu : ueqb w u = false) by (destruct On as [On _]; apply Forall_app in On as [_ On]; now inversion On). rewrite Wu.
  set (l := (u, q) :: mid ++ (w, p) :: post) in *.
  assert (Iw : In w us) by (unfold over in O; rewrite Forall_forall in O; apply (O (w, p)); unfold l; right; apply in_or_app; right; now left).
  assert (Iu : In u us) by (unfold over in O; rewrite Forall_forall in O; apply (O (u, q)); now left).
  destruct (removeandconvert_spec us rel l v w p false HU Iw O) as (v1 & R1 & R2 & R3 & R4).
  assert (T : pl_add ueqb w (- p) l = (u, q) :: mid ++ post) by (apply (take_out ((u, q) :: mid) post w p), On). rewrite T in *.
  rewrite R1. cbn [obind fst snd]. destruct (addandconvert_spec us rel _ v1 u p false HU Iu R3) as (v2 & S1 & S2 & S3 & S4).
  assert (A : pl_add ueqb u p ((u, q) :: mid ++ post) = (u, q + p) :: mid ++ post) by (pose proof (pl_add_before [] (mid ++ post) u q p (Forall_nil _)) as X; cbn [app] in X; rewrite X, Z; reflexivity).
  rewrite A in *. rewrite S1. cbn [obind fst snd]. exists v2. split; [reflexivity|]. split; [eapply sq_trans; eauto|].
  intros d. rewrite S4, R4, Hw. lia.
Qed.
Lemma dedupe_cancel us rel v pre mid post u q w : units_ok us -> over us (pre ++ (u, q) :: mid ++ (w, - q) :: post) -> once ueqb (pre ++ (u, q) :: mid ++ (w, - q) :: post) ->
  udim w = udim u -> NoDup (map (fun e : unit * Z => udim (fst e)) (pre ++ (u, q) :: mid ++ post)) ->
  exists v', dedupe v (pre ++ (u, q) :: mid ++ (w, - q) :: post) = Ok (v', pre ++ mid ++ post) /\
    same_quantity v (pre ++ (u, q) :: mid ++ (w, - q) :: post) v' (pre ++ mid ++ post) /\
    forall d, dim_total rel (pre ++ mid ++ post) d = dim_total rel (pre ++ (u, q) :: mid ++ (w, - q) :: post) d.
Proof.
  intros HU O On Hw ND. destruct (dedupe_pair_loop v pre mid post u q w (- q) Hw ND) as (E & N1 & N2). rewrite E.
  set (l := pre ++ (u, q) :: mid ++ (w, - q) :: post) in *.
  cbn [dedupe_loop length Nat.ltb Nat.leb get_all]. rewrite N1, N2. cbn [obind fold_left fst snd]. rewrite Z.add_0_l, Z.add_opp_diag_r. cbn [Z.eqb negb remove_list].
  assert (Iw : In w us) by (unfold over in O; rewrite Forall_forall in O; apply (O (w, - q)); unfold l; apply in_or_app; right; right; apply in_or_app; right; now left).
  assert (Iu : In u us) by (unfold over in O; rewrite Forall_forall in O; apply (O (u, q)); unfold l; apply in_or_app; right; now left).
  destruct (removeandconvert_spec us rel l v u q false HU Iu O) as (v1 & R1 & R2 & R3 & R4).
  assert (T : pl_add ueqb u (- q) l = pre ++ mid ++ (w, - q) :: post) by (unfold l; now apply take_out). rewrite T in *. rewrite R1. cbn [obind fst snd].
  destruct (removeandconvert_spec us rel _ v1 w (- q) false HU Iw R3) as (v2 & S1 & S2 & S3 & S4).
  assert (T2 : pl_add ueqb w (- - q) (pre ++ mid ++ (w, - q) :: post) = pre ++ mid ++ post).
  { rewrite !app_assoc. apply take_out. rewrite <- app_assoc. apply (once_before pre _ u q On). }
  rewrite T2 in *. rewrite S1. cbn [obind fst snd]. exists v2. split; [reflexivity|]. split; [eapply sq_trans; eauto|].
  intros d. rewrite S4, R4, Hw. lia.
Qed.
