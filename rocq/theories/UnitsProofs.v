From Coq Require Import ZArith QArith Qpower Ascii String List Bool Lia Permutation Setoid.
From Verif Require Import Base Bases Units UnitsSpec BaseProofs.
Import ListNotations.
Open Scope Z_scope.

(** ** Equivalences *)
Lemma equiv_seq : equiv seq_eqb.
Proof.
  split; [|split].
  - apply seq_eqb_refl.
  - intros a b. destruct (seq_eqb a b) eqn:E; symmetry.
    + apply seq_eqb_iff in E. subst. apply seq_eqb_refl.
    + destruct (seq_eqb b a) eqn:F; auto. apply seq_eqb_iff in F. subst. rewrite seq_eqb_refl in E. discriminate.
  - intros a b c H1 H2. apply seq_eqb_iff in H1. apply seq_eqb_iff in H2. subst. apply seq_eqb_refl.
Qed.
Lemma equiv_unit : equiv ueqb.
Proof.
  unfold ueqb. split; [|split]; intros.
  - apply Z.eqb_refl. - apply Z.eqb_sym. - apply Z.eqb_eq in H. apply Z.eqb_eq in H0. apply Z.eqb_eq. congruence.
Qed.

Lemma equiv_ne {K} (eqb : K -> K -> bool) : equiv eqb -> forall a b c, eqb a b = true -> eqb a c = eqb b c.
Proof.
  intros (R & S & T) a b c H. destruct (eqb b c) eqn:E.
  - apply T with b; auto.
  - destruct (eqb a c) eqn:F; auto. rewrite <- E. symmetry. apply T with a; auto. rewrite S; auto.
Qed.

(** ** C11 *)
Lemma psum_app {K} eqb (k : K) a b : psum eqb k (a ++ b) = psum eqb k a + psum eqb k b.
Proof. induction a as [|[k' q] a IH]; cbn [psum app]; [lia|rewrite IH; lia]. Qed.

Lemma pl_add_psum {K} eqb (k j : K) q l : equiv eqb ->
  psum eqb j (pl_add eqb k q l) = psum eqb j l + (if eqb k j then q else 0).
Proof.
  intros E. induction l as [|[k' q'] l IH]; cbn [pl_add psum]; [lia|].
  destruct (eqb k' k) eqn:H.
  - rewrite <- (equiv_ne eqb E _ _ j H). destruct (q' + q =? 0) eqn:Z; cbn [psum]; destruct (eqb k' j); lia.
  - cbn [psum]. rewrite IH. lia.
Qed.

Lemma pl_add_forall {K} eqb (k : K) q l (P : K * Z -> Prop) :
  Forall P l -> P (k, q) -> (forall k' q', In (k', q') l -> P (k', q' + q)) -> Forall P (pl_add eqb k q l).
Proof.
  induction l as [|[k' q'] l IH]; cbn [pl_add]; intros Hl Hk Hs; [auto|].
  inversion Hl as [|? ? H1 H2]; subst. destruct (eqb k' k).
  - destruct (q' + q =? 0); auto. constructor; auto. apply Hs; cbn; auto.
  - constructor; auto. apply IH; auto. intros; apply Hs; cbn; auto.
Qed.

Lemma pl_add_once {K} eqb (k : K) q l : equiv eqb -> once eqb l -> once eqb (pl_add eqb k q l).
Proof.
  intros E. induction l as [|[k' q'] l IH]; cbn [pl_add once]; [auto|]. intros [H1 H2].
  destruct (eqb k' k) eqn:H.
  - destruct (q' + q =? 0); cbn [once]; auto.
  - cbn [once]. split; auto. apply pl_add_forall; auto.
    + cbn [fst]. destruct E as (_ & S & _). rewrite S. auto.
    + intros k2 q2 I. rewrite Forall_forall in H1. apply (H1 _ I).
Qed.

Lemma pl_add_nonzero {K} eqb (k : K) q l : q <> 0 -> nonzero l -> nonzero (pl_add eqb k q l).
Proof.
  intros Q. unfold nonzero. induction l as [|[k' q'] l IH]; cbn [pl_add]; intros Hl; [repeat constructor; auto|].
  inversion Hl as [|? ? H1 H2]; subst. destruct (eqb k' k).
  - destruct (q' + q =? 0) eqn:Z; auto. constructor; auto. cbn. lia.
  - constructor; auto.
Qed.

Lemma psum_multiply {K} eqb (k : K) q l : psum eqb k (pl_multiply q l) = psum eqb k l * q.
Proof.
  unfold pl_multiply. induction l as [|[k' q'] l IH]; cbn [map psum fst snd]; [lia|]. rewrite IH. destruct (eqb k' k); lia.
Qed.
Lemma psum_remove_zeros {K} eqb (k : K) l : psum eqb k (pl_remove_zeros l) = psum eqb k l.
Proof.
  unfold pl_remove_zeros. induction l as [|[k' q'] l IH]; cbn [filter psum snd]; [auto|].
  destruct (q' =? 0) eqn:Z; cbn [negb psum]; rewrite IH; auto. destruct (eqb k' k); lia.
Qed.
Lemma once_filter {K} eqb (f : K * Z -> bool) l : once eqb l -> once eqb (filter f l).
Proof.
  induction l as [|[k q] l IH]; cbn [filter once]; auto. intros [H1 H2].
  destruct (f (k, q)); cbn [once]; auto. split; auto.
  rewrite Forall_forall in *. intros x I. apply H1. apply filter_In in I. apply I.
Qed.
Lemma once_multiply {K} eqb (q : Z) (l : plist K) : once eqb l -> once eqb (pl_multiply q l).
Proof.
  unfold pl_multiply. induction l as [|[k q'] l IH]; cbn [map once fst snd]; auto. intros [H1 H2]. split; auto.
  rewrite Forall_forall in *. intros x I. apply in_map_iff in I. destruct I as (y & <- & I). cbn. apply H1; auto.
Qed.
Lemma nonzero_remove_zeros {K} (l : plist K) : nonzero (pl_remove_zeros l).
Proof.
  unfold nonzero, pl_remove_zeros. apply Forall_forall. intros x I. apply filter_In in I. destruct I as [_ I].
  apply negb_true_iff in I. apply Z.eqb_neq in I. auto.
Qed.

Lemma pl_merge_spec {K} eqb (m l : plist K) : equiv eqb ->
  (once eqb l -> once eqb (pl_merge eqb l m)) /\ (nonzero l -> nonzero m -> nonzero (pl_merge eqb l m)) /\
  forall k, psum eqb k (pl_merge eqb l m) = psum eqb k l + psum eqb k m.
Proof.
  intros E. unfold pl_merge. revert l. induction m as [|[k q] m IH]; intros l; cbn [fold_left fst snd psum].
  - repeat split; auto. intros; lia.
  - destruct (IH (pl_add eqb k q l)) as (I1 & I2 & I3). repeat split.
    + intros O. apply I1. apply pl_add_once; auto.
    + intros N M. inversion M; subst. apply I2; auto. apply pl_add_nonzero; auto.
    + intros j. rewrite I3, pl_add_psum by auto. lia.
Qed.

Lemma plop_step {K} eqb (o : plop K) l : equiv eqb -> plop_ok o -> once eqb l -> nonzero l ->
  once eqb (plop_run eqb l o) /\ nonzero (plop_run eqb l o) /\
  forall k, psum eqb k (plop_run eqb l o) = plop_spec eqb k (psum eqb k l) o.
Proof.
  intros E O H1 H2. destruct o as [k q|k q|q|m]; cbn [plop_ok plop_run plop_spec] in *; unfold pl_remove.
  - split; [apply pl_add_once; auto|]. split; [apply pl_add_nonzero; auto|].
    intros j. rewrite pl_add_psum by auto. destruct (eqb k j); lia.
  - split; [apply pl_add_once; auto|]. split; [apply pl_add_nonzero; auto; lia|].
    intros j. rewrite pl_add_psum by auto. destruct (eqb k j); lia.
  - split; [apply once_filter, once_multiply; auto|]. split; [apply nonzero_remove_zeros|].
    intros j. rewrite psum_remove_zeros, psum_multiply. auto.
  - destruct (pl_merge_spec eqb m l E) as (A & B & C). auto.
Qed.

Lemma plops_invariant {K} eqb (ops : list (plop K)) : equiv eqb -> Forall plop_ok ops ->
  once eqb (fold_left (plop_run eqb) ops []) /\ nonzero (fold_left (plop_run eqb) ops []) /\
  forall k, psum eqb k (fold_left (plop_run eqb) ops []) = fold_left (plop_spec eqb k) ops 0.
Proof.
  intros E. assert (G : forall ops l, Forall plop_ok ops -> once eqb l -> nonzero l ->
    once eqb (fold_left (plop_run eqb) ops l) /\ nonzero (fold_left (plop_run eqb) ops l) /\
    forall k, psum eqb k (fold_left (plop_run eqb) ops l) = fold_left (plop_spec eqb k) ops (psum eqb k l)).
  { clear ops. induction ops as [|o ops IH]; intros l F O N; cbn [fold_left]; [auto|].
    inversion F as [|? ? F1 F2]; subst. destruct (plop_step eqb o l E F1 O N) as (A & B & C).
    destruct (IH _ F2 A B) as (A' & B' & C'). repeat split; auto. intros k. rewrite C', C. auto. }
  intros F. apply (G ops []); auto. - exact I. - constructor.
Qed.

(** With unique keys the total power is the stored one. *)
Lemma psum_find {K} eqb (k : K) l : equiv eqb -> once eqb l ->
  psum eqb k l = match pl_find eqb k l with Some q => q | None => 0 end.
Proof.
  intros E. induction l as [|[k' q] l IH]; cbn [psum pl_find once]; auto. intros [H1 H2].
  destruct (eqb k' k) eqn:H.
  - assert (psum eqb k l = 0); [|lia].
    clear IH H2. induction l as [|[k2 q2] l IH]; cbn [psum]; auto. inversion H1 as [|? ? A B]; subst. rewrite IH by auto.
    cbn [fst] in A. destruct (eqb k2 k) eqn:G; [|lia]. destruct E as (_ & S & T).
    exfalso. rewrite (T k2 k k') in A; auto; [discriminate|]. rewrite S; auto.
  - rewrite IH by auto. lia.
Qed.

(** ** Deduplication *)
Lemma filter_key_eq {K} eqb (E : equiv eqb) (k j : K) (l : list (K * Z)) : eqb k j = true ->
  filter (fun e => eqb (fst e) k) l = filter (fun e => eqb (fst e) j) l.
Proof.
  intros H. induction l as [|[x q] l IH]; cbn [filter fst]; auto.
  assert (eqb x k = eqb x j) as ->.
  { destruct E as (R & S & T). rewrite (S x k), (S x j). apply (equiv_ne eqb (conj R (conj S T))); auto. }
  rewrite IH. auto.
Qed.

Lemma set_obj_false {K} q (l : list (K * Z)) : set_obj q (map (pair false) l) = map (pair false) l.
Proof. unfold set_obj. rewrite map_map. apply map_ext. auto. Qed.
Lemma set_obj_app {K} q (a b : list (bool * (K * Z))) : set_obj q (a ++ b) = set_obj q a ++ set_obj q b.
Proof. apply map_app. Qed.
Lemma del_first_app_no {K} eqb (k : K) q a b :
  Forall (fun e => eqb (fst e) k = false) a ->
  del_first eqb k q (map (pair false) a ++ b) = map (pair false) a ++ del_first eqb k q b.
Proof.
  induction a as [|[k' q'] a IH]; cbn [map app del_first fst]; auto. intros H. inversion H as [|? ? A B]; subst.
  cbn in A. rewrite A. cbn. rewrite IH; auto.
Qed.

(** Removing the first entry with key [k]. *)
Fixpoint drop_key {K} (eqb : K -> K -> bool) (k : K) (l : list (K * Z)) : list (K * Z) :=
  match l with
  | [] => []
  | e :: r => if eqb (fst e) k then r else e :: drop_key eqb k r
  end.
Lemma del_first_drop {K} eqb (k : K) q ps r : powers_of eqb k r = q :: ps ->
  del_first eqb k q (map (pair false) r) = map (pair false) (drop_key eqb k r) /\ powers_of eqb k (drop_key eqb k r) = ps.
Proof.
  unfold powers_of. induction r as [|[k' q'] r IH]; cbn [filter map fst snd del_first drop_key]; [discriminate|].
  destruct (eqb k' k) eqn:H; cbn [map snd].
  - intros X. inversion X; subst. rewrite Z.eqb_refl. cbn. auto.
  - intros X. destruct (IH X) as [A B]. cbn [andb]. rewrite A. cbn [map filter fst]. rewrite H. auto.
Qed.
Lemma drop_key_filter {K} eqb (k : K) r :
  filter (fun e => negb (eqb (fst e) k)) (drop_key eqb k r) = filter (fun e => negb (eqb (fst e) k)) r.
Proof.
  induction r as [|[k' q'] r IH]; cbn [filter fst drop_key]; auto. destruct (eqb k' k) eqn:H; cbn [negb]; auto.
  cbn [filter fst]. rewrite H. cbn. rewrite IH. auto.
Qed.
Lemma no_key_filter {K} eqb (k : K) (r : list (K * Z)) : powers_of eqb k r = [] -> filter (fun e => negb (eqb (fst e) k)) r = r.
Proof.
  unfold powers_of. induction r as [|[k' q'] r IH]; cbn [filter fst]; auto. destruct (eqb k' k); cbn [negb map]; [discriminate|].
  intros H. rewrite IH; auto.
Qed.

Definition zsum (l : list Z) : Z := fold_right Z.add 0 l.

Lemma dd_inner_spec {K} eqb (k ko : K) a : equiv eqb -> eqb ko k = true -> Forall (fun e => eqb (fst e) k = false) a ->
  forall dups cur r, powers_of eqb k r = dups -> no_vanish cur dups ->
  map snd (dd_inner eqb k cur dups (map (pair false) a ++ (true, (ko, cur)) :: map (pair false) r))
  = a ++ (ko, cur + zsum dups) :: filter (fun e => negb (eqb (fst e) k)) r.
Proof.
  intros E Ek Ha. induction dups as [|q dups IH]; intros cur r Hr Hn; cbn [dd_inner zsum fold_right].
  - rewrite (no_key_filter eqb k r Hr). rewrite map_app. cbn [map snd]. rewrite !map_map. cbn [snd].
    rewrite !map_id. rewrite Z.add_0_r. auto.
  - destruct Hn as [N1 N2]. rewrite set_obj_app. cbn [set_obj map fst snd]. rewrite set_obj_false.
    change (set_obj (cur + q) (map (pair false) r)) with (set_obj (cur + q) (map (pair false) r)).
    rewrite (del_first_app_no eqb k q a) by auto. cbn [del_first]. rewrite Ek. cbn [andb].
    destruct (cur + q =? q) eqn:Z; [apply Z.eqb_eq in Z; lia|].
    fold (@set_obj K (cur + q) (map (pair false) r)). rewrite set_obj_false.
    destruct (del_first_drop eqb k q dups r Hr) as [D1 D2]. rewrite D1.
    rewrite (IH (cur + q) (drop_key eqb k r) D2 N2). rewrite drop_key_filter. rewrite Z.add_assoc. auto.
Qed.

Lemma dd_step_spec {K} eqb (k : K) q a r : equiv eqb -> Forall (fun e => eqb (fst e) k = false) a ->
  no_vanish q (powers_of eqb k r) ->
  dd_step eqb (length a) k q (a ++ (k, q) :: r) = a ++ (k, q + zsum (powers_of eqb k r)) :: filter (fun e => negb (eqb (fst e) k)) r.
Proof.
  intros E Ha Hn. unfold dd_step.
  assert (skipn (S (length a)) (a ++ (k, q) :: r) = r) as ->.
  { clear. induction a; cbn; auto. }
  assert (firstn (length a) (a ++ (k, q) :: r) = a) as -> by (rewrite firstn_app, Nat.sub_diag, firstn_all; cbn; apply app_nil_r).
  apply dd_inner_spec; auto. apply E.
Qed.

Lemma powers_filter_other {K} eqb (E : equiv eqb) (k j : K) r : eqb j k = false ->
  powers_of eqb j (filter (fun e => negb (eqb (fst e) k)) r) = powers_of eqb j r.
Proof.
  intros H. unfold powers_of. induction r as [|[x q] r IH]; cbn [filter fst]; auto.
  destruct (eqb x k) eqn:X; cbn [negb].
  - rewrite IH. destruct (eqb x j) eqn:Y; auto. exfalso. rewrite <- (equiv_ne eqb E x j k Y) in H. congruence.
  - cbn [filter fst]. destruct (eqb x j); cbn [map]; rewrite IH; auto.
Qed.
Lemma powers_filter_same {K} eqb (E : equiv eqb) (k j : K) r : eqb j k = true ->
  powers_of eqb j (filter (fun e => negb (eqb (fst e) k)) r) = [].
Proof.
  intros H. unfold powers_of. induction r as [|[x q] r IH]; cbn [filter fst]; auto.
  destruct (eqb x k) eqn:X; cbn [negb]; auto. cbn [filter fst].
  destruct (eqb x j) eqn:Y; auto. exfalso. rewrite (equiv_ne eqb E x j k Y) in X. congruence.
Qed.
Lemma psum_powers {K} eqb (k : K) l : psum eqb k l = zsum (powers_of eqb k l).
Proof. unfold powers_of. induction l as [|[x q] l IH]; cbn [psum filter fst]; auto. destruct (eqb x k); cbn [map zsum fold_right snd]; auto. unfold zsum in IH. rewrite IH. auto. Qed.

Lemma nvg_tail {K} eqb (E : equiv eqb) (k : K) q r : no_vanishing eqb ((k, q) :: r) ->
  no_vanish q (powers_of eqb k r) /\ no_vanishing eqb (filter (fun e => negb (eqb (fst e) k)) r).
Proof.
  intros H. split.
  - specialize (H k). unfold powers_of in H. cbn [filter fst] in H. rewrite (proj1 E) in H. auto.
  - intros j. destruct (eqb j k) eqn:J.
    + rewrite powers_filter_same; auto.
    + rewrite powers_filter_other by auto. specialize (H j). unfold powers_of in *. cbn [filter fst] in H.
      assert (eqb k j = false) as X by (destruct E as (_ & S & _); rewrite S; auto). rewrite X in H. auto.
Qed.

Lemma dd_loop_spec {K} eqb (E : equiv eqb) : forall fuel (r a : plist K), (length r <= fuel)%nat ->
  once eqb a -> (forall e, In e a -> powers_of eqb (fst e) r = []) -> no_vanishing eqb r ->
  exists l, dd_loop eqb fuel (length a) (a ++ r) = l /\ once eqb l /\
    forall k, psum eqb k l = psum eqb k (a ++ r).
Proof.
  induction fuel as [|f IH]; intros r a Hf Ha Hd Hn.
  - destruct r; [|cbn in Hf; lia]. cbn. rewrite app_nil_r. eauto.
  - destruct r as [|[k q] r].
    + cbn [dd_loop]. rewrite app_nil_r. assert (nth_error a (length a) = None) as -> by (apply nth_error_None; lia). eauto.
    + cbn [dd_loop]. assert (nth_error (a ++ (k, q) :: r) (length a) = Some (k, q)) as ->.
      { rewrite nth_error_app2, Nat.sub_diag by lia. auto. }
      destruct (nvg_tail eqb E k q r Hn) as [N1 N2].
      assert (Hak : Forall (fun e => eqb (fst e) k = false) a).
      { apply Forall_forall. intros e I. specialize (Hd e I). unfold powers_of in Hd. cbn [filter fst] in Hd.
        destruct E as (_ & S & _). rewrite S. destruct (eqb k (fst e)); auto. discriminate. }
      rewrite dd_step_spec by auto.
      set (t := q + zsum (powers_of eqb k r)). set (r' := filter (fun e => negb (eqb (fst e) k)) r) in *.
      replace (a ++ (k, t) :: r') with ((a ++ [(k, t)]) ++ r') by (rewrite <- app_assoc; auto).
      replace (S (length a)) with (length (a ++ [(k, t)])) by (rewrite app_length; cbn; lia).
      destruct (IH r' (a ++ [(k, t)])) as (l & L1 & L2 & L3); auto.
      * assert (length r' <= length r)%nat. { unfold r'. clear. induction r as [|x r IH]; cbn; auto. destruct (negb _); cbn; lia. }
        cbn in Hf. lia.
      * clear - E Ha Hak. induction a as [|[k' q'] a IH]; cbn [once app]; [repeat constructor|].
        destruct Ha as [A1 A2]. inversion Hak; subst. split; auto. apply Forall_app. split; auto. repeat constructor.
        cbn in *. destruct E as (_ & S & _). rewrite S. auto.
      * intros e I. apply in_app_or in I. destruct I as [I|[<-|[]]].
        -- assert (X : eqb (fst e) k = false) by (rewrite Forall_forall in Hak; apply Hak; auto).
           unfold r'. rewrite powers_filter_other by auto. specialize (Hd e I). unfold powers_of in *. cbn [filter fst] in Hd.
           destruct (eqb k (fst e)); [discriminate|auto].
        -- unfold r'. apply powers_filter_same; auto. apply E.
      * exists l. split; auto. split; auto. intros j. rewrite L3. rewrite !psum_app. cbn [psum].
        destruct (eqb k j) eqn:J.
        -- assert (psum eqb j r' = 0) as ->.
           { rewrite psum_powers. unfold r'. rewrite powers_filter_same; auto. destruct E as (_ & S & _). rewrite S; auto. }
           unfold t. rewrite (psum_powers eqb j r). unfold powers_of. rewrite (filter_key_eq eqb E k j r J). lia.
        -- assert (psum eqb j r' = psum eqb j r) as ->; [|lia].
           rewrite !psum_powers. unfold r'. rewrite powers_filter_other; auto. destruct E as (_ & S & _). rewrite S; auto.
Qed.

Lemma pl_dedup_spec {K} eqb (E : equiv eqb) (l : plist K) : no_vanishing eqb l ->
  once eqb (pl_dedup eqb l) /\ nonzero (pl_dedup eqb l) /\ forall k, psum eqb k (pl_dedup eqb l) = psum eqb k l.
Proof.
  intros N. unfold pl_dedup. destruct (dd_loop_spec eqb E (length l) l [] (le_n _) I) as (r & R1 & R2 & R3); auto.
  { intros e []. }
  cbn [app length] in R1. rewrite R1. split; [apply once_filter; auto|]. split; [apply nonzero_remove_zeros|].
  intros k. rewrite psum_remove_zeros. apply R3.
Qed.

(** The list never grows, so the fuel is enough. *)
Lemma del_first_length {K} eqb (k : K) q l : (length (del_first eqb k q l) <= length l)%nat.
Proof. induction l as [|[b [k' q']] l IH]; cbn [del_first length]; auto. destruct (eqb k' k && (q' =? q)); cbn [length]; lia. Qed.
Lemma dd_step_length {K} eqb i (k : K) q l : (i < length l)%nat -> (length (dd_step eqb i k q l) <= length l)%nat.
Proof.
  intros Hi. unfold dd_step. rewrite map_length.
  assert (G : forall ds cur t, (length (dd_inner eqb k cur ds t) <= length t)%nat).
  { induction ds as [|d ds IH]; intros cur t; cbn [dd_inner]; auto. etransitivity; [apply IH|].
    etransitivity; [apply del_first_length|]. unfold set_obj. rewrite map_length. auto. }
  etransitivity; [apply G|]. rewrite app_length. cbn [length]. rewrite !map_length, skipn_length, firstn_length. lia.
Qed.
Lemma dd_loop_fuel {K} eqb : forall f i (l : plist K) extra, (length l <= i + f)%nat -> dd_loop eqb (f + extra) i l = dd_loop eqb f i l.
Proof.
  induction f as [|f IH]; intros i l extra H.
  - cbn [plus dd_loop]. destruct extra; cbn [dd_loop]; auto.
    assert (nth_error l i = None) as -> by (apply nth_error_None; lia). auto.
  - cbn [plus dd_loop]. destruct (nth_error l i) as [[k q]|] eqn:N; auto. apply IH.
    assert (i < length l)%nat by (apply nth_error_Some; congruence).
    pose proof (dd_step_length eqb i k q l). lia.
Qed.
