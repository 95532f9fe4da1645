From Coq Require Import ZArith QArith Qpower Qfield Ascii String List Bool Lia Permutation Setoid.
From Verif Require Import Base Bases Units UnitsSpec BaseProofs UnitsProofs.
Import ListNotations.
Open Scope Z_scope.

(** ** Lists with the same totals are permutations of each other *)
Lemma in_psum {A} (l : list (A * Z)) eqb k q : (forall a b : A, eqb a b = true <-> a = b) -> once eqb l -> nonzero l ->
  (In (k, q) l <-> q <> 0 /\ psum eqb k l = q).
Proof.
  intros E. induction l as [|[k' q'] l IH]; cbn [once psum]; intros O N.
  - split; [intros []|intros [H1 H2]; lia].
  - destruct O as [O1 O2]. inversion N as [|? ? N1 N2]; subst. specialize (IH O2 N2). cbn in N1.
    assert (Z0 : forall j, eqb k' j = true -> psum eqb j l = 0).
    { intros j J. apply E in J. subst j. clear - O1. induction l as [|[x y] l IH]; auto. inversion O1; subst. cbn [psum fst] in *. rewrite H1, IH; auto. }
    destruct (eqb k' k) eqn:H.
    + pose proof (Z0 k H) as Z1. apply E in H. subst k'. rewrite Z1. split.
      * intros [X|X]; [inversion X; subst; split; auto; lia|]. exfalso. apply IH in X. lia.
      * intros [X1 X2]. left. f_equal. lia.
    + rewrite Z.add_0_l, <- IH. split; [|intros; right; auto]. intros [X|X]; auto. inversion X; subst. exfalso.
      assert (eqb k k = true) by (apply E; auto). congruence.
Qed.
Lemma once_nodup {A} (l : list (A * Z)) eqb : (forall a b : A, eqb a b = true <-> a = b) -> once eqb l -> NoDup l.
Proof.
  intros E. induction l as [|[k q] l IH]; intros O; constructor; destruct O as [O1 O2]; auto.
  intros I. rewrite Forall_forall in O1. specialize (O1 _ I). cbn in O1.
  assert (eqb k k = true) by (apply E; auto). congruence.
Qed.
Lemma same_totals_perm {A} (a b : list (A * Z)) eqb : (forall a b : A, eqb a b = true <-> a = b) ->
  once eqb a -> nonzero a -> once eqb b -> nonzero b ->
  (forall k, psum eqb k a = psum eqb k b) -> Permutation a b.
Proof.
  intros E Oa Na Ob Nb H. apply NoDup_Permutation; try (eapply once_nodup; eauto).
  intros [k q]. rewrite (in_psum a eqb k q), (in_psum b eqb k q) by auto. rewrite H. tauto.
Qed.

(** ** Text of a list *)
Lemma str_le_total a b : str_le a b = false -> str_le b a = true.
Proof.
  revert b. induction a as [|x a IH]; intros [|y b]; cbn [str_le]; auto; try discriminate.
  intros H. apply orb_false_iff in H. destruct H as [H1 H2]. apply Z.ltb_ge in H1.
  destruct (code x =? code y) eqn:Q; [|apply Z.eqb_neq in Q; assert (code y <? code x = true) as -> by (apply Z.ltb_lt; lia); auto].
  apply Z.eqb_eq in Q. cbn in H2. rewrite Q, Z.ltb_irrefl, Z.eqb_refl. cbn. auto.
Qed.
Lemma code_inj a b : code a = code b -> a = b.
Proof. unfold code. intros H. apply N2Z.inj in H. rewrite <- (ascii_N_embedding a), <- (ascii_N_embedding b), H. auto. Qed.
Lemma str_le_antisym a b : str_le a b = true -> str_le b a = true -> a = b.
Proof.
  revert b. induction a as [|x a IH]; intros [|y b]; cbn [str_le]; auto; try discriminate.
  intros H1 H2. apply orb_true_iff in H1. apply orb_true_iff in H2. rewrite !andb_true_iff, !Z.ltb_lt, !Z.eqb_eq in *.
  destruct H1 as [H1|[H1 H1']], H2 as [H2|[H2 H2']]; try lia. apply code_inj in H1. subst. f_equal. auto.
Qed.
Lemma str_le_trans a b c : str_le a b = true -> str_le b c = true -> str_le a c = true.
Proof.
  revert b c. induction a as [|x a IH]; intros [|y b] [|z c]; cbn [str_le]; auto; try discriminate.
  rewrite !orb_true_iff, !andb_true_iff, !Z.ltb_lt, !Z.eqb_eq.
  intros [H1|[H1 H1']] [H2|[H2 H2']]; try (left; lia). right. split; [lia|]. eauto.
Qed.
Lemma sinsert_comm x y l : sinsert x (sinsert y l) = sinsert y (sinsert x l).
Proof.
  assert (B : forall r, (if str_le x y then x :: y :: r else y :: x :: r) = (if str_le y x then y :: x :: r else x :: y :: r)).
  { intros r. destruct (str_le x y) eqn:A, (str_le y x) eqn:C; auto.
    - rewrite (str_le_antisym x y); auto.
    - apply str_le_total in A. congruence. }
  induction l as [|z l IH]; cbn [sinsert]; [apply B|].
  destruct (str_le y z) eqn:Y, (str_le x z) eqn:X; cbn [sinsert]; rewrite ?X, ?Y; auto.
  - destruct (str_le x y) eqn:A; auto.
    rewrite (str_le_trans _ _ _ A Y) in X. discriminate.
  - destruct (str_le y x) eqn:A; auto.
    rewrite (str_le_trans _ _ _ A X) in Y. discriminate.
  - f_equal. auto.
Qed.
Lemma ssort_perm a b : Permutation a b -> ssort a = ssort b.
Proof. unfold ssort. induction 1; cbn [fold_right]; auto; [congruence|apply sinsert_comm|congruence]. Qed.
Lemma sinsert_permutation x l : Permutation (sinsert x l) (x :: l).
Proof. induction l as [|y l IH]; cbn [sinsert]; auto. destruct (str_le x y); auto. rewrite IH. apply perm_swap. Qed.
Lemma ssort_permutation l : Permutation (ssort l) l.
Proof. unfold ssort. induction l as [|x l IH]; cbn [fold_right]; auto. rewrite sinsert_permutation. auto. Qed.

Lemma pl_text_perm a b : Permutation a b -> pl_text a = pl_text b.
Proof. intros H. unfold pl_text. f_equal. apply ssort_perm. apply Permutation_map. auto. Qed.

Lemma split_at_first {A} (c : A) a b x y : ~ In c a -> ~ In c b -> a ++ c :: x = b ++ c :: y -> a = b /\ x = y.
Proof.
  revert b. induction a as [|h a IH]; intros [|h' b] Ha Hb H; cbn in *.
  - inversion H; auto.
  - inversion H; subst. tauto.
  - inversion H; subst. tauto.
  - inversion H; subst. destruct (IH b) as [-> ->]; auto.
Qed.

Lemma sjoin_inj l1 : forall l2, Forall (fun t => ~ In ","%char t /\ t <> []) l1 -> Forall (fun t => ~ In ","%char t /\ t <> []) l2 ->
  sjoin ($", ") l1 = sjoin ($", ") l2 -> l1 = l2.
Proof.
  induction l1 as [|x l1 IH]; intros l2 H1 H2 E.
  - destruct l2 as [|y l2]; auto. inversion H2 as [|? ? [A B] C]; subst. cbn in E. destruct l2; [congruence|].
    destruct y; [congruence|discriminate].
  - inversion H1 as [|? ? [A1 B1] C1]; subst. destruct l2 as [|y l2].
    { cbn in E. destruct x; [congruence|]. destruct l1; discriminate. }
    inversion H2 as [|? ? [A2 B2] C2]; subst.
    destruct l1 as [|x1 l1], l2 as [|y1 l2].
    + cbn in E. congruence.
    + exfalso. cbn [sjoin] in E. cbn [list_ascii_of_string app] in E. apply A1. rewrite E. apply in_or_app. right. left. auto.
    + exfalso. cbn [sjoin] in E. cbn [list_ascii_of_string app] in E. apply A2. rewrite <- E. apply in_or_app. right. left. auto.
    + change (x ++ $", " ++ sjoin ($", ") (x1 :: l1) = y ++ $", " ++ sjoin ($", ") (y1 :: l2)) in E.
      cbn [list_ascii_of_string app] in E. apply split_at_first in E; auto. destruct E as [-> E].
      inversion E as [E']. f_equal. apply IH; auto.
Qed.

Lemma dec_str_digits z : 0 <= z -> forallb is_digit (dec_str z) = true /\ dec_str z <> [].
Proof. intros H. destruct (dec_str_spec z H) as (A & B & C). auto. Qed.
Lemma dec_str_inj a b : 0 <= a -> 0 <= b -> dec_str a = dec_str b -> a = b.
Proof. intros Ha Hb E. destruct (dec_str_spec a Ha) as (A & _). destruct (dec_str_spec b Hb) as (B & _). rewrite <- A, <- B, E. auto. Qed.

Lemma digits_no c s : is_digit c = false -> forallb is_digit s = true -> ~ In c s.
Proof. intros H F I. rewrite forallb_forall in F. rewrite (F c I) in H. discriminate. Qed.
Lemma z_str_no c z : is_digit c = false -> c <> "-"%char -> ~ In c (z_str z).
Proof.
  intros H N. unfold z_str. destruct (z <? 0) eqn:L.
  - apply Z.ltb_lt in L. intros [X|X]; [congruence|]. revert X. apply digits_no; auto. apply dec_str_digits. lia.
  - apply Z.ltb_ge in L. apply digits_no; auto. apply dec_str_digits. auto.
Qed.
Lemma z_str_inj a b : z_str a = z_str b -> a = b.
Proof.
  unfold z_str. destruct (a <? 0) eqn:A, (b <? 0) eqn:B; try apply Z.ltb_lt in A; try apply Z.ltb_lt in B; try apply Z.ltb_ge in A; try apply Z.ltb_ge in B; intros E.
  - inversion E as [E']. apply dec_str_inj in E'; lia.
  - exfalso. destruct (dec_str_digits b B) as [F _]. rewrite <- E in F. discriminate.
  - exfalso. destruct (dec_str_digits a A) as [F _]. rewrite E in F. discriminate.
  - apply dec_str_inj; auto.
Qed.
Lemma entry_text_inj a b : clean (fst a) -> clean (fst b) -> entry_text a = entry_text b -> a = b.
Proof.
  destruct a as [k q], b as [j r]. unfold entry_text. cbn [fst snd]. intros [C1 _] [C2 _] E.
  apply split_at_first in E; auto. destruct E as [-> E]. apply z_str_inj in E. subst; auto.
Qed.
Lemma entry_text_ok e : clean (fst e) -> ~ In ","%char (entry_text e) /\ entry_text e <> [].
Proof.
  intros [_ C]. unfold entry_text. split.
  - intros I. apply in_app_or in I. destruct I as [I|[I|I]]; auto; [discriminate|].
    revert I. apply z_str_no; [reflexivity|discriminate].
  - destruct (fst e); discriminate.
Qed.

Lemma map_inj_perm {A B} (f : A -> B) (P : A -> Prop) : (forall a b, P a -> P b -> f a = f b -> a = b) ->
  forall l1 l2, Forall P l1 -> Forall P l2 -> Permutation (map f l1) (map f l2) -> Permutation l1 l2.
Proof.
  intros Inj. induction l1 as [|x l1 IH]; intros l2 H1 H2 HP; cbn [map] in HP.
  - apply Permutation_nil in HP. destruct l2; [auto|discriminate].
  - assert (I : In (f x) (map f l2)) by (eapply Permutation_in; [exact HP|left; auto]).
    apply in_map_iff in I. destruct I as (y & Ey & Iy). apply in_split in Iy. destruct Iy as (l3 & l4 & ->).
    inversion H1 as [|? ? X1 X2]; subst.
    assert (P y) by (rewrite Forall_forall in H2; apply H2, in_elt).
    assert (y = x) as -> by (apply Inj; auto).
    apply Permutation_cons_app. apply IH; auto.
    + apply Forall_app in H2. destruct H2 as [H2 H3]. inversion H3; subst. apply Forall_app. auto.
    + rewrite map_app in HP. cbn [map] in HP. apply Permutation_cons_app_inv in HP. rewrite map_app. auto.
Qed.

Lemma pl_eqb_iff a b : Forall (fun e => clean (fst e)) a -> Forall (fun e => clean (fst e)) b ->
  (pl_eqb a b = true <-> Permutation a b).
Proof.
  intros Ca Cb. unfold pl_eqb. rewrite seq_eqb_iff. split; [|apply pl_text_perm].
  intros E. unfold pl_text in E. apply sjoin_inj in E.
  - apply (map_inj_perm entry_text (fun e => clean (fst e)) entry_text_inj); auto.
    rewrite <- (ssort_permutation (map entry_text a)), E. apply ssort_permutation.
  - eapply Permutation_Forall; [symmetry; apply ssort_permutation|]. apply Forall_map. eapply Forall_impl; [|exact Ca]. cbn. intros. apply entry_text_ok; auto.
  - eapply Permutation_Forall; [symmetry; apply ssort_permutation|]. apply Forall_map. eapply Forall_impl; [|exact Cb]. cbn. intros. apply entry_text_ok; auto.
Qed.

(** ** Conversion *)
Lemma qp_nz s q : ~ (s == 0)%Q -> ~ (Qpower s q == 0)%Q.
Proof. apply Qpower_not_0. Qed.
Lemma factor_nz l : all_scaled l -> ~ (factor l == 0)%Q.
Proof.
  induction l as [|[u q] l IH]; cbn [factor]; intros H; [discriminate|]. inversion H as [|? ? [_ A] B]; subst.
  intros Z. apply Qmult_integral in Z. destruct Z as [Z|Z]; [apply (qp_nz _ q A Z)|apply (IH B Z)].
Qed.
Lemma uconvert_scaled u n p relative : scaled u -> exists w, uconvert u n p relative = Ok w /\ (w == n / Qpower (uscale u) p)%Q.
Proof.
  intros [K S]. unfold uconvert. rewrite K. destruct (Qeq_bool (uscale u) 0) eqn:E.
  - apply Qeq_bool_iff in E. contradiction.
  - eexists; split; [reflexivity|]. reflexivity.
Qed.
Lemma lconvert_scaled l relative : all_scaled l -> forall n p, exists w, lconvert l n p relative = Ok w /\ (w == n / Qpower (factor l) p)%Q.
Proof.
  induction l as [|[u q] l IH]; intros H n p; cbn [lconvert factor].
  - exists n. split; auto. rewrite Qpower_1. field.
  - inversion H as [|? ? A B]; subst. cbn in A. destruct (uconvert_scaled u n (q * p) relative A) as (x & X1 & X2).
    rewrite X1. cbn [obind]. destruct (IH B x p) as (w & W1 & W2). exists w. split; auto. rewrite W2, X2.
    rewrite Qmult_power, Qpower_mult. field. destruct A as [_ A]. split; apply qp_nz; [apply factor_nz; auto|apply qp_nz; auto].
Qed.


Lemma factor_perm a b : Permutation a b -> (factor a == factor b)%Q.
Proof.
  induction 1 as [|[u q] a b|[u q] [v r] a|]; cbn [factor]; try reflexivity.
  - rewrite IHPermutation. reflexivity.
  - rewrite !Qmult_assoc. rewrite (Qmult_comm (Qpower (uscale v) r)). reflexivity.
  - etransitivity; eauto.
Qed.
Lemma upl_eqb_perm a b : named (map fst a ++ map fst b) -> (upl_eqb a b = true <-> Permutation a b).
Proof.
  intros [C I]. unfold upl_eqb, upl_text. split.
  - intros E. set (f := fun e : unit * Z => (plural (fst e), snd e)) in *.
    assert (HP : Permutation (map f a) (map f b)).
    { apply pl_eqb_iff; auto; apply Forall_map, Forall_forall; intros e J; apply C, in_or_app; [left|right]; apply in_map; auto. }
    apply (map_inj_perm f (fun e => In (fst e) (map fst a ++ map fst b))); auto.
    + intros [u q] [v r] J K X. unfold f in X. cbn [fst snd] in *. inversion X. subst. f_equal. apply I; auto.
    + apply Forall_forall. intros e J. apply in_or_app. left. apply in_map; auto.
    + apply Forall_forall. intros e J. apply in_or_app. right. apply in_map; auto.
  - intros HP. apply seq_eqb_iff. apply pl_text_perm. apply Permutation_map. auto.
Qed.

Lemma unit_conversion_value rel n a b relative w u : all_scaled a -> all_scaled b -> named (map fst a ++ map fst b) ->
  unit_conversion rel n (Some a) (Some b) relative = Ok (w, u) -> (w == n * factor a / factor b)%Q /\
  (exists c, u = Some c /\ Permutation c b).
Proof.
  intros Sa Sb N. unfold unit_conversion. destruct (upl_eqb a b) eqn:E.
  - intros X. inversion X; subst. apply upl_eqb_perm in E; auto. split; [|eauto].
    rewrite (factor_perm a b E). field. apply factor_nz; auto.
  - destruct (pl_eqb _ _); [|discriminate]. unfold convertfrom, convertto.
    destruct (lconvert_scaled a relative Sa n (-1)) as (x & X1 & X2). rewrite X1. cbn [obind].
    destruct (lconvert_scaled b relative Sb x 1) as (y & Y1 & Y2). rewrite Y1. cbn [obind].
    intros X. inversion X; subst. split; [|eauto]. rewrite Y2, X2.
    change (Qpower (factor a) (-1)) with (/ factor a)%Q. change (Qpower (factor b) 1) with (factor b).
    field. split; apply factor_nz; auto.
Qed.

(** ** Dimensions *)
Lemma psum_map_mult d q (ds : dlist) : psum seq_eqb d (map (fun e => (fst e, snd e * q)) ds) = q * psum seq_eqb d ds.
Proof. pose proof (psum_multiply seq_eqb d q ds) as H. unfold pl_multiply in H. rewrite H. lia. Qed.
Lemma expand_total rel l d : psum seq_eqb d (expand_dims rel l) = dim_total rel l d.
Proof.
  unfold expand_dims, subunits. induction l as [|[u q] l IH]; cbn [map flat_map dim_total fst snd]; auto.
  rewrite psum_app, IH, psum_map_mult. lia.
Qed.
Lemma unit_dims_spec rel l : no_vanishing seq_eqb (expand_dims rel l) ->
  once seq_eqb (unit_dims rel l) /\ nonzero (unit_dims rel l) /\ forall d, psum seq_eqb d (unit_dims rel l) = dim_total rel l d.
Proof.
  intros N. destruct (pl_dedup_spec seq_eqb equiv_seq _ N) as (A & B & C). split; auto. split; auto.
  intros d. unfold unit_dims. rewrite C. apply expand_total.
Qed.

Lemma in_del_first {K} eqb (k : K) q l e : In e (del_first eqb k q l) -> In e l.
Proof. induction l as [|[b [k' q']] l IH]; cbn [del_first]; auto. destruct (_ && _); cbn; tauto. Qed.
Lemma dedup_keys {K} eqb (P : K -> Prop) (l : plist K) : Forall (fun e => P (fst e)) l -> Forall (fun e => P (fst e)) (pl_dedup eqb l).
Proof.
  intros H. unfold pl_dedup, pl_remove_zeros.
  assert (G : forall f i l, Forall (fun e => P (fst e)) l -> Forall (fun e : K * Z => P (fst e)) (dd_loop eqb f i l)).
  { clear. induction f as [|f IH]; intros i l H; cbn [dd_loop]; auto.
    destruct (nth_error l i) as [[k q]|] eqn:N; auto. apply IH. unfold dd_step.
    set (T := map (pair false) (firstn i l) ++ (true, (k, q)) :: map (pair false) (skipn (S i) l)).
    assert (HT : Forall (fun t => P (fst (snd t))) T).
    { unfold T. rewrite Forall_forall in *. intros t I. apply in_app_or in I. destruct I as [I|[<-|I]].
      - apply in_map_iff in I. destruct I as (x & <- & I). cbn. apply H. rewrite <- (firstn_skipn i l). apply in_or_app; auto.
      - cbn. apply nth_error_In in N. apply (H _ N).
      - apply in_map_iff in I. destruct I as (x & <- & I). cbn. apply H. rewrite <- (firstn_skipn (S i) l). apply in_or_app; auto. }
    clearbody T. clear N. apply Forall_map.
    generalize (map snd (filter (fun e => eqb (fst e) k) (skipn (S i) l))). intros ds. generalize q. clear q. revert T HT.
    induction ds as [|d ds IHd]; intros T HT q; cbn [dd_inner]; auto. apply IHd.
    rewrite Forall_forall in *. intros t I. apply in_del_first in I. unfold set_obj in I. apply in_map_iff in I.
    destruct I as (x & <- & I). specialize (HT _ I). destruct (fst x); auto. }
  specialize (G (length l) 0%nat l H). rewrite Forall_forall in *. intros e I. apply filter_In in I. apply G. tauto.
Qed.


Lemma dims_eqb_iff rel a b : clean_dims rel a -> clean_dims rel b ->
  no_vanishing seq_eqb (expand_dims rel a) -> no_vanishing seq_eqb (expand_dims rel b) ->
  (pl_eqb (unit_dims rel a) (unit_dims rel b) = true <-> forall d, dim_total rel a d = dim_total rel b d).
Proof.
  intros Ca Cb Na Nb. destruct (unit_dims_spec rel a Na) as (A1 & A2 & A3). destruct (unit_dims_spec rel b Nb) as (B1 & B2 & B3).
  rewrite pl_eqb_iff by (apply dedup_keys; auto). split.
  - intros HP d. rewrite <- A3, <- B3. clear - HP. induction HP as [|[k q] x y|[k q] [k' q'] x|]; cbn [psum]; lia.
  - intros H. apply (same_totals_perm _ _ seq_eqb); auto.
    + intros x y. apply seq_eqb_iff.
    + intros k. rewrite A3, B3. auto.
Qed.

Lemma conversion_defined rel n a b relative : all_scaled a -> all_scaled b ->
  named (map fst a ++ map fst b) -> clean_dims rel a -> clean_dims rel b ->
  no_vanishing seq_eqb (expand_dims rel a) -> no_vanishing seq_eqb (expand_dims rel b) ->
  ((forall d, dim_total rel a d = dim_total rel b d) -> exists w, unit_conversion rel n (Some a) (Some b) relative = Ok w) /\
  ((exists d, dim_total rel a d <> dim_total rel b d) -> unit_conversion rel n (Some a) (Some b) relative = Calc).
Proof.
  intros Sa Sb N Ca Cb Na Nb. unfold unit_conversion. destruct (upl_eqb a b) eqn:E.
  - apply upl_eqb_perm in E; auto. split; [eauto|]. intros [d D]. exfalso. apply D.
    clear - E. induction E as [|[k q] x y|[k q] [k' q'] x|]; cbn [dim_total]; lia.
  - pose proof (dims_eqb_iff rel a b Ca Cb Na Nb) as Q. destruct (pl_eqb _ _) eqn:P.
    + split.
      * intros _. unfold convertfrom, convertto.
        destruct (lconvert_scaled a relative Sa n (-1)) as (x & X1 & X2). rewrite X1. cbn [obind].
        destruct (lconvert_scaled b relative Sb x 1) as (y & Y1 & Y2). rewrite Y1. cbn [obind]. eauto.
      * intros [d D]. exfalso. apply D. apply Q; auto.
    + split; [|auto]. intros H. apply Q in H. discriminate.
Qed.

(** Sufficient conditions for running totals not to vanish. *)
Lemma no_vanish_pos ps : forall cur, 0 < cur -> Forall (fun q => 0 < q) ps -> no_vanish cur ps.
Proof. induction ps as [|q ps IH]; intros cur H F; cbn [no_vanish]; auto. inversion F; subst. split; [lia|apply IH; auto; lia]. Qed.
Lemma no_vanishing_once {K} eqb (E : equiv eqb) (l : plist K) : once eqb l -> no_vanishing eqb l.
Proof.
  intros O k. assert (length (powers_of eqb k l) <= 1)%nat.
  { unfold powers_of. rewrite map_length. induction l as [|[x q] l IH]; cbn [filter fst length]; auto. destruct O as [O1 O2].
    destruct (eqb x k) eqn:X; [|auto]. cbn [length].
    assert (filter (fun e => eqb (fst e) k) l = []) as ->; [|cbn; lia].
    clear IH O2. induction l as [|[y r] l IH]; cbn [filter fst]; auto. inversion O1; subst. cbn in H1.
    destruct (eqb y k) eqn:Y; [|auto]. exfalso. destruct E as (_ & S & T). rewrite (T y k x) in H1; auto; [discriminate|rewrite S; auto]. }
  destruct (powers_of eqb k l) as [|q [|]]; cbn in *; auto. lia.
Qed.
Lemma no_vanishing_positive {K} eqb (l : plist K) : Forall (fun e => 0 < snd e) l -> no_vanishing eqb l.
Proof.
  intros H k. assert (F : Forall (fun q => 0 < q) (powers_of eqb k l)).
  { unfold powers_of. apply Forall_map. rewrite Forall_forall in *. intros x I. apply filter_In in I. apply H. tauto. }
  destruct (powers_of eqb k l); auto. inversion F; subst. apply no_vanish_pos; auto.
Qed.
