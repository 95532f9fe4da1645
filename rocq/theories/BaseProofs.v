From Coq Require Import ZArith Ascii String List Bool Lia.
From Verif Require Import Base.
Import ListNotations.
Open Scope Z_scope.

Lemma ceq_iff a b : ceq a b = true <-> a = b.
Proof. apply Ascii.eqb_eq. Qed.
Lemma ceq_refl a : ceq a a = true.
Proof. apply ceq_iff; auto. Qed.
Lemma ceq_neq a b : ceq a b = false <-> a <> b.
Proof. apply Ascii.eqb_neq. Qed.

Lemma seq_eqb_iff a b : seq_eqb a b = true <-> a = b.
Proof.
  revert b; induction a as [|x a IH]; destruct b as [|y b]; cbn; try (split; [discriminate|discriminate] || (split; auto; fail)).
  - rewrite andb_true_iff, ceq_iff, IH. split; [intros [-> ->]; auto|intros H; inversion H; auto].
Qed.
Lemma seq_eqb_refl a : seq_eqb a a = true.
Proof. apply seq_eqb_iff; auto. Qed.

Lemma prefixb_iff p s : prefixb p s = true <-> exists t, s = p ++ t.
Proof.
  revert s; induction p as [|x p IH]; intros s; cbn.
  - split; eauto.
  - destruct s as [|y s]; [split; [discriminate|intros [t H]; discriminate]|].
    rewrite andb_true_iff, ceq_iff, IH. split.
    + intros [-> [t ->]]. eauto.
    + intros [t H]. inversion H; subst. eauto.
Qed.

Lemma prefixb_app p t : prefixb p (p ++ t) = true.
Proof. apply prefixb_iff; eauto. Qed.

(** ** digits *)
Lemma zdigits_fuel_acc f b z acc : zdigits_fuel f b z acc = zdigits_fuel f b z [] ++ acc.
Proof.
  revert z acc; induction f as [|f IH]; intros z acc; cbn; auto.
  destruct (z <? b); auto. rewrite IH, (IH _ [_]), <- app_assoc. reflexivity.
Qed.

Lemma digits_val_acc b ds a : fold_left (fun a d => a * b + d) ds a = a * b ^ Z.of_nat (length ds) + digits_val b ds.
Proof.
  unfold digits_val. revert a; induction ds as [|d ds IH]; intros a; cbn [fold_left length].
  - cbn. lia.
  - rewrite IH. rewrite (IH (0 * b + d)). rewrite Nat2Z.inj_succ, Z.pow_succ_r by lia. lia.
Qed.

Lemma digits_val_app b x y : digits_val b (x ++ y) = digits_val b x * b ^ Z.of_nat (length y) + digits_val b y.
Proof. unfold digits_val. rewrite fold_left_app. rewrite digits_val_acc. reflexivity. Qed.

Lemma digits_val_cons b d y : digits_val b (d :: y) = d * b ^ Z.of_nat (length y) + digits_val b y.
Proof. change (d :: y) with ([d] ++ y). rewrite digits_val_app. cbn. lia. Qed.

Lemma digits_val_bounds b ds : 2 <= b -> Forall (fun d => 0 <= d < b) ds ->
  0 <= digits_val b ds < b ^ Z.of_nat (length ds).
Proof.
  intros Hb. induction 1 as [|d ds Hd Hds IH]; [cbn; lia|].
  rewrite digits_val_cons. cbn [length]. rewrite Nat2Z.inj_succ, Z.pow_succ_r by lia.
  assert (0 < b ^ Z.of_nat (length ds)) by (apply Z.pow_pos_nonneg; lia). nia.
Qed.

Lemma zdigits_fuel_spec f b z : 2 <= b -> 0 <= z -> Z.log2 z <= Z.of_nat f ->
  digits_val b (zdigits_fuel f b z []) = z /\
  Forall (fun d => 0 <= d < b) (zdigits_fuel f b z []) /\
  (exists d ds, zdigits_fuel f b z [] = d :: ds /\ (z = 0 -> d = 0 /\ ds = []) /\ (0 < z -> 0 < d)).
Proof.
  intros Hb. revert z; induction f as [|f IH]; intros z Hz Hl; cbn [zdigits_fuel].
  - assert (z < 2).
    { destruct (Z.eq_dec z 0); [lia|]. pose proof (Z.log2_spec z ltac:(lia)) as [_ H].
      pose proof (Z.log2_nonneg z). replace (Z.log2 z) with 0 in H by lia. cbn in H. lia. }
    split; [cbn; lia|]. split; [repeat constructor; lia|].
    exists z, []. repeat split; auto.
  - destruct (Z.ltb_spec z b).
    + split; [cbn; lia|]. split; [repeat constructor; lia|].
      exists z, []. repeat split; auto.
    + assert (0 < z / b) by (apply Z.div_str_pos; lia).
      assert (z / b < z) by (apply Z.div_lt; lia).
      assert (Z.log2 (z / b) <= Z.of_nat f).
      { pose proof (Z.log2_spec z ltac:(lia)) as [_ Hu].
        assert (z / b < 2 ^ Z.log2 z).
        { apply Z.div_lt_upper_bound; [lia|].
          rewrite Z.pow_succ_r in Hu by apply Z.log2_nonneg. pose proof (Z.pow_pos_nonneg 2 (Z.log2 z)).
          pose proof (Z.log2_nonneg z). nia. }
        apply Z.log2_lt_pow2 in H2; lia. }
      destruct (IH (z / b)) as (V & F & d & ds & E & D0 & D1); try lia.
      rewrite zdigits_fuel_acc. split; [|split].
      * rewrite digits_val_app, V. cbn. pose proof (Z.div_mod z b). lia.
      * apply Forall_app. split; auto. repeat constructor; apply Z.mod_pos_bound; lia.
      * rewrite E. exists d, (ds ++ [z mod b]). split; [reflexivity|]. split; [lia|]. intros _. apply D1. lia.
Qed.

Lemma zdigits_spec b z : 2 <= b -> 0 <= z ->
  digits_val b (zdigits b z) = z /\
  Forall (fun d => 0 <= d < b) (zdigits b z) /\
  (exists d ds, zdigits b z = d :: ds /\ (z = 0 -> d = 0 /\ ds = []) /\ (0 < z -> 0 < d)).
Proof.
  intros. apply zdigits_fuel_spec; auto. rewrite Z2Nat.id; [lia|apply Z.log2_nonneg].
Qed.

Lemma digits_length_bound b z d ds : 2 <= b -> 0 < d -> zdigits b z = d :: ds ->
  Forall (fun d => 0 <= d < b) (d :: ds) -> digits_val b (d :: ds) = z ->
  b ^ Z.of_nat (length ds) <= z < b ^ (1 + Z.of_nat (length ds)).
Proof.
  intros Hb Hd E F V. pose proof (digits_val_bounds b _ Hb F) as B. rewrite V in B.
  cbn [length] in B. rewrite Nat2Z.inj_succ in B.
  replace (1 + Z.of_nat (length ds)) with (Z.succ (Z.of_nat (length ds))) by lia.
  split; [|lia]. rewrite digits_val_cons in V. inversion F; subst.
  pose proof (digits_val_bounds b ds Hb H2). pose proof (Z.pow_pos_nonneg b (Z.of_nat (length ds))). nia.
Qed.

(** digit characters *)
Lemma digit_char_val d : 0 <= d < 36 -> digit_val (digit_char d) = d.
Proof.
  intros. assert (E : exists n, (n < 36)%nat /\ d = Z.of_nat n) by (exists (Z.to_nat d); lia).
  destruct E as (n & Hn & ->). do 36 (destruct n as [|n]; [reflexivity|]). lia.
Qed.

Lemma digit_char_digit d : 0 <= d < 10 -> is_digit (digit_char d) = true.
Proof.
  intros. assert (E : exists n, (n < 10)%nat /\ d = Z.of_nat n) by (exists (Z.to_nat d); lia).
  destruct E as (n & Hn & ->). do 10 (destruct n as [|n]; [reflexivity|]). lia.
Qed.

Lemma digit_val_digit c : is_digit c = true -> digit_val c = code c - 48 /\ 0 <= digit_val c < 10.
Proof.
  destruct c as [b0 b1 b2 b3 b4 b5 b6 b7].
  destruct b0, b1, b2, b3, b4, b5, b6, b7; vm_compute; intros; try discriminate; split; auto; split; congruence.
Qed.

Lemma digit_char_of_val c : is_digit c = true -> digit_char (digit_val c) = c.
Proof.
  destruct c as [b0 b1 b2 b3 b4 b5 b6 b7].
  destruct b0, b1, b2, b3, b4, b5, b6, b7; vm_compute; intros; try discriminate; auto.
Qed.

Lemma digit_char_0 d : 0 <= d < 36 -> digit_char d = "0"%char -> d = 0.
Proof. intros H E. pose proof (digit_char_val d H) as V. rewrite E in V. vm_compute in V. auto. Qed.

Definition str_val (s : str) : Z := digits_val 10 (map digit_val s).

Lemma map_digit_val ds : Forall (fun d => 0 <= d < 36) ds -> map digit_val (map digit_char ds) = ds.
Proof. induction 1; cbn [map]; auto. rewrite digit_char_val, IHForall; auto. Qed.

Lemma Forall_digit_36 b ds : b <= 36 -> Forall (fun d => 0 <= d < b) ds -> Forall (fun d => 0 <= d < 36) ds.
Proof. intros Hb. apply Forall_impl. intros; lia. Qed.

Lemma forallb_map_eq {A B} (f : B -> bool) (g : A -> B) l : forallb f (map g l) = forallb (fun x => f (g x)) l.
Proof. induction l; cbn; auto. rewrite IHl; auto. Qed.

Lemma dec_str_spec z : 0 <= z ->
  str_val (dec_str z) = z /\ forallb is_digit (dec_str z) = true /\ dec_str z <> [].
Proof.
  intros Hz. destruct (zdigits_spec 10 z ltac:(lia) Hz) as (V & F & d & ds & E & _).
  unfold str_val, dec_str. rewrite map_digit_val by (eapply Forall_digit_36; [|eauto]; lia).
  repeat split; auto.
  - rewrite forallb_map_eq. rewrite forallb_forall. intros x Hx. rewrite Forall_forall in F.
    apply digit_char_digit; auto.
  - rewrite E. discriminate.
Qed.

(** ** rstrip *)
Lemma rstrip_spec c s : exists n, s = rstrip c s ++ repeat c n /\
  (rstrip c s = [] \/ exists r x, rstrip c s = r ++ [x] /\ x <> c).
Proof.
  induction s as [|x s (n & E & H)]; cbn.
  - exists O. auto.
  - destruct (rstrip c s) as [|y r] eqn:R.
    + cbn in E. destruct (ceq x c) eqn:C.
      * apply ceq_iff in C; subst x. exists (S n). cbn. rewrite <- E. auto.
      * exists n. cbn. rewrite <- E. split; auto. right. exists [], x. split; auto. apply ceq_neq; auto.
    + exists n. cbn in *. rewrite <- E. split; auto. right.
      destruct H as [H|(r' & z & H & N)]; [discriminate|]. exists (x :: r'), z. rewrite H. auto.
Qed.
