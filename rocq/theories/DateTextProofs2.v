(** Proofs for C63: what is written as a date is read as it. *)
From Coq Require Import ZArith Ascii String List Bool Lia.
From Verif Require Import Base BaseProofs Dates DateSpec DateProofs DateProofs2 DateProofs3 DateTextSpec DateTextProofs.
Import ListNotations.
Open Scope Z_scope.

(** No digit comes first *)
Definition soft (r : str) : Prop := match r with c :: _ => any c = false | [] => True end.
Lemma digit_is c : any c = true -> In c ($"0123456789").
Proof. intros H. each_char c; vm_compute in H |- *; try discriminate H; tauto. Qed.
Lemma two_soft p a b x r : 0 <= a -> b <= 9 -> soft r -> two p (dig a b) (x :: r) = [].
Proof.
  intros A B F. destruct r as [|c r]; [reflexivity|]. cbn [two]. destruct (dig a b c) eqn:E; [|now rewrite andb_false_r]. pose proof (dig_any a b c A B E) as K. cbn [soft] in F. congruence.
Qed.
Lemma digits_12 x z : digits_from 1 2 x z ->
  (exists a, x = [a] /\ any a = true /\ z = dval a) \/ (exists a b, x = [a; b] /\ any a = true /\ any b = true /\ z = 10 * dval a + dval b).
Proof.
  intros [N L]. apply numeral_iff in N as [F ->]. destruct x as [|a [|b [|? ?]]]; cbn [length] in L; [lia| | |lia]; cbn [forallb] in F.
  - rewrite andb_true_r in F. left. exists a. auto.
  - apply andb_true_iff in F as [F G]. rewrite andb_true_r in G. right. exists a, b. split; [reflexivity|]. split; [exact F|]. split; [exact G|]. unfold digits_val. cbn [map fold_left]. lia.
Qed.
Lemma digits_2 x z : digits_from 2 2 x z -> exists a b, x = [a; b] /\ any a = true /\ any b = true /\ z = 10 * dval a + dval b.
Proof.
  intros D. destruct (digits_12 x z) as [(a & -> & _)|H]; [split; [apply D|destruct D; lia]| |exact H]. destruct D as [_ L]. cbn in L. lia.
Qed.
Ltac out_of_range B := exfalso; vm_compute in B; destruct B as [B B']; (exact (B eq_refl) || exact (B' eq_refl) || discriminate B').
Ltac one_digit A B := apply digit_is in A; cbn [list_ascii_of_string] in A; repeat (destruct A as [<-|A]); try (destruct A; fail); try (out_of_range B; fail); read_now.
Ltac two_digits A A' B := apply digit_is in A; apply digit_is in A'; cbn [list_ascii_of_string] in A, A';
  repeat (destruct A as [<-|A]); try (destruct A; fail); repeat (destruct A' as [<-|A']); try (destruct A'; fail); try (out_of_range B; fail); read_now.
Ltac field_reads D B F := apply digits_12 in D as [(a & -> & A & ->)|(a & b & -> & A & A' & ->)]; cbn [app];
  [unfold any, is; rewrite !two_soft by (lia || exact F); cbn [app]; one_digit A B|two_digits A A' B].
Lemma month_reads x z r : digits_from 1 2 x z -> 1 <= z <= 12 -> soft r -> reads m_month (x ++ r) z r.
Proof. intros D B F. unfold reads, m_month. field_reads D B F. Qed.
Lemma hour_reads x z r : digits_from 1 2 x z -> 0 <= z < 24 -> soft r -> reads m_hour (x ++ r) z r.
Proof. intros D B F. unfold reads, m_hour. field_reads D B F. Qed.
Lemma minute_reads x z r : digits_from 1 2 x z -> 0 <= z < 60 -> soft r -> reads m_minute (x ++ r) z r.
Proof. intros D B F. unfold reads, m_minute. field_reads D B F. Qed.
Lemma second_reads x z r : digits_from 1 2 x z -> 0 <= z < 60 -> soft r -> reads m_second (x ++ r) z r.
Proof. intros D B F. unfold reads, m_second. field_reads D B F. Qed.
Lemma day_field_reads x z r : digits_from 1 2 x z \/ (exists x', x = " "%char :: x' /\ digits_from 1 1 x' z) -> 1 <= z <= 31 -> soft r -> reads m_day (x ++ r) z r.
Proof.
  intros [D|(x' & -> & D)] B F; unfold reads, m_day.
  - field_reads D B F.
  - destruct (digits_12 x' z) as [(a & -> & A & ->)|(a & b & -> & _)]; [refine (from_wider _ _ _ _ _ _ _ _ D); lia| |destruct D as [_ L]; cbn in L; lia].
    cbn [app]. one_digit A B.
Qed.
Lemma year_reads x z r : digits_from 4 4 x z -> m_year (x ++ r) = [(z, r)].
Proof.
  intros [N L]. apply numeral_iff in N as [A ->]. destruct x as [|a [|b [|c [|d [|? ?]]]]]; cbn [length] in L; try lia.
  cbn [forallb] in A. rewrite !andb_true_iff in A. destruct A as (A1 & A2 & A3 & A4 & _).
  cbn [app m_year]. rewrite A1, A2, A3, A4. cbn [andb]. apply head_eq, fst_eq. unfold digits_val; cbn [map fold_left]. lia.
Qed.
Lemma fraction_soft k acc r : soft r -> m_fraction k acc r = [].
Proof. intros F. destruct k, r as [|c r]; try reflexivity. cbn [m_fraction]. cbn [soft] in F. now rewrite F. Qed.
Lemma fraction_reads_part l : forall k acc r, forallb any l = true -> l <> [] -> (length l <= k)%nat -> soft r ->
  reads (m_fraction k acc) (l ++ r) (acc + digits_val 10 (map dval l) * 10 ^ (Z.of_nat k - Z.of_nat (length l))) r.
Proof.
  induction l as [|a l IH]; intros k acc r D N L F; [congruence|]. cbn [forallb] in D. apply andb_true_iff in D as [D1 D2]. destruct k as [|k]; [cbn in L; lia|]. cbn [length] in L.
  unfold reads. cbn [length app m_fraction map]. rewrite D1. rewrite digits_val_cons, map_length.
  replace (Z.of_nat (S k) - Z.of_nat (S (length l))) with (Z.of_nat k - Z.of_nat (length l)) by lia.
  assert (P : 10 ^ Z.of_nat k = 10 ^ Z.of_nat (length l) * 10 ^ (Z.of_nat k - Z.of_nat (length l))) by (rewrite <- Z.pow_add_r by lia; f_equal; lia).
  destruct l as [|b l].
  - cbn [app]. rewrite (fraction_soft k _ r F). cbn [app]. exists []. split; [|constructor]. apply head_eq, fst_eq. rewrite P. cbn [map]. unfold digits_val. cbn [fold_left]. ring.
  - destruct (IH k (acc + dval a * 10 ^ Z.of_nat k) r D2) as (alts & E & G); [discriminate|lia|exact F|].
    rewrite E. cbn [app]. eexists. split; [apply head_eq, fst_eq; rewrite P; ring|]. apply Forall_app. split; [exact G|]. constructor; [|constructor].
    exists b, (l ++ r). cbn [forallb] in D2. apply andb_true_iff in D2. split; [tauto|reflexivity].
Qed.
Lemma part_reads u p r : part_written u p -> soft r -> exists x, p = "."%char :: x /\ reads m_micro (x ++ r) u r.
Proof.
  intros (x & n & -> & [N L] & ->) F. exists x. split; [reflexivity|]. apply numeral_iff in N as [A ->]. unfold m_micro. apply (fraction_reads_part x 6 0 r A); [|lia|exact F].
  intros ->. cbn in L. lia.
Qed.
