(** Proofs about [call]. *)
From Coq Require Import ZArith QArith Ascii String List Bool Lia Sorted.
From Verif Require Import Base Dec Num Bases Units Syntax Call CallSpec BaseProofs.
Import ListNotations.
Open Scope nat_scope.

(** * Types *)
Lemma typ_is_iff : forall t x, typ_is t x = true <-> exists sub, x = Some (t, sub).
Proof.
  intros t [[n sub]|]; cbn [typ_is].
  - rewrite seq_eqb_iff. split; [intros ->; eauto | intros [u H]; inversion H; auto].
  - split; [discriminate | intros [u H]; discriminate].
Qed.
Lemma covers_iff : forall r i, covers r i = true <-> rs_from r <= i /\ (forall m, rs_to r = Some m -> i <= m).
Proof.
  intros r i. unfold covers. rewrite andb_true_iff, Nat.leb_le. destruct (rs_to r) as [m|].
  - rewrite Nat.leb_le. split; intros [H1 H2]; split; auto. intros m' E. inversion E; subst. exact H2.
  - split; intros [H1 H2]; split; auto. intros m E. discriminate.
Qed.
Lemma can_be_iff : forall d i t, can_be d i t None = true <-> allows d i t.
Proof.
  intros d i t. unfold can_be, allows. rewrite existsb_exists. split.
  - intros (x & H1 & H2). rewrite andb_true_r in H2. apply andb_prop in H2. destruct H2 as [H2 H3].
    apply covers_iff in H2. destruct H2 as [H2 H2']. apply existsb_exists in H3. destruct H3 as (y & H3 & H4).
    apply typ_is_iff in H4. destruct H4 as [sub ->]. exists x, sub. auto.
  - intros (x & sub & H1 & H2 & H2' & H3). exists x. split; auto. rewrite andb_true_r. apply andb_true_intro. split.
    + apply covers_iff. auto.
    + apply existsb_exists. exists (Some (t, sub)). split; auto. apply typ_is_iff. eauto.
Qed.
Lemma must_loop_can : forall rs i t sub found, must_be_loop rs i t sub found = true ->
  found = true \/ existsb (fun r => covers r i && existsb (typ_is t) (rs_types r)) rs = true.
Proof.
  induction rs as [|r rest IH]; intros i t sub found H; cbn [must_be_loop existsb] in *; auto.
  destruct (covers r i).
  - destruct (existsb (typ_is t) (rs_types r)); cbn [andb orb] in *; auto.
    discriminate.
  - cbn [andb orb]. eauto.
Qed.
Lemma must_can : forall d i t sub, must_be d i t sub = true -> can_be d i t None = true.
Proof.
  intros d i t sub H. apply must_loop_can in H. destruct H as [H|H]; [discriminate|].
  unfold can_be. rewrite existsb_exists in *. destruct H as (x & H1 & H2). exists x. split; auto. rewrite H2. reflexivity.
Qed.
Lemma flagged_iff : forall d k r, flagged d k r = true <-> spreads d k r.
Proof.
  intros d k r. unfold flagged, spreads. rewrite !andb_true_iff, !negb_true_iff.
  change $"array" with s_array. change $"variable" with s_variable.
  rewrite <- !can_be_iff. split.
  - intros [[H1 H2] H3]. split; [|split].
    + destruct (rval r); try discriminate. eauto.
    + rewrite H2. discriminate.
    + intros [H4 H5]. destruct (rref r); [congruence | auto].
  - intros ([l Hl] & H2 & H3). rewrite Hl. cbn [is_list]. repeat split.
    + destruct (can_be d k s_array None); congruence.
    + destruct (rref r); auto. destruct (can_be d k s_variable None); auto. exfalso. apply H3. split; congruence.
Qed.
Lemma flags_nth : forall ins d i k, nth_error (flags_of d i ins) k = option_map (flagged d (i + k)) (nth_error ins k).
Proof.
  induction ins as [|r t IH]; intros d i k; destruct k; cbn [flags_of nth_error option_map]; auto.
  - rewrite Nat.add_0_r. reflexivity.
  - rewrite IH. replace (S i + k) with (i + S k) by lia. reflexivity.
Qed.
Lemma flags_length : forall ins d i, length (flags_of d i ins) = length ins.
Proof. induction ins as [|r t IH]; intros; cbn [flags_of length]; auto. Qed.
Lemma no_flags : forall d ins, existsb (fun b => b) (flags_of d 0 ins) = false <-> (forall k r, nth_error ins k = Some r -> ~ spreads d k r).
Proof.
  intros d ins. split.
  - intros H k r Hk Hs. apply flagged_iff in Hs.
    assert (Hn : nth_error (flags_of d 0 ins) k = Some true) by (rewrite flags_nth, Hk; cbn [option_map plus]; congruence).
    apply nth_error_In in Hn. assert (existsb (fun b => b) (flags_of d 0 ins) = true) by (apply existsb_exists; eauto). congruence.
  - intros H. destruct (existsb (fun b => b) (flags_of d 0 ins)) eqn:E; auto. apply existsb_exists in E. destruct E as (b & H1 & ->).
    apply In_nth_error in H1. destruct H1 as [k Hk]. rewrite flags_nth in Hk. destruct (nth_error ins k) as [r|] eqn:Er; [|discriminate].
    cbn [option_map plus] in Hk. inversion Hk. exfalso. apply (H k r Er). apply flagged_iff. auto.
Qed.
Lemma some_flag : forall d ins k r, nth_error ins k = Some r -> spreads d k r -> existsb (fun b => b) (flags_of d 0 ins) = true.
Proof.
  intros d ins k r H1 H2. destruct (existsb (fun b => b) (flags_of d 0 ins)) eqn:E; auto.
  exfalso. apply (proj1 (no_flags d ins) E k r H1 H2).
Qed.
Lemma is_packed_iff : forall d ins, is_packed d ins = true <-> packs d ins.
Proof.
  intros d ins. unfold is_packed, packs. rewrite !andb_true_iff, Nat.ltb_lt. change $"array" with s_array. split.
  - intros [[H1 H2] H3]. repeat split; auto. destruct (o_max d) as [[|[|?]]|]; try discriminate. reflexivity.
  - intros (H1 & H2 & H3). rewrite H1. auto.
Qed.

(** * Lengths and rows *)
Lemma lengths_in : forall fl ins n, In n (lengths fl ins) <->
  exists k r, nth_error fl k = Some true /\ nth_error ins k = Some r /\ length (elems r) = n.
Proof.
  intros fl ins n. unfold lengths. rewrite in_map_iff. split.
  - intros ([b r] & H1 & H2). apply filter_In in H2. destruct H2 as [H2 H3]. cbn [fst snd] in *. subst b.
    apply In_nth_error in H2. destruct H2 as [k Hk]. exists k, r.
    revert ins k Hk. induction fl as [|b fl IH]; intros [|r0 ins] [|k] Hk; cbn [combine nth_error] in Hk; try discriminate.
    + inversion Hk; subst. auto.
    + cbn [nth_error]. eauto.
  - intros (k & r & H1 & H2 & H3). exists (true, r). split; auto. apply filter_In. split; auto.
    apply nth_error_In with (n := k). revert ins k H1 H2. clear.
    induction fl as [|b fl IH]; intros [|r0 ins] [|k] H1 H2; cbn [combine nth_error] in *; try discriminate.
    + congruence.
    + auto.
Qed.
Lemma same_length_some : forall ls n, same_length ls = Some (Some n) <-> (In n ls /\ forall m, In m ls -> m = n).
Proof.
  intros [|a t] n; cbn [same_length].
  - split; [discriminate | intros [[] _]].
  - destruct (forallb (Nat.eqb a) t) eqn:E.
    + rewrite forallb_forall in E. split.
      * intros H. inversion H; subst. split; [left; auto|]. intros m [Hm|Hm]; auto. apply E in Hm. apply Nat.eqb_eq in Hm. auto.
      * intros [_ H]. f_equal. f_equal. apply H. left. auto.
    + split; [discriminate|]. intros [_ H]. exfalso. enough (forallb (Nat.eqb a) t = true) by congruence.
      apply forallb_forall. intros m Hm. apply Nat.eqb_eq. rewrite (H m (or_intror Hm)), (H a (or_introl eq_refl)). reflexivity.
Qed.
Lemma same_length_none : forall ls, same_length ls = Some None <-> ls = [].
Proof. intros [|a t]; cbn [same_length]; [tauto|]. destruct (forallb (Nat.eqb a) t); split; discriminate. Qed.
Lemma row_nth : forall fl ins i k b r, nth_error fl k = Some b -> nth_error ins k = Some r ->
  nth_error (row fl ins i) k = Some (if b then nth i (elems r) (mkRes VNone None None) else r).
Proof.
  unfold row. induction fl as [|b0 fl IH]; intros [|r0 ins] i [|k] b r H1 H2; cbn [nth_error combine map] in *; try discriminate.
  - inversion H1; inversion H2; subst. reflexivity.
  - apply IH; auto.
Qed.
Lemma row_length : forall fl ins i, length fl = length ins -> length (row fl ins i) = length ins.
Proof. intros. unfold row. rewrite map_length, combine_length. lia. Qed.

(** * Depth *)
Lemma rdepth_elem : forall r l x, rval r = VList l -> In x l -> rdepth x < rdepth r.
Proof.
  intros [v u f o] l x Hv Hx. cbn [rval] in Hv. subst v. cbn [rdepth vdepth].
  induction l as [|y l IH]; [destruct Hx|]. cbn [fold_right]. destruct Hx as [->|Hx].
  - lia.
  - specialize (IH Hx). lia.
Qed.
Lemma row_depths : forall fl ins i, length fl = length ins ->
  (forall k r, nth_error fl k = Some true -> nth_error ins k = Some r -> exists l, rval r = VList l /\ i < length l) ->
  depths (row fl ins i) + length (filter (fun b => b) fl) <= depths ins.
Proof.
  unfold row. induction fl as [|b fl IH]; intros [|r ins] i Hl H; cbn [length] in Hl; try discriminate.
  - cbn. lia.
  - cbn [combine map depths fold_right fst snd]. fold (depths ins). fold (depths (map (fun p => if fst p : bool then nth i (elems (snd p)) (mkRes VNone None None) else snd p) (combine fl ins))).
    assert (IH' := IH ins i ltac:(lia) (fun k r0 => H (S k) r0)). destruct b; cbn [filter length].
    + destruct (H 0 r eq_refl eq_refl) as (l & H1 & H2). assert (He : elems r = l) by (unfold elems; rewrite H1; reflexivity). rewrite He.
      pose proof (rdepth_elem r l (nth i l (mkRes VNone None None)) H1 (nth_In _ _ H2)). lia.
    + lia.
Qed.

(** * The fixed point equation *)
Lemma bind_ext : forall A B (m1 m2 : M A) (f : A -> M B) s, m1 s = m2 s -> bind m1 f s = bind m2 f s.
Proof. intros. unfold bind. rewrite H. reflexivity. Qed.
Lemma each_row_ext : forall f g rows, (forall x, In x rows -> forall s, f x s = g x s) ->
  forall s, each_row f rows s = each_row g rows s.
Proof.
  intros f g rows. induction rows as [|x t IH]; intros H s; cbn [each_row]; auto.
  rewrite (H x (or_introl eq_refl) s). destruct (g x s) as [[r|e| |] s1]; auto;
    apply bind_ext; apply IH; intros y Hy; apply H; right; auto.
Qed.
Lemma each_pack_ext : forall f g rows, (forall x, forall s, f [mkRes (VList x) None None] s = g [mkRes (VList x) None None] s) ->
  forall s, each_pack f rows s = each_pack g rows s.
Proof.
  intros f g rows H. induction rows as [|x t IH]; intros s; cbn [each_pack]; auto.
  unfold bind at 1 3. rewrite (H x s). destruct (g [mkRes (VList x) None None] s) as [[r|e| |] s1]; auto.
  destruct (is_list (rval r)); auto. apply bind_ext. apply IH.
Qed.
Lemma flagged_is_list : forall d ins k r, nth_error (flags_of d 0 ins) k = Some true -> nth_error ins k = Some r ->
  exists l, rval r = VList l /\ elems r = l.
Proof.
  intros d ins k r H1 H2. rewrite flags_nth, H2 in H1. cbn [option_map] in H1. inversion H1 as [H3].
  apply flagged_iff in H3. destruct H3 as [[l Hl] _]. exists l. unfold elems. rewrite Hl. auto.
Qed.
Lemma row_smaller : forall d ins n i, existsb (fun b => b) (flags_of d 0 ins) = true ->
  same_length (lengths (flags_of d 0 ins) ins) = Some (Some n) -> i < n ->
  depths (row (flags_of d 0 ins) ins i) < depths ins.
Proof.
  intros d ins n i H1 H2 Hi. apply same_length_some in H2. destruct H2 as [_ H2].
  assert (H3 : depths (row (flags_of d 0 ins) ins i) + length (filter (fun b => b) (flags_of d 0 ins)) <= depths ins).
  { apply row_depths; [apply flags_length|]. intros k r Hk Hr. destruct (flagged_is_list d ins k r Hk Hr) as (l & H4 & H5).
    exists l. split; auto. rewrite <- H5. rewrite (H2 (length (elems r))); auto. apply lengths_in. eauto. }
  apply existsb_exists in H1. destruct H1 as (b & H1 & ->).
  assert (In true (filter (fun b => b) (flags_of d 0 ins))) by (apply filter_In; auto).
  destruct (filter (fun b => b) (flags_of d 0 ins)); [destruct H | cbn [length] in H3; lia].
Qed.
Lemma packed_plain : forall E h d stl rec x, must_be d 0 s_array None = true ->
  call_step E h d stl rec [mkRes (VList x) None None] = call_plain E h d stl [mkRes (VList x) None None].
Proof.
  intros. unfold call_step. cbn [flags_of existsb]. unfold flagged. rewrite (must_can _ _ _ _ H).
  cbn [negb is_list rval mkRes andb orb]. unfold is_packed. cbn [length]. rewrite andb_false_r. reflexivity.
Qed.
Lemma fuel_stable : forall E h d stl k ins n m, depths ins <= k -> n >= 2 + depths ins -> m >= 2 + depths ins ->
  forall s, call_fuel n E h d stl ins s = call_fuel m E h d stl ins s.
Proof.
  intros E h d stl. induction k as [k IH] using lt_wf_ind. intros ins n m Hk Hn Hm s.
  destruct n as [|n]; [lia|]. destruct m as [|m]; [lia|]. cbn [call_fuel]. unfold call_step.
  destruct (existsb (fun b => b) (flags_of d 0 ins)) eqn:Ef.
  - destruct (same_length (lengths (flags_of d 0 ins) ins)) as [[len|]|] eqn:El; auto.
    apply bind_ext. apply each_row_ext. intros x Hx s0. apply in_map_iff in Hx. destruct Hx as (i & <- & Hi).
    apply in_seq in Hi. pose proof (row_smaller d ins len i Ef El ltac:(lia)).
    apply (IH (depths (row (flags_of d 0 ins) ins i))); lia.
  - destruct (is_packed d ins) eqn:Ep; auto. apply is_packed_iff in Ep. destruct Ep as (_ & Hmust & _).
    assert (HP : forall x s0, call_fuel n E h d stl [mkRes (VList x) None None] s0 = call_fuel m E h d stl [mkRes (VList x) None None] s0).
    { intros x s0. destruct n as [|n]; [lia|]. destruct m as [|m]; [lia|]. cbn [call_fuel]. rewrite !packed_plain; auto. }
    destruct (same_length _) as [[len|]|]; auto. apply bind_ext. apply each_pack_ext. exact HP.
Qed.
Lemma call_eq : forall E h d stl ins s, call E h d stl ins s = call_step E h d stl (call E h d stl) ins s.
Proof.
  intros. unfold call at 1. change (3 + depths ins) with (S (2 + depths ins)). cbn [call_fuel]. unfold call_step.
  destruct (existsb (fun b => b) (flags_of d 0 ins)) eqn:Ef.
  - destruct (same_length (lengths (flags_of d 0 ins) ins)) as [[len|]|] eqn:El; auto.
    apply bind_ext. apply each_row_ext. intros x Hx s0. apply in_map_iff in Hx. destruct Hx as (i & <- & Hi).
    apply in_seq in Hi. pose proof (row_smaller d ins len i Ef El ltac:(lia)). unfold call.
    apply fuel_stable with (k := depths (row (flags_of d 0 ins) ins i)); lia.
  - destruct (is_packed d ins) eqn:Ep; auto. apply is_packed_iff in Ep. destruct Ep as (_ & Hmust & _).
    assert (HP : forall x s0, call_fuel (2 + depths ins) E h d stl [mkRes (VList x) None None] s0 = call E h d stl [mkRes (VList x) None None] s0).
    { intros x s0. unfold call. cbn [plus call_fuel]. rewrite !packed_plain; auto. }
    destruct (same_length _) as [[len|]|]; auto. apply bind_ext. apply each_pack_ext. exact HP.
Qed.
Lemma call_direct : forall E h d stl ins s, direct d ins -> call E h d stl ins s = call_plain E h d stl ins s.
Proof.
  intros E h d stl ins s [H1 H2]. rewrite call_eq. unfold call_step. apply no_flags in H1. rewrite H1.
  destruct (is_packed d ins) eqn:Ep; auto. apply is_packed_iff in Ep. contradiction.
Qed.

(** * Element by element (C27) *)
Lemma each_row_ran : forall f rows s, exists o s', ran f rows s o s' /\ each_row f rows s = (o, s').
Proof.
  intros f. induction rows as [|x t IH]; intros s; cbn [each_row].
  - exists (OOk []), s. split; [constructor | reflexivity].
  - destruct (f x s) as [[r|e| |] s1] eqn:E.
    + destruct (IH s1) as (o & s2 & H1 & H2). eexists. exists s2. split.
      * eapply ran_ok; eauto.
      * unfold bind. rewrite H2. destruct o; reflexivity.
    + destruct (IH s1) as (o & s2 & H1 & H2). eexists. exists s2. split.
      * eapply ran_err; eauto.
      * unfold bind. rewrite H2. destruct o; reflexivity.
    + exists OPy, s1. split; [apply ran_py; auto | reflexivity].
    + exists OFuel, s1. split; [apply ran_fuel; auto | reflexivity].
Qed.
Lemma nth_error_seq_map : forall A (g : nat -> A) n i x, nth_error (map g (seq 0 n)) i = Some x -> i < n /\ x = g i.
Proof.
  intros A g n i x H. assert (Hi : i < length (map g (seq 0 n))) by (apply nth_error_Some; congruence).
  rewrite map_length, seq_length in Hi. split; auto.
  rewrite nth_error_map in H. destruct (nth_error (seq 0 n) i) as [y|] eqn:Ey; cbn [option_map] in H; [|discriminate].
  inversion H; subst. apply nth_error_nth with (d := 0) in Ey. rewrite seq_nth in Ey by auto. rewrite <- Ey. reflexivity.
Qed.
Lemma broadcast_ok : forall E h d stl ins s n,
  (exists k r, nth_error ins k = Some r /\ spreads d k r) ->
  (forall k r l, nth_error ins k = Some r -> spreads d k r -> rval r = VList l -> length l = n) ->
  exists rows o s', length rows = n /\ (forall i x, nth_error rows i = Some x -> row_at d ins i x) /\
    ran (call E h d stl) rows s o s' /\
    call E h d stl ins s = (match o with OOk l => OOk (Res (VList l) None None None) | OErr e => OErr e | OPy => OPy | OFuel => OFuel end, s').
Proof.
  intros E h d stl ins s n (k & r & Hk & Hs) Hlen.
  destruct (each_row_ran (call E h d stl) (map (row (flags_of d 0 ins) ins) (seq 0 n)) s) as (o & s' & Hran & Heq).
  exists (map (row (flags_of d 0 ins) ins) (seq 0 n)), o, s'. split; [rewrite map_length, seq_length; auto|]. split; [|split; auto].
  - intros i x Hi. apply nth_error_seq_map in Hi. destruct Hi as [Hi ->]. split; [apply row_length, flags_length|].
    intros k0 r0 Hk0. assert (Hf := flags_nth ins d 0 k0). rewrite Hk0 in Hf. cbn [option_map plus] in Hf.
    rewrite (row_nth _ ins i k0 _ r0 Hf Hk0). split.
    + intros Hsp l Hl. apply flagged_iff in Hsp as Hfl. rewrite Hfl. unfold elems. rewrite Hl.
      assert (length l = n) by eauto. symmetry. apply nth_error_nth'. lia.
    + intros Hsp. destruct (flagged d k0 r0) eqn:Hfl; auto. apply flagged_iff in Hfl. contradiction.
  - rewrite call_eq. unfold call_step. rewrite (some_flag d ins k r Hk Hs).
    assert (HL : same_length (lengths (flags_of d 0 ins) ins) = Some (Some n)).
    { apply same_length_some.
      assert (HA : forall k0 r0, nth_error (flags_of d 0 ins) k0 = Some true -> nth_error ins k0 = Some r0 -> length (elems r0) = n).
      { intros k0 r0 H1 H2. destruct (flagged_is_list d ins k0 r0 H1 H2) as (l & H3 & H4). rewrite H4.
        apply (Hlen k0 r0 l H2); auto. rewrite flags_nth, H2 in H1. cbn [option_map plus] in H1. apply flagged_iff. inversion H1. reflexivity. }
      split.
      - apply lengths_in. exists k, r. assert (Hf := flags_nth ins d 0 k). rewrite Hk in Hf. cbn [option_map plus] in Hf.
        apply flagged_iff in Hs. rewrite Hs in Hf. repeat split; auto. eapply HA; eauto.
      - intros m Hm. apply lengths_in in Hm. destruct Hm as (k0 & r0 & H1 & H2 & H3). rewrite <- H3. eapply HA; eauto. }
    rewrite HL. unfold bind. rewrite Heq. destruct o; reflexivity.
Qed.
Lemma broadcast_refused : forall E h d stl ins s k1 r1 l1 k2 r2 l2,
  nth_error ins k1 = Some r1 -> spreads d k1 r1 -> rval r1 = VList l1 ->
  nth_error ins k2 = Some r2 -> spreads d k2 r2 -> rval r2 = VList l2 -> length l1 <> length l2 ->
  call E h d stl ins s = (OErr (XCalc false MLength), s).
Proof.
  intros E h d stl ins s k1 r1 l1 k2 r2 l2 H1 H2 H3 H4 H5 H6 H7. rewrite call_eq. unfold call_step.
  rewrite (some_flag d ins k1 r1 H1 H2).
  destruct (same_length (lengths (flags_of d 0 ins) ins)) as [[n|]|] eqn:El; auto.
  exfalso. apply same_length_some in El. destruct El as [_ El]. apply H7.
  assert (HA : forall k r l, nth_error ins k = Some r -> spreads d k r -> rval r = VList l -> length l = n).
  { intros k r l Hk Hs Hl. apply El. apply lengths_in. exists k, r. assert (Hf := flags_nth ins d 0 k). rewrite Hk in Hf.
    cbn [option_map plus] in Hf. apply flagged_iff in Hs. rewrite Hs in Hf. repeat split; auto. unfold elems. rewrite Hl. auto. }
  rewrite (HA k1 r1 l1), (HA k2 r2 l2); auto.
Qed.
Lemma packed_scalars : forall E h d stl ins s, packs d ins -> (forall k r, nth_error ins k = Some r -> ~ spreads d k r) ->
  (forall r, In r ins -> forall l, rval r <> VList l) ->
  call E h d stl ins s = call E h d stl [Res (VList ins) None None None] s.
Proof.
  intros E h d stl ins s Hp Hn Hl. rewrite call_eq. unfold call_step at 1. apply no_flags in Hn. rewrite Hn.
  apply is_packed_iff in Hp. rewrite Hp.
  assert (HL : lengths (map (fun r => is_list (rval r)) ins) ins = []).
  { destruct (lengths (map (fun r => is_list (rval r)) ins) ins) as [|n t] eqn:E0; auto. exfalso.
    assert (Hin : In n (lengths (map (fun r => is_list (rval r)) ins) ins)) by (rewrite E0; left; auto).
    apply lengths_in in Hin. destruct Hin as (k & r & H1 & H2 & _). rewrite nth_error_map, H2 in H1. cbn [option_map] in H1.
    apply nth_error_In in H2. specialize (Hl r H2). destruct (rval r); try discriminate. apply (Hl l eq_refl). }
  rewrite HL. reflexivity.
Qed.

(** * Errors (C25) *)
Lemma find_exc_first : forall pre r post, (forall x, In x pre -> is_exc (rval x) = false) -> is_exc (rval r) = true ->
  find_exc (pre ++ r :: post) = Some r.
Proof.
  unfold find_exc. induction pre as [|x pre IH]; intros r post H1 H2; cbn [app find].
  - rewrite H2. reflexivity.
  - rewrite (H1 x (or_introl eq_refl)). apply IH; auto. intros y Hy. apply H1. right. auto.
Qed.
Lemma error_propagates : forall E h d stl pre r post s e, o_excs d = false -> direct d (pre ++ r :: post) ->
  rval r = VExc e -> (forall x, In x pre -> forall e', rval x <> VExc e') ->
  call E h d stl (pre ++ r :: post) s = (OOk r, s).
Proof.
  intros E h d stl pre r post s e H1 H2 H3 H4. rewrite (call_direct E h d stl _ s H2). unfold call_plain. rewrite H1.
  rewrite find_exc_first; auto.
  - intros x Hx. specialize (H4 x Hx). destruct (rval x); try reflexivity. exfalso. apply (H4 e0). reflexivity.
  - rewrite H3. reflexivity.
Qed.

(** * Validation (C26) *)
Lemma out_each_ok : forall A (f : A -> out Datatypes.unit) l, out_each f l = Ok tt <-> (forall x, In x l -> f x = Ok tt).
Proof.
  intros A f l. induction l as [|x r IH]; cbn [out_each].
  - split; [intros _ y [] | auto].
  - destruct (f x) as [[]| |] eqn:E; cbn [obind].
    + rewrite IH. split.
      * intros H y [<-|Hy]; auto.
      * intros H y Hy. apply H. right. auto.
    + split; [discriminate|]. intros H. specialize (H x (or_introl eq_refl)). congruence.
    + split; [discriminate|]. intros H. specialize (H x (or_introl eq_refl)). congruence.
Qed.
Lemma indices_in : forall from to len i, In i (indices from to len) <-> from <= i /\ i < len /\ (forall m, to = Some m -> i <= m).
Proof.
  intros from to len i. unfold indices. rewrite in_seq. destruct to as [t|].
  - split.
    + intros H. repeat split; try lia. intros m Hm. inversion Hm; subst. lia.
    + intros (H1 & H2 & H3). specialize (H3 t eq_refl). lia.
  - split; [intros H; repeat split; try lia; discriminate | lia].
Qed.
Lemma validate_types_ok : forall E ts r, validate_types E ts (rval r) (runit r) (rref r) = Ok tt ->
  exists t, In t ts /\ accepts E t r.
Proof.
  intros E ts r. induction ts as [|t rest IH]; intros H; cbn [validate_types] in H; [discriminate|].
  unfold validate_input in H. destruct t as [[n sub]|].
  - destruct sub as [sub|].
    + destruct (e_valid E n) as [f|] eqn:Ev; [|discriminate]. destruct (f (rval r) (runit r) (rref r) (Some sub)) as [[|]| |] eqn:Ef;
        cbn [obind] in H; try discriminate.
      * exists (Some (n, Some sub)). split; [left; auto|]. exists f. auto.
      * destruct (IH H) as (t & H1 & H2). exists t. split; [right|]; auto.
    + destruct (e_valid E n) as [f|] eqn:Ev.
      * destruct (f (rval r) (runit r) (rref r) None) as [[|]| |] eqn:Ef; cbn [obind] in H; try discriminate.
        -- exists (Some (n, None)). split; [left; auto|]. exists f. auto.
        -- destruct (IH H) as (t & H1 & H2). exists t. split; [right|]; auto.
      * cbn [obind] in H. destruct (IH H) as (t & H1 & H2). exists t. split; [right|]; auto.
  - exists None. split; [left; auto | exact I].
Qed.
Lemma validate_types_complete : forall E ts r,
  (forall n f v u x sub, e_valid E n = Some f -> exists b, f v u x sub = Ok b) ->
  (forall n sub, In (Some (n, Some sub)) ts -> e_valid E n <> None) ->
  (exists t, In t ts /\ accepts E t r) -> validate_types E ts (rval r) (runit r) (rref r) = Ok tt.
Proof.
  intros E ts r HA. induction ts as [|t rest IH]; intros HS (t0 & H1 & H2); [destruct H1|].
  cbn [validate_types].
  assert (Hb : exists b, validate_input E t (rval r) (runit r) (rref r) = Ok b /\ (accepts E t r -> b = true)).
  { unfold validate_input. destruct t as [[n [sub|]]|].
    - destruct (e_valid E n) as [f|] eqn:Ev.
      + destruct (HA n f (rval r) (runit r) (rref r) (Some sub) Ev) as [b Hb]. exists b. split; auto.
        intros (f' & H3 & H4). congruence.
      + exfalso. apply (HS n sub); auto. left. auto.
    - destruct (e_valid E n) as [f|] eqn:Ev.
      + destruct (HA n f (rval r) (runit r) (rref r) None Ev) as [b Hb]. exists b. split; auto.
        intros (f' & H3 & H4). congruence.
      + exists false. split; auto. intros (f' & H3 & H4). congruence.
    - exists true. auto. }
  destruct Hb as (b & Hb & Hb2). rewrite Hb. cbn [obind]. destruct b; auto.
  apply IH. { intros n sub Hn. apply (HS n sub). right. auto. }
  destruct H1 as [->|H1]; [|eauto]. specialize (Hb2 H2). discriminate.
Qed.
Lemma three_nth : forall ins i r, nth_error ins i = Some r ->
  nth_error (map rval ins) i = Some (rval r) /\ nth_error (map runit ins) i = Some (runit r) /\ nth_error (map rref ins) i = Some (rref r).
Proof. intros. rewrite !nth_error_map, H. auto. Qed.
Lemma nth_exists : forall (ins : list result) i, i < length ins -> exists r, nth_error ins i = Some r.
Proof. intros. destruct (nth_error ins i) eqn:E; eauto. apply nth_error_None in E. lia. Qed.
Lemma validate_sound : forall E d ins, validate E d (map rval ins) (map runit ins) (map rref ins) = Ok tt -> acceptable E d ins.
Proof.
  intros E d ins H. unfold validate in H. rewrite !map_length in H.
  destruct (match o_min d with Some m => if length ins <? m then Calc else Ok tt | None => Ok tt end) as [[]| |] eqn:E1; cbn [obind] in H; try discriminate.
  destruct (match o_max d with Some m => if m <? length ins then Calc else Ok tt | None => Ok tt end) as [[]| |] eqn:E2; cbn [obind] in H; try discriminate.
  match type of H with obind ?x _ = _ => destruct x as [[]| |] eqn:E3 end; cbn [obind] in H; try discriminate.
  rewrite out_each_ok in E3. rewrite out_each_ok in H. split; [|split; [|split]].
  - intros m Hm. rewrite Hm in E1. destruct (Nat.ltb_spec (length ins) m); [discriminate | lia].
  - intros m Hm. rewrite Hm in E2. destruct (Nat.ltb_spec m (length ins)); [discriminate | lia].
  - intros x i r Hx H1 H2 Hr. specialize (E3 x Hx). cbn beta in E3. rewrite out_each_ok in E3.
    assert (Hi : In i (indices (rs_from x) (rs_to x) (length ins))).
    { apply indices_in. repeat split; auto. apply nth_error_Some. congruence. }
    specialize (E3 i Hi). destruct (three_nth ins i r Hr) as (H3 & H4 & H5). cbn beta in E3. rewrite H3, H4, H5 in E3.
    apply validate_types_ok in E3. exact E3.
  - intros x i r Hx H1 H2 Hr. specialize (H x Hx). cbn beta in H. rewrite out_each_ok in H.
    assert (Hi : In i (indices (ur_from x) (ur_to x) (length ins))).
    { apply indices_in. repeat split; auto. apply nth_error_Some. congruence. }
    specialize (H i Hi). destruct (three_nth ins i r Hr) as (H3 & H4 & H5). cbn beta in H. rewrite H4 in H.
    destruct (e_dims E (runit r) (ur_dims x)) as [[|]| |]; cbn [obind] in H; try discriminate. reflexivity.
Qed.
Lemma validate_complete : forall E d ins, answers E d -> acceptable E d ins ->
  validate E d (map rval ins) (map runit ins) (map rref ins) = Ok tt.
Proof.
  intros E d ins (A1 & A2 & A3) (H1 & H2 & H3 & H4). unfold validate. rewrite !map_length.
  assert (E1 : match o_min d with Some m => if length ins <? m then Calc else Ok tt | None => Ok tt end = Ok tt).
  { destruct (o_min d) as [m|]; auto. specialize (H1 m eq_refl). destruct (Nat.ltb_spec (length ins) m); [lia | auto]. }
  assert (E2 : match o_max d with Some m => if m <? length ins then Calc else Ok tt | None => Ok tt end = Ok tt).
  { destruct (o_max d) as [m|]; auto. specialize (H2 m eq_refl). destruct (Nat.ltb_spec m (length ins)); [lia | auto]. }
  rewrite E1, E2. cbn [obind].
  match goal with |- obind ?x _ = _ => assert (E3 : x = Ok tt) end.
  { apply out_each_ok. intros x Hx. apply out_each_ok. intros i Hi. apply indices_in in Hi. destruct Hi as (I1 & I2 & I3).
    destruct (nth_exists ins i I2) as [r Hr]. destruct (three_nth ins i r Hr) as (T1 & T2 & T3). rewrite T1, T2, T3.
    apply validate_types_complete; auto. - intros n sub Hn. eapply A2; eauto. - eapply H3; eauto. }
  rewrite E3. cbn [obind]. apply out_each_ok. intros x Hx. apply out_each_ok. intros i Hi. apply indices_in in Hi.
  destruct Hi as (I1 & I2 & I3). destruct (nth_exists ins i I2) as [r Hr]. destruct (three_nth ins i r Hr) as (T1 & T2 & T3).
  rewrite T2. rewrite (H4 x i r Hx I1 I3 Hr). reflexivity.
Qed.
Lemma refused : forall E h d stl ins s, direct d ins -> (o_excs d = true \/ forall r, In r ins -> forall e, rval r <> VExc e) ->
  ~ acceptable E d ins -> (forall r, In r ins -> e_tostr E r = true) ->
  exists w, call E h d stl ins s = (OErr (XCalc w (MOp (o_name d))), s).
Proof.
  intros E h d stl ins s H1 H2 H3 H4. rewrite (call_direct E h d stl ins s H1). unfold call_plain.
  assert (HE : (if o_excs d then None else find_exc ins) = None).
  { destruct H2 as [->|H2]; auto. destruct (o_excs d); auto. destruct (find_exc ins) as [r|] eqn:Ef; auto. exfalso.
    unfold find_exc in Ef. apply find_some in Ef. destruct Ef as [F1 F2]. specialize (H2 r F1). destruct (rval r); try discriminate.
    apply (H2 e). reflexivity. }
  rewrite HE. assert (HT : forallb (e_tostr E) ins = true) by (apply forallb_forall; auto).
  unfold prepare. destruct (validate E d (map rval ins) (map runit ins) (map rref ins)) as [[]| |] eqn:Ev.
  - apply validate_sound in Ev. contradiction.
  - cbn [obind lift bind wrapped]. unfold bind, lift. rewrite HT. cbn [wrapped]. eauto.
  - cbn [obind lift bind]. unfold bind, lift. rewrite HT. eauto.
Qed.
Lemma direct_impl : forall d f ins, direct d ins -> direct (with_impl d f) ins.
Proof. intros d f ins H. exact H. Qed.
Lemma refused_impl : forall E h d f stl ins s, direct d ins -> ~ acceptable E d ins ->
  call E h (with_impl d f) stl ins s = call E h d stl ins s.
Proof.
  intros E h d f stl ins s H1 H3. rewrite (call_direct E h d stl ins s H1), (call_direct E h _ stl ins s (direct_impl d f ins H1)).
  unfold call_plain. cbn [with_impl o_excs o_name o_impl]. destruct (if o_excs d then None else find_exc ins); auto.
  unfold prepare. change (validate E (with_impl d f)) with (validate E d).
  destruct (validate E d (map rval ins) (map runit ins) (map rref ins)) as [[]| |] eqn:Ev.
  - apply validate_sound in Ev. contradiction.
  - reflexivity.
  - reflexivity.
Qed.
(** What the wrapper makes of the outcome of the implementation. *)
Definition wrap_outcome (E : env) (d : opdef) (ins : list result) (x : oc result * st) : oc result * st :=
  match x with
  | (OErr e, s') => if wrapped e then (OErr e, s')
                    else if forallb (e_tostr E) ins then (OErr (XCalc true (MOp (o_name d))), s') else (OPy, s')
  | (OPy, s') => if forallb (e_tostr E) ins then (OErr (XCalc false (MOp (o_name d))), s') else (OPy, s')
  | x => x
  end.

(** * The number format of the result (C48) *)
Definition num_at (E : env) (vs : list value) (i : nat) : option number :=
  match nth_error vs i with Some v => match to_number E v with Ok n => Some n | _ => None end | None => None end.
Fixpoint first_cast (E : env) (vs : list value) (is : list nat) : option cast :=
  match is with
  | [] => None
  | i :: r => match num_at E vs i with Some n => first_some (ncast n) (first_cast E vs r) | None => first_cast E vs r end
  end.
Lemma first_some_assoc : forall A (a b c : option A), first_some (first_some a b) c = first_some a (first_some b c).
Proof. intros A [a|] [b|] [c|]; reflexivity. Qed.
Lemma fold_convert : forall E vs is acc, snd (fold_left (convert_one E vs) is acc) = first_some (snd acc) (first_cast E vs is).
Proof.
  intros E vs. induction is as [|i r IH]; intros acc; cbn [fold_left first_cast].
  - destruct (snd acc); reflexivity.
  - rewrite IH. unfold convert_one, num_at. destruct (nth_error vs i) as [v|]; auto. destruct (to_number E v) as [n| |]; auto.
    cbn [snd]. apply first_some_assoc.
Qed.
Definition number_indices (rs : list restr) (len : nat) : list nat :=
  flat_map (fun r => if existsb is_plain_number (rs_types r) then convert_range r len else []) rs.
Lemma fold_restrs : forall E vs rs acc,
  snd (fold_left (fun acc r => if existsb is_plain_number (rs_types r) then fold_left (convert_one E vs) (convert_range r (length vs)) acc else acc) rs acc)
  = first_some (snd acc) (first_cast E vs (number_indices rs (length vs))).
Proof.
  intros E vs. assert (HA : forall a b, first_cast E vs (a ++ b) = first_some (first_cast E vs a) (first_cast E vs b)).
  { induction a as [|i a IH]; intros b; cbn [app first_cast]; auto. destruct (num_at E vs i); rewrite IH; auto.
    symmetry. apply first_some_assoc. }
  induction rs as [|r rs IH]; intros acc; cbn [fold_left number_indices flat_map].
  - destruct (snd acc); reflexivity.
  - rewrite IH. fold (number_indices rs (length vs)). rewrite HA. destruct (existsb is_plain_number (rs_types r)).
    + rewrite fold_convert. apply first_some_assoc.
    + cbn [first_cast]. destruct (snd acc); reflexivity.
Qed.
Lemma is_plain_number_iff : forall l, existsb is_plain_number l = true <-> In (Some ($"number", None)) l.
Proof.
  intros l. rewrite existsb_exists. split.
  - intros (x & H1 & H2). destruct x as [[n [sub|]]|]; cbn [is_plain_number] in H2; try discriminate.
    apply seq_eqb_iff in H2. subst n. exact H1.
  - intros H. exists (Some ($"number", None)). split; [exact H | apply seq_eqb_refl].
Qed.
Lemma number_indices_in : forall d len i, i < len -> In i (number_indices (o_vals d) len) <-> may_number d i.
Proof.
  intros d len i Hi. unfold number_indices, may_number. rewrite in_flat_map. split.
  - intros (x & H1 & H2). destruct (existsb is_plain_number (rs_types x)) eqn:E; [|destruct H2]. apply is_plain_number_iff in E.
    unfold convert_range in H2. apply in_seq in H2. exists x. repeat split; auto; try lia.
    intros m Hm. rewrite Hm in H2. lia.
  - intros (x & H1 & H2 & H3 & H4). exists x. split; auto. apply is_plain_number_iff in H4. rewrite H4.
    unfold convert_range. apply in_seq. destruct (rs_to x) as [m|]; [specialize (H3 m eq_refl)|]; lia.
Qed.
Lemma sorted_app : forall a b, StronglySorted lt a -> StronglySorted lt b -> (forall x y, In x a -> In y b -> x < y) ->
  StronglySorted lt (a ++ b).
Proof.
  induction a as [|x a IH]; intros b Ha Hb H; cbn [app]; auto. inversion Ha; subst. constructor.
  - apply IH; auto. intros y z Hy Hz. apply H; auto. right. auto.
  - apply Forall_app. split; auto. apply Forall_forall. intros y Hy. apply H; auto. left. auto.
Qed.
Lemma sorted_seq : forall n a, StronglySorted lt (seq a n).
Proof.
  induction n as [|n IH]; intros a; cbn [seq]; constructor; auto. apply Forall_forall. intros x Hx. apply in_seq in Hx. lia.
Qed.
Lemma ordered_tail : forall r rs, ordered (r :: rs) -> ordered rs.
Proof. intros r [|r2 rs] H; cbn [ordered] in *; auto. destruct H; auto. Qed.
Lemma ordered_after : forall rs r len, ordered (r :: rs) -> Forall (fun x => rs_from x <= match rs_to x with Some t => t | None => rs_from x end) (r :: rs) ->
  forall x i, In x rs -> In i (convert_range x len) -> forall m, rs_to r = Some m -> m < i.
Proof.
  induction rs as [|r2 rs IH]; intros r len H HF x i Hx Hi m Hm; [destruct Hx|].
  destruct H as [(m' & H1 & H2) H3]. rewrite H1 in Hm. inversion Hm; subst m'. inversion HF as [|? ? F1 F2]; subst.
  destruct Hx as [->|Hx].
  - unfold convert_range in Hi. apply in_seq in Hi. lia.
  - inversion F2 as [|? ? F3 F4]; subst. destruct rs as [|r3 rs]; [destruct Hx|].
    destruct H3 as [(m2 & H4 & H5) H6]. rewrite H4 in F3.
    assert (m2 < i). { eapply (IH r2 len); eauto. split; eauto. } lia.
Qed.
Lemma number_indices_sorted : forall rs len, ordered rs ->
  Forall (fun x => rs_from x <= match rs_to x with Some t => t | None => rs_from x end) rs ->
  StronglySorted lt (number_indices rs len).
Proof.
  induction rs as [|r rs IH]; intros len H HF; cbn [number_indices flat_map]; [constructor|].
  fold (number_indices rs len). inversion HF; subst. apply sorted_app.
  - destruct (existsb is_plain_number (rs_types r)); [apply sorted_seq | constructor].
  - apply IH; auto. eapply ordered_tail; eauto.
  - intros x y Hx Hy. destruct (existsb is_plain_number (rs_types r)); [|destruct Hx].
    unfold number_indices in Hy. apply in_flat_map in Hy. destruct Hy as (z & Hz & Hy).
    destruct (existsb is_plain_number (rs_types z)); [|destruct Hy].
    destruct rs as [|r2 rs']; [destruct Hz|]. assert (HO := H). destruct H as [(m & Hm & Hlt) _].
    assert (m < y) by (eapply (ordered_after (r2 :: rs') r len); eauto).
    unfold convert_range in Hx. rewrite Hm in Hx. apply in_seq in Hx. lia.
Qed.
Lemma first_cast_spec : forall E vs is, StronglySorted lt is ->
  match first_cast E vs is with
  | Some k => exists i n, In i is /\ num_at E vs i = Some n /\ ncast n = Some k /\
                forall j m, In j is -> j < i -> num_at E vs j = Some m -> ncast m = None
  | None => forall i n, In i is -> num_at E vs i = Some n -> ncast n = None
  end.
Proof.
  intros E vs is H. induction H as [|i r HS IH HF]; cbn [first_cast].
  - intros i n [].
  - rewrite Forall_forall in HF. destruct (num_at E vs i) as [n|] eqn:En.
    + destruct (ncast n) as [k|] eqn:Ek; cbn [first_some].
      * exists i, n. repeat split; auto; [left; auto|]. intros j m [Hj|Hj] Hlt; [lia|]. specialize (HF j Hj). lia.
      * destruct (first_cast E vs r) as [k|].
        -- destruct IH as (i0 & n0 & H1 & H2 & H3 & H4). exists i0, n0. repeat split; auto; [right; auto|].
           intros j m [Hj|Hj] Hlt Hm; [congruence | eauto].
        -- intros j m [Hj|Hj] Hm; [congruence | eauto].
    + destruct (first_cast E vs r) as [k|].
      * destruct IH as (i0 & n0 & H1 & H2 & H3 & H4). exists i0, n0. repeat split; auto; [right; auto|].
        intros j m [Hj|Hj] Hlt Hm; [congruence | eauto].
      * intros j m [Hj|Hj] Hm; [congruence | eauto].
Qed.
Lemma num_at_format : forall E d vs i c, format_at E d vs i c <-> may_number d i /\ exists n, num_at E vs i = Some n /\ ncast n = c.
Proof.
  intros E d vs i c. unfold format_at, num_at. split.
  - intros (H1 & v & n & H2 & H3 & H4). split; auto. exists n. rewrite H2, H3. auto.
  - intros (H1 & n & H2 & H3). split; auto. destruct (nth_error vs i) as [v|] eqn:Ev; [|discriminate].
    destruct (to_number E v) as [m| |] eqn:Em; try discriminate. inversion H2; subst. exists v, n. auto.
Qed.
Lemma num_at_len : forall E vs i n, num_at E vs i = Some n -> i < length vs.
Proof. intros E vs i n H. unfold num_at in H. apply nth_error_Some. destruct (nth_error vs i); congruence. Qed.
Lemma convert_first_format : forall E d vs, ordered (o_vals d) ->
  Forall (fun x => rs_from x <= match rs_to x with Some t => t | None => rs_from x end) (o_vals d) ->
  first_format E d vs (snd (convert_numbers E d vs)).
Proof.
  intros E d vs HO HF. unfold convert_numbers. rewrite fold_restrs. cbn [snd first_some].
  pose proof (first_cast_spec E vs _ (number_indices_sorted (o_vals d) (length vs) HO HF)) as HS. unfold first_format.
  destruct (first_cast E vs (number_indices (o_vals d) (length vs))) as [k|].
  - destruct HS as (i & n & H1 & H2 & H3 & H4). exists i. split.
    + apply num_at_format. split; [|eauto]. apply (number_indices_in d (length vs) i (num_at_len _ _ _ _ H2)); exact H1.
    + intros j c' Hj Hc. apply num_at_format in Hc. destruct Hc as (H5 & m & H6 & H7). subst c'. apply (H4 j m); auto.
      apply (number_indices_in d (length vs) j (num_at_len _ _ _ _ H6)). exact H5.
  - intros i c' Hc. apply num_at_format in Hc. destruct Hc as (H5 & m & H6 & H7). subst c'. apply (HS i m); auto.
    apply (number_indices_in d (length vs) i (num_at_len _ _ _ _ H6)). exact H5.
Qed.
Lemma norm_arrays_cast : forall E d vs i c ru p, (forall l, ~ In (VList l) vs) -> norm_arrays E d i vs c ru = Ok p -> snd (fst p) = c.
Proof.
  intros E d. induction vs as [|v r IH]; intros i c ru p H Hp; cbn [norm_arrays] in Hp.
  - inversion Hp; subst. reflexivity.
  - assert (HN : forall l, v <> VList l) by (intros l E0; apply (H l); left; auto).
    destruct v; try (exfalso; eapply HN; reflexivity); cbn [obind fst snd] in Hp;
      (destruct (norm_arrays E d (S i) r c ru) as [q| |] eqn:Eq; cbn [obind] in Hp; [|discriminate|discriminate];
       inversion Hp; subst; cbn [fst snd]; eapply (IH _ _ _ _ (fun l Hl => H l (or_intror Hl))); eauto).
Qed.
Lemma convert_nolist : forall E d vs, (forall l, ~ In (VList l) vs) -> forall l, ~ In (VList l) (fst (convert_numbers E d vs)).
Proof.
  intros E d vs H. unfold convert_numbers.
  assert (HL : forall (l : list value) i x, (forall y, ~ In (VList y) l) -> (forall y, x <> VList y) -> forall y, ~ In (VList y) (list_set l i x)).
  { induction l as [|a l IHl]; intros i x H1 H2 y; cbn [list_set]; auto. destruct i; intros [Hy|Hy].
    - apply (H2 y); auto. - apply (H1 y). right. auto. - apply (H1 y). left. auto.
    - apply (IHl i x (fun z Hz => H1 z (or_intror Hz)) H2 y Hy). }
  assert (HI : forall is acc, (forall l, ~ In (VList l) (fst acc)) -> forall l, ~ In (VList l) (fst (fold_left (convert_one E vs) is acc))).
  { induction is as [|i is IHi]; intros acc Ha; cbn [fold_left]; auto. apply IHi. unfold convert_one.
    destruct (nth_error vs i) as [v|]; auto. destruct (to_number E v) as [n| |]; auto. cbn [fst]. apply HL; auto. discriminate. }
  assert (HR : forall rs acc, (forall l, ~ In (VList l) (fst acc)) -> forall l, ~ In (VList l) (fst (fold_left (fun acc r =>
     if existsb is_plain_number (rs_types r) then fold_left (convert_one E vs) (convert_range r (length vs)) acc else acc) rs acc))).
  { induction rs as [|r rs IHr]; intros acc Ha; cbn [fold_left]; auto. apply IHr. destruct (existsb is_plain_number (rs_types r)); auto. }
  apply HR. exact H.
Qed.
Lemma prepare_cast : forall E d vs us rs p, (forall l, ~ In (VList l) vs) -> o_autoin d = true ->
  prepare E d vs us rs = Ok p -> snd (fst p) = snd (convert_numbers E d vs).
Proof.
  intros E d vs us rs p HL HA H. unfold prepare in H. destruct (validate E d vs us rs) as [[]| |]; cbn [obind] in H; try discriminate.
  rewrite HA in H. destruct (all_numbers E d 0 (fst (convert_numbers E d vs))).
  - destruct (e_norm E) as [f|]; [|inversion H; reflexivity]. destruct (o_norm d); [|inversion H; reflexivity].
    destruct (f (fst (convert_numbers E d vs)) us (o_multi d) (o_rel d)) as [n| |]; cbn [obind] in H; try discriminate.
    inversion H. reflexivity.
  - destruct (norm_arrays E d 0 (fst (convert_numbers E d vs)) (snd (convert_numbers E d vs)) None) as [t| |] eqn:Et; cbn [obind] in H; try discriminate.
    inversion H; subst. cbn [fst snd]. apply (norm_arrays_cast _ _ _ _ _ _ _ (convert_nolist E d vs HL) Et).
Qed.
Lemma call_plain_ok : forall E h d stl ins s r s', (if o_excs d then None else find_exc ins) = None ->
  call_plain E h d stl ins s = (OOk r, s') ->
  exists p o, prepare E d (map rval ins) (map runit ins) (map rref ins) = Ok p /\
    o_impl d h (fst (fst (fst p))) (snd (fst (fst p))) (map rref ins) stl s = (OOk o, s') /\ r = finish d (snd (fst p)) (snd p) o.
Proof.
  intros E h d stl ins s r s' HE H. unfold call_plain in H. rewrite HE in H. unfold bind, lift, ret in H.
  destruct (prepare E d (map rval ins) (map runit ins) (map rref ins)) as [p| |].
  - destruct (o_impl d h (fst (fst (fst p))) (snd (fst (fst p))) (map rref ins) stl s) as [[o|e| |] s1] eqn:Eo.
    + inversion H; subst. exists p, o. auto.
    + destruct (wrapped e); [discriminate|]. destruct (forallb (e_tostr E) ins); discriminate.
    + destruct (forallb (e_tostr E) ins); discriminate.
    + discriminate.
  - cbn [wrapped] in H. destruct (forallb (e_tostr E) ins); discriminate.
  - destruct (forallb (e_tostr E) ins); discriminate.
Qed.
(** The format of a number returned for scalar inputs. *)
Lemma result_format : forall E h d stl ins s r s' n, direct d ins -> (forall x l, In x ins -> rval x <> VList l) ->
  (o_excs d = true \/ forall x e, In x ins -> rval x <> VExc e) ->
  ordered (o_vals d) -> Forall (fun x => rs_from x <= match rs_to x with Some t => t | None => rs_from x end) (o_vals d) ->
  o_autoin d = true -> o_autores d = true ->
  call E h d stl ins s = (OOk r, s') -> rval r = VNum n ->
  exists c, first_format E d (map rval ins) c /\
    (forall k, c = Some k -> ncast n = Some k) /\
    (c = None -> exists vs us o, o_impl d h vs us (map rref ins) stl s = (OOk o, s') /\ or_val o = VNum n).
Proof.
  intros E h d stl ins s r s' n HD HL HX HO HF HA HR HC HN. rewrite (call_direct E h d stl ins s HD) in HC.
  apply call_plain_ok in HC.
  - destruct HC as (p & o & H1 & H2 & H3). exists (snd (convert_numbers E d (map rval ins))).
    split; [apply convert_first_format; auto|].
    apply prepare_cast in H1 as H4; auto.
    + rewrite <- H4. subst r. unfold finish in HN. cbn [rval mkRes] in HN. rewrite HR in HN.
      destruct (or_val o) as [|n0| | | | | |] eqn:Eo; try discriminate. inversion HN as [HN']. split.
      * intros k Hk. rewrite Hk. reflexivity.
      * intros Hk. rewrite Hk. eauto.
    + intros l Hl. apply in_map_iff in Hl. destruct Hl as (x & E1 & E2). apply (HL x l); auto.
  - destruct HX as [->|HX]; auto. destruct (o_excs d); auto. destruct (find_exc ins) as [x|] eqn:Ef; auto. exfalso.
    unfold find_exc in Ef. apply find_some in Ef. destruct Ef as [F1 F2]. destruct (rval x) eqn:Ex; try discriminate.
    apply (HX x e); auto.
Qed.
(** Acceptable inputs reach the implementation. *)
Lemma accepted_runs : forall E h d stl ins s, direct d ins -> answers E d -> acceptable E d ins ->
  (o_excs d = true \/ forall r, In r ins -> forall e, rval r <> VExc e) ->
  (exists p, prepare E d (map rval ins) (map runit ins) (map rref ins) = Ok p /\
     call E h d stl ins s = wrap_outcome E d ins
       (bind (o_impl d h (fst (fst (fst p))) (snd (fst (fst p))) (map rref ins) stl) (fun o => ret (finish d (snd (fst p)) (snd p) o)) s)) \/
  prepare E d (map rval ins) (map runit ins) (map rref ins) <> Calc /\ prepare E d (map rval ins) (map runit ins) (map rref ins) = Py \/
  prepare E d (map rval ins) (map runit ins) (map rref ins) = Calc.
Proof.
  intros E h d stl ins s H1 H2 H3 H4. rewrite (call_direct E h d stl ins s H1). unfold call_plain.
  assert (HE : (if o_excs d then None else find_exc ins) = None).
  { destruct H4 as [->|H4]; auto. destruct (o_excs d); auto. destruct (find_exc ins) as [r|] eqn:Ef; auto. exfalso.
    unfold find_exc in Ef. apply find_some in Ef. destruct Ef as [F1 F2]. specialize (H4 r F1). destruct (rval r); try discriminate.
    apply (H4 e). reflexivity. }
  rewrite HE. destruct (prepare E d (map rval ins) (map runit ins) (map rref ins)) as [p| |]; auto.
  - left. exists p. split; [reflexivity|]. unfold wrap_outcome. unfold bind at 1, lift. destruct (bind _ _ s) as [[a|e| |] s1]; reflexivity.
  - right. left. split; auto. discriminate.
Qed.
(** Without a unit normaliser, on scalars, preparation succeeds exactly on acceptable inputs. *)
Lemma norm_arrays_scalar : forall E d vs i c ru, (forall l, ~ In (VList l) vs) -> norm_arrays E d i vs c ru = Ok (vs, c, ru).
Proof.
  intros E d. induction vs as [|v r IH]; intros i c ru H; cbn [norm_arrays]; auto.
  assert (HN : forall l, v <> VList l) by (intros l E0; apply (H l); left; auto).
  destruct v; try (exfalso; eapply HN; reflexivity); cbn [obind fst snd];
    rewrite (IH (S i) c ru (fun l Hl => H l (or_intror Hl))); reflexivity.
Qed.
Lemma prepare_scalar : forall E d ins, e_norm E = None \/ o_norm d = false -> answers E d -> acceptable E d ins ->
  (forall x l, In x ins -> rval x <> VList l) ->
  prepare E d (map rval ins) (map runit ins) (map rref ins) =
    Ok (fst (if o_autoin d then convert_numbers E d (map rval ins) else (map rval ins, None)), map runit ins,
        snd (if o_autoin d then convert_numbers E d (map rval ins) else (map rval ins, None)), None).
Proof.
  intros E d ins HN HA HC HL. unfold prepare. rewrite (validate_complete E d ins HA HC). cbn [obind].
  assert (HV : forall l, ~ In (VList l) (map rval ins)).
  { intros l Hl. apply in_map_iff in Hl. destruct Hl as (x & E1 & E2). apply (HL x l); auto. }
  destruct (all_numbers E d 0 _).
  - destruct HN as [HN|HN]; rewrite HN; [reflexivity | destruct (e_norm E); reflexivity].
  - rewrite norm_arrays_scalar; [reflexivity|]. destruct (o_autoin d); [apply convert_nolist; auto | exact HV].
Qed.
Lemma accepted_scalar : forall E h d stl ins s, direct d ins -> e_norm E = None \/ o_norm d = false -> answers E d -> acceptable E d ins ->
  (forall x l, In x ins -> rval x <> VList l) ->
  (o_excs d = true \/ forall r, In r ins -> forall e, rval r <> VExc e) ->
  let p := if o_autoin d then convert_numbers E d (map rval ins) else (map rval ins, None) in
  call E h d stl ins s = wrap_outcome E d ins
    (bind (o_impl d h (fst p) (map runit ins) (map rref ins) stl) (fun o => ret (finish d (snd p) None o)) s).
Proof.
  intros E h d stl ins s H1 HN H2 H3 HL H4 p.
  destruct (accepted_runs E h d stl ins s H1 H2 H3 H4) as [(q & Hq & Hc)|[[_ HP]|HP]];
    rewrite (prepare_scalar E d ins HN H2 H3 HL) in *; try discriminate.
  inversion Hq; subst q. cbn [fst snd] in Hc. exact Hc.
Qed.
