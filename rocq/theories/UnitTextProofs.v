(** The operator loop on quantities: numbers beside units, then sums, then a conversion. *)
From Coq Require Import ZArith QArith Ascii String List Bool Lia.
From Verif Require Import Base BaseProofs Dec Num Bases Formats Units UnitsProofs5 Syntax Pos Call Loop Parse Exec Std UnitCalc.
Import ListNotations.
Open Scope nat_scope.

(** * Where nothing is to be done *)
Definition three : list str := [$"+"; $"-"; $"to"].
Definition calm_at (p : option slot) (x : slot) : Prop :=
  match x with
  | SOp s _ => In s three
  | SRes _ _ => match p with Some q => if slot_unit x then slot_unit q = false else slot_op q = true | None => True end
  end.
Fixpoint calm (p : option slot) (sl : list slot) : Prop := match sl with [] => True | x :: r => calm_at p x /\ calm (Some x) r end.
Definition before (p : option slot) (sl : list slot) (i : nat) : option slot := match i with O => p | S j => nth_error sl j end.
Lemma calm_nth p sl i x : calm p sl -> nth_error sl i = Some x -> calm_at (before p sl i) x.
Proof.
  revert p i. induction sl as [|y sl IH]; intros p i C E; [destruct i; discriminate|]. destruct C as [H1 H2]. destruct i as [|i]; [injection E as <-; exact H1|].
  specialize (IH (Some y) i H2 E). destruct i; exact IH.
Qed.
Definition quiet_level (l : level) : bool :=
  negb (in_level (Some ($"UNIT_ASSIGNMENT")) l) && forallb (fun s => negb (mem_str s (map fst l))) three.
Lemma three_not s x : In s three -> mem_str x three = false -> seq_eqb x s = false.
Proof. intros H K. apply not_true_iff_false. intros E. apply seq_eqb_iff in E. subst x. apply mem_str_iff in H. congruence. Qed.
Lemma prev_at (f : slot -> bool) sl i p : before None sl i = p -> match i with O => false | S j => at_slot f sl j end = match p with Some q => f q | None => false end.
Proof. intros <-. destruct i; reflexivity. Qed.
Lemma quiet_action U l sl i : quiet_level l = true -> calm None sl -> action (unit_table U) l sl i = None.
Proof.
  intros Q C. apply andb_prop in Q as [Q1 Q2]. apply negb_true_iff in Q1. rewrite forallb_forall in Q2. unfold action. destruct (nth_error sl i) as [x|] eqn:E; [|reflexivity].
  pose proof (calm_nth None sl i x C E) as K. cbv zeta. change (t_uassign (unit_table U)) with (Some ($"UNIT_ASSIGNMENT")). rewrite Q1. cbn [andb].
  change (t_umul (unit_table U)) with (Some ($"UNIT_MULTIPLY")). change (t_udiv (unit_table U)) with (Some ($"UNIT_DIVIDE")). change (t_div (unit_table U)) with (Some ($"/")).
  change (t_imul (unit_table U)) with (Some ($"IMPLICIT_MULTIPLY")). rewrite (prev_at slot_unit sl i _ eq_refl), (prev_at slot_op sl i _ eq_refl).
  destruct x as [s j|r j]; cbn [calm_at] in K.
  - cbn [slot_unit slot_op opt_is negb]. rewrite (three_not s ($"/") K eq_refl), !andb_false_r. cbn [andb]. specialize (Q2 s K). apply negb_true_iff in Q2. rewrite Q2. reflexivity.
  - destruct (before None sl i) as [q|] eqn:B.
    + destruct (slot_unit (SRes r j)) eqn:Su.
      * rewrite K, !andb_false_r. reflexivity.
      * rewrite !andb_false_r. cbn [andb]. rewrite K. rewrite !andb_false_r. reflexivity.
    + destruct i as [|i]; [rewrite !andb_false_r; reflexivity|]. cbn [before] in B. apply nth_error_None in B.
      assert (S i < length sl) by (apply nth_error_Some; congruence). lia.
Qed.
Lemma scan_quiet U l sl is : (forall i, action (unit_table U) l sl i = None) -> scan (unit_table U) l sl is = None.
Proof. intros H. induction is as [|i is IH]; [reflexivity|]. cbn [scan]. rewrite H. exact IH. Qed.
Lemma scan_first T l sl i s w : (forall j, j < i -> action T l sl j = None) -> action T l sl i = Some (s, w) -> i < length sl -> scan T l sl (seq 0 (length sl)) = Some (i, s, w).
Proof.
  intros H1 H2 Hi. assert (E : seq 0 (length sl) = seq 0 i ++ i :: seq (S i) (length sl - S i)).
  { replace (length sl) with (i + S (length sl - S i)) at 1 by lia. rewrite seq_app. reflexivity. }
  rewrite E. assert (G : forall a, (forall j, In j a -> action T l sl j = None) -> scan T l sl (a ++ i :: seq (S i) (length sl - S i)) = Some (i, s, w)).
  { induction a as [|j a IH]; intros Ha; cbn [app scan]; [rewrite H2; reflexivity|]. rewrite (Ha j) by (left; reflexivity). apply IH. intros k Hk. apply Ha. right. exact Hk. }
  apply G. intros j Hj. apply in_seq in Hj. apply H1. lia.
Qed.

(** * The levels *)
Definition assign_level (U : ucfg) : level := nth 3 (unit_levels U) [].
Definition sum_level (U : ucfg) : level := nth 6 (unit_levels U) [].
Definition to_level (U : ucfg) : level := nth 14 (unit_levels U) [].
Lemma levels_are U : unit_levels U = firstn 3 (unit_levels U) ++ assign_level U :: firstn 2 (skipn 4 (unit_levels U)) ++ sum_level U :: firstn 7 (skipn 7 (unit_levels U)) ++ to_level U :: skipn 15 (unit_levels U).
Proof. reflexivity. Qed.
Lemma quiet_before U : forallb quiet_level (firstn 3 (unit_levels U)) = true. Proof. reflexivity. Qed.
Lemma quiet_between U : forallb quiet_level (firstn 2 (skipn 4 (unit_levels U))) = true. Proof. reflexivity. Qed.
Lemma quiet_after U : forallb quiet_level (firstn 7 (skipn 7 (unit_levels U))) = true. Proof. reflexivity. Qed.
Lemma quiet_last U : forallb quiet_level (skipn 15 (unit_levels U)) = true. Proof. reflexivity. Qed.
Lemma rtl_known U l : In l (unit_levels U) -> exists b, level_rtl (unit_table U) l = Ok b.
Proof.
  intros H. assert (G : forallb (fun l => match level_rtl (unit_table U) l with Ok _ => true | _ => false end) (unit_levels U) = true) by reflexivity.
  rewrite forallb_forall in G. specialize (G l H). destruct (level_rtl (unit_table U) l) as [b| |]; try discriminate G. exists b. reflexivity.
Qed.
Lemma levels_skip U ls rest sl : (forall l, In l ls -> In l (unit_levels U) /\ forall i, action (unit_table U) l sl i = None) ->
  scan_levels (unit_table U) (ls ++ rest) sl = scan_levels (unit_table U) rest sl.
Proof.
  induction ls as [|l ls IH]; intros H; [reflexivity|]. cbn [app scan_levels]. destruct (H l (or_introl eq_refl)) as [Hl Ha]. destruct (rtl_known U l Hl) as [b ->]. cbn [obind].
  rewrite (scan_quiet U l sl _ Ha). apply IH. intros m Hm. apply H. right. exact Hm.
Qed.
Lemma quiet_skip U ls rest sl : incl ls (unit_levels U) -> forallb quiet_level ls = true -> calm None sl ->
  scan_levels (unit_table U) (ls ++ rest) sl = scan_levels (unit_table U) rest sl.
Proof.
  intros Hi Hq Hc. apply levels_skip. intros l Hl. split; [apply Hi, Hl|]. intros i. apply quiet_action; [|exact Hc]. rewrite forallb_forall in Hq. apply Hq, Hl.
Qed.
Lemma incl_first {A} (l : list A) n : incl (firstn n l) l. Proof. intros x H. rewrite <- (firstn_skipn n l). apply in_or_app. left. exact H. Qed.
Lemma incl_skip {A} (l : list A) n : incl (skipn n l) l. Proof. intros x H. rewrite <- (firstn_skipn n l). apply in_or_app. right. exact H. Qed.

(** ** A number beside a unit *)
Definition is_num (x : slot) : Prop := slot_op x = false /\ slot_unit x = false.
Definition no_pair (p : option slot) (x : slot) : Prop := slot_unit x = true -> match p with Some q => slot_op q = true | None => False end.
Lemma assign_none U sl i : calm None sl -> (forall x, nth_error sl i = Some x -> no_pair (before None sl i) x) -> action (unit_table U) (assign_level U) sl i = None.
Proof.
  intros C N. unfold action. destruct (nth_error sl i) as [x|] eqn:E; [|reflexivity]. specialize (N x eq_refl). pose proof (calm_nth None sl i x C E) as K. cbv zeta.
  change (t_umul (unit_table U)) with (Some ($"UNIT_MULTIPLY")). change (t_udiv (unit_table U)) with (Some ($"UNIT_DIVIDE")). change (t_imul (unit_table U)) with (Some ($"IMPLICIT_MULTIPLY")).
  change (in_level (Some ($"UNIT_MULTIPLY")) (assign_level U)) with false. change (in_level (Some ($"UNIT_DIVIDE")) (assign_level U)) with false.
  change (in_level (Some ($"IMPLICIT_MULTIPLY")) (assign_level U)) with false. cbn [andb]. rewrite (prev_at slot_unit sl i _ eq_refl), (prev_at slot_op sl i _ eq_refl).
  destruct (slot_unit x) eqn:Su.
  - specialize (N Su). destruct (before None sl i) as [q|]; [|destruct N]. rewrite N, !andb_false_r. cbn [andb]. destruct x as [s j|r j]; [discriminate Su|reflexivity].
  - rewrite !andb_false_r. cbn [andb]. destruct x as [s j|r j]; [|reflexivity]. cbn [calm_at] in K.
    replace (mem_str s (map fst (assign_level U))) with false; [reflexivity|]. symmetry. change (map fst (assign_level U)) with [$"UNIT_ASSIGNMENT"].
    destruct K as [<-|[<-|[<-|[]]]]; reflexivity.
Qed.
Lemma nth_app_l {A} (a b : list A) i : i < length a -> nth_error (a ++ b) i = nth_error a i. Proof. apply nth_error_app1. Qed.
Lemma assign_some U a n u b : is_num n -> slot_unit u = true -> action (unit_table U) (assign_level U) (a ++ n :: u :: b) (S (length a)) = Some ($"UNIT_ASSIGNMENT", 0).
Proof.
  intros [N1 N2] Hu. unfold action. rewrite nth_error_app2 by lia. replace (S (length a) - length a) with 1 by lia. cbn [nth_error]. cbv zeta.
  change (t_uassign (unit_table U)) with (Some ($"UNIT_ASSIGNMENT")). change (in_level (Some ($"UNIT_ASSIGNMENT")) (assign_level U)) with true. rewrite Hu. cbn [andb].
  unfold at_slot. rewrite nth_error_app2 by lia. rewrite Nat.sub_diag. cbn [nth_error]. rewrite N1, N2. reflexivity.
Qed.
Lemma first_pair U a n u b : calm None (a ++ n :: u :: b) -> Forall (fun x => slot_unit x = false) a -> is_num n -> slot_unit u = true ->
  scan_levels (unit_table U) (t_levels (unit_table U)) (a ++ n :: u :: b) = Ok (Some (S (length a), $"UNIT_ASSIGNMENT", 0)).
Proof.
  intros C F Hn Hu. change (t_levels (unit_table U)) with (unit_levels U). rewrite levels_are. rewrite quiet_skip; [|apply incl_first|apply quiet_before|exact C].
  cbn [scan_levels]. replace (level_rtl (unit_table U) (assign_level U)) with (Ok false) by reflexivity. cbn [obind].
  rewrite (scan_first _ _ _ (S (length a)) ($"UNIT_ASSIGNMENT") 0); [reflexivity| |apply assign_some; assumption|rewrite app_length; cbn [length]; lia].
  intros j Hj. apply assign_none; [exact C|]. intros x Hx. destruct (Nat.eq_dec j (length a)) as [->|Nj].
  - rewrite nth_error_app2, Nat.sub_diag in Hx by lia. injection Hx as <-. intros K. rewrite (proj2 Hn) in K. discriminate K.
  - rewrite nth_error_app1 in Hx by lia. rewrite Forall_forall in F. intros K. rewrite (F x (nth_error_In _ _ Hx)) in K. discriminate K.
Qed.

(** ** A sum, and a conversion *)
Lemma op_some U l s j q r x y : In s three -> mem_str s (map fst l) = true -> slot_unit x = false -> slot_op x = false -> in_level (Some ($"UNIT_ASSIGNMENT")) l = false ->
  action (unit_table U) l (x :: SOp s j :: y :: r) 1 = Some (s, 1) /\ (in_level (Some ($"IMPLICIT_MULTIPLY")) l = q -> action (unit_table U) l (x :: SOp s j :: y :: r) 0 = None).
Proof.
  intros Hs Hm Hx Ho Ha. split.
  - unfold action. cbn [nth_error]. cbv zeta. cbn [slot_unit slot_op negb]. rewrite !andb_false_r. cbn [andb].
    change (t_umul (unit_table U)) with (Some ($"UNIT_MULTIPLY")). change (t_udiv (unit_table U)) with (Some ($"UNIT_DIVIDE")). change (t_div (unit_table U)) with (Some ($"/")).
    change (t_imul (unit_table U)) with (Some ($"IMPLICIT_MULTIPLY")). cbn [opt_is]. rewrite (three_not s ($"/") Hs eq_refl), !andb_false_r. cbn [andb]. rewrite Hm.
    rewrite (three_not s ($"UNIT_MULTIPLY") Hs eq_refl), (three_not s ($"UNIT_DIVIDE") Hs eq_refl), (three_not s ($"IMPLICIT_MULTIPLY") Hs eq_refl). cbn [orb negb andb]. rewrite orb_true_r. reflexivity.
  - intros _. unfold action. cbn [nth_error]. cbv zeta. rewrite Hx. replace (0 <? 0) with false by reflexivity. rewrite !andb_false_r. cbn [andb].
    destruct x as [s0 j0|r0 j0]; [discriminate Ho|]. reflexivity.
Qed.
(** Every unit stands after an operator. *)
Fixpoint no_pairs (p : option slot) (sl : list slot) : Prop := match sl with [] => True | x :: r => no_pair p x /\ no_pairs (Some x) r end.
Lemma pairs_nth p sl i x : no_pairs p sl -> nth_error sl i = Some x -> no_pair (before p sl i) x.
Proof.
  revert p i. induction sl as [|y sl IH]; intros p i C E; [destruct i; discriminate|]. destruct C as [H1 H2]. destruct i as [|i]; [injection E as <-; exact H1|].
  specialize (IH (Some y) i H2 E). destruct i; exact IH.
Qed.
Lemma first_sum U s j x y r : s = $"+" \/ s = $"-" -> calm None (x :: SOp s j :: y :: r) -> no_pairs None (x :: SOp s j :: y :: r) -> is_num x ->
  scan_levels (unit_table U) (t_levels (unit_table U)) (x :: SOp s j :: y :: r) = Ok (Some (1, s, 1)).
Proof.
  intros Hs C N [X1 X2]. change (t_levels (unit_table U)) with (unit_levels U). rewrite levels_are. rewrite quiet_skip; [|apply incl_first|apply quiet_before|exact C].
  change (assign_level U :: ?t) with ([assign_level U] ++ t). rewrite levels_skip.
  2: { intros l [<-|[]]. split; [unfold assign_level; apply nth_In; cbn; lia|]. intros i. apply assign_none; [exact C|]. intros z Hz. exact (pairs_nth None _ i z N Hz). }
  rewrite quiet_skip; [|intros l Hl; eapply incl_skip, incl_first, Hl|apply quiet_between|exact C].
  assert (S3 : In s three) by (destruct Hs as [->| ->]; unfold three; cbn [In]; auto).
  assert (Sm : mem_str s (map fst (sum_level U)) = true) by (destruct Hs as [->| ->]; reflexivity).
  destruct (op_some U (sum_level U) s j false r x y S3 Sm X2 X1 eq_refl) as [A1 A0].
  cbn [scan_levels]. replace (level_rtl (unit_table U) (sum_level U)) with (Ok false) by reflexivity. cbn [obind].
  rewrite (scan_first _ _ _ 1 s 1); [reflexivity| |exact A1|cbn; lia]. intros i Hi. replace i with 0 by lia. apply A0. reflexivity.
Qed.
Lemma first_to U j v w k1 y k2 : 
  scan_levels (unit_table U) (t_levels (unit_table U)) [SRes (mkRes (VNum v) (Some w) None) k1; SOp ($"to") j; SRes (mkRes (VUnit y) None (Some ROther)) k2] = Ok (Some (1, $"to", 1)).
Proof. reflexivity. Qed.
Lemma first_none U v w k : scan_levels (unit_table U) (t_levels (unit_table U)) [SRes (mkRes (VNum v) (Some w) None) k] = Ok None.
Proof. reflexivity. Qed.

(** * Running *)
Lemma loop_next fuel T orig call sl i sym w sl' (s s' : st) : scan_levels T (t_levels T) sl = Ok (Some (i, sym, w)) -> run_op T orig call sl i sym w s = (OOk sl', s') ->
  op_loop (S fuel) T orig call sl s = op_loop fuel T orig call sl' s'.
Proof. intros H1 H2. cbn [op_loop]. rewrite H1. unfold bind. rewrite H2. reflexivity. Qed.
Lemma run_infix T orig call a x y b xi mid (w : nat) sym d (s s' : st) r z : find_op T sym = Some (mkOper [None] [None] false d) ->
  (w = 0 /\ mid = [] /\ z = y) \/ (w = 1 /\ mid = [z] /\ exists j, z = SOp sym j) -> 
  x = SRes (fst xi) (snd xi) -> forall yr yk, y = SRes yr yk -> call sym [fst xi; yr] s = (OOk r, s') ->
  run_op T orig call (a ++ x :: mid ++ y :: b) (S (length a)) sym w s = (OOk (a ++ SRes r (slot_idx z) :: b), s').
Proof.
  intros Hf Hw Hx yr yk Hy Hc. unfold run_op. rewrite Hf. cbn [op_l op_r length].
  assert (Hz : nth_error (a ++ x :: mid ++ y :: b) (S (length a)) = Some z).
  { rewrite nth_error_app2 by lia. replace (S (length a) - length a) with 1 by lia. destruct Hw as [(_ & -> & ->)|(_ & -> & _)]; reflexivity. }
  rewrite Hz. replace (S (length a) <? 1) with false by (symmetry; apply Nat.ltb_ge; lia).
  assert (Hl : length (a ++ x :: mid ++ y :: b) <? S (length a) + 1 + w = false).
  { apply Nat.ltb_ge. rewrite app_length. cbn [length]. rewrite app_length. cbn [length]. destruct Hw as [(-> & -> & _)|(-> & -> & _)]; cbn [length]; lia. }
  rewrite Hl. replace (S (length a) - 1) with (length a) by lia.
  assert (F1 : firstn (length a) (a ++ x :: mid ++ y :: b) = a) by (rewrite firstn_app, Nat.sub_diag, firstn_all; cbn [firstn]; apply app_nil_r).
  assert (K1 : skipn (length a) (a ++ x :: mid ++ y :: b) = x :: mid ++ y :: b) by (rewrite skipn_app, Nat.sub_diag, skipn_all; reflexivity).
  assert (K2 : skipn (S (length a) + w) (a ++ x :: mid ++ y :: b) = y :: b).
  { rewrite skipn_app. rewrite skipn_all2 by lia. replace (S (length a) + w - length a) with (S w) by lia. destruct Hw as [(-> & -> & _)|(-> & -> & _)]; reflexivity. }
  assert (K3 : skipn (S (length a) + w + 1) (a ++ x :: mid ++ y :: b) = b).
  { rewrite skipn_app. rewrite skipn_all2 by lia. replace (S (length a) + w + 1 - length a) with (S (S w)) by lia. destruct Hw as [(-> & -> & _)|(-> & -> & _)]; reflexivity. }
  rewrite F1, K1, K2, K3. cbn [firstn app]. subst x y. unfold bind. cbn [take_inputs]. unfold bind, ret. rewrite Hc. reflexivity.
Qed.
