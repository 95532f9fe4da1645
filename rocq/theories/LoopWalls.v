(** The operator loop on parts of the items with an operator between them that is looser than all in the parts: every part is
    worked out as if it stood alone. *)
From Coq Require Import ZArith QArith Ascii String List Bool Lia.
From Verif Require Import Base BaseProofs Dec Num Bases Units Syntax Call Loop LoopSpec LoopProofs.
Import ListNotations.
Open Scope nat_scope.

(** * Where something is to be run *)
Lemma at_left f X Y i : i < length X -> at_slot f (X ++ Y) i = at_slot f X i.
Proof. intros H. unfold at_slot. rewrite nth_error_app1 by exact H. reflexivity. Qed.
Lemma at_right f X Y i : at_slot f (X ++ Y) (length X + i) = at_slot f Y i.
Proof. unfold at_slot. rewrite nth_error_app2 by lia. replace (length X + i - length X) with i by lia. reflexivity. Qed.
Lemma at_beyond f X i : length X <= i -> at_slot f X i = false.
Proof. intros H. unfold at_slot. apply nth_error_None in H. rewrite H. reflexivity. Qed.
Lemma action_left T l X q j Y i : i < length X -> action T l (X ++ SOp q j :: Y) i = action T l X i.
Proof.
  intros H. unfold action. rewrite nth_error_app1 by exact H. destruct (nth_error X i) as [x|]; [|reflexivity]. cbv zeta.
  assert (N : at_slot slot_unit (X ++ SOp q j :: Y) (S i) = at_slot slot_unit X (S i)).
  { destruct (Nat.eq_dec (S i) (length X)) as [E|E]; [|apply at_left; lia]. rewrite (at_beyond _ X) by lia. rewrite E.
    rewrite <- (Nat.add_0_r (length X)), at_right. reflexivity. }
  rewrite N. destruct i as [|k]; [reflexivity|]. rewrite !(at_left _ X _ k) by lia. reflexivity.
Qed.
Lemma action_right T l X q j Y i : action T l (X ++ SOp q j :: Y) (S (length X) + i) = action T l Y i.
Proof.
  replace (X ++ SOp q j :: Y) with ((X ++ [SOp q j]) ++ Y) by (rewrite <- app_assoc; reflexivity).
  replace (S (length X) + i) with (length (X ++ [SOp q j]) + i) by (rewrite app_length; cbn; lia).
  assert (L : length (X ++ [SOp q j]) = S (length X)) by (rewrite app_length; cbn; lia).
  unfold action. rewrite nth_error_app2 by lia. replace (length (X ++ [SOp q j]) + i - length (X ++ [SOp q j])) with i by lia.
  destruct (nth_error Y i) as [x|] eqn:E; [|reflexivity]. cbv zeta. rewrite plus_n_Sm, at_right. destruct i as [|k].
  - rewrite L, Nat.add_0_r. cbn match. assert (W : forall f, at_slot f ((X ++ [SOp q j]) ++ Y) (length X) = f (SOp q j)).
    { intros f. rewrite <- app_assoc. rewrite <- (Nat.add_0_r (length X)), at_right. reflexivity. }
    rewrite !W. cbn [slot_op slot_unit]. cbn [Nat.ltb Nat.leb negb]. rewrite !andb_false_r, !andb_false_l. reflexivity.
  - rewrite <- plus_n_Sm. cbn match. rewrite !at_right. reflexivity.
Qed.
(** Nothing is run at such an operator *)
Definition wall (T : optable) (ls : list level) (q : str) : Prop := opt_is (t_div T) q = false /\ Forall (fun l : level => mem_str q (map fst l) = false) ls.
Lemma action_wall T l X q j Y : opt_is (t_div T) q = false -> mem_str q (map fst l) = false -> action T l (X ++ SOp q j :: Y) (length X) = None.
Proof.
  intros D H. unfold action. rewrite nth_error_app2, Nat.sub_diag by lia. cbn [nth_error slot_unit slot_op negb]. cbv zeta.
  rewrite D, H, !andb_false_r. cbn [andb]. rewrite ?andb_false_r. reflexivity.
Qed.

Lemma scan_app T l sl A B : scan T l sl (A ++ B) = match scan T l sl A with Some x => Some x | None => scan T l sl B end.
Proof. induction A as [|i A IH]; cbn [app scan]; [reflexivity|]. destruct (action T l sl i) as [[s w]|]; [reflexivity|exact IH]. Qed.
Lemma scan_ext T l sl sl' A : (forall i, In i A -> action T l sl i = action T l sl' i) -> scan T l sl A = scan T l sl' A.
Proof.
  induction A as [|i A IH]; intros H; cbn [scan]; [reflexivity|]. rewrite (H i) by (left; reflexivity). destruct (action T l sl' i) as [[s w]|]; [reflexivity|].
  apply IH. intros k Hk. apply H. right. exact Hk.
Qed.
Definition shifted (n : nat) (x : option (nat * str * nat)) : option (nat * str * nat) := match x with Some (i, s, w) => Some (n + i, s, w) | None => None end.
Lemma scan_shift T l n sl sl' A : (forall i, action T l sl (n + i) = action T l sl' i) -> scan T l sl (map (Nat.add n) A) = shifted n (scan T l sl' A).
Proof.
  intros H. induction A as [|i A IH]; cbn [map scan]; [reflexivity|]. rewrite H. destruct (action T l sl' i) as [[s w]|]; [reflexivity|exact IH].
Qed.
Lemma seq_plus n k : seq n k = map (Nat.add n) (seq 0 k).
Proof.
  revert n. induction k as [|k IH]; intros n; cbn [seq map]; [reflexivity|]. rewrite Nat.add_0_r. f_equal. rewrite IH, (IH 1), map_map. apply map_ext. intros i. lia.
Qed.
Lemma scan_both T l X q j Y (rtl : bool) : opt_is (t_div T) q = false -> mem_str q (map fst l) = false ->
  let sl := X ++ SOp q j :: Y in
  let x := scan T l X (if rtl then rev (seq 0 (length X)) else seq 0 (length X)) in
  let y := shifted (S (length X)) (scan T l Y (if rtl then rev (seq 0 (length Y)) else seq 0 (length Y))) in
  scan T l sl (if rtl then rev (seq 0 (length sl)) else seq 0 (length sl)) =
  if rtl then match y with Some _ => y | None => x end else match x with Some _ => x | None => y end.
Proof.
  intros D W sl x y. assert (E : seq 0 (length sl) = seq 0 (length X) ++ [length X] ++ map (Nat.add (S (length X))) (seq 0 (length Y))).
  { unfold sl. rewrite app_length. cbn [length]. rewrite seq_app. cbn [Nat.add seq app]. rewrite (seq_plus (S (length X))). reflexivity. }
  assert (SX : forall A, (forall i, In i A -> i < length X) -> scan T l sl A = scan T l X A).
  { intros A HA. apply scan_ext. intros i Hi. apply action_left, HA, Hi. }
  assert (SY : forall A, scan T l sl (map (Nat.add (S (length X))) A) = shifted (S (length X)) (scan T l Y A)).
  { intros A. apply scan_shift. intros i. apply action_right. }
  assert (SW : scan T l sl [length X] = None) by (cbn [scan]; unfold sl; rewrite action_wall by assumption; reflexivity).
  rewrite E. destruct rtl.
  - rewrite !rev_app_distr, <- map_rev. cbn [rev app]. rewrite <- app_assoc, scan_app, SY. cbn [app]. fold y. destruct y; [reflexivity|].
    change (length X :: rev (seq 0 (length X))) with ([length X] ++ rev (seq 0 (length X))). rewrite scan_app, SW, SX; [reflexivity|].
    intros i Hi. apply in_rev in Hi. apply in_seq in Hi. lia.
  - rewrite scan_app, SX. 2: { intros i Hi. apply in_seq in Hi. lia. }
    fold x. destruct x; [reflexivity|]. rewrite scan_app, SW, SY. reflexivity.
Qed.
Lemma levels_both T ls X q j Y : wall T ls q -> Forall (fun l => exists b, level_rtl T l = Ok b) ls ->
  (scan_levels T ls X = Ok None /\ scan_levels T ls Y = Ok None /\ scan_levels T ls (X ++ SOp q j :: Y) = Ok None) \/
  (exists x, scan_levels T ls X = Ok (Some x) /\ scan_levels T ls (X ++ SOp q j :: Y) = Ok (Some x)) \/
  (exists i s w, scan_levels T ls Y = Ok (Some (i, s, w)) /\ scan_levels T ls (X ++ SOp q j :: Y) = Ok (Some (S (length X) + i, s, w))).
Proof.
  intros [D W] R. induction ls as [|l ls IH]; [left; auto|]. apply Forall_cons_iff in W as [W W']. apply Forall_cons_iff in R as [[b B] R'].
  assert (U : forall sl, scan_levels T (l :: ls) sl = match scan T l sl (if b then rev (seq 0 (length sl)) else seq 0 (length sl)) with Some x => Ok (Some x) | None => scan_levels T ls sl end).
  { intros sl. cbn [scan_levels]. rewrite B. reflexivity. }
  pose proof (scan_both T l X q j Y b D W) as Sb. cbv zeta in Sb. rewrite (U (X ++ SOp q j :: Y)), (U X), (U Y), Sb.
  destruct (scan T l X (if b then rev (seq 0 (length X)) else seq 0 (length X))) as [x|] eqn:EX;
    destruct (scan T l Y (if b then rev (seq 0 (length Y)) else seq 0 (length Y))) as [[[i s] w]|] eqn:EY; cbn [shifted].
  - destruct b; [right; right; exists i, s, w; auto|right; left; exists x; auto].
  - right. left. exists x. destruct b; auto.
  - right. right. exists i, s, w. destruct b; auto.
  - replace (if b then None else None) with (@None (nat * str * nat)) by (destruct b; reflexivity). apply IH; assumption.
Qed.

(** * Running it *)
Lemma run_left T orig call X R i sym w s X1 s1 : run_op T orig call X i sym w s = (OOk X1, s1) -> run_op T orig call (X ++ R) i sym w s = (OOk (X1 ++ R), s1).
Proof.
  unfold run_op. destruct (find_op T sym) as [o|]; [|discriminate]. destruct (nth_error X i) as [x|] eqn:Ex; [|discriminate].
  assert (Hi : i < length X) by (apply nth_error_Some; congruence). rewrite nth_error_app1, Ex by exact Hi.
  destruct (i <? length (op_l o)) eqn:E1; [discriminate|]. apply Nat.ltb_ge in E1.
  destruct (length X <? i + length (op_r o) + w) eqn:E2; [discriminate|]. apply Nat.ltb_ge in E2.
  assert (E2' : length (X ++ R) <? i + length (op_r o) + w = false) by (apply Nat.ltb_ge; rewrite app_length; lia). rewrite E2'. cbv zeta.
  assert (F1 : firstn (length (op_l o)) (skipn (i - length (op_l o)) (X ++ R)) = firstn (length (op_l o)) (skipn (i - length (op_l o)) X)).
  { rewrite skipn_app. replace (i - length (op_l o) - length X) with 0 by lia. rewrite firstn_app, skipn_length. replace (length (op_l o) - (length X - (i - length (op_l o)))) with 0 by lia.
    cbn [firstn]. apply app_nil_r. }
  assert (F2 : firstn (length (op_r o)) (skipn (i + w) (X ++ R)) = firstn (length (op_r o)) (skipn (i + w) X)).
  { rewrite skipn_app. replace (i + w - length X) with 0 by lia. rewrite firstn_app, skipn_length. replace (length (op_r o) - (length X - (i + w))) with 0 by lia.
    cbn [firstn]. apply app_nil_r. }
  assert (F3 : firstn (i - length (op_l o)) (X ++ R) = firstn (i - length (op_l o)) X).
  { rewrite firstn_app. replace (i - length (op_l o) - length X) with 0 by lia. cbn [firstn]. apply app_nil_r. }
  assert (F4 : skipn (i + w + length (op_r o)) (X ++ R) = skipn (i + w + length (op_r o)) X ++ R).
  { rewrite skipn_app. replace (i + w + length (op_r o) - length X) with 0 by lia. reflexivity. }
  rewrite F1, F2, F3, F4. unfold bind. destruct (take_inputs _ _ _ _ _ s) as [[ins| | |] s2]; try discriminate.
  destruct (call sym ins s2) as [[r|e| |] s3]; try discriminate; unfold ret; intros H; inversion H; subst; cbn [app]; rewrite <- app_assoc; reflexivity.
Qed.
Lemma run_right T orig call P Y i sym w s Y1 s1 : run_op T orig call Y i sym w s = (OOk Y1, s1) -> run_op T orig call (P ++ Y) (length P + i) sym w s = (OOk (P ++ Y1), s1).
Proof.
  unfold run_op. destruct (find_op T sym) as [o|]; [|discriminate]. rewrite nth_error_app2 by lia. replace (length P + i - length P) with i by lia. destruct (nth_error Y i) as [x|] eqn:Ex; [|discriminate].
  destruct (i <? length (op_l o)) eqn:E1; [discriminate|]. apply Nat.ltb_ge in E1.
  assert (E1' : length P + i <? length (op_l o) = false) by (apply Nat.ltb_ge; lia). rewrite E1'.
  destruct (length Y <? i + length (op_r o) + w) eqn:E2; [discriminate|]. apply Nat.ltb_ge in E2.
  assert (E2' : length (P ++ Y) <? length P + i + length (op_r o) + w = false) by (apply Nat.ltb_ge; rewrite app_length; lia). rewrite E2'. cbv zeta.
  assert (Sk : forall n, skipn (length P + n) (P ++ Y) = skipn n Y).
  { intros n. rewrite skipn_app, skipn_all2 by lia. replace (length P + n - length P) with n by lia. reflexivity. }
  assert (Fk : forall n, firstn (length P + n) (P ++ Y) = P ++ firstn n Y).
  { intros n. rewrite firstn_app, firstn_all2 by lia. replace (length P + n - length P) with n by lia. reflexivity. }
  replace (length P + i - length (op_l o)) with (length P + (i - length (op_l o))) by lia. replace (length P + i + w) with (length P + (i + w)) by lia.
  replace (length P + (i + w) + length (op_r o)) with (length P + (i + w + length (op_r o))) by lia. rewrite !Sk, Fk.
  unfold bind. destruct (take_inputs _ _ _ _ _ s) as [[ins| | |] s2]; try discriminate.
  destruct (call sym ins s2) as [[r|e| |] s3]; try discriminate; unfold ret; intros H; inversion H; subst; rewrite <- app_assoc; reflexivity.
Qed.

(** * Working a part out *)
(** In [n] steps, using only the levels [ls] and leaving the state, the loop gets from [X] to [X'], where nothing is left to be
    done on these levels *)
Inductive settles (T : optable) (ls : list level) (orig : list item) (call : str -> list result -> M result) (s : st) : nat -> list slot -> list slot -> Prop :=
| settled X : scan_levels T ls X = Ok None -> settles T ls orig call s 0 X X
| settling n X i sym w X1 X2 : scan_levels T ls X = Ok (Some (i, sym, w)) -> run_op T orig call X i sym w s = (OOk X1, s) -> settles T ls orig call s n X1 X2 ->
    settles T ls orig call s (S n) X X2.
Lemma settle_both T ls orig call s q j : wall T ls q -> Forall (fun l => exists b, level_rtl T l = Ok b) ls ->
  forall k n m X X' Y Y', n + m = k -> settles T ls orig call s n X X' -> settles T ls orig call s m Y Y' ->
  settles T ls orig call s k (X ++ SOp q j :: Y) (X' ++ SOp q j :: Y').
Proof.
  intros W R. induction k as [k IH] using lt_wf_ind. intros n m X X' Y Y' E HX HY.
  destruct (levels_both T ls X q j Y W R) as [(A & B & C)|[(x & A & C)|(i & sy & w & A & C)]].
  - inversion HX as [? A'|? ? ? ? ? ? ? A']; subst; [|congruence]. inversion HY as [? B'|? ? ? ? ? ? ? B']; subst; [|congruence]. constructor. exact C.
  - inversion HX as [? A'|n' ? i' sy' w' X1 ? A' Hr Hs]; subst; [congruence|]. rewrite A' in A. injection A as <-.
    apply (settling T ls orig call s (n' + m) _ i' sy' w' (X1 ++ SOp q j :: Y)); [exact C|apply run_left, Hr|]. apply (IH (n' + m) ltac:(lia) n' m); auto.
  - inversion HY as [? A'|m' ? i' sy' w' Y1 ? A' Hr Hs]; subst; [congruence|]. rewrite A' in A. injection A as -> -> ->.
    replace (n + S m') with (S (n + m')) by lia. apply (settling T ls orig call s (n + m') _ (S (length X) + i) sy w (X ++ SOp q j :: Y1)); [exact C| |].
    + replace (X ++ SOp q j :: Y) with ((X ++ [SOp q j]) ++ Y) by (rewrite <- app_assoc; reflexivity). replace (X ++ SOp q j :: Y1) with ((X ++ [SOp q j]) ++ Y1) by (rewrite <- app_assoc; reflexivity).
      replace (S (length X) + i) with (length (X ++ [SOp q j]) + i) by (rewrite app_length; cbn; lia). apply run_right, Hr.
    + apply (IH (n + m') ltac:(lia) n m'); auto.
Qed.
Lemma levels_first T a b X x : scan_levels T a X = Ok (Some x) -> scan_levels T (a ++ b) X = Ok (Some x).
Proof.
  induction a as [|l a IH]; cbn [app scan_levels]; [discriminate|]. destruct (level_rtl T l) as [r| |]; try discriminate; cbn [obind]; cbv zeta.
  destruct (scan T l X _); [auto|exact IH].
Qed.
Lemma levels_none T a b X : scan_levels T a X = Ok None -> scan_levels T (a ++ b) X = scan_levels T b X.
Proof.
  induction a as [|l a IH]; cbn [app scan_levels]; [reflexivity|]. destruct (level_rtl T l) as [r| |]; try discriminate; cbn [obind]; cbv zeta.
  destruct (scan T l X _); [discriminate|exact IH].
Qed.
Lemma loop_settles T ls rest orig call s : t_levels T = ls ++ rest -> forall n X X', settles T ls orig call s n X X' ->
  forall f, op_loop (n + f) T orig call X s = op_loop f T orig call X' s.
Proof.
  intros E n X X' H. induction H as [X H|n X i sym w X1 X2 H Hr Hs IH]; intros f; [reflexivity|]. cbn [Nat.add op_loop]. rewrite E, (levels_first _ _ _ _ _ H).
  unfold bind. rewrite Hr. apply IH.
Qed.

(** * What the loop does alone is settling, if all operators are on the levels and leave the state *)
Definition tight_slot (ok : str -> Prop) (x : slot) : Prop := match x with SOp q _ => ok q | SRes _ _ => True end.
Definition of_table (T : optable) (q : str) : Prop := t_uassign T = Some q \/ t_umul T = Some q \/ t_udiv T = Some q \/ t_imul T = Some q.
Lemma in_level_some x l : in_level x l = true -> exists q, x = Some q /\ opt_get x = q /\ mem_str q (map fst l) = true.
Proof. destruct x as [q|]; cbn [in_level opt_get]; [exists q; auto|discriminate]. Qed.
Lemma action_ok T ok l X i sym w : Forall (tight_slot ok) X -> (forall q, of_table T q -> ok q) -> action T l X i = Some (sym, w) -> ok sym /\ mem_str sym (map fst l) = true.
Proof.
  intros HX HT. unfold action. destruct (nth_error X i) as [x|] eqn:E; [|discriminate]. cbv zeta.
  assert (Hx : tight_slot ok x) by (rewrite Forall_forall in HX; apply HX; apply nth_error_In in E; exact E).
  assert (Sp : forall y, y = t_uassign T \/ y = t_umul T \/ y = t_udiv T \/ y = t_imul T -> in_level y l = true -> ok (opt_get y) /\ mem_str (opt_get y) (map fst l) = true).
  { intros y Hy Hl. destruct (in_level_some y l Hl) as (q & Eq & -> & M). split; [|exact M]. apply HT. unfold of_table. rewrite Eq in Hy. intuition congruence. }
  do 4 (match goal with |- (if ?c then _ else _) = _ -> _ => let K := fresh "K" in destruct c eqn:K end;
    [intros H; injection H as <- <-; apply Sp; [tauto|]; repeat match goal with H : _ && _ = true |- _ => apply andb_true_iff in H; destruct H end; assumption|]).
  destruct x as [q k|r k]; [|discriminate]. cbn [tight_slot] in Hx.
  match goal with |- (if ?c then _ else _) = _ -> _ => destruct c eqn:K9 end; [|discriminate]. intros H. injection H as <- <-. split; [exact Hx|].
  apply andb_true_iff in K9 as [K9 _]. apply andb_true_iff in K9 as [K9 _]. exact K9.
Qed.
Lemma scan_ok T ok l X is i sym w : Forall (tight_slot ok) X -> (forall q, of_table T q -> ok q) -> scan T l X is = Some (i, sym, w) -> ok sym /\ mem_str sym (map fst l) = true.
Proof. intros HX HT H. apply scan_action in H. exact (action_ok T ok l X i sym w HX HT H). Qed.
Lemma levels_ok T ok ls X i sym w : Forall (tight_slot ok) X -> (forall q, of_table T q -> ok q) -> scan_levels T ls X = Ok (Some (i, sym, w)) ->
  ok sym /\ exists l, In l ls /\ mem_str sym (map fst l) = true.
Proof.
  intros HX HT. induction ls as [|l ls IH]; cbn [scan_levels]; [discriminate|]. destruct (level_rtl T l) as [r| |]; try discriminate; cbn [obind]; cbv zeta.
  destruct (scan T l X _) as [x|] eqn:E.
  - intros H. injection H as ->. destruct (scan_ok T ok l X _ i sym w HX HT E) as [A B]. split; [exact A|]. exists l. split; [left; reflexivity|exact B].
  - intros H. destruct (IH H) as [A (l' & B & C)]. split; [exact A|]. exists l'. split; [right; exact B|exact C].
Qed.
Lemma run_tight T orig call ok X i sym w s X1 s1 : Forall (tight_slot ok) X -> run_op T orig call X i sym w s = (OOk X1, s1) -> Forall (tight_slot ok) X1.
Proof.
  intros HX. unfold run_op. destruct (find_op T sym) as [o|]; [|discriminate]. destruct (nth_error X i) as [x|]; [|discriminate].
  destruct (i <? length (op_l o)); [discriminate|]. destruct (length X <? i + length (op_r o) + w); [discriminate|]. cbv zeta. unfold bind.
  destruct (take_inputs _ _ _ _ _ s) as [[ins| | |] s2]; try discriminate.
  assert (G : forall r, Forall (tight_slot ok) (firstn (i - length (op_l o)) X ++ [SRes r (slot_idx x)] ++ skipn (i + w + length (op_r o)) X)).
  { intros r. rewrite !Forall_app. split; [|split; [repeat constructor|]]; rewrite Forall_forall in *; intros y Hy; apply HX.
    - rewrite <- (firstn_skipn (i - length (op_l o)) X). apply in_or_app. left. exact Hy.
    - rewrite <- (firstn_skipn (i + w + length (op_r o)) X). apply in_or_app. right. exact Hy. }
  destruct (call sym ins s2) as [[r|e| |] s3]; try discriminate; unfold ret; intros H; inversion H; subst; apply G.
Qed.
Lemma take_state orig sym prev want have s : snd (take_inputs orig sym prev want have s) = s.
Proof.
  revert have. induction want as [|[q|] want IH]; intros have; cbn [take_inputs]; [reflexivity| |].
  - destruct have as [|[t i|r i] have]; try reflexivity. destruct (seq_eqb t q); [apply IH|reflexivity].
  - destruct have as [|[t i|r i] have]; try reflexivity. unfold bind. specialize (IH have). destruct (take_inputs orig sym prev want have s) as [[x| | |] s2]; exact IH.
Qed.
Lemma run_still T orig call X i sym w s X1 s1 : (forall ins s, snd (call sym ins s) = s) -> run_op T orig call X i sym w s = (OOk X1, s1) -> s1 = s.
Proof.
  intros HC. unfold run_op. destruct (find_op T sym) as [o|]; [|discriminate]. destruct (nth_error X i) as [x|]; [|discriminate].
  destruct (i <? length (op_l o)); [discriminate|]. destruct (length X <? i + length (op_r o) + w); [discriminate|]. cbv zeta. unfold bind.
  match goal with |- context [take_inputs ?a ?b ?c ?d ?e s] => pose proof (take_state a b c d e s) as K; destruct (take_inputs a b c d e s) as [[ins| | |] s2] end; try discriminate.
  cbn [snd] in K. subst s2. specialize (HC ins s). destruct (call sym ins s) as [[r|e| |] s3]; try discriminate; unfold ret; cbn [snd] in HC; intros H; injection H as _ <-; exact HC.
Qed.
Lemma levels_part T a b X y : scan_levels T (a ++ b) X = Ok y -> exists x, scan_levels T a X = Ok x.
Proof.
  induction a as [|l a IH]; cbn [app scan_levels]; [exists None; reflexivity|]. destruct (level_rtl T l) as [r| |]; try discriminate; cbn [obind]; cbv zeta.
  destruct (scan T l X _) as [x|]; [exists (Some x); reflexivity|exact IH].
Qed.
Lemma loop_settled (T : optable) (ls rest : list level) orig (call : str -> list result -> M result) (ok : str -> Prop) (s : st) : t_levels T = ls ++ rest -> (forall q, of_table T q -> ok q) ->
  (forall q l, ok q -> In l rest -> mem_str q (map fst l) = false) -> (forall q ins (s : st), ok q -> snd (call q ins s) = s) ->
  forall f X X' s', Forall (tight_slot ok) X -> op_loop f T orig call X s = (OOk X', s') -> exists n, n < f /\ settles T ls orig call s n X X'.
Proof.
  intros E HT HR HC. induction f as [|f IH]; intros X X' s' HX H; [discriminate|]. cbn [op_loop] in H. rewrite E in H.
  destruct (scan_levels T (ls ++ rest) X) as [[[[i sym] w]|]| |] eqn:EL; try discriminate; destruct (levels_part _ _ _ _ _ EL) as [x E1].
  - destruct (levels_ok T ok _ X i sym w HX HT EL) as [Hok _].
    assert (EL' : scan_levels T ls X = Ok (Some (i, sym, w))).
    { destruct x as [x|].
      - rewrite (levels_first _ _ _ _ _ E1) in EL. congruence.
      - exfalso. rewrite (levels_none _ _ _ _ E1) in EL. destruct (levels_ok T ok _ X i sym w HX HT EL) as [_ (l & Hl & M)]. rewrite (HR sym l Hok Hl) in M. discriminate. }
    unfold bind in H. destruct (run_op T orig call X i sym w s) as [[X1| | |] s1] eqn:ER; try discriminate.
    pose proof (run_still _ _ _ _ _ _ _ _ _ _ (fun ins s => HC sym ins s Hok) ER) as ->. destruct (IH X1 X' s' (run_tight _ _ _ ok _ _ _ _ _ _ _ HX ER) H) as (n & Hn & Hs).
    exists (S n). split; [lia|]. exact (settling T ls orig call s n X i sym w X1 X' EL' ER Hs).
  - unfold ret in H. assert (X' = X) by congruence. subst X'. exists 0. split; [lia|]. constructor. destruct x as [x|]; [|exact E1].
    rewrite (levels_first _ _ _ _ _ E1) in EL. discriminate.
Qed.
