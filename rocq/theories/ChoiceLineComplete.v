(** Lines with [then ... else] are complete. *)
From Coq Require Import ZArith QArith Ascii String List Bool Lia.
From Verif Require Import Base BaseProofs Dec Num Bases Units Syntax Pos Call Loop Parse Exec ExecSpec ExecProofs2 ExecProofs3 ErrorSpec CompleteProofs. From Verif Require LoopProofs.
Import ListNotations.
Open Scope nat_scope.

(** * A part without the operator [m] is before or after it *)
Lemma part_side (A : Type) (m : A) (X Y P R B : list A) : X ++ m :: Y = P ++ R ++ B -> ~ In m R ->
  (exists X2, X = P ++ R ++ X2 /\ B = X2 ++ m :: Y) \/ (exists P2, P = X ++ m :: P2 /\ Y = P2 ++ R ++ B).
Proof.
  revert P R. induction X as [|x X IH]; intros P R E N.
  - destruct P as [|p P].
    + destruct R as [|r R]; [left; exists []; auto|]. cbn [app] in E. injection E as <- _. destruct N. left. reflexivity.
    + cbn [app] in E. injection E as <- E. right. exists P. auto.
  - destruct P as [|p P].
    + destruct R as [|r R]; [left; exists (x :: X); auto|]. cbn [app] in E. injection E as <- E.
      destruct (IH [] R E ltac:(intros K; apply N; right; exact K)) as [(X2 & -> & ->)|(P2 & K & _)]; [left; exists X2; auto|destruct X; discriminate K].
    + cbn [app] in E. injection E as <- E. destruct (IH P R E N) as [(X2 & -> & ->)|(P2 & -> & ->)]; [left; exists X2; auto|right; exists P2; auto].
Qed.

Definition plain_slot (P : str -> Prop) (x : slot) : Prop := match x with SOp q _ => P q | SRes _ _ => True end.
Definition last_res (Z : list slot) : Prop := exists a r i, Z = a ++ [SRes r i].
Definition chosen_slots (P : str -> Prop) (th el : str) (sl : list slot) : Prop :=
  exists X i Y j Z, sl = X ++ SOp th i :: Y ++ SOp el j :: Z /\ Forall (plain_slot P) X /\ Forall (plain_slot P) Y /\ Forall (plain_slot P) Z /\ Y <> [] /\ last_res Z.
Lemma last_part Z P R B : last_res Z -> Z = P ++ R ++ B -> forall r i, last_res (P ++ [SRes r i] ++ B).
Proof.
  intros (a & r0 & i0 & ->) E r i. destruct (rev B) as [|b B'] eqn:EB.
  - assert (B = []) by (rewrite <- (rev_involutive B), EB; reflexivity). subst B. cbn [app]. exists P, r, i. reflexivity.
  - assert (Eb : B = rev B' ++ [b]) by (rewrite <- (rev_involutive B), EB; reflexivity). rewrite Eb in E |- *. rewrite !app_assoc in E. apply app_inj_tail in E as [_ <-].
    exists (P ++ [SRes r i] ++ rev B'), r0, i0. rewrite <- !app_assoc. reflexivity.
Qed.
Lemma chosen_step P th el A R B r i : ~ P th -> ~ P el -> Forall (plain_slot P) R -> chosen_slots P th el (A ++ R ++ B) -> chosen_slots P th el (A ++ [SRes r i] ++ B).
Proof.
  intros Nt Ne HR (X & a & Y & b & Z & E & HX & HY & HZ & NY & LZ). rewrite Forall_forall in HR.
  assert (Res : Forall (plain_slot P) [SRes r i]) by (repeat constructor).
  destruct (part_side _ (SOp th a) X (Y ++ SOp el b :: Z) A R B (eq_sym E) (fun K => Nt (HR _ K))) as [(X2 & -> & ->)|(P2 & -> & E2)].
  - exists (A ++ [SRes r i] ++ X2), a, Y, b, Z. rewrite !Forall_app in *. split; [rewrite <- !app_assoc; reflexivity|]. tauto.
  - destruct (part_side _ (SOp el b) Y Z P2 R B E2 (fun K => Ne (HR _ K))) as [(Y2 & -> & ->)|(P3 & -> & ->)].
    + exists X, a, (P2 ++ [SRes r i] ++ Y2), b, Z. rewrite !Forall_app in *. split; [repeat (rewrite <- ?app_assoc; cbn [app]); reflexivity|]. split; [tauto|]. split; [tauto|]. split; [tauto|]. split; [destruct P2; discriminate|exact LZ].
    + exists X, a, Y, b, (P3 ++ [SRes r i] ++ B). rewrite !Forall_app in *. split; [repeat (rewrite <- ?app_assoc; cbn [app]); reflexivity|]. split; [tauto|]. split; [tauto|]. split; [tauto|].
      split; [exact NY|]. exact (last_part _ P3 R B LZ eq_refl r i).
Qed.

(** * One step *)
Definition all_none (o : operator) : Prop := Forall (fun x => x = None) (op_l o) /\ Forall (fun x => x = None) (op_r o).
Lemma take_res orig sym prev want have s ins s1 : Forall (fun x => x = None) want -> length have <= length want -> take_inputs orig sym prev want have s = (OOk ins, s1) ->
  Forall (fun x => slot_op x = false) have.
Proof.
  intros HW. revert have s ins s1. induction HW as [|w want -> HW IH]; intros have s ins s1 HL H.
  - destruct have; [constructor|cbn in HL; lia].
  - destruct have as [|[t i|r i] have]; [constructor|discriminate H|]. cbn [take_inputs] in H. unfold bind in H. cbn [length] in HL.
    destruct (take_inputs orig sym prev want have s) as [[x| | |] s2] eqn:E; try discriminate H. constructor; [reflexivity|]. exact (IH have s x s2 ltac:(lia) E).
Qed.
Lemma res_plain P X : Forall (fun x => slot_op x = false) X -> Forall (plain_slot P) X.
Proof. intros H. eapply Forall_impl; [|exact H]. intros [q i|r i] K; [discriminate K|exact I]. Qed.
Lemma cut_slots (A : Type) (sl : list A) l i w r : l <= i -> i + r + w <= length sl ->
  sl = firstn (i - l) sl ++ (firstn l (skipn (i - l) sl) ++ firstn w (skipn i sl) ++ firstn r (skipn (i + w) sl)) ++ skipn (i + w + r) sl.
Proof.
  intros H1 H2. assert (K : forall n m, firstn n (skipn m sl) ++ skipn (m + n) sl = skipn m sl).
  { intros n m. assert (E : skipn (m + n) sl = skipn n (skipn m sl)) by (clear; revert sl; induction m as [|m IH]; intros [|x sl]; cbn [Nat.add skipn]; try reflexivity; [destruct n; reflexivity|apply IH]). rewrite E. apply firstn_skipn. }
  rewrite <- !app_assoc, K, K. replace (skipn i sl) with (skipn (i - l + l) sl) by (f_equal; lia). rewrite K. symmetry. apply firstn_skipn.
Qed.
Lemma action_at T l sl i sym w : t_udiv T = None -> action T l sl i = Some (sym, w) -> w = 0 /\ unwritten T sym \/ w = 1 /\ exists j, nth_error sl i = Some (SOp sym j).
Proof.
  intros Ud H. unfold action in H. destruct (nth_error sl i) as [x|] eqn:E; [|discriminate]. cbv zeta in H. rewrite Ud in H. cbn [in_level andb] in H.
  assert (K : forall o, in_level o l = true -> o = Some (opt_get o)) by (intros [t|]; [reflexivity|discriminate]).
  repeat match type of H with (if ?b then _ else _) = _ => destruct b eqn:?B end.
  - injection H as <- <-. left. split; [reflexivity|]. left. apply K. repeat (apply andb_prop in B; destruct B as [B ?]). exact B.
  - injection H as <- <-. left. split; [reflexivity|]. right. left. apply K. repeat (apply andb_prop in B0; destruct B0 as [B0 ?]). exact B0.
  - injection H as <- <-. left. split; [reflexivity|]. right. right. right. apply K. repeat (apply andb_prop in B1; destruct B1 as [B1 ?]). exact B1.
  - destruct x as [t j|r j]; [|discriminate]. match type of H with (if ?b then _ else _) = _ => destruct b end; [|discriminate]. injection H as <- <-. right. split; [reflexivity|eauto].
Qed.
Lemma only_there (P : str -> Prop) th el X a Y b Z i j : ~ P th -> th <> el -> Forall (plain_slot P) X -> Forall (plain_slot P) Y -> Forall (plain_slot P) Z ->
  nth_error (X ++ SOp th a :: Y ++ SOp el b :: Z) i = Some (SOp th j) -> i = length X.
Proof.
  intros Nt Ne HX HY HZ H. assert (No : forall l k, Forall (plain_slot P) l -> nth_error l k <> Some (SOp th j)).
  { intros l k Hl K. apply nth_error_In in K. rewrite Forall_forall in Hl. exact (Nt (Hl _ K)). }
  destruct (Nat.lt_trichotomy i (length X)) as [C|[C|C]]; [|exact C|]; exfalso.
  - rewrite nth_error_app1 in H by exact C. exact (No X i HX H).
  - rewrite nth_error_app2 in H by lia. destruct (i - length X) as [|k] eqn:Ek; [lia|]. cbn [nth_error] in H.
    destruct (Nat.lt_ge_cases k (length Y)) as [D|D]; [rewrite nth_error_app1 in H by exact D; exact (No Y k HY H)|]. rewrite nth_error_app2 in H by exact D.
    destruct (k - length Y) as [|n]; cbn [nth_error] in H; [congruence|exact (No Z n HZ H)].
Qed.
Lemma run_chosen T (P : str -> Prop) th el orig sl i sym w s o1 : t_udiv T = None ->
  (forall t, unwritten T t -> P t) -> (forall t o, P t -> find_op T t = Some o -> length (op_r o) <= 1 /\ all_none o) ->
  find_op T th = Some o1 -> op_l o1 = [None] -> op_r o1 = [None; Some el; None] -> ~ P th -> ~ P el -> th <> el ->
  chosen_slots P th el sl -> (P sym \/ sym = th) -> (w = 0 /\ unwritten T sym \/ w = 1 /\ exists j, nth_error sl i = Some (SOp sym j)) ->
  match fst (run_op T orig fake_call sl i sym w s) with OOk sl' => chosen_slots P th el sl' \/ ends_well P sl' | o => not_missing o end.
Proof.
  intros Ud HU HT Ft Fl Fr Nt Ne Nd Hc [Hs| ->] Hw.
  - unfold run_op. destruct (find_op T sym) as [o|] eqn:Eo; [|discriminate]. destruct (nth_error sl i) as [x|] eqn:Ex; [|discriminate]. destruct (HT _ _ Hs Eo) as [H1 [N1 N2]].
    destruct (i <? length (op_l o)) eqn:E1; [discriminate|]. apply Nat.ltb_ge in E1.
    assert (Hi : i < length sl) by (apply nth_error_Some; congruence).
    assert (Hi2 : i + length (op_r o) + w <= length sl).
    { destruct Hw as [[-> _]|[-> [j Ej]]]; [lia|]. injection Ej as ->. assert (S i < length sl); [|lia]. destruct Hc as (X & a & Y & b & Z & E & _ & _ & _ & _ & (z & r & k & ->)). clear - E Ex Hi.
      assert (K : exists l, sl = l ++ [SRes r k]) by (exists (X ++ SOp th a :: Y ++ SOp el b :: z); rewrite E; repeat (rewrite <- ?app_assoc; cbn [app]); reflexivity).
      destruct K as [l ->]. rewrite app_length in *. cbn [length] in *. destruct (Nat.eq_dec i (length l)) as [->|Hne]; [|lia]. rewrite nth_error_app2, Nat.sub_diag in Ex by lia. discriminate. }
    assert (Hlt : length sl <? i + length (op_r o) + w = false) by (apply Nat.ltb_ge; exact Hi2). rewrite Hlt. cbv zeta. unfold bind at 1.
    match goal with |- context [take_inputs ?a ?b ?c ?d ?e s] => pose proof (take_not_missing a b c d e s) as Kt; destruct (take_inputs a b c d e s) as [y s1] eqn:Et end. cbn [fst] in Kt.
    destruct y as [ins|e| |]; try discriminate; [|intros b1 b2 b3 b4 E; injection E as ->; eapply Kt; reflexivity].
    apply take_res in Et; [|apply Forall_app; split; assumption|rewrite !app_length, !firstn_length; lia]. apply Forall_app in Et as [R1 R2].
    unfold bind, fake_call. destruct ins as [|r0 ins]; [discriminate|]. cbn [fst ret]. left. rewrite (cut_slots _ sl (length (op_l o)) i w (length (op_r o)) E1 Hi2) in Hc.
    refine (chosen_step P th el _ _ _ _ _ Nt Ne _ Hc). rewrite !Forall_app. split; [apply res_plain, R1|]. split; [|apply res_plain, R2].
    destruct Hw as [[-> _]|[-> [j Ej]]]; [constructor|]. injection Ej as ->. destruct (nth_error_split _ _ Ex) as (l1 & l2 & -> & <-). rewrite skipn_app, skipn_all, Nat.sub_diag. cbn [app skipn firstn].
    constructor; [exact Hs|constructor].
  - destruct Hw as [[_ K]|[-> [j Ej]]]; [destruct (Nt (HU _ K))|]. destruct Hc as (X & a & Y & b & Z & -> & HX & HY & HZ & NY & (z & r & k & Ez)).
    pose proof (only_there P th el X a Y b Z i j Nt Nd HX HY HZ Ej) as ->. rewrite nth_error_app2, Nat.sub_diag in Ej by lia. injection Ej as <-.
    unfold run_op. rewrite Ft, Fl, Fr. rewrite nth_error_app2, Nat.sub_diag by lia. cbn [nth_error length app]. destruct (length X <? 1) eqn:E1; [discriminate|]. apply Nat.ltb_ge in E1.
    assert (Hlt : length (X ++ SOp th a :: Y ++ SOp el b :: Z) <? length X + 3 + 1 = false).
    { apply Nat.ltb_ge. rewrite app_length. cbn [length]. rewrite app_length. cbn [length]. rewrite Ez, app_length. cbn [length]. destruct Y; [congruence|cbn [length]; lia]. }
    rewrite Hlt. cbv zeta. unfold bind at 1. match goal with |- context [take_inputs ?a ?b ?c ?d ?e s] => pose proof (take_not_missing a b c d e s) as Kt; destruct (take_inputs a b c d e s) as [y s1] eqn:Et end. cbn [fst] in Kt.
    destruct y as [ins|e| |]; try discriminate; [|intros b1 b2 b3 b4 E; injection E as ->; eapply Kt; reflexivity].
    assert (S1 : skipn (length X + 1) (X ++ SOp th a :: Y ++ SOp el b :: Z) = Y ++ SOp el b :: Z).
    { rewrite skipn_app, skipn_all2 by lia. replace (length X + 1 - length X) with 1 by lia. reflexivity. }
    rewrite S1 in Et. destruct Y as [|y [|y2 Y]]; [congruence| |].
    + cbn [app firstn] in *. assert (S2 : skipn (length X + 1 + 3) (X ++ SOp th a :: y :: SOp el b :: Z) = skipn 1 Z).
      { rewrite skipn_app, skipn_all2 by lia. replace (length X + 1 + 3 - length X) with 4 by lia. reflexivity. }
      rewrite S2. unfold bind, fake_call. destruct ins as [|r0 ins]; [discriminate|]. cbn [fst ret]. right.
      assert (F : firstn (length X - 1) (X ++ SOp th a :: y :: SOp el b :: Z) = firstn (length X - 1) X).
      { rewrite firstn_app. replace (length X - 1 - length X) with 0 by lia. cbn [firstn]. apply app_nil_r. }
      rewrite F. split.
      * destruct (skipn_last _ 1 z (SRes r k)) as [K|[c K]]; rewrite Ez, K; [eexists _, _, _; reflexivity|]. exists (firstn (length X - 1) X ++ SRes r0 (slot_idx (SOp th a)) :: c), r, k. rewrite <- app_assoc. reflexivity.
      * intros q n H. apply in_app_or in H as [H|H].
        -- apply in_firstn in H. rewrite Forall_forall in HX. exact (HX _ H).
        -- destruct H as [H|H]; [discriminate H|]. apply in_skipn in H. rewrite Forall_forall in HZ. exact (HZ _ H).
    + exfalso. cbn [app] in Et. assert (P2 : plain_slot P y2) by (rewrite Forall_forall in HY; apply HY; right; left; reflexivity).
      destruct (firstn 1 (skipn (length X - 1) (X ++ SOp th a :: y :: y2 :: Y ++ SOp el b :: Z))) as [|[q n|v n] [|v2 l]] eqn:Ef; cbn [app firstn take_inputs] in Et; try discriminate Et.
      * apply (f_equal (@length _)) in Ef. rewrite firstn_length, skipn_length, app_length in Ef. cbn [length] in Ef. lia.
      * destruct y as [q1 n1|v1 n1]; cbn [take_inputs] in Et; [unfold bind, raise in Et; discriminate Et|].
        destruct y2 as [q2 n2|v2 n2]; cbn [take_inputs] in Et; [|unfold bind, pyerr in Et; discriminate Et]. destruct (seq_eqb q2 el) eqn:Eq; [|unfold bind, raise in Et; discriminate Et]. apply seq_eqb_iff in Eq. subst q2. exact (Ne P2).
      * apply (f_equal (@length _)) in Ef. rewrite firstn_length in Ef. cbn [length] in Ef. lia.
Qed.
Lemma loop_chosen T (P : str -> Prop) th el orig o1 : t_udiv T = None ->
  (forall t, unwritten T t -> P t) -> (forall t o, P t -> find_op T t = Some o -> length (op_r o) <= 1 /\ all_none o) ->
  find_op T th = Some o1 -> op_l o1 = [None] -> op_r o1 = [None; Some el; None] -> ~ P th -> ~ P el -> th <> el -> find_op T el = None ->
  forall n sl s, chosen_slots P th el sl -> not_missing (fst (op_loop n T orig fake_call sl s)).
Proof.
  intros Ud HU HT Ft Fl Fr Nt Ne Nd Fe. induction n as [|n IH]; intros sl s Hc; cbn [op_loop]; [discriminate|].
  destruct (scan_levels T (t_levels T) sl) as [[[[i sym] w]|]| |] eqn:E; try discriminate.
  destruct (LoopProofs.scan_levels_action _ _ _ _ _ _ E) as [l Hl]. pose proof (action_at T l sl i sym w Ud Hl) as Hw.
  assert (Hs : P sym \/ sym = th \/ sym = el).
  { destruct Hw as [[_ K]|[_ [j K]]]; [left; exact (HU _ K)|]. apply nth_error_In in K. destruct Hc as (X & a & Y & b & Z & -> & HX & HY & HZ & _). rewrite Forall_forall in HX, HY, HZ.
    apply in_app_or in K as [K|[K|K]]; [left; exact (HX _ K)|right; left; congruence|]. apply in_app_or in K as [K|[K|K]]; [left; exact (HY _ K)|right; right; congruence|left; exact (HZ _ K)]. }
  unfold bind. destruct Hs as [Hs|[Hs|Hs]].
  3: { subst sym. unfold run_op. rewrite Fe. discriminate. }
  all: pose proof (run_chosen T P th el orig sl i sym w s o1 Ud HU HT Ft Fl Fr Nt Ne Nd Hc ltac:(auto) Hw) as K; destruct (run_op T orig fake_call sl i sym w s) as [o s1]; cbn [fst] in K;
    destruct o as [sl'|e| |]; try discriminate; [|intros b1 b2 b3 b4 H; injection H as ->; eapply K; reflexivity].
  all: destruct K as [K|K]; [exact (IH sl' s1 K)|]; apply (op_loop_complete n T P); [|exact K]; intros t o [Ht|Ht] Ho; apply (HT t o); auto.
Qed.
Lemma fake_plain (P : str -> Prop) its : (forall t, In (IOp t) its -> P t) -> forall n, Forall (plain_slot P) (fake_slots n its).
Proof.
  intros H n. rewrite Forall_forall. intros [q i|r i] Hx; [|exact I]. apply H. exact (fake_slots_ops _ _ _ _ Hx).
Qed.
(** A statement with one [then ... else] that has something between the words and ends with an operand *)
Theorem choice_complete T (P : str -> Prop) th el o1 f1 f2 f3 x s : t_udiv T = None ->
  (forall t, unwritten T t -> P t) -> (forall t o, P t -> find_op T t = Some o -> length (op_r o) <= 1 /\ all_none o) ->
  find_op T th = Some o1 -> op_l o1 = [None] -> op_r o1 = [None; Some el; None] -> ~ P th -> ~ P el -> th <> el -> find_op T el = None ->
  (forall t, In (IOp t) (f1 ++ f2 ++ f3) -> P t) -> f2 <> [] -> iisop x = false ->
  incomplete T (f1 ++ IOp th :: f2 ++ IOp el :: f3 ++ [x]) s = false.
Proof.
  intros Ud HU HT Ft Fl Fr Nt Ne Nd Fe Hf N2 Hx. unfold incomplete. set (its := f1 ++ IOp th :: f2 ++ IOp el :: f3 ++ [x]). destruct its as [|f0 fs] eqn:Ef; [reflexivity|]. rewrite <- Ef.
  assert (Hsl : chosen_slots P th el (fake_slots 0 its)).
  { unfold its. rewrite fake_slots_app. cbn [fake_slots]. rewrite fake_slots_app. cbn [fake_slots].
    exists (fake_slots 0 f1), (0 + length f1), (fake_slots (S (0 + length f1)) f2), (S (0 + length f1) + length f2), (fake_slots (S (S (0 + length f1) + length f2)) (f3 ++ [x])). split; [reflexivity|].
    split; [apply fake_plain; intros t Ht; apply Hf; rewrite !in_app_iff; auto|]. split; [apply fake_plain; intros t Ht; apply Hf; rewrite !in_app_iff; auto|].
    split; [apply fake_plain; intros t Ht; apply in_app_or in Ht as [Ht|[Ht|[]]]; [apply Hf; rewrite !in_app_iff; auto|subst x; discriminate Hx]|].
    split; [destruct f2 as [|y f2]; [congruence|destruct y; discriminate]|]. unfold last_res. rewrite fake_slots_app. destruct x; try discriminate Hx; cbn [fake_slots]; eauto. }
  unfold run_slots, bind. pose proof (loop_chosen T P th el its o1 Ud HU HT Ft Fl Fr Nt Ne Nd Fe (loop_fuel (fake_slots 0 its)) _ s Hsl) as K.
  destruct (op_loop _ _ _ _ _ _) as [o s1]. cbn [fst] in K. destruct o as [sl'|[b m|m i nx tr]| |]; try reflexivity.
  - unfold ends. destruct sl' as [|[t i|r i] [|y l]]; try reflexivity; cbn [filter slot_op]; try reflexivity.
    destruct (slot_op y); [reflexivity|]. destruct (filter slot_op l); reflexivity.
  - cbn [fst]. destruct m; try reflexivity. exfalso. eapply K. reflexivity.
Qed.
