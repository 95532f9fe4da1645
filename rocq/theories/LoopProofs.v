(** Lemmas about the operator loop: precedence grouping, termination. *)
From Coq Require Import ZArith QArith Ascii String List Bool Lia.
From Verif Require Import Base Dec Num Bases Units Syntax Call Loop LoopSpec BaseProofs UnitsProofs5.
Import ListNotations.
Open Scope nat_scope.

(** * Windows *)
Definition opt_slot (f : slot -> bool) (x : option slot) : bool := match x with Some y => f y | None => false end.
Definition act (T : optable) (l : level) (p : option slot) (x : slot) (n : option slot) : option (str * nat) :=
  if in_level (t_uassign T) l && slot_unit x && (match p with Some _ => true | None => false end) && negb (opt_slot slot_op p) && negb (opt_slot slot_unit p)
  then Some (opt_get (t_uassign T), 0)
  else if in_level (t_umul T) l && slot_unit x && opt_slot slot_unit p
  then Some (opt_get (t_umul T), 0)
  else if in_level (t_udiv T) l && match x with SOp s _ => opt_is (t_div T) s | _ => false end && opt_slot slot_unit p && opt_slot slot_unit n
  then Some (opt_get (t_udiv T), 1)
  else if in_level (t_imul T) l && negb (slot_op x) && negb (slot_unit x) && (match p with Some _ => true | None => false end) && negb (opt_slot slot_op p)
  then Some (opt_get (t_imul T), 0)
  else match x with
       | SOp s _ =>
         if mem_str s (map fst l) && negb (opt_is (t_umul T) s || opt_is (t_udiv T) s || opt_is (t_imul T) s) &&
            (negb (opt_slot slot_unit p) || negb (opt_is (t_div T) s) || negb (opt_slot slot_unit n))
         then Some (s, 1) else None
       | SRes _ _ => None
       end.
Lemma action_first T l x B : action T l (x :: B) 0 = act T l None x (hd_error B).
Proof. unfold action, act, at_slot, opt_slot. cbn [nth_error]. destruct B; cbn [nth_error hd_error]; reflexivity. Qed.
Lemma action_next T l A p x B : action T l (A ++ p :: x :: B) (S (length A)) = act T l (Some p) x (hd_error B).
Proof.
  unfold action, act, at_slot, opt_slot.
  assert (H1 : nth_error (A ++ p :: x :: B) (S (length A)) = Some x).
  { rewrite nth_error_app2 by lia. replace (S (length A) - length A) with 1 by lia. reflexivity. }
  assert (H0 : nth_error (A ++ p :: x :: B) (length A) = Some p).
  { rewrite nth_error_app2 by lia. rewrite Nat.sub_diag. reflexivity. }
  assert (H2 : nth_error (A ++ p :: x :: B) (S (S (length A))) = hd_error B).
  { rewrite nth_error_app2 by lia. replace (S (S (length A)) - length A) with 2 by lia. destruct B; reflexivity. }
  rewrite H1, H0, H2. replace (0 <? S (length A)) with true by reflexivity. reflexivity.
Qed.

(** * Chains *)
Definition gap_slots (gb : gap * leaf) : list slot :=
  let (g, b) := gb in match g with GOp s i => [SOp s i; SRes (fst b) (snd b)] | GImp => [SRes (fst b) (snd b)] end.
Definition gap_w (g : gap) : nat := match g with GOp _ _ => 1 | GImp => 0 end.
Lemma slots_of_eq a gs : slots_of (a, gs) = SRes (fst a) (snd a) :: concat (map gap_slots gs).
Proof. reflexivity. Qed.
Lemma slots_of_app a P Q : slots_of (a, P ++ Q) = slots_of (a, P) ++ concat (map gap_slots Q).
Proof. rewrite !slots_of_eq, map_app, concat_app. reflexivity. Qed.
Lemma slots_of_split a P g b Q : slots_of (a, P ++ (g, b) :: Q) = slots_of (a, P) ++ gap_slots (g, b) ++ concat (map gap_slots Q).
Proof. rewrite slots_of_app. cbn [map concat]. reflexivity. Qed.

Lemma slots_last T a P : good_chain T (a, P) ->
  exists A r j, slots_of (a, P) = A ++ [SRes r j] /\ is_unit_val r = false.
Proof.
  intros [Ha HP]. cbn [fst snd] in *. destruct P as [|x P] using rev_ind.
  - exists [], (fst a), (snd a). split; [reflexivity|exact Ha].
  - clear IHP. rewrite Forall_app in HP. destruct HP as [_ HP]. inversion HP; subst. destruct x as [g b].
    rewrite slots_of_split. destruct H1 as [_ Hb]. cbn [fst snd] in Hb. cbn [map concat]. rewrite app_nil_r.
    destruct g as [s i|]; cbn [gap_slots].
    + exists (slots_of (a, P) ++ [SOp s i]), (fst b), (snd b). split; [rewrite <- app_assoc; reflexivity|exact Hb].
    + exists (slots_of (a, P)), (fst b), (snd b). split; [reflexivity|exact Hb].
Qed.

Lemma hd_gap_slots g b R : hd_error (gap_slots (g, b) ++ R) = match g with GOp s i => Some (SOp s i) | GImp => Some (SRes (fst b) (snd b)) end.
Proof. destruct g; reflexivity. Qed.
Lemma hd_gaps_unit T Q : Forall (fun gb => good_gap T (fst gb) /\ is_unit_val (fst (snd gb)) = false) Q ->
  opt_slot slot_unit (hd_error (concat (map gap_slots Q))) = false.
Proof.
  intros H. destruct Q as [|[g b] Q]; [reflexivity|]. inversion H; subst. destruct H2 as [_ Hb]. cbn [fst snd] in Hb.
  cbn [map concat]. rewrite hd_gap_slots. destruct g; [reflexivity|]. cbn [opt_slot slot_unit]. exact Hb.
Qed.

Lemma opt_is_false x s : x <> Some s -> opt_is x s = false.
Proof.
  intros H. destruct x as [t|]; [|reflexivity]. cbn [opt_is]. destruct (seq_eqb t s) eqn:E; [|reflexivity].
  apply seq_eqb_iff in E. congruence.
Qed.

(** A result after a result, an operator after a result, a result after an operator *)
Lemma act_res_res T l r j r' j' n : is_unit_val r = false -> is_unit_val r' = false ->
  act T l (Some (SRes r j)) (SRes r' j') n = if in_level (t_imul T) l then Some (opt_get (t_imul T), 0) else None.
Proof.
  intros H H'. unfold act. cbn [opt_slot slot_op slot_unit]. unfold is_unit_val in *. rewrite H, H'. cbn [negb].
  destruct (in_level (t_uassign T) l), (in_level (t_umul T) l), (in_level (t_udiv T) l), (in_level (t_imul T) l); reflexivity.
Qed.
Lemma act_res_op T l r j s i n : is_unit_val r = false -> t_umul T <> Some s -> t_udiv T <> Some s -> t_imul T <> Some s ->
  act T l (Some (SRes r j)) (SOp s i) n = if mem_str s (map fst l) then Some (s, 1) else None.
Proof.
  intros H H1 H2 H3. unfold act. cbn [opt_slot slot_op slot_unit]. unfold is_unit_val in *. rewrite H. cbn [negb].
  rewrite (opt_is_false _ _ H1), (opt_is_false _ _ H2), (opt_is_false _ _ H3).
  destruct (in_level (t_uassign T) l), (in_level (t_umul T) l), (in_level (t_udiv T) l), (in_level (t_imul T) l), (opt_is (t_div T) s), (mem_str s (map fst l));
    reflexivity.
Qed.
Lemma act_op_res T l s i r j n : is_unit_val r = false -> act T l (Some (SOp s i)) (SRes r j) n = None.
Proof.
  intros H. unfold act. cbn [opt_slot slot_op slot_unit]. unfold is_unit_val in *. rewrite H. cbn [negb].
  destruct (in_level (t_uassign T) l), (in_level (t_umul T) l), (in_level (t_udiv T) l), (in_level (t_imul T) l); reflexivity.
Qed.
Lemma act_none_res T l r j n : is_unit_val r = false -> act T l None (SRes r j) n = None.
Proof.
  intros H. unfold act. cbn [opt_slot slot_op slot_unit]. unfold is_unit_val in *. rewrite H. cbn [negb].
  destruct (in_level (t_uassign T) l), (in_level (t_umul T) l), (in_level (t_udiv T) l), (in_level (t_imul T) l); reflexivity.
Qed.

Definition in_lvl (T : optable) (l : level) (g : gap) : bool := mem_str (gap_sym T g) (map fst l).
Lemma good_split T a P g b Q : good_chain T (a, P ++ (g, b) :: Q) ->
  good_chain T (a, P) /\ good_gap T g /\ is_unit_val (fst b) = false /\
  Forall (fun gb => good_gap T (fst gb) /\ is_unit_val (fst (snd gb)) = false) Q.
Proof.
  intros [Ha H]. cbn [fst snd] in *. rewrite Forall_app in H. destruct H as [H1 H2]. inversion H2; subst.
  cbn [fst snd] in *. unfold good_chain. cbn [fst snd]. tauto.
Qed.

Lemma action_gap T l a P g b Q : good_chain T (a, P ++ (g, b) :: Q) ->
  action T l (slots_of (a, P ++ (g, b) :: Q)) (length (slots_of (a, P))) =
  if in_lvl T l g then Some (gap_sym T g, gap_w g) else None.
Proof.
  intros H. destruct (good_split _ _ _ _ _ _ H) as [HP [Hg [Hb HQ]]]. rewrite slots_of_split.
  destruct (slots_last T a P HP) as [A [r [j [EA Hr]]]]. rewrite EA, app_length. cbn [length].
  replace (length A + 1) with (S (length A)) by lia. rewrite <- app_assoc. cbn [app].
  destruct g as [s i|]; cbn [gap_slots app].
  - rewrite action_next. cbn [good_gap] in Hg. destruct Hg as [_ [_ [H1 [H2 H3]]]]. rewrite act_res_op by assumption. reflexivity.
  - rewrite action_next, act_res_res by assumption. destruct Hg as [s [Hs _]]. unfold in_lvl, gap_sym, in_level. rewrite Hs. reflexivity.
Qed.

(** Every position is the first operand, a gap, or the operand after an operator. *)
Lemma slots_position a gs i : i < length (slots_of (a, gs)) ->
  i = 0 \/
  (exists P g b Q, gs = P ++ (g, b) :: Q /\ i = length (slots_of (a, P))) \/
  (exists P s k b Q, gs = P ++ (GOp s k, b) :: Q /\ i = S (length (slots_of (a, P)))).
Proof.
  revert i. induction gs as [|[g b] gs IH] using rev_ind; intros i Hi.
  - cbn in Hi. left. lia.
  - rewrite slots_of_app, app_length in Hi. cbn [map concat] in Hi. rewrite app_nil_r in Hi.
    destruct (Nat.lt_ge_cases i (length (slots_of (a, gs)))) as [H|H].
    + destruct (IH i H) as [H0|[[P [g' [b' [Q [E1 E2]]]]]|[P [s [k [b' [Q [E1 E2]]]]]]]].
      * left. exact H0.
      * right. left. exists P, g', b', (Q ++ [(g, b)]). split; [|exact E2]. rewrite E1, <- app_assoc. reflexivity.
      * right. right. exists P, s, k, b', (Q ++ [(g, b)]). split; [|exact E2]. rewrite E1, <- app_assoc. reflexivity.
    + destruct g as [s k|]; cbn [gap_slots length] in Hi.
      * destruct (Nat.eq_dec i (length (slots_of (a, gs)))) as [E|E].
        -- right. left. exists gs, (GOp s k), b, []. auto.
        -- right. right. exists gs, s, k, b, []. split; [reflexivity|lia].
      * right. left. exists gs, GImp, b, []. split; [reflexivity|lia].
Qed.

Lemma action_none_at0 T l a gs : good_chain T (a, gs) -> action T l (slots_of (a, gs)) 0 = None.
Proof. intros [Ha _]. rewrite slots_of_eq, action_first. apply act_none_res. exact Ha. Qed.
Lemma action_none_after T l a P s k b Q : good_chain T (a, P ++ (GOp s k, b) :: Q) ->
  action T l (slots_of (a, P ++ (GOp s k, b) :: Q)) (S (length (slots_of (a, P)))) = None.
Proof.
  intros H. destruct (good_split _ _ _ _ _ _ H) as [HP [Hg [Hb HQ]]]. rewrite slots_of_split. cbn [gap_slots app].
  rewrite action_next. apply act_op_res. exact Hb.
Qed.

(** An action is at a gap of the level. *)
Lemma action_sound T l a gs i x : good_chain T (a, gs) -> action T l (slots_of (a, gs)) i = Some x ->
  exists P g b Q, gs = P ++ (g, b) :: Q /\ i = length (slots_of (a, P)) /\ in_lvl T l g = true.
Proof.
  intros Hc H. assert (Hi : i < length (slots_of (a, gs))).
  { destruct (Nat.lt_ge_cases i (length (slots_of (a, gs)))) as [Hi|Hi]; [exact Hi|].
    apply nth_error_None in Hi. unfold action in H. rewrite Hi in H. discriminate. }
  destruct (slots_position a gs i Hi) as [E|[[P [g [b [Q [E1 E2]]]]]|[P [s [k [b [Q [E1 E2]]]]]]]].
  - subst i. rewrite action_none_at0 in H by exact Hc. discriminate.
  - subst gs i. rewrite action_gap in H by exact Hc. destruct (in_lvl T l g) eqn:E; [|discriminate].
    exists P, g, b, Q. auto.
  - subst gs i. rewrite action_none_after in H by exact Hc. discriminate.
Qed.

(** * Scanning *)
Lemma scan_hit T l sl A k B s w : Forall (fun i => action T l sl i = None) A -> action T l sl k = Some (s, w) ->
  scan T l sl (A ++ k :: B) = Some (k, s, w).
Proof. intros HA Hk. induction HA as [|x A Hx HA IH]; cbn [app scan]; [rewrite Hk; reflexivity|rewrite Hx; exact IH]. Qed.
Lemma scan_miss T l sl A : Forall (fun i => action T l sl i = None) A -> scan T l sl A = None.
Proof. intros HA. induction HA as [|x A Hx HA IH]; cbn [scan]; [reflexivity|rewrite Hx; exact IH]. Qed.
Lemma seq_split k n : k < n -> seq 0 n = seq 0 k ++ k :: seq (S k) (n - S k).
Proof. intros H. replace n with (k + S (n - S k)) at 1 by lia. rewrite seq_app. reflexivity. Qed.

Lemma slots_len_pos a gs : 0 < length (slots_of (a, gs)).
Proof. rewrite slots_of_eq. cbn. lia. Qed.
Lemma gap_slots_pos gb : 0 < length (gap_slots gb).
Proof. destruct gb as [[s i|] b]; cbn; lia. Qed.

Lemma app_cmp {A} (P Q P' Q' : list A) : P ++ Q = P' ++ Q' -> (exists R, P' = P ++ R /\ Q = R ++ Q') \/ (exists R, P = P' ++ R /\ Q' = R ++ Q).
Proof.
  revert P'. induction P as [|x P IH]; intros P' H.
  - left. exists P'. auto.
  - destruct P' as [|y P'].
    + right. exists (x :: P). auto.
    + cbn in H. injection H as -> H. destruct (IH P' H) as [[R [E1 E2]]|[R [E1 E2]]].
      * left. exists R. subst. auto.
      * right. exists R. subst. auto.
Qed.

Lemma before_gap T l a P g b Q i x : good_chain T (a, P ++ (g, b) :: Q) -> i < length (slots_of (a, P)) ->
  action T l (slots_of (a, P ++ (g, b) :: Q)) i = Some x -> exists g' b', In (g', b') P /\ in_lvl T l g' = true.
Proof.
  intros Hc Hi H. destruct (action_sound _ _ _ _ _ _ Hc H) as [P' [g' [b' [Q' [E [Ei Hl]]]]]].
  exists g', b'. split; [|exact Hl]. subst i. destruct (app_cmp _ _ _ _ E) as [[R [E1 E2]]|[R [E1 E2]]].
  - exfalso. subst P'. rewrite slots_of_app, app_length in Hi. lia.
  - destruct R as [|y R].
    + exfalso. rewrite app_nil_r in E1. subst P'. lia.
    + cbn in E2. injection E2 as E2 _. subst y. rewrite E1. apply in_or_app. right. left. reflexivity.
Qed.
Lemma after_gap T l a P g b Q i x : good_chain T (a, P ++ (g, b) :: Q) -> length (slots_of (a, P)) < i ->
  action T l (slots_of (a, P ++ (g, b) :: Q)) i = Some x -> exists g' b', In (g', b') Q /\ in_lvl T l g' = true.
Proof.
  intros Hc Hi H. destruct (action_sound _ _ _ _ _ _ Hc H) as [P' [g' [b' [Q' [E [Ei Hl]]]]]].
  exists g', b'. split; [|exact Hl]. subst i. destruct (app_cmp _ _ _ _ E) as [[R [E1 E2]]|[R [E1 E2]]].
  - destruct R as [|y R].
    + exfalso. rewrite app_nil_r in E1. subst P'. lia.
    + cbn in E2. injection E2 as _ E2. rewrite E2. apply in_or_app. right. left. reflexivity.
  - exfalso. rewrite E1, slots_of_app, app_length in Hi. lia.
Qed.

Lemma forall_none T l sl A : (forall i x, In i A -> action T l sl i = Some x -> False) -> Forall (fun i => action T l sl i = None) A.
Proof.
  intros H. apply Forall_forall. intros i Hi. destruct (action T l sl i) eqn:E; [|reflexivity]. exfalso. exact (H i p Hi E).
Qed.

Lemma scan_ltr T l a P g b Q : good_chain T (a, P ++ (g, b) :: Q) -> in_lvl T l g = true ->
  (forall g' b', In (g', b') P -> in_lvl T l g' = false) ->
  scan T l (slots_of (a, P ++ (g, b) :: Q)) (seq 0 (length (slots_of (a, P ++ (g, b) :: Q)))) =
  Some (length (slots_of (a, P)), gap_sym T g, gap_w g).
Proof.
  intros Hc Hl HP. rewrite (seq_split (length (slots_of (a, P)))).
  - apply scan_hit.
    + apply forall_none. intros i x Hi H. apply in_seq in Hi. destruct (before_gap T l a P g b Q i x Hc ltac:(lia) H) as [g' [b' [Hin H']]].
      rewrite (HP _ _ Hin) in H'. discriminate.
    + rewrite action_gap, Hl by exact Hc. reflexivity.
  - rewrite slots_of_split, !app_length. pose proof (gap_slots_pos (g, b)). lia.
Qed.
Lemma scan_rtl T l a P g b Q : good_chain T (a, P ++ (g, b) :: Q) -> in_lvl T l g = true ->
  (forall g' b', In (g', b') Q -> in_lvl T l g' = false) ->
  scan T l (slots_of (a, P ++ (g, b) :: Q)) (rev (seq 0 (length (slots_of (a, P ++ (g, b) :: Q))))) =
  Some (length (slots_of (a, P)), gap_sym T g, gap_w g).
Proof.
  intros Hc Hl HP. rewrite (seq_split (length (slots_of (a, P)))).
  - rewrite rev_app_distr. cbn [rev]. rewrite <- app_assoc. cbn [app]. apply scan_hit.
    + apply forall_none. intros i x Hi H. apply in_rev in Hi. apply in_seq in Hi. destruct (after_gap T l a P g b Q i x Hc ltac:(lia) H) as [g' [b' [Hin H']]].
      rewrite (HP _ _ Hin) in H'. discriminate.
    + rewrite action_gap, Hl by exact Hc. reflexivity.
  - rewrite slots_of_split, !app_length. pose proof (gap_slots_pos (g, b)). lia.
Qed.
Lemma scan_nothing T l a gs is : good_chain T (a, gs) -> (forall g b, In (g, b) gs -> in_lvl T l g = false) ->
  scan T l (slots_of (a, gs)) is = None.
Proof.
  intros Hc H. apply scan_miss. apply forall_none. intros i x _ Hx.
  destruct (action_sound _ _ _ _ _ _ Hc Hx) as [P [g [b [Q [E [_ Hl]]]]]].
  rewrite (H g b) in Hl; [discriminate|]. rewrite E. apply in_or_app. right. left. reflexivity.
Qed.

(** Choosing the first, or the last, gap of a level *)
Lemma first_of (p : gap -> bool) (gs : list (gap * leaf)) :
  (forall g b, In (g, b) gs -> p g = false) \/
  (exists P g b Q, gs = P ++ (g, b) :: Q /\ p g = true /\ forall g' b', In (g', b') P -> p g' = false).
Proof.
  induction gs as [|[g b] gs IH].
  - left. intros ? ? [].
  - destruct (p g) eqn:E.
    + right. exists [], g, b, gs. split; [reflexivity|]. split; [exact E|]. intros ? ? [].
    + destruct IH as [IH|[P [g1 [b1 [Q [E1 [E2 E3]]]]]]].
      * left. intros g' b' [H|H]; [injection H as -> ->; exact E|exact (IH g' b' H)].
      * right. exists ((g, b) :: P), g1, b1, Q. split; [subst; reflexivity|]. split; [exact E2|].
        intros g' b' [H|H]; [injection H as -> ->; exact E|exact (E3 g' b' H)].
Qed.
Lemma last_of (p : gap -> bool) (gs : list (gap * leaf)) :
  (forall g b, In (g, b) gs -> p g = false) \/
  (exists P g b Q, gs = P ++ (g, b) :: Q /\ p g = true /\ forall g' b', In (g', b') Q -> p g' = false).
Proof.
  induction gs as [|[g b] gs IH] using rev_ind.
  - left. intros ? ? [].
  - destruct (p g) eqn:E.
    + right. exists gs, g, b, []. split; [reflexivity|]. split; [exact E|]. intros ? ? [].
    + destruct IH as [IH|[P [g1 [b1 [Q [E1 [E2 E3]]]]]]].
      * left. intros g' b' H. apply in_app_or in H. destruct H as [H|[H|[]]]; [exact (IH g' b' H)|injection H as -> ->; exact E].
      * right. exists P, g1, b1, (Q ++ [(g, b)]). split; [subst; rewrite <- app_assoc; reflexivity|]. split; [exact E2|].
        intros g' b' H. apply in_app_or in H. destruct H as [H|[H|[]]]; [exact (E3 g' b' H)|injection H as -> ->; exact E].
Qed.

(** * Levels *)
Lemma rank_lt ls s : In s (map fst (concat ls)) -> level_no ls s < length ls.
Proof.
  induction ls as [|l ls IH]; intros H; [destruct H|]. cbn [level_no concat length] in *.
  destruct (mem_str s (map fst l)) eqn:E; [lia|]. rewrite map_app in H. apply in_app_or in H. destruct H as [H|H].
  - apply mem_str_iff in H. congruence.
  - specialize (IH H). lia.
Qed.
Lemma rev_assoc_some {A} (l : list (str * A)) s : In s (map fst l) -> exists x, assoc s (rev l) = Some x.
Proof.
  intros H. destruct (assoc s (rev l)) as [x|] eqn:E; [exists x; reflexivity|]. exfalso.
  pose proof (assoc_none s (rev l)) as Hn. rewrite E in Hn. destruct Hn as [Hn _]. specialize (Hn eq_refl). apply Hn.
  rewrite map_rev. apply -> in_rev. exact H.
Qed.

Lemma level_no_pre pre ls s : Forall (fun l : level => mem_str s (map fst l) = false) pre ->
  level_no (pre ++ ls) s = length pre + level_no ls s.
Proof.
  intros H. induction H as [|l pre Hl H IH]; [reflexivity|]. cbn [app level_no length]. rewrite Hl, IH. reflexivity.
Qed.

Lemma good_gap_in T g : good_gap T g -> In (gap_sym T g) (map fst (concat (t_levels T))).
Proof. destruct g as [s i|]; cbn [good_gap gap_sym]; [tauto|]. intros [s [E [H _]]]. rewrite E. exact H. Qed.
Lemma good_gap_binary T g : good_gap T g -> binary T (gap_sym T g).
Proof. destruct g as [s i|]; cbn [good_gap gap_sym]; [tauto|]. intros [s [E [_ H]]]. rewrite E. exact H. Qed.
Lemma good_in T a gs g b : good_chain T (a, gs) -> In (g, b) gs -> good_gap T g.
Proof. intros [_ H] Hin. cbn [snd] in H. rewrite Forall_forall in H. exact (proj1 (H _ Hin)). Qed.

Lemma level_dir T pre l r : good_table T -> t_levels T = pre ++ l :: r ->
  level_rtl T l = Ok (right_to_left T (length pre)).
Proof.
  intros Ht E. unfold good_table in Ht. rewrite E, Forall_app in Ht. destruct Ht as [_ Ht]. inversion Ht; subst.
  unfold right_to_left. rewrite E, nth_error_app2, Nat.sub_diag by lia. cbn [nth_error].
  destruct l as [|[s o] l]; [congruence|]. cbn [level_rtl]. unfold find_op.
  destruct (rev_assoc_some (concat (t_levels T)) s) as [x Hx].
  - rewrite E, concat_app, map_app. apply in_or_app. right. left. reflexivity.
  - rewrite Hx. reflexivity.
Qed.

Definition choice (T : optable) (a : leaf) (gs : list (gap * leaf)) (P : list (gap * leaf)) (g : gap) (b : leaf) (Q : list (gap * leaf)) : Prop :=
  gs = P ++ (g, b) :: Q /\
  (forall g' b', In (g', b') gs -> rank T g <= rank T g') /\
  (right_to_left T (rank T g) = false -> forall g' b', In (g', b') P -> rank T g < rank T g') /\
  (right_to_left T (rank T g) = true -> forall g' b', In (g', b') Q -> rank T g < rank T g').

Lemma scan_levels_choice T a gs : good_table T -> good_chain T (a, gs) -> gs <> [] ->
  forall ls pre, t_levels T = pre ++ ls ->
  (forall g b, In (g, b) gs -> Forall (fun l : level => mem_str (gap_sym T g) (map fst l) = false) pre) ->
  exists P g b Q, choice T a gs P g b Q /\
    scan_levels T ls (slots_of (a, gs)) = Ok (Some (length (slots_of (a, P)), gap_sym T g, gap_w g)).
Proof.
  intros Ht Hc Hne. induction ls as [|l ls IH]; intros pre E Hpre.
  - exfalso. destruct gs as [|[g b] gs]; [congruence|].
    assert (Hg : good_gap T g) by (apply (good_in T a ((g, b) :: gs) g b Hc); left; reflexivity).
    apply good_gap_in in Hg. rewrite E, app_nil_r in Hg. specialize (Hpre g b (or_introl eq_refl)).
    rewrite in_map_iff in Hg. destruct Hg as [x [Ex Hx]]. apply in_concat in Hx. destruct Hx as [l [Hl Hx]].
    rewrite Forall_forall in Hpre. specialize (Hpre l Hl).
    assert (mem_str (gap_sym T g) (map fst l) = true); [|congruence]. apply mem_str_iff. rewrite <- Ex. apply in_map. exact Hx.
  - assert (Hge : forall g b, In (g, b) gs -> rank T g = length pre + level_no (l :: ls) (gap_sym T g)).
    { intros g b Hin. unfold rank. rewrite E. apply level_no_pre. exact (Hpre g b Hin). }
    assert (Hin0 : forall g b, In (g, b) gs -> in_lvl T l g = true -> rank T g = length pre).
    { intros g b Hin Hl. rewrite (Hge g b Hin). cbn [level_no]. unfold in_lvl in Hl. rewrite Hl. lia. }
    assert (Hgt : forall g b, In (g, b) gs -> in_lvl T l g = false -> length pre < rank T g).
    { intros g b Hin Hl. rewrite (Hge g b Hin). cbn [level_no]. unfold in_lvl in Hl. rewrite Hl. lia. }
    cbn [scan_levels]. rewrite (level_dir T pre l ls Ht E). cbn [obind].
    assert (Hstep : (forall g b, In (g, b) gs -> in_lvl T l g = false) ->
      forall is, exists P g b Q, choice T a gs P g b Q /\
      match scan T l (slots_of (a, gs)) is with Some x => Ok (Some x) | None => scan_levels T ls (slots_of (a, gs)) end =
      Ok (Some (length (slots_of (a, P)), gap_sym T g, gap_w g))).
    { intros Hno is. rewrite (scan_nothing T l a gs is Hc Hno). apply (IH (pre ++ [l])).
      - rewrite E, <- app_assoc. reflexivity.
      - intros g b Hin. apply Forall_app. split; [exact (Hpre g b Hin)|]. constructor; [exact (Hno g b Hin)|constructor]. }
    destruct (right_to_left T (length pre)) eqn:Ed.
    + destruct (last_of (in_lvl T l) gs) as [Hno|[P [g [b [Q [E1 [E2 E3]]]]]]]; [apply Hstep; exact Hno|].
      exists P, g, b, Q. assert (Hg : In (g, b) gs) by (rewrite E1; apply in_or_app; right; left; reflexivity).
      pose proof (Hin0 g b Hg E2) as Hr. split.
      * unfold choice. rewrite Hr, Ed. split; [exact E1|]. split; [|split; [discriminate|]].
        -- intros g' b' Hin. rewrite (Hge g' b' Hin). lia.
        -- intros _ g' b' Hin. apply (Hgt g' b'); [|exact (E3 g' b' Hin)]. rewrite E1. apply in_or_app. right. right. exact Hin.
      * subst gs. rewrite (scan_rtl T l a P g b Q Hc E2 E3). reflexivity.
    + destruct (first_of (in_lvl T l) gs) as [Hno|[P [g [b [Q [E1 [E2 E3]]]]]]]; [apply Hstep; exact Hno|].
      exists P, g, b, Q. assert (Hg : In (g, b) gs) by (rewrite E1; apply in_or_app; right; left; reflexivity).
      pose proof (Hin0 g b Hg E2) as Hr. split.
      * unfold choice. rewrite Hr, Ed. split; [exact E1|]. split; [|split; [|discriminate]].
        -- intros g' b' Hin. rewrite (Hge g' b' Hin). lia.
        -- intros _ g' b' Hin. apply (Hgt g' b'); [|exact (E3 g' b' Hin)]. rewrite E1. apply in_or_app. left. exact Hin.
      * subst gs. rewrite (scan_ltr T l a P g b Q Hc E2 E3). reflexivity.
Qed.

Lemma scan_levels_done T a : good_table T -> good_chain T (a, []) -> scan_levels T (t_levels T) (slots_of (a, [])) = Ok None.
Proof.
  intros Ht Hc. assert (H : forall ls pre, t_levels T = pre ++ ls -> scan_levels T ls (slots_of (a, [])) = Ok None).
  { induction ls as [|l ls IH]; intros pre E; [reflexivity|]. cbn [scan_levels]. rewrite (level_dir T pre l ls Ht E). cbn [obind].
    rewrite (scan_nothing T l a []); [|exact Hc|intros ? ? []]. apply (IH (pre ++ [l])). rewrite E, <- app_assoc. reflexivity. }
  apply (H (t_levels T) []). reflexivity.
Qed.

(** * One step *)
Definition combine (T : optable) (orig : list item) (f : interp) (g : gap) (a b : leaf) : leaf :=
  let pl := match g with GOp _ i => i | GImp => snd b end in
  (match f (gap_sym T g) [fst a; fst b] with
   | inl v => v
   | inr e => mkRes (VExc (XExec (exc_msg e) (firstn pl orig) (match g with GOp s _ => Some s | GImp => None end) false)) None None
   end, pl).

(** The operand before a gap *)
Definition left_of (a : leaf) (P : list (gap * leaf)) : leaf := match rev P with [] => a | (_, b) :: _ => b end.
Definition set_left (x : leaf) (a : leaf) (P : list (gap * leaf)) : leaf * list (gap * leaf) :=
  match rev P with [] => (x, []) | (g, _) :: r => (a, rev r ++ [(g, x)]) end.
Lemma slots_left a P : exists A, slots_of (a, P) = A ++ [SRes (fst (left_of a P)) (snd (left_of a P))] /\
  forall x, slots_of (set_left x a P) = A ++ [SRes (fst x) (snd x)].
Proof.
  destruct P as [|[g b] P] using rev_ind.
  - exists []. split; [reflexivity|]. intros x. reflexivity.
  - clear IHP. unfold left_of, set_left. rewrite rev_unit. destruct g as [s i|].
    + exists (slots_of (a, P) ++ [SOp s i]). split; [|intros x; rewrite rev_involutive]; rewrite slots_of_split; cbn [gap_slots map concat]; rewrite app_nil_r, <- app_assoc; reflexivity.
    + exists (slots_of (a, P)). split; [|intros x; rewrite rev_involutive]; rewrite slots_of_split; cbn [gap_slots map concat]; rewrite app_nil_r; reflexivity.
Qed.

Lemma firstn_app_exact {A} (l r : list A) : firstn (length l) (l ++ r) = l.
Proof. induction l; cbn; [reflexivity|rewrite IHl; reflexivity]. Qed.
Lemma skipn_app_exact {A} (l r : list A) : skipn (length l) (l ++ r) = r.
Proof. induction l; cbn; [reflexivity|exact IHl]. Qed.

Lemma run_op_gap T orig f a P g b Q s : good_gap T g ->
  run_op T orig (interp_call f) (slots_of (a, P ++ (g, b) :: Q)) (length (slots_of (a, P))) (gap_sym T g) (gap_w g) s =
  (OOk (slots_of (fst (set_left (combine T orig f g (left_of a P) b) a P),
                  snd (set_left (combine T orig f g (left_of a P) b) a P) ++ Q)), s).
Proof.
  intros Hg. rewrite slots_of_split. destruct (slots_left a P) as [A [EA ES]]. rewrite EA.
  set (p := SRes (fst (left_of a P)) (snd (left_of a P))).
  assert (Hlen : length (A ++ [p]) = S (length A)) by (rewrite app_length; cbn; lia).
  rewrite Hlen. rewrite <- app_assoc. cbn [app].
  destruct (good_gap_binary T g Hg) as [o [Ho [Hl Hr]]].
  unfold run_op. rewrite Ho, Hl, Hr. cbn [length].
  set (B := concat (map gap_slots Q)).
  assert (Hn : nth_error (A ++ p :: gap_slots (g, b) ++ B) (S (length A)) = hd_error (gap_slots (g, b) ++ B)).
  { rewrite nth_error_app2 by lia. replace (S (length A) - length A) with 1 by lia. destruct g; reflexivity. }
  rewrite Hn, hd_gap_slots.
  assert (E1 : (S (length A) <? 1) = false) by (apply Nat.ltb_ge; lia). rewrite E1. clear E1.
  replace (S (length A) - 1) with (length A) by lia.
  rewrite firstn_app_exact, skipn_app_exact. cbn [firstn].
  rewrite slots_of_app. change (concat (map gap_slots Q)) with B.
  rewrite <- surjective_pairing, ES.
  destruct g as [sy i|]; cbn [gap_slots gap_w app].
  - assert (E1 : (length (A ++ p :: SOp sy i :: SRes (fst b) (snd b) :: B) <? S (length A) + 1 + 1) = false).
    { apply Nat.ltb_ge. rewrite app_length. cbn [length]. lia. }
    rewrite E1. clear E1.
    assert (E2 : skipn (S (length A) + 1) (A ++ p :: SOp sy i :: SRes (fst b) (snd b) :: B) = SRes (fst b) (snd b) :: B).
    { change (A ++ p :: SOp sy i :: SRes (fst b) (snd b) :: B) with (A ++ [p; SOp sy i] ++ SRes (fst b) (snd b) :: B).
      rewrite app_assoc. replace (S (length A) + 1) with (length (A ++ [p; SOp sy i])) by (rewrite app_length; cbn; lia).
      apply skipn_app_exact. }
    rewrite E2. clear E2.
    assert (E3 : skipn (S (length A) + 1 + 1) (A ++ p :: SOp sy i :: SRes (fst b) (snd b) :: B) = B).
    { change (A ++ p :: SOp sy i :: SRes (fst b) (snd b) :: B) with (A ++ [p; SOp sy i; SRes (fst b) (snd b)] ++ B).
      rewrite app_assoc. replace (S (length A) + 1 + 1) with (length (A ++ [p; SOp sy i; SRes (fst b) (snd b)])) by (rewrite app_length; cbn; lia).
      apply skipn_app_exact. }
    rewrite E3. clear E3. unfold p. cbn [firstn app take_inputs bind ret slot_idx gap_sym combine fst snd interp_call Nat.eqb].
    unfold interp_call, bind, ret, raise. cbn [fst snd]. rewrite <- !app_assoc. cbn [app].
    unfold combine. cbn [gap_sym fst snd]. destruct (f sy [fst (left_of a P); fst b]); reflexivity.
  - assert (E1 : (length (A ++ p :: SRes (fst b) (snd b) :: B) <? S (length A) + 1 + 0) = false).
    { apply Nat.ltb_ge. rewrite app_length. cbn [length]. lia. }
    rewrite E1. clear E1.
    assert (E2 : skipn (S (length A) + 0) (A ++ p :: SRes (fst b) (snd b) :: B) = SRes (fst b) (snd b) :: B).
    { change (A ++ p :: SRes (fst b) (snd b) :: B) with (A ++ [p] ++ SRes (fst b) (snd b) :: B).
      rewrite app_assoc. replace (S (length A) + 0) with (length (A ++ [p])) by (rewrite app_length; cbn; lia).
      apply skipn_app_exact. }
    rewrite E2. clear E2.
    assert (E3 : skipn (S (length A) + 0 + 1) (A ++ p :: SRes (fst b) (snd b) :: B) = B).
    { change (A ++ p :: SRes (fst b) (snd b) :: B) with (A ++ [p; SRes (fst b) (snd b)] ++ B).
      rewrite app_assoc. replace (S (length A) + 0 + 1) with (length (A ++ [p; SRes (fst b) (snd b)])) by (rewrite app_length; cbn; lia).
      apply skipn_app_exact. }
    rewrite E3. clear E3. unfold p. cbn [firstn app take_inputs bind ret slot_idx gap_sym combine fst snd interp_call Nat.eqb].
    unfold interp_call, bind, ret, raise. cbn [fst snd]. rewrite <- !app_assoc. cbn [app].
    unfold combine. cbn [gap_sym fst snd]. destruct (f _ [fst (left_of a P); fst b]); reflexivity.
Qed.

(** * Forests *)
Definition forest := (tree * list (gap * tree))%type.
Definition tleaf (T : optable) (orig : list item) (f : interp) (t : tree) : leaf := (tree_value T orig f t, place t).
Definition root_left (T : optable) (t : tree) (g : gap) : Prop :=
  match t with Leaf _ => True | Node h _ _ => rank T h < rank T g \/ (rank T h = rank T g /\ right_to_left T (rank T g) = false) end.
Definition root_right (T : optable) (t : tree) (g : gap) : Prop :=
  match t with Leaf _ => True | Node h _ _ => rank T h < rank T g \/ (rank T h = rank T g /\ right_to_left T (rank T g) = true) end.
(** Adjacent trees fit the gap between them. *)
Fixpoint fits (T : optable) (t : tree) (gs : list (gap * tree)) : Prop :=
  grouped T t /\ match gs with [] => True | (g, u) :: r => root_left T t g /\ root_right T u g /\ fits T u r end.
Fixpoint forest_chain (t : tree) (gs : list (gap * tree)) : chain :=
  match gs with
  | [] => chain_of t
  | (g, u) :: r => (fst (chain_of t), snd (chain_of t) ++ (g, fst (forest_chain u r)) :: snd (forest_chain u r))
  end.
Definition fleaves (T : optable) (orig : list item) (f : interp) (t : tree) (gs : list (gap * tree)) : chain :=
  (tleaf T orig f t, map (fun gu : gap * tree => (fst gu, tleaf T orig f (snd gu))) gs).

(** Joining at a gap *)
Fixpoint join (t : tree) (P : list (gap * tree)) (g : gap) (u : tree) (Q : list (gap * tree)) : forest :=
  match P with
  | [] => (Node g t u, Q)
  | (h, t') :: P' => (t, (h, fst (join t' P' g u Q)) :: snd (join t' P' g u Q))
  end.
Lemma forest_chain_app t P g u Q : forest_chain t (P ++ (g, u) :: Q) =
  (fst (forest_chain t P), snd (forest_chain t P) ++ (g, fst (forest_chain u Q)) :: snd (forest_chain u Q)).
Proof.
  revert t. induction P as [|[h t'] P IH]; intros t; [reflexivity|].
  change ((h, t') :: P) with ([(h, t')] ++ P). rewrite <- app_assoc. cbn [app forest_chain]. rewrite (IH t').
  cbn [fst snd]. rewrite <- app_assoc. cbn [app]. reflexivity.
Qed.
Lemma join_chain t P g u Q : forest_chain (fst (join t P g u Q)) (snd (join t P g u Q)) = forest_chain t (P ++ (g, u) :: Q).
Proof.
  revert t. induction P as [|[h t'] P IH]; intros t.
  - cbn [join fst snd app forest_chain]. destruct Q as [|[h v] Q]; cbn [forest_chain chain_of fst snd]; [reflexivity|].
    f_equal. rewrite <- app_assoc. reflexivity.
  - cbn [join fst snd app forest_chain]. rewrite IH. reflexivity.
Qed.
Lemma join_fits T t P g u Q : fits T t (P ++ (g, u) :: Q) ->
  (forall h v, In (h, v) P -> rank T g < rank T h \/ (rank T g = rank T h /\ right_to_left T (rank T g) = true)) ->
  (forall h v, In (h, v) Q -> rank T g < rank T h \/ (rank T g = rank T h /\ right_to_left T (rank T g) = false)) ->
  fits T (fst (join t P g u Q)) (snd (join t P g u Q)).
Proof.
  revert t. induction P as [|[h t'] P IH]; intros t Hf HP HQ.
  - cbn [app fits] in Hf. destruct Hf as [Ht [Hl [Hr Hu]]]. cbn [join fst snd].
    assert (Hgu : grouped T u) by (destruct Q as [|[? ?] ?]; cbn [fits] in Hu; tauto).
    assert (HN : grouped T (Node g t u)) by (cbn [grouped]; unfold root_left, root_right in *; tauto).
    destruct Q as [|[h v] Q]; cbn [fits] in *; [tauto|]. split; [exact HN|]. destruct Hu as [_ [_ [Hv Hq]]].
    split; [|split; [exact Hv|exact Hq]]. cbn [root_left]. destruct (HQ h v (or_introl eq_refl)) as [H|[H1 H2]]; [left; exact H|].
    right. rewrite <- H1. auto.
  - cbn [app fits] in Hf. destruct Hf as [Ht [Hl [Hr Hf]]]. cbn [join fst snd fits]. split; [exact Ht|]. split; [exact Hl|].
    split.
    + destruct P as [|[h' t''] P]; cbn [join fst snd].
      * cbn [root_right]. destruct (HP h t' (or_introl eq_refl)) as [H|[H1 H2]]; [left; exact H|right; rewrite <- H1; auto].
      * exact Hr.
    + apply IH; [exact Hf| |exact HQ]. intros h' v Hin. apply (HP h' v). right. exact Hin.
Qed.

Lemma left_of_cons a h b P : left_of a ((h, b) :: P) = left_of b P.
Proof. unfold left_of. cbn [rev]. destruct (rev P) as [|[g c] r]; reflexivity. Qed.
Lemma set_left_cons x a h b P : set_left x a ((h, b) :: P) = (a, (h, fst (set_left x b P)) :: snd (set_left x b P)).
Proof.
  unfold set_left. cbn [rev]. destruct (rev P) as [|[g c] r]; [reflexivity|]. cbn [app fst snd].
  rewrite rev_app_distr. reflexivity.
Qed.
Lemma tleaf_node T orig f g t u : tleaf T orig f (Node g t u) = combine T orig f g (tleaf T orig f t) (tleaf T orig f u).
Proof. unfold tleaf, combine. cbn [tree_value place fst snd]. destruct g; reflexivity. Qed.
Definition fmap (T : optable) (orig : list item) (f : interp) (gs : list (gap * tree)) : list (gap * leaf) :=
  map (fun gu : gap * tree => (fst gu, tleaf T orig f (snd gu))) gs.
Lemma join_leaves T orig f t P g u Q :
  fleaves T orig f (fst (join t P g u Q)) (snd (join t P g u Q)) =
  (fst (set_left (combine T orig f g (left_of (tleaf T orig f t) (fmap T orig f P)) (tleaf T orig f u)) (tleaf T orig f t) (fmap T orig f P)),
   snd (set_left (combine T orig f g (left_of (tleaf T orig f t) (fmap T orig f P)) (tleaf T orig f u)) (tleaf T orig f t) (fmap T orig f P)) ++ fmap T orig f Q).
Proof.
  revert t. induction P as [|[h t'] P IH]; intros t.
  - cbn [join fmap map fst snd]. unfold left_of, set_left. cbn [rev fst snd app]. unfold fleaves. rewrite tleaf_node. reflexivity.
  - cbn [fmap map fst snd]. change (map _ P) with (fmap T orig f P). rewrite left_of_cons, set_left_cons. cbn [fst snd app join].
    specialize (IH t'). unfold fleaves in *. cbn [map fst snd]. injection IH as IH1 IH2. rewrite IH1, IH2. reflexivity.
Qed.

Lemma combine_nounit T orig f g a b : no_units f -> is_unit_val (fst (combine T orig f g a b)) = false.
Proof.
  intros H. unfold combine. cbn [fst]. destruct (f (gap_sym T g) [fst a; fst b]) eqn:E; [exact (H _ _ _ E)|reflexivity].
Qed.
Lemma set_left_good T x a P Q : good_chain T (a, P ++ Q) -> is_unit_val (fst x) = false ->
  good_chain T (fst (set_left x a P), snd (set_left x a P) ++ Q).
Proof.
  revert a. induction P as [|[h b] P IH]; intros a [Ha HP] Hx.
  - unfold set_left. cbn. split; [exact Hx|exact HP].
  - rewrite set_left_cons. cbn [fst snd app] in *. inversion HP; subst. cbn [fst snd] in H1.
    destruct (IH b (conj (proj2 H1) H2) Hx) as [I1 I2]. cbn [fst snd] in *. split; [exact Ha|]. constructor; [|exact I2].
    cbn [fst snd]. split; [exact (proj1 H1)|exact I1].
Qed.
Lemma join_size t P g u Q : length (snd (join t P g u Q)) = length P + length Q.
Proof. revert t. induction P as [|[h t'] P IH]; intros t; cbn [join snd length]; [reflexivity|]. rewrite IH. lia. Qed.

Lemma loop_forest T orig f : good_table T -> no_units f -> forall fuel t gs s, length gs < fuel ->
  fits T t gs -> good_chain T (fleaves T orig f t gs) ->
  exists t', op_loop fuel T orig (interp_call f) (slots_of (fleaves T orig f t gs)) s = (OOk (slots_of (tleaf T orig f t', [])), s) /\
             grouped T t' /\ chain_of t' = forest_chain t gs.
Proof.
  intros Ht Hf. induction fuel as [|fuel IH]; intros t gs s Hn Hfit Hc; [lia|]. cbn [op_loop].
  destruct gs as [|gu gs0] eqn:Egs.
  - unfold fleaves. cbn [map]. rewrite (scan_levels_done T _ Ht Hc). exists t. split; [reflexivity|]. split; [|reflexivity].
    cbn [fits] in Hfit. tauto.
  - rewrite <- Egs in *. unfold fleaves in Hc. fold (fmap T orig f gs) in Hc.
    assert (Hne : fmap T orig f gs <> []) by (rewrite Egs; discriminate).
    destruct (scan_levels_choice T (tleaf T orig f t) (fmap T orig f gs) Ht Hc Hne (t_levels T) [] eq_refl) as [P [g [b [Q [Hch Hs]]]]].
    { intros. constructor. }
    unfold fleaves. fold (fmap T orig f gs). rewrite Hs. destruct Hch as [E [H1 [H2 H3]]].
    assert (Hinv : exists P0 u Q0, gs = P0 ++ (g, u) :: Q0 /\ P = fmap T orig f P0 /\ b = tleaf T orig f u /\ Q = fmap T orig f Q0).
    { unfold fmap in E. apply map_eq_app in E. destruct E as [P0 [R [E1 [E2 E3]]]]. apply map_eq_cons in E3.
      destruct E3 as [[g0 u] [Q0 [E4 [E5 E6]]]]. cbn [fst snd] in E5. injection E5 as E5 E7.
      exists P0, u, Q0. subst. auto. }
    destruct Hinv as [P0 [u [Q0 [Eg [-> [-> ->]]]]]].
    assert (Emap : fmap T orig f gs = fmap T orig f P0 ++ (g, tleaf T orig f u) :: fmap T orig f Q0) by exact E.
    rewrite Emap in *.
    assert (Hgg : good_gap T g).
    { apply (good_in T _ _ g (tleaf T orig f u) Hc). apply in_or_app. right. left. reflexivity. }
    unfold bind. rewrite (run_op_gap T orig f _ _ g _ _ s Hgg).
    rewrite <- join_leaves.
    destruct (good_split _ _ _ _ _ _ Hc) as [HcP [_ [_ HcQ]]].
    assert (HinP : forall h v, In (h, v) P0 -> In (h, tleaf T orig f v) (fmap T orig f P0)).
    { intros h v Hin. unfold fmap. apply in_map_iff. exists (h, v). auto. }
    assert (HinQ : forall h v, In (h, v) Q0 -> In (h, tleaf T orig f v) (fmap T orig f Q0)).
    { intros h v Hin. unfold fmap. apply in_map_iff. exists (h, v). auto. }
    destruct (IH (fst (join t P0 g u Q0)) (snd (join t P0 g u Q0)) s) as [t' [Hrun [Hgr Hch]]].
    + rewrite join_size. rewrite Eg, app_length in Hn. cbn [length] in Hn. lia.
    + apply join_fits.
      * rewrite <- Eg. exact Hfit.
      * intros h v Hin. destruct (right_to_left T (rank T g)) eqn:Ed.
        -- specialize (H1 h _ (in_or_app _ _ _ (or_introl (HinP h v Hin)))). destruct (Nat.eq_dec (rank T g) (rank T h)); [right|left; lia]. auto.
        -- left. exact (H2 eq_refl h _ (HinP h v Hin)).
      * intros h v Hin. destruct (right_to_left T (rank T g)) eqn:Ed.
        -- left. exact (H3 eq_refl h _ (HinQ h v Hin)).
        -- specialize (H1 h _ (in_or_app _ ((g, tleaf T orig f u) :: fmap T orig f Q0) _ (or_intror (or_intror (HinQ h v Hin))))).
           destruct (Nat.eq_dec (rank T g) (rank T h)); [right|left; lia]. auto.
    + rewrite join_leaves. apply set_left_good; [|apply combine_nounit; exact Hf].
      destruct Hc as [Hc1 Hc2]. split; [exact Hc1|]. cbn [snd] in *. rewrite Forall_app in *. destruct Hc2 as [Hc2 Hc3].
      inversion Hc3; subst. auto.
    + exists t'. split; [exact Hrun|]. split; [exact Hgr|]. rewrite Hch, join_chain, Eg. reflexivity.
Qed.

(** * Every sequence is grouped in exactly one way *)
Definition gap_of (t : tree) : list gap := map fst (snd (chain_of t)).
Lemma grouped_all T t : grouped T t ->
  match t with
  | Leaf _ => True
  | Node g l r =>
    (forall h, In h (gap_of l) -> rank T h < rank T g \/ (rank T h = rank T g /\ right_to_left T (rank T g) = false)) /\
    (forall h, In h (gap_of r) -> rank T h < rank T g \/ (rank T h = rank T g /\ right_to_left T (rank T g) = true))
  end.
Proof.
  induction t as [x|g l IHl r IHr]; [trivial|]. cbn [grouped]. intros [Hl [Hr [Hgl Hgr]]]. specialize (IHl Hl). specialize (IHr Hr).
  split; intros h Hin.
  - destruct l as [x|g' l1 l2]; [destruct Hin|]. destruct IHl as [I1 I2]. unfold gap_of in Hin. cbn [chain_of snd] in Hin.
    rewrite map_app in Hin. apply in_app_or in Hin. destruct Hin as [Hin|Hin].
    + destruct (I1 h Hin) as [H|[H1 H2]]; destruct Hgl as [G|[G1 G2]]; try (left; lia). right. split; [congruence|exact G2].
    + cbn [map fst] in Hin. destruct Hin as [<-|Hin]; [exact Hgl|].
      destruct (I2 h Hin) as [H|[H1 H2]]; destruct Hgl as [G|[G1 G2]]; try (left; lia). right. split; [congruence|exact G2].
  - destruct r as [x|g' l1 l2]; [destruct Hin|]. destruct IHr as [I1 I2]. unfold gap_of in Hin. cbn [chain_of snd] in Hin.
    rewrite map_app in Hin. apply in_app_or in Hin. destruct Hin as [Hin|Hin].
    + destruct (I1 h Hin) as [H|[H1 H2]]; destruct Hgr as [G|[G1 G2]]; try (left; lia). right. split; [congruence|exact G2].
    + cbn [map fst] in Hin. destruct Hin as [<-|Hin]; [exact Hgr|].
      destruct (I2 h Hin) as [H|[H1 H2]]; destruct Hgr as [G|[G1 G2]]; try (left; lia). right. split; [congruence|exact G2].
Qed.

Lemma grouped_unique T t1 : forall t2, grouped T t1 -> grouped T t2 -> chain_of t1 = chain_of t2 -> t1 = t2.
Proof.
  induction t1 as [x|g l IHl r IHr]; intros t2 G1 G2 E.
  - destruct t2 as [y|g l r]; cbn [chain_of] in E.
    + injection E as ->. reflexivity.
    + injection E as _ E. destruct (snd (chain_of l)); discriminate.
  - destruct t2 as [y|g' l' r'].
    + cbn [chain_of] in E. injection E as _ E. destruct (snd (chain_of l)); discriminate.
    + pose proof (grouped_all T _ G1) as [A1 A2]. pose proof (grouped_all T _ G2) as [B1 B2].
      cbn [chain_of] in E. injection E as E1 E2.
      destruct (app_cmp _ _ _ _ E2) as [[R [F1 F2]]|[R [F1 F2]]]; destruct R as [|y R].
      * rewrite app_nil_r in F1. cbn [app] in F2. injection F2 as F2 F3 F4. subst g'.
        cbn [grouped] in G1, G2. f_equal; [apply IHl|apply IHr]; try tauto.
        -- destruct (chain_of l), (chain_of l'); cbn [fst snd] in *; congruence.
        -- destruct (chain_of r), (chain_of r'); cbn [fst snd] in *; congruence.
      * exfalso. cbn [app] in F2. injection F2 as F2 F3.
        assert (In1 : In g (gap_of l')).
        { unfold gap_of. rewrite F1, map_app. apply in_or_app. right. rewrite <- F2. left. reflexivity. }
        assert (In2 : In g' (gap_of r)).
        { unfold gap_of. rewrite F3, map_app. apply in_or_app. right. left. reflexivity. }
        specialize (B1 _ In1). specialize (A2 _ In2).
        destruct B1 as [B1|[B1 B1']]; destruct A2 as [A2|[A2 A2']]; try lia. rewrite A2 in B1'. congruence.
      * rewrite app_nil_r in F1. cbn [app] in F2. injection F2 as F2 F3 F4. subst g'.
        cbn [grouped] in G1, G2. f_equal; [apply IHl|apply IHr]; try tauto.
        -- destruct (chain_of l), (chain_of l'); cbn [fst snd] in *; congruence.
        -- destruct (chain_of r), (chain_of r'); cbn [fst snd] in *; congruence.
      * exfalso. cbn [app] in F2. injection F2 as F2 F3.
        assert (In1 : In g' (gap_of l)).
        { unfold gap_of. rewrite F1, map_app. apply in_or_app. right. rewrite <- F2. left. reflexivity. }
        assert (In2 : In g (gap_of r')).
        { unfold gap_of. rewrite F3, map_app. apply in_or_app. right. left. reflexivity. }
        specialize (A1 _ In1). specialize (B2 _ In2).
        destruct A1 as [C1|[C1 C1']]; destruct B2 as [C2|[C2 C2']]; try lia. rewrite C2 in C1'. congruence.
Qed.

(** The leaves of a chain as a forest *)
Definition leaf_gaps (gs : list (gap * leaf)) : list (gap * tree) := map (fun gb => (fst gb, Leaf (snd gb))) gs.
Lemma leaf_forest_fits T a gs : fits T (Leaf a) (leaf_gaps gs).
Proof. revert a. induction gs as [|[g b] gs IH]; intros a; cbn [leaf_gaps map fits grouped fst snd]; [auto|]. split; [trivial|]. split; [exact I|]. split; [exact I|apply IH]. Qed.
Lemma leaf_forest_chain a gs : forest_chain (Leaf a) (leaf_gaps gs) = (a, gs).
Proof.
  revert a. induction gs as [|[g b] gs IH]; intros a; [reflexivity|]. cbn [leaf_gaps map forest_chain fst snd].
  change (map _ gs) with (leaf_gaps gs). rewrite IH. reflexivity.
Qed.
Lemma leaf_forest_leaves T orig f a gs : fleaves T orig f (Leaf a) (leaf_gaps gs) = (a, gs).
Proof.
  unfold fleaves, leaf_gaps. rewrite map_map. cbn [fst snd]. unfold tleaf. cbn [tree_value place]. f_equal; [destruct a; reflexivity|].
  rewrite <- (map_id gs) at 2. apply map_ext. intros [g b]. cbn [fst snd]. destruct b; reflexivity.
Qed.
Lemma slots_len a gs : length gs <= length (slots_of (a, gs)).
Proof.
  rewrite slots_of_eq. cbn [length]. induction gs as [|gb gs IH]; [cbn; lia|]. cbn [map concat length]. rewrite app_length.
  pose proof (gap_slots_pos gb). lia.
Qed.

Lemma loop_tree T orig f c s : good_table T -> good_chain T c -> no_units f ->
  exists t, grouped T t /\ chain_of t = c /\ run_slots T orig (interp_call f) (slots_of c) s = (OOk (tree_value T orig f t), s).
Proof.
  intros Ht Hc Hf. destruct c as [a gs].
  destruct (loop_forest T orig f Ht Hf (loop_fuel (slots_of (a, gs))) (Leaf a) (leaf_gaps gs) s) as [t [Hrun [Hg Hch]]].
  - unfold loop_fuel, leaf_gaps. rewrite map_length. pose proof (slots_len a gs). lia.
  - apply leaf_forest_fits.
  - rewrite leaf_forest_leaves. exact Hc.
  - exists t. split; [exact Hg|]. split; [rewrite Hch; apply leaf_forest_chain|]. rewrite leaf_forest_leaves in Hrun.
    unfold run_slots, bind. rewrite Hrun. reflexivity.
Qed.

Lemma loop_grouped T orig f t s : good_table T -> good_chain T (chain_of t) -> no_units f -> grouped T t ->
  run_slots T orig (interp_call f) (slots_of (chain_of t)) s = (OOk (tree_value T orig f t), s).
Proof.
  intros Ht Hc Hf Hg. destruct (loop_tree T orig f (chain_of t) s Ht Hc Hf) as [t' [Hg' [E H]]].
  rewrite (grouped_unique T t' t Hg' Hg E) in H. exact H.
Qed.

Lemma grouping_exists T c : good_table T -> good_chain T c -> exists t, grouped T t /\ chain_of t = c.
Proof.
  intros Ht Hc. destruct (loop_tree T [] (fun _ _ => inr (XCalc false MOther)) c (mkSt [] None) Ht Hc) as [t [Hg [E _]]].
  - intros s ins r H. discriminate.
  - exists t. auto.
Qed.

(** * Termination *)
Definition weight (sl : list slot) : nat := length sl + length (filter slot_op sl).
Lemma weight_app a b : weight (a ++ b) = weight a + weight b.
Proof. unfold weight. rewrite filter_app, !app_length. lia. Qed.
Lemma weight_cons x l : weight (x :: l) = (if slot_op x then 2 else 1) + weight l.
Proof. unfold weight. cbn [filter length]. destruct (slot_op x); cbn [length]; lia. Qed.

Lemma action_width T l sl i s w : action T l sl i = Some (s, w) ->
  (w = 1 /\ exists t k, nth_error sl i = Some (SOp t k)) \/
  (w = 0 /\ (t_uassign T = Some s \/ t_umul T = Some s \/ t_imul T = Some s)).
Proof.
  assert (Hlv : forall x, in_level x l = true -> x = Some (opt_get x)) by (intros [x|] H; [reflexivity|discriminate]).
  unfold action. destruct (nth_error sl i) as [x|]; [|discriminate]. cbv zeta.
  match goal with |- (if ?c then _ else _) = _ -> _ => destruct c eqn:E1 end.
  { intros H. injection H as <- <-. right. split; [reflexivity|]. left. apply Hlv.
    repeat (apply andb_prop in E1; destruct E1 as [E1 _]). exact E1. }
  match goal with |- (if ?c then _ else _) = _ -> _ => destruct c eqn:E2 end.
  { intros H. injection H as <- <-. right. split; [reflexivity|]. right. left. apply Hlv.
    repeat (apply andb_prop in E2; destruct E2 as [E2 _]). exact E2. }
  match goal with |- (if ?c then _ else _) = _ -> _ => destruct c eqn:E3 end.
  { intros H. injection H as <- <-. left. split; [reflexivity|]. destruct x as [t k|r k]; [exists t, k; reflexivity|].
    rewrite andb_false_r in E3. discriminate. }
  match goal with |- (if ?c then _ else _) = _ -> _ => destruct c eqn:E4 end.
  { intros H. injection H as <- <-. right. split; [reflexivity|]. right. right. apply Hlv.
    repeat (apply andb_prop in E4; destruct E4 as [E4 _]). exact E4. }
  destruct x as [t k|r k]; [|discriminate].
  match goal with |- (if ?c then _ else _) = _ -> _ => destruct c eqn:E5 end; [|discriminate].
  intros H. injection H as <- <-. left. split; [reflexivity|]. exists t, k. reflexivity.
Qed.
Lemma scan_action T l sl is i s w : scan T l sl is = Some (i, s, w) -> action T l sl i = Some (s, w).
Proof.
  induction is as [|j is IH]; cbn [scan]; [discriminate|]. destruct (action T l sl j) as [[s' w']|] eqn:E; [|exact IH].
  intros H. injection H as <- <- <-. exact E.
Qed.
Lemma scan_levels_action T ls sl i s w : scan_levels T ls sl = Ok (Some (i, s, w)) -> exists l, action T l sl i = Some (s, w).
Proof.
  induction ls as [|l ls IH]; cbn [scan_levels]; [discriminate|]. unfold obind. destruct (level_rtl T l) as [b| |]; try discriminate.
  cbv zeta. destruct (scan T l sl (if b then rev (seq 0 (length sl)) else seq 0 (length sl))) as [[[i' s'] w']|] eqn:E; [|exact IH].
  intros H. injection H as <- <- <-. exists l. exact (scan_action _ _ _ _ _ _ _ E).
Qed.

Lemma nth_split_at {A} (sl : list A) i x : nth_error sl i = Some x -> exists A B, sl = A ++ x :: B /\ length A = i.
Proof. apply nth_error_split. Qed.

Lemma run_op_weight T orig callop sl i s w st st' sl' : shrinks T ->
  (w = 1 /\ exists t k, nth_error sl i = Some (SOp t k)) \/
  (w = 0 /\ (t_uassign T = Some s \/ t_umul T = Some s \/ t_imul T = Some s)) ->
  run_op T orig callop sl i s w st = (OOk sl', st') -> weight sl' < weight sl.
Proof.
  intros Hsh Hw. unfold run_op. destruct (find_op T s) as [o|] eqn:Eo; [|discriminate].
  destruct (nth_error sl i) as [x|] eqn:Ex; [|discriminate]. cbv zeta.
  destruct (i <? length (op_l o)) eqn:E1; [discriminate|]. apply Nat.ltb_ge in E1.
  destruct (length sl <? i + length (op_r o) + w) eqn:E2; [discriminate|]. apply Nat.ltb_ge in E2.
  unfold bind at 1. destruct (take_inputs _ _ _ _ _ st) as [[ins|e| |] st1]; try discriminate.
  unfold bind at 1.
  match goal with |- (match ?c with _ => _ end = _ -> _) => destruct c as [[r|e| |] st2] end; try discriminate.
  unfold ret. intros H. injection H as H _. subst sl'.
  destruct (nth_split_at _ _ _ Ex) as [A [B [E3 E4]]]. subst i.
  assert (EA : weight (firstn (length A - length (op_l o)) sl) + length (op_l o) <= weight A).
  { assert (Hf : firstn (length A - length (op_l o)) sl = firstn (length A - length (op_l o)) A).
    { rewrite E3, firstn_app. replace (length A - length (op_l o) - length A) with 0 by lia. cbn [firstn]. apply app_nil_r. }
    rewrite Hf. rewrite <- (firstn_skipn (length A - length (op_l o)) A) at 3. rewrite weight_app.
    unfold weight at 3. rewrite skipn_length. lia. }
  assert (EB : w <= 1 -> weight (skipn (length A + w + length (op_r o)) sl) + length (op_r o) + (if w =? 1 then (if slot_op x then 2 else 1) else 0) <= weight (x :: B)).
  { intros Hw1. assert (Hs : skipn (length A + w + length (op_r o)) sl = skipn (w + length (op_r o)) (x :: B)).
    { rewrite E3. replace (length A + w + length (op_r o)) with (w + length (op_r o) + length A) by lia.
      rewrite skipn_app. rewrite skipn_all2 by lia. cbn [app]. f_equal. lia. }
    rewrite Hs. assert (Hlen : length sl = length A + S (length B)) by (rewrite E3, app_length; reflexivity).
    destruct w as [|[|w]]; [| |lia].
    - cbn [Nat.eqb plus]. rewrite <- (firstn_skipn (length (op_r o)) (x :: B)) at 2. rewrite weight_app.
      assert (length (op_r o) <= weight (firstn (length (op_r o)) (x :: B))); [|lia].
      unfold weight. rewrite firstn_length. cbn [length]. lia.
    - cbn [Nat.eqb plus skipn]. rewrite weight_cons. rewrite <- (firstn_skipn (length (op_r o)) B) at 2. rewrite weight_app.
      assert (length (op_r o) <= weight (firstn (length (op_r o)) B)); [|lia].
      unfold weight. rewrite firstn_length. lia. }
  rewrite weight_app, weight_cons. cbn [slot_op].
  assert (Hsl : weight sl = weight A + weight (x :: B)) by (rewrite E3; apply weight_app). rewrite Hsl.
  destruct Hw as [[-> [t [k Hx]]]|[-> Hs]].
  - injection Hx as ->. specialize (EB ltac:(lia)). cbn [Nat.eqb slot_op] in EB. lia.
  - specialize (Hsh s o Hs Eo). specialize (EB ltac:(lia)). cbn [Nat.eqb] in EB. lia.
Qed.

Lemma take_inputs_fuel orig sym prev want have s : fst (take_inputs orig sym prev want have s) <> OFuel.
Proof.
  revert have. induction want as [|[w|] want IH]; intros [|[t k|r k] have]; cbn [take_inputs]; try discriminate.
  - destruct (seq_eqb t w); [apply IH|discriminate].
  - unfold bind. specialize (IH have). destruct (take_inputs orig sym prev want have s) as [[? | ? | |] ?]; cbn [fst ret] in *; try discriminate; congruence.
Qed.
Lemma run_op_fuel T orig callop sl i sy w s : (forall sym ins st, fst (callop sym ins st) <> OFuel) ->
  fst (run_op T orig callop sl i sy w s) <> OFuel.
Proof.
  intros Hc. unfold run_op. destruct (find_op T sy) as [o|]; [|discriminate]. destruct (nth_error sl i) as [x|]; [|discriminate].
  cbv zeta. destruct (i <? length (op_l o)); [discriminate|]. destruct (length sl <? i + length (op_r o) + w); [discriminate|].
  unfold bind. pose proof (take_inputs_fuel orig sy (firstn (slot_idx x) orig) (op_l o ++ op_r o)
    (firstn (length (op_l o)) (skipn (i - length (op_l o)) sl) ++ firstn (length (op_r o)) (skipn (i + w) sl)) s) as Hf.
  destruct (take_inputs _ _ _ _ _ s) as [[ins|e| |] s1]; cbn [fst] in *; try discriminate; try congruence.
  specialize (Hc sy ins s1). destruct (callop sy ins s1) as [[r|e| |] s2]; cbn [fst] in *; try discriminate. congruence.
Qed.
Lemma op_loop_fuel T orig callop : shrinks T -> (forall sym ins st, fst (callop sym ins st) <> OFuel) ->
  forall fuel sl s, weight sl < fuel -> fst (op_loop fuel T orig callop sl s) <> OFuel.
Proof.
  intros Hsh Hc. induction fuel as [|fuel IH]; intros sl s Hw; [lia|]. cbn [op_loop].
  destruct (scan_levels T (t_levels T) sl) as [[[[i sy] w]|]| |] eqn:E; try discriminate.
  destruct (scan_levels_action _ _ _ _ _ _ E) as [l Hl]. pose proof (action_width _ _ _ _ _ _ Hl) as Hwd.
  unfold bind. pose proof (run_op_fuel T orig callop sl i sy w s Hc) as Hf.
  destruct (run_op T orig callop sl i sy w s) as [[sl'|e| |] s1] eqn:Er; cbn [fst] in *; try discriminate; try congruence.
  apply IH. pose proof (run_op_weight _ _ _ _ _ _ _ _ _ _ Hsh Hwd Er). lia.
Qed.
Lemma run_slots_fuel T orig callop sl s : shrinks T -> (forall sym ins st, fst (callop sym ins st) <> OFuel) ->
  fst (run_slots T orig callop sl s) <> OFuel.
Proof.
  intros Hsh Hc. unfold run_slots, bind. pose proof (op_loop_fuel T orig callop Hsh Hc (loop_fuel sl) sl s) as Hf.
  assert (Hw : weight sl < loop_fuel sl).
  { unfold weight, loop_fuel. assert (length (filter slot_op sl) <= length sl); [|lia].
    clear. induction sl as [|x sl IH]; [reflexivity|]. cbn [filter]. destruct (slot_op x); cbn [length]; lia. }
  specialize (Hf Hw). destruct (op_loop (loop_fuel sl) T orig callop sl s) as [[sl'|e| |] s1]; cbn [fst] in *; try discriminate; try congruence.
  unfold ends. destruct sl' as [|[sy k|r k] [|y sl']]; try discriminate;
    destruct (filter slot_op _) as [|z ?]; discriminate.
Qed.
