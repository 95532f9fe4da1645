(** The operator loop when the operators are called for real: only the calls that the grouped tree makes are made. *)
From Coq Require Import ZArith QArith Ascii String List Bool Lia.
From Verif Require Import Base BaseProofs Dec Num Bases Units Syntax Pos Call Loop LoopSpec LoopProofs Parse Exec.
Import ListNotations.
Open Scope nat_scope.

Fixpoint subtree (x t : tree) : Prop := x = t \/ match t with Leaf _ => False | Node _ l r => subtree x l \/ subtree x r end.
Lemma subtree_refl t : subtree t t. Proof. destruct t; left; reflexivity. Qed.
Lemma subtree_sub x y t : subtree x y -> subtree y t -> subtree x t.
Proof.
  intros H. induction t as [z|g l IHl r IHr]; cbn [subtree].
  - intros [->|[]]. exact H.
  - intros [->|[K|K]]; [exact H|right; left; exact (IHl K)|right; right; exact (IHr K)].
Qed.
(** At every operator of the tree the call gives what [f] says and leaves the state *)
Definition agrees (T : optable) (orig : list item) (call : str -> list result -> M result) (f : interp) (s : st) (t : tree) : Prop :=
  forall g l r, subtree (Node g l r) t ->
    call (gap_sym T g) [tree_value T orig f l; tree_value T orig f r] s = interp_call f (gap_sym T g) [tree_value T orig f l; tree_value T orig f r] s.

Lemma run_op_same T orig call f sl i sym w a b s s' : binary T sym ->
  match nth_error sl i with Some _ => True | None => False end ->
  firstn 1 (skipn (i - 1) sl) = [a] -> firstn 1 (skipn (i + w) sl) = [b] -> i <? 1 = false -> length sl <? i + 1 + w = false ->
  (match a, b with SRes x _, SRes y _ => call sym [x; y] s = (fst (interp_call f sym [x; y] s), s') | _, _ => False end) ->
  run_op T orig call sl i sym w s = (fst (run_op T orig (interp_call f) sl i sym w s), s').
Proof.
  intros (o & Ho & Hl & Hr) Hn Ha Hb H1 H2 H. unfold run_op. rewrite Ho, Hl, Hr. cbn [length app]. destruct (nth_error sl i) as [x|]; [|destruct Hn].
  rewrite H1, H2, Ha, Hb. cbn [app].
  destruct a as [sa ia|ra ia]; [destruct H|]. destruct b as [sb ib|rb ib]; [destruct H|]. cbn [take_inputs]. unfold bind, ret. rewrite H. unfold interp_call, ret, raise. destruct (f sym [ra; rb]); reflexivity.
Qed.
Lemma run_op_gap' T orig call f a P g b Q s s' : good_gap T g ->
  call (gap_sym T g) [fst (left_of a P); fst b] s = (fst (interp_call f (gap_sym T g) [fst (left_of a P); fst b] s), s') ->
  run_op T orig call (slots_of (a, P ++ (g, b) :: Q)) (length (slots_of (a, P))) (gap_sym T g) (gap_w g) s =
  (OOk (slots_of (fst (set_left (combine T orig f g (left_of a P) b) a P),
                  snd (set_left (combine T orig f g (left_of a P) b) a P) ++ Q)), s').
Proof.
  intros Hg Hc. pose proof (run_op_gap T orig f a P g b Q s Hg) as R.
  destruct (slots_left a P) as [A [EA _]]. set (p := SRes (fst (left_of a P)) (snd (left_of a P))) in *.
  assert (K : run_op T orig call (slots_of (a, P ++ (g, b) :: Q)) (length (slots_of (a, P))) (gap_sym T g) (gap_w g) s =
              (fst (run_op T orig (interp_call f) (slots_of (a, P ++ (g, b) :: Q)) (length (slots_of (a, P))) (gap_sym T g) (gap_w g) s), s')).
  2: { rewrite K. pose proof (f_equal fst R) as R'. cbn [fst] in R'. rewrite <- R'. reflexivity. }
  apply (run_op_same T orig call f _ _ _ _ p (SRes (fst b) (snd b)) s s'); [apply good_gap_binary, Hg| | | | | |exact Hc].
  all: rewrite ?slots_of_split, EA; set (B := concat (map gap_slots Q)).
  all: assert (Hlen : length (A ++ [p]) = S (length A)) by (rewrite app_length; cbn; lia).
  - rewrite nth_error_app2, Nat.sub_diag by lia. destruct g; exact I.
  - rewrite Hlen. replace (S (length A) - 1) with (length A) by lia. rewrite <- app_assoc. rewrite skipn_app_exact. reflexivity.
  - destruct g as [sy i|]; cbn [gap_slots gap_w app].
    + change (SOp sy i :: SRes (fst b) (snd b) :: B) with ([SOp sy i] ++ SRes (fst b) (snd b) :: B). rewrite app_assoc.
      replace (length (A ++ [p]) + 1) with (length ((A ++ [p]) ++ [SOp sy i])) by (rewrite !app_length; cbn; lia). rewrite skipn_app_exact. reflexivity.
    + rewrite Nat.add_0_r, skipn_app_exact. reflexivity.
  - apply Nat.ltb_ge. lia.
  - apply Nat.ltb_ge. rewrite !app_length. destruct g; cbn [gap_slots gap_w app length]; lia.
Qed.
Fixpoint nodes (t : tree) : nat := match t with Leaf _ => 0 | Node _ l r => S (nodes l + nodes r) end.
Lemma subtree_nodes x t : subtree x t -> nodes x <= nodes t /\ (nodes x = nodes t -> x = t).
Proof.
  revert x. induction t as [y|g l IHl r IHr]; intros x; cbn [subtree nodes]; [intros [->|[]]; auto|]. intros [->|[H|H]]; [auto| |].
  - destruct (IHl x H). split; lia.
  - destruct (IHr x H). split; lia.
Qed.
Lemma join_members t P g u Q x : (x = t \/ exists h, In (h, x) (P ++ (g, u) :: Q)) -> 
  exists y, subtree x y /\ (y = fst (join t P g u Q) \/ exists h, In (h, y) (snd (join t P g u Q))).
Proof.
  revert t. induction P as [|[h t'] P IH]; intros t H.
  - cbn [app join fst snd] in *. destruct H as [->|[h [H|H]]].
    + exists (Node g t u). split; [right; left; apply subtree_refl|left; reflexivity].
    + exists (Node g t u). replace x with u by congruence. split; [right; right; apply subtree_refl|left; reflexivity].
    + exists x. split; [apply subtree_refl|right; exists h; exact H].
  - cbn [app join fst snd] in *. destruct H as [->|[h' [H|H]]].
    + exists t. split; [apply subtree_refl|left; reflexivity].
    + destruct (IH t') as (y & Y1 & Y2); [left; congruence|]. exists y. split; [exact Y1|]. right. destruct Y2 as [->|[k Y2]]; [exists h; left; reflexivity|exists k; right; exact Y2].
    + destruct (IH t') as (y & Y1 & Y2); [right; exists h'; exact H|]. exists y. split; [exact Y1|]. right. destruct Y2 as [->|[k Y2]]; [exists h; left; reflexivity|exists k; right; exact Y2].
Qed.
Lemma join_node t P g u Q : exists x, (x = fst (join t P g u Q) \/ exists h, In (h, x) (snd (join t P g u Q))) /\
  x = Node g (match rev P with [] => t | (_, v) :: _ => v end) u.
Proof.
  revert t. induction P as [|[h t'] P IH]; intros t; cbn [join fst snd].
  - exists (Node g t u). split; [left; reflexivity|reflexivity].
  - destruct (IH t') as (x & X & E). exists x. split.
    + right. destruct X as [->|[k X]]; [exists h; left; reflexivity|exists k; right; exact X].
    + rewrite E. cbn [rev]. destruct (rev P) as [|[k v] r]; reflexivity.
Qed.
Lemma left_leaf T orig f t P : fst (left_of (tleaf T orig f t) (fmap T orig f P)) = tree_value T orig f (match rev P with [] => t | (_, v) :: _ => v end).
Proof. unfold left_of, fmap. rewrite <- map_rev. destruct (rev P) as [|[h v] r]; reflexivity. Qed.
(** All calls but the last one leave the state [s], the last leads to [s'] *)
Definition agrees_end (T : optable) (orig : list item) (call : str -> list result -> M result) (f : interp) (s s' : st) (t : tree) : Prop :=
  (forall g l r, subtree (Node g l r) t -> Node g l r <> t ->
    call (gap_sym T g) [tree_value T orig f l; tree_value T orig f r] s = interp_call f (gap_sym T g) [tree_value T orig f l; tree_value T orig f r] s) /\
  match t with
  | Leaf _ => s' = s
  | Node g l r => call (gap_sym T g) [tree_value T orig f l; tree_value T orig f r] s = (fst (interp_call f (gap_sym T g) [tree_value T orig f l; tree_value T orig f r] s), s')
  end.
Lemma interp_state f sym ins s : interp_call f sym ins s = (fst (interp_call f sym ins s), s).
Proof. unfold interp_call, ret, raise. destruct (f sym ins); reflexivity. Qed.
Lemma loop_forest' T orig call f : good_table T -> no_units f -> forall fuel t gs s s', length gs < fuel ->
  fits T t gs -> good_chain T (fleaves T orig f t gs) ->
  exists t', grouped T t' /\ chain_of t' = forest_chain t gs /\ (gs = [] -> t' = t) /\
    (forall x, x = t \/ (exists h, In (h, x) gs) -> subtree x t' /\ (gs <> [] -> nodes x < nodes t')) /\
    (gs = [] \/ agrees_end T orig call f s s' t' ->
      op_loop fuel T orig call (slots_of (fleaves T orig f t gs)) s = (OOk (slots_of (tleaf T orig f t', [])), match gs with [] => s | _ => s' end)).
Proof.
  intros Ht Hf. induction fuel as [|fuel IH]; intros t gs s s' Hn Hfit Hc; [lia|]. cbn [op_loop].
  destruct gs as [|gu gs0] eqn:Egs.
  - unfold fleaves. cbn [map]. rewrite (scan_levels_done T _ Ht Hc). exists t. split; [cbn [fits] in Hfit; tauto|]. split; [reflexivity|]. split; [reflexivity|].
    split; [intros x [->|[h []]]; split; [apply subtree_refl|congruence]|]. intros _. reflexivity.
  - rewrite <- Egs in *. unfold fleaves in Hc. fold (fmap T orig f gs) in Hc.
    assert (Hne : fmap T orig f gs <> []) by (rewrite Egs; discriminate).
    destruct (scan_levels_choice T (tleaf T orig f t) (fmap T orig f gs) Ht Hc Hne (t_levels T) [] eq_refl) as [P [g [b [Q [Hch Hs]]]]].
    { intros. constructor. }
    unfold fleaves. fold (fmap T orig f gs). rewrite Hs. destruct Hch as [E [H1 [H2 H3]]].
    assert (Hinv : exists P0 u Q0, gs = P0 ++ (g, u) :: Q0 /\ P = fmap T orig f P0 /\ b = tleaf T orig f u /\ Q = fmap T orig f Q0).
    { unfold fmap in E. apply map_eq_app in E. destruct E as [P0 [R [E1 [E2 E3]]]]. apply map_eq_cons in E3.
      destruct E3 as [[g0 u] [Q0 [E4 [E5 E6]]]]. cbn [fst snd] in E5. injection E5 as E5 E7.
      exists P0, u, Q0. subst. auto. }
    destruct Hinv as [P0 [u [Q0 [Eg [-> [-> ->]]]]]].
    assert (Emap : fmap T orig f gs = fmap T orig f P0 ++ (g, tleaf T orig f u) :: fmap T orig f Q0) by exact E.
    rewrite Emap in *.
    assert (Hgg : good_gap T g).
    { apply (good_in T _ _ g (tleaf T orig f u) Hc). apply in_or_app. right. left. reflexivity. }
    destruct (good_split _ _ _ _ _ _ Hc) as [HcP [_ [_ HcQ]]].
    assert (HinP : forall h v, In (h, v) P0 -> In (h, tleaf T orig f v) (fmap T orig f P0)).
    { intros h v Hin. unfold fmap. apply in_map_iff. exists (h, v). auto. }
    assert (HinQ : forall h v, In (h, v) Q0 -> In (h, tleaf T orig f v) (fmap T orig f Q0)).
    { intros h v Hin. unfold fmap. apply in_map_iff. exists (h, v). auto. }
    assert (Hfit' : fits T (fst (join t P0 g u Q0)) (snd (join t P0 g u Q0))).
    { apply join_fits.
      * rewrite <- Eg. exact Hfit.
      * intros h v Hin. destruct (right_to_left T (rank T g)) eqn:Ed.
        -- specialize (H1 h _ (in_or_app _ _ _ (or_introl (HinP h v Hin)))). destruct (Nat.eq_dec (rank T g) (rank T h)); [right|left; lia]. auto.
        -- left. exact (H2 eq_refl h _ (HinP h v Hin)).
      * intros h v Hin. destruct (right_to_left T (rank T g)) eqn:Ed.
        -- left. exact (H3 eq_refl h _ (HinQ h v Hin)).
        -- specialize (H1 h _ (in_or_app _ ((g, tleaf T orig f u) :: fmap T orig f Q0) _ (or_intror (or_intror (HinQ h v Hin))))).
           destruct (Nat.eq_dec (rank T g) (rank T h)); [right|left; lia]. auto. }
    assert (Hgood' : good_chain T (fleaves T orig f (fst (join t P0 g u Q0)) (snd (join t P0 g u Q0)))).
    { rewrite join_leaves. apply set_left_good; [|apply combine_nounit; exact Hf].
      destruct Hc as [Hc1 Hc2]. split; [exact Hc1|]. cbn [snd] in *. rewrite Forall_app in *. destruct Hc2 as [Hc2 Hc3].
      inversion Hc3; subst. auto. }
    destruct (IH (fst (join t P0 g u Q0)) (snd (join t P0 g u Q0)) s s') as [t' [Hgr [Hch [Hsame [Hsub Hrun]]]]].
    + rewrite join_size. rewrite Eg, app_length in Hn. cbn [length] in Hn. lia.
    + exact Hfit'.
    + exact Hgood'.
    + exists t'. split; [exact Hgr|]. split; [rewrite Hch, join_chain, Eg; reflexivity|]. split; [intros K; rewrite K in Egs; discriminate|].
      destruct (join_node t P0 g u Q0) as (x & X & Ex). split.
      * intros y Hy. rewrite Eg in Hy. destruct (join_members t P0 g u Q0 y Hy) as (z & Y1 & Y2). destruct (Hsub z Y2) as [Z1 Z2]. split; [exact (subtree_sub _ _ _ Y1 Z1)|].
        intros _. destruct (snd (join t P0 g u Q0)) as [|gv gs1] eqn:Ej.
        -- assert (EP : P0 = [] /\ Q0 = []) by (destruct P0 as [|[h0 t0] P0]; cbn [join snd] in Ej; [auto|discriminate]). destruct EP as [-> ->]. rewrite (Hsame eq_refl). cbn [join fst nodes].
           destruct Hy as [->|[h [Hy|[]]]]; [lia|]. replace y with u by congruence. lia.
        -- specialize (Z2 ltac:(discriminate)). pose proof (proj1 (subtree_nodes _ _ Y1)). lia.
      * intros [K|Ha]; [rewrite K in Egs; discriminate|]. destruct Ha as [Ha1 Ha2]. unfold bind. destruct (Hsub x X) as [Zx Zn].
        replace (match gs with [] => s | _ => s' end) with s' by (rewrite Egs; reflexivity).
        assert (Ev : snd (join t P0 g u Q0) = [] \/ snd (join t P0 g u Q0) <> []) by (destruct (snd (join t P0 g u Q0)); [left; reflexivity|right; discriminate]).
        destruct Ev as [Ev|Ev].
        -- assert (Et : t' = x).
           { rewrite (Hsame Ev). destruct X as [X|[h X]]; [auto|]. rewrite Ev in X. destruct X. }
           rewrite <- Et in Ex. rewrite (run_op_gap' T orig call f _ _ g _ _ s s' Hgg).
           ++ rewrite <- join_leaves. destruct (IH (fst (join t P0 g u Q0)) (snd (join t P0 g u Q0)) s' s') as (t2 & _ & _ & T3 & _ & T5).
              ** rewrite join_size. rewrite Eg, app_length in Hn. cbn [length] in Hn. lia.
              ** exact Hfit'.
              ** exact Hgood'.
              ** rewrite (T5 (or_introl Ev)). rewrite (T3 Ev), (Hsame Ev), Ev. reflexivity.
           ++ rewrite left_leaf. rewrite Ex in Ha2. exact Ha2.
        -- rewrite (run_op_gap' T orig call f _ _ g _ _ s s Hgg).
           ++ rewrite <- join_leaves. rewrite (Hrun (or_intror (conj Ha1 Ha2))). destruct (snd (join t P0 g u Q0)); [congruence|reflexivity].
           ++ rewrite left_leaf. rewrite Ex in Zx, Zn. rewrite <- interp_state. apply Ha1; [exact Zx|]. intros K. specialize (Zn Ev). rewrite K in Zn. lia.
Qed.
Lemma loop_runs_end T orig call f t s s' : good_table T -> good_chain T (chain_of t) -> no_units f -> grouped T t -> agrees_end T orig call f s s' t ->
  run_slots T orig call (slots_of (chain_of t)) s = (OOk (tree_value T orig f t), s').
Proof.
  intros Ht Hc Hf Hg Ha. destruct (chain_of t) as [a gs] eqn:Ec.
  destruct (loop_forest' T orig call f Ht Hf (loop_fuel (slots_of (a, gs))) (Leaf a) (leaf_gaps gs) s s') as (t' & Hg' & Hch & Hsame & _ & Hrun).
  - unfold loop_fuel, leaf_gaps. rewrite map_length. pose proof (slots_len a gs). lia.
  - apply leaf_forest_fits.
  - rewrite leaf_forest_leaves. exact Hc.
  - rewrite leaf_forest_chain, <- Ec in Hch. pose proof (grouped_unique T t' t Hg' Hg Hch) as Et. rewrite Et in Hrun, Hsame. specialize (Hrun (or_intror Ha)). rewrite leaf_forest_leaves in Hrun.
    unfold run_slots, bind. rewrite Hrun. destruct (leaf_gaps gs) as [|x l] eqn:El; [|reflexivity].
    specialize (Hsame eq_refl). rewrite Hsame in Ha. destruct Ha as [_ Ha]. rewrite Ha. reflexivity.
Qed.
Lemma loop_runs T orig call f t s : good_table T -> good_chain T (chain_of t) -> no_units f -> grouped T t -> agrees T orig call f s t ->
  run_slots T orig call (slots_of (chain_of t)) s = (OOk (tree_value T orig f t), s).
Proof.
  intros Ht Hc Hf Hg Ha. apply (loop_runs_end T orig call f t s s Ht Hc Hf Hg). split; [intros g l r H _; exact (Ha g l r H)|].
  destruct t as [x|g l r]; [reflexivity|]. rewrite <- interp_state. apply Ha. apply subtree_refl.
Qed.
