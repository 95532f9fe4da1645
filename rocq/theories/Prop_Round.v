(** C56: floor, ceil and round. *)
From Coq Require Import ZArith QArith Ascii String List Bool Lia Lqa.
From Verif Require Import Base Dec Num NumSpec Lex Bases Formats Units Install Syntax Pos Call CallSpec Loop Parse Exec Std StdSpec StdRun StdProofs9 TextSpec RoundSpec RoundProofs.
Import ListNotations.
Open Scope Z_scope.

(** Without places: a whole number of the digits it is shown with (a percentage is rounded to a hundredth), of the same format and unit. *)
Theorem c56_whole : forall L name kind, In (name, kind) rounds_with -> exists o, assoc name (g_funcs (std L)) = Some o /\ forall h stl x a s j,
  number_at L x a -> good a -> size_le j a -> 0 <= j -> 4 * j + 3 <= l_prec L -> shown_base (ncast a) ^ hidden_digits (ncast a) < 10 ^ j ->
  exists n, call (std_env L) h o stl [x] s = (OOk (mkRes (VNum n) (runit x) None), s) /\ rounded kind a 0 n /\ ncast n = ncast a.
Proof.
  intros L name kind H. destruct (rounds_with_fn name kind H) as [f Hf]. destruct (rounding_fn name f kind Hf) as (R & Rs & F).
  exists (rounding_def L name f). split; [apply F|]. intros. now apply (round_whole L h name f kind stl x a s j).
Qed.
Print Assumptions c56_whole.
Example c56_whole_ex : answer "floor(-2.5)" = "-3"%string /\ answer "ceil('-2.5')" = "-2"%string /\ answer "round(-2.5)" = "-3"%string /\ answer "round(2.499)" = "2"%string
  /\ answer "round(12.5%)" = "13%"%string /\ answer "ceil(0x1A.8)" = "0x1B"%string.
Proof. vm_compute. repeat split; reflexivity. Qed.

(** With [k] places: at most [k] digits after the point it is shown with, in the base it is shown in. *)
Theorem c56_places : forall L name kind, In (name, kind) rounds_with -> exists o, assoc name (g_funcs (std L)) = Some o /\ forall h stl x y a k s j,
  number_at L x a -> integer_at L y k -> good a -> size_le j a -> 0 <= j -> 4 * j + 3 <= l_prec L ->
  0 <= k + hidden_digits (ncast a) -> 0 < shown_base (ncast a) ^ (k + hidden_digits (ncast a)) < 10 ^ j ->
  exists n, call (std_env L) h o stl [x; y] s = (OOk (mkRes (VNum n) (runit x) None), s) /\ rounded kind a k n.
Proof.
  intros L name kind H. destruct (rounds_with_fn name kind H) as [f Hf]. destruct (rounding_fn name f kind Hf) as (R & Rs & F).
  exists (rounding_def L name f). split; [apply F|]. intros. now apply (round_places L h name f kind stl x y a k s j).
Qed.
Print Assumptions c56_places.
Example c56_places_ex : answer "floor(-2.55, 1)" = "-2.6"%string /\ answer "ceil(1/3, 3)" = "0.334"%string /\ answer "round('2.345', 2)" = "2.35"%string
  /\ answer "round(12.345%, 1)" = "12.3%"%string /\ answer "round(12.345%, -2)" = "0%"%string /\ answer "round(-1/3, '2')" = "-0.33"%string.
Proof. vm_compute. repeat split; reflexivity. Qed.

(** The result is within one unit of the last digit kept, and what needs no rounding is kept. *)
Theorem c56_close : forall name kind a k n, In (name, kind) rounds_with -> 0 <= k -> 0 < shown_base (ncast a) -> rounded kind a k n ->
  let m := inject_Z (shown_base (ncast a) ^ (k + hidden_digits (ncast a))) in
  (Qabs.Qabs (val a - val n) * m < 1)%Q /\ (forall z, (val a * m == inject_Z z)%Q -> (val n == val a)%Q).
Proof.
  intros name kind a k n H Hk Hb (z & K & V & _) m. fold m in K, V.
  assert (M : (0 < m)%Q). { unfold m. change 0%Q with (inject_Z 0). rewrite <- Zlt_Qlt. apply Z.pow_pos_nonneg; [exact Hb|]. destruct (ncast a) as [[]|]; cbn; lia. }
  assert (D : (Qabs.Qabs (val a - val n) * m == Qabs.Qabs (val a * m - inject_Z z))%Q).
  { rewrite <- (Qabs.Qabs_pos m) at 1 by (apply Qlt_le_weak, M). rewrite <- Qabs.Qabs_Qmult. apply Qabs.Qabs_wd. rewrite V. field. lra. }
  assert (I : forall i, (inject_Z i < inject_Z (i + 1))%Q) by (intros; rewrite <- Zlt_Qlt; lia).
  assert (B : (-(1) < val a * m - inject_Z z < 1)%Q).
  { repeat (destruct H as [H|H]; [injection H as <- <-; unfold floor_of, ceil_of, nearest_of in K|]); [lra|lra| |destruct H].
    destruct K as [K1 K2]. destruct (Qlt_le_dec (val a * m) 0) as [C|C]; [specialize (K2 (Qlt_le_weak _ _ C))|specialize (K1 C)]; lra. }
  split; [rewrite D; now apply Qabs.Qabs_Qlt_condition|].
  intros w W. rewrite W in B. unfold Qminus in B. rewrite <- inject_Z_opp, <- inject_Z_plus in B. destruct B as [B1 B2]. change 1%Q with (inject_Z 1) in B1, B2. rewrite <- inject_Z_opp in B1.
  rewrite <- Zlt_Qlt in B1, B2. assert (E : z = w) by lia. rewrite V, E, <- W. field. lra.
Qed.
Print Assumptions c56_close.

(** Negative places, which would round to tens or hundreds, are an error: the base to a negative power is a float, which is no number. *)
Theorem c56_negative_refused : forall L name kind, In (name, kind) rounds_with -> exists o, assoc name (g_funcs (std L)) = Some o /\ forall h stl x y a k s,
  1 <= l_prec L -> number_at L x a -> integer_at L y k -> k + hidden_digits (ncast a) < 0 -> shows L (rval x) = true -> shows L (rval y) = true ->
  call (std_env L) h o stl [x; y] s = (OErr (XCalc false (MOp name)), s).
Proof.
  intros L name kind H. destruct (rounds_with_fn name kind H) as [f Hf]. destruct (rounding_fn name f kind Hf) as (R & Rs & F).
  exists (rounding_def L name f). split; [apply F|]. intros. now apply (round_negative L h name f stl x y a k s).
Qed.
Print Assumptions c56_negative_refused.
Example c56_negative_ex : answer "round(123, -1)" = answer "1 / 0"%string /\ answer "round(0x1A.88, 1)" = "0x1A.9"%string.
Proof. vm_compute. split; reflexivity. Qed.
