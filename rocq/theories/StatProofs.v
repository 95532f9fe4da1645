(** The statistical functions. *)
From Coq Require Import ZArith QArith Qabs Qround Ascii String List Bool Lia Lqa Permutation Sorted.
From Verif Require Import Base BaseProofs Dec DecProofs Num NumSpec NumProofs Lex LexProofs Bases BasesProofs Formats Units Syntax Pos Call CallSpec CallProofs Loop Parse Exec Std StdSpec StdProofs StdProofs5 StdProofs6 StdProofs7 StdProofs9 RangeSpec RangeProofs StatSpec.
Import ListNotations.
Open Scope nat_scope.

Definition d_sum (L : lib) : opdef := snd (fdef ($"sum") 1 1 (all_are (arr_of ($"number"))) (fn_sum L)).
Definition d_min (L : lib) : opdef := snd (fdef ($"min") 1 1 (all_are (arr_of ($"number"))) (fn_pick L (value_lt (l_prec L)))).
Definition d_max (L : lib) : opdef := snd (fdef ($"max") 1 1 (all_are (arr_of ($"number"))) (fn_pick L (fun a b => value_lt (l_prec L) b a))).
Definition d_stat (L : lib) (nm : str) (f : Z -> list Q -> option Q) : opdef := snd (fdef nm 1 1 (all_are (arr_of ($"number"))) (fn_stat L f)).
Lemma find_sum L : assoc ($"sum") (g_funcs (std L)) = Some (d_sum L). Proof. reflexivity. Qed.
Lemma find_min L : assoc ($"min") (g_funcs (std L)) = Some (d_min L). Proof. reflexivity. Qed.
Lemma find_max L : assoc ($"max") (g_funcs (std L)) = Some (d_max L). Proof. reflexivity. Qed.
Lemma find_mean L : assoc ($"mean") (g_funcs (std L)) = Some (d_stat L ($"mean") stat_mean). Proof. reflexivity. Qed.
Lemma find_median L : assoc ($"median") (g_funcs (std L)) = Some (d_stat L ($"median") stat_median). Proof. reflexivity. Qed.
Lemma find_mode L : assoc ($"mode") (g_funcs (std L)) = Some (d_stat L ($"mode") stat_mode). Proof. reflexivity. Qed.

(** * Sum *)
Lemma all_over_numeric L d xs l : all_over L d xs l -> numeric L l.
Proof.
  intros H. induction H as [|x r xs l (n & H1 & _) _ IH]; [intros q []|]. intros q [<-|Hq]; [now exists n|now apply IH].
Qed.
Lemma zsum_abs xs : (Z.abs (zsum xs) <= zsum (map Z.abs xs))%Z.
Proof. induction xs; cbn [zsum fold_right map] in *; [lia|]. unfold zsum in *. lia. Qed.
Lemma zsum_nonneg xs : (0 <= zsum (map Z.abs xs))%Z.
Proof. induction xs; cbn [zsum fold_right map] in *; [lia|]. unfold zsum in *. lia. Qed.
Lemma sum_over L d xs l : (1 <= l_prec L)%Z -> (0 < d)%Z -> (d < 10 ^ l_prec L)%Z -> all_over L d xs l ->
  forall y acc, over d y acc -> ((Z.abs y + zsum (map Z.abs xs)) * d < 10 ^ l_prec L)%Z ->
  exists r, sum_from (l_prec L) acc (map (conv L) l) = Some r /\ over d (y + zsum xs) r.
Proof.
  intros Hp Hd Sd H. induction H as [|x r xs l (n & H1 & H2) _ IH]; intros y acc Hy S.
  - exists acc. split; [reflexivity|]. unfold zsum. cbn [fold_right]. rewrite Z.add_0_r. exact Hy.
  - cbn [map sum_from]. unfold zsum in *. cbn [map fold_right] in *. fold (zsum (map Z.abs xs)) in *. fold (zsum xs) in *. pose proof (zsum_nonneg xs) as N.
    assert (E : num_of (conv L r) = Some n) by (unfold conv, num_of, the_num; cbn [rval]; unfold number_at in H1; now rewrite H1).
    rewrite E. destruct (add_over (l_prec L) d y x acc n Hp Hd Hy H2) as (q & Q1 & Q2 & _); [nia|exact Sd|]. rewrite Q1.
    destruct (IH (y + x)%Z q Q2) as (t & T1 & T2); [nia|]. exists t. split; [exact T1|]. now rewrite Z.add_assoc.
Qed.
Lemma zero_over p d : (1 <= p)%Z -> (0 < d)%Z -> over d 0 (num_of_Z p 0).
Proof.
  intros Hp Hd. rewrite num_of_Z_eq. split; [reflexivity|]. split.
  - intros q _ H. now apply Z.divide_1_r.
  - unfold val. cbn [nnum nden]. pose proof (inj_pos d Hd). change (inject_Z 0) with 0%Q. field. lra.
Qed.
Lemma over_cast d x n c : over d x n -> over d x (with_cast n c).
Proof. intros (G & Lo & V). split; [exact G|]. split; [exact Lo|exact V]. Qed.
Lemma finish_num (d : opdef) c n : o_autores d = true ->
  exists m, finish d c None (mkOR (VNum n) None None) = mkRes (VNum m) None None /\ nnum m = nnum n /\ nden m = nden n.
Proof. intros A. unfold finish. cbn [or_val or_unit or_ref]. rewrite A. destruct c as [k|]; eexists; (split; [reflexivity|split; reflexivity]). Qed.
Lemma over_same d x n m : over d x n -> nnum m = nnum n -> nden m = nden n -> over d x m.
Proof. unfold over, good, lowest, val. intros H E1 E2. now rewrite E1, E2. Qed.
Lemma sum_call L h stl x l s d xs : (1 <= l_prec L)%Z -> rval x = VList l -> (0 < d < 10 ^ l_prec L)%Z -> all_over L d xs l ->
  (zsum (map Z.abs xs) * d < 10 ^ l_prec L)%Z ->
  exists n, call (std_env L) h (d_sum L) stl [x] s = (OOk (mkRes (VNum n) None None), s) /\ over d (zsum xs) n.
Proof.
  intros Hp Hx [Hd Sd] Hl S. destruct (numbers_call L h (d_sum L) stl x l s) as [c E]; try assumption; [repeat split; reflexivity|reflexivity|eapply all_over_numeric; eassumption|].
  destruct (sum_over L d xs l Hp Hd Sd Hl 0 (num_of_Z (l_prec L) 0) (zero_over (l_prec L) d Hp Hd)) as (r & R1 & R2); [cbn [Z.abs]; lia|].
  rewrite E. unfold d_sum at 1. cbn [snd fdef o_impl fn_sum]. rewrite R1. unfold bind, pym, just, ret.
  destruct (finish_num (d_sum L) c r eq_refl) as (m & M1 & M2 & M3). exists m. rewrite M1. split; [reflexivity|]. now apply (over_same d _ r).
Qed.

(** * Least and greatest *)
Lemma pick_conv L (lt : Q -> Q -> bool) (better : result -> result -> bool) l :
  (forall a b, numeric L [a] -> numeric L [b] -> better (conv L a) (conv L b) = lt (key L a) (key L b)) ->
  (forall p q r, lt p q = true -> lt q r = true -> lt p r = true) -> (forall p q r, lt p q = false -> lt q r = false -> lt p r = false) ->
  (forall p, lt p p = false) ->
  forall x, numeric L (x :: l) -> exists a r b, x :: l = a ++ r :: b /\ pick_from better (conv L x) (map (conv L) l) = conv L r /\
    (forall y, In y (x :: l) -> lt (key L y) (key L r) = false) /\ (forall y, In y a -> lt (key L r) (key L y) = true).
Proof.
  intros Hb T N I. induction l as [|y l IH] using rev_ind; intros x Hl.
  - exists [], x, []. split; [reflexivity|]. split; [reflexivity|]. split; [|intros y []]. intros y [->|[]]. apply I.
  - rewrite map_app. cbn [map].
    assert (P : forall l' b, pick_from better b (l' ++ [conv L y]) = (if better (conv L y) (pick_from better b l') then conv L y else pick_from better b l'))
      by (induction l' as [|z l' IHl]; intros b; cbn [app pick_from]; [reflexivity|apply IHl]).
    rewrite P. assert (Hl' : numeric L (x :: l)) by (intros r Hr; apply Hl; destruct Hr; [now left|right; apply in_or_app; now left]).
    destruct (IH x Hl') as (a & r & b & E & F & M1 & M2). rewrite F.
    assert (Nr : numeric L [r]). { intros q [<-|[]]. apply Hl'. rewrite E. apply in_or_app. right. now left. }
    assert (Ny : numeric L [y]). { intros q [<-|[]]. apply Hl. right. apply in_or_app. right. now left. }
    rewrite (Hb y r Ny Nr). destruct (lt (key L y) (key L r)) eqn:C.
    + exists (x :: l), y, []. split; [reflexivity|]. split; [reflexivity|]. split.
      * intros z Hz. change (x :: l ++ [y]) with ((x :: l) ++ [y]) in Hz. apply in_app_or in Hz as [Hz|[<-|[]]]; [|apply I].
        specialize (M1 z Hz). destruct (lt (key L z) (key L y)) eqn:D; [|reflexivity]. rewrite (T _ _ _ D C) in M1. discriminate.
      * intros z Hz. specialize (M1 z Hz). destruct (lt (key L y) (key L z)) eqn:D; [reflexivity|]. rewrite (N _ _ _ D M1) in C. discriminate.
    + exists a, r, (b ++ [y]). split; [change (x :: l ++ [y]) with ((x :: l) ++ [y]); rewrite E, <- app_assoc; reflexivity|]. split; [reflexivity|]. split; [|exact M2].
      intros z Hz. change (x :: l ++ [y]) with ((x :: l) ++ [y]) in Hz. apply in_app_or in Hz as [Hz|[<-|[]]]; [now apply M1|exact C].
Qed.
Definition qlt (p q : Q) : bool := negb (Qle_bool q p).
Lemma qlt_iff p q : qlt p q = true <-> (p < q)%Q.
Proof. unfold qlt. rewrite negb_true_iff. split; intros H; [apply Qnot_le_lt; intros C; apply Qle_bool_iff in C; congruence|]. apply not_true_is_false. intros C. apply Qle_bool_iff in C. lra. Qed.
Lemma qlt_not p q : qlt p q = false <-> (q <= p)%Q.
Proof. rewrite <- not_true_iff_false, qlt_iff. split; [apply Qnot_lt_le|]. intros H C. lra. Qed.
Lemma better_lt L a b : numeric L [a] -> numeric L [b] -> value_lt (l_prec L) (conv L a) (conv L b) = qlt (key L a) (key L b).
Proof. intros Ha Hb. unfold value_lt, conv, num_of. cbn [rval]. unfold num_ltb. rewrite (key_conv L a Ha), (key_conv L b Hb). reflexivity. Qed.
(** The value of the element as the result shows it *)
Lemma pick_call L h d (better : result -> result -> bool) stl x r0 l s a r b : takes_numbers d -> o_excs d = false -> o_autores d = true ->
  o_impl d = fn_pick L better ->
  rval x = VList (r0 :: l) -> numeric L (r0 :: l) -> r0 :: l = a ++ r :: b -> pick_from better (conv L r0) (map (conv L) l) = conv L r ->
  is_list (rval r) = false ->
  exists v, call (std_env L) h d stl [x] s = (OOk (mkRes v (runit r) (rref r)), s) /\ same_value (rval r) v.
Proof.
  intros T Ex Au Im Hx Hl E F NL. destruct (numbers_call L h d stl x (r0 :: l) s) as [c C]; try assumption.
  rewrite C, Im. unfold fn_pick. cbn [map]. change (conv L r0 :: map (conv L) l) with (map (conv L) (r0 :: l)). rewrite all_nums_conv. rewrite F. unfold conv at 1. unfold ret, finish. cbn [or_val or_unit or_ref].
  rewrite Au. eexists. split; [reflexivity|]. unfold same_value. destruct (rval r); try reflexivity; [|discriminate]. destruct c; split; reflexivity.
Qed.
Lemma numeric_scalar L r : numeric L [r] -> is_list (rval r) = false.
Proof. intros H. destruct (H r (or_introl eq_refl)) as [n Hn]. unfold number_at in Hn. destruct (rval r); try reflexivity. discriminate. Qed.
Lemma min_call L h stl x l s : rval x = VList l -> numeric L l -> l <> [] ->
  exists a r b v, l = a ++ r :: b /\ call (std_env L) h (d_min L) stl [x] s = (OOk (mkRes v (runit r) (rref r)), s) /\ same_value (rval r) v /\
    (forall y, In y l -> (key L r <= key L y)%Q) /\ (forall y, In y a -> (key L r < key L y)%Q).
Proof.
  intros Hx Hl Ne. destruct l as [|r0 l]; [congruence|].
  destruct (pick_conv L qlt (value_lt (l_prec L)) l (better_lt L)) with (x := r0) as (a & r & b & E & F & M1 & M2); try assumption.
  { intros p q t H1 H2. apply qlt_iff in H1, H2. apply qlt_iff. lra. }
  { intros p q t H1 H2. apply qlt_not in H1, H2. apply qlt_not. lra. }
  { intros p. apply qlt_not. lra. }
  assert (NL : is_list (rval r) = false). { apply (numeric_scalar L). intros q [<-|[]]. apply Hl. rewrite E. apply in_or_app. right. now left. }
  destruct (pick_call L h (d_min L) (value_lt (l_prec L)) stl x r0 l s a r b) as (v & V1 & V2); try assumption; try reflexivity; [repeat split; reflexivity|].
  exists a, r, b, v. split; [exact E|]. split; [exact V1|]. split; [exact V2|]. split.
  - intros y Hy. now apply qlt_not, M1.
  - intros y Hy. now apply qlt_iff, M2.
Qed.
Lemma max_call L h stl x l s : rval x = VList l -> numeric L l -> l <> [] ->
  exists a r b v, l = a ++ r :: b /\ call (std_env L) h (d_max L) stl [x] s = (OOk (mkRes v (runit r) (rref r)), s) /\ same_value (rval r) v /\
    (forall y, In y l -> (key L y <= key L r)%Q) /\ (forall y, In y a -> (key L y < key L r)%Q).
Proof.
  intros Hx Hl Ne. destruct l as [|r0 l]; [congruence|].
  destruct (pick_conv L (fun p q => qlt q p) (fun a b => value_lt (l_prec L) b a) l) with (x := r0) as (a & r & b & E & F & M1 & M2); try assumption.
  { intros p q Hp Hq. now apply better_lt. }
  { intros p q t H1 H2. apply qlt_iff in H1, H2. apply qlt_iff. lra. }
  { intros p q t H1 H2. apply qlt_not in H1, H2. apply qlt_not. lra. }
  { intros p. apply qlt_not. lra. }
  assert (NL : is_list (rval r) = false). { apply (numeric_scalar L). intros q [<-|[]]. apply Hl. rewrite E. apply in_or_app. right. now left. }
  destruct (pick_call L h (d_max L) (fun a b => value_lt (l_prec L) b a) stl x r0 l s a r b) as (v & V1 & V2); try assumption; try reflexivity; [repeat split; reflexivity|].
  exists a, r, b, v. split; [exact E|]. split; [exact V1|]. split; [exact V2|]. split.
  - intros y Hy. now apply qlt_not, M1.
  - intros y Hy. now apply qlt_iff, M2.
Qed.
(** Of nothing: an error *)
Lemma none_call L h d stl x s better : takes_numbers d -> o_excs d = false -> o_impl d = fn_pick L better -> rval x = VList [] ->
  e_tostr (std_env L) x = true -> call (std_env L) h d stl [x] s = (OErr (XCalc false (MOp (o_name d))), s).
Proof.
  intros T Ex Im Hx Sh. destruct (numbers_call L h d stl x [] s) as [c C]; try assumption; [intros r []|].
  rewrite C, Im. cbn [map fn_pick]. unfold pyerr. now rewrite Sh.
Qed.

(** * Mean, median, mode *)
Lemma decimals_conv L l : numeric L l -> decimals (l_prec L) (map (conv L) l) = Some (map (key L) l).
Proof.
  induction l as [|r l IH]; intros H; [reflexivity|]. cbn [map decimals]. rewrite IH by (intros q Hq; apply H; now right).
  unfold conv at 1, num_of. cbn [rval]. rewrite key_conv; [reflexivity|]. intros q [<-|[]]. apply H. now left.
Qed.
Lemma stat_call L h stl x l s nm f q : (1 <= l_prec L)%Z -> rval x = VList l -> numeric L l ->
  f (l_prec L) (map (key L) l) = Some q -> narrow (l_prec L) q ->
  exists n, call (std_env L) h (d_stat L nm f) stl [x] s = (OOk (mkRes (VNum n) None None), s) /\ (val n == q)%Q /\ good n /\ lowest n.
Proof.
  intros Hp Hx Hl Hf Nq. destruct (numbers_call L h (d_stat L nm f) stl x l s) as [c C]; try assumption; [repeat split; reflexivity|reflexivity|].
  rewrite C. unfold d_stat at 1. cbn [snd fdef o_impl fn_stat]. rewrite (decimals_conv L l Hl). unfold bind at 1. unfold pym at 1. unfold ret at 1. rewrite Hf.
  unfold bind at 1. unfold pym at 1. unfold ret at 1. destruct (num_make_exact_Q (l_prec L) None q Hp Nq) as (r & R1 & R2 & R3 & R4 & _). rewrite R1.
  unfold bind, pym, just, ret. destruct (finish_num (d_stat L nm f) c r eq_refl) as (m & M1 & M2 & M3). exists m. rewrite M1. split; [reflexivity|].
  unfold val, good, lowest in *. rewrite M2, M3. auto.
Qed.
Lemma stat_none L h stl x s nm f : rval x = VList [] -> f (l_prec L) [] = None -> e_tostr (std_env L) x = true ->
  call (std_env L) h (d_stat L nm f) stl [x] s = (OErr (XCalc false (MOp nm)), s).
Proof.
  intros Hx Hf Sh. destruct (numbers_call L h (d_stat L nm f) stl x [] s) as [c C]; try assumption; [repeat split; reflexivity|reflexivity|intros r []|].
  rewrite C. unfold d_stat at 1. cbn [snd fdef o_impl fn_stat map decimals]. unfold bind at 1. unfold pym at 1. unfold ret at 1. rewrite Hf.
  unfold bind, pym, pyerr. now rewrite Sh.
Qed.
Lemma median_sorted p d : d <> [] -> exists s, Permutation d s /\ StronglySorted Qle s /\
  stat_median p d = Some (if Nat.odd (length d) then nth (length d / 2) s 0%Q
                          else rnd p (rnd p (nth (length d / 2 - 1) s 0 + nth (length d / 2) s 0) / 2)%Q).
Proof.
  intros Ne. exists (sort_by qltb d). split; [apply sort_perm|]. split; [apply (sort_sorted (fun q : Q => q))|].
  unfold stat_median. destruct d as [|q d]; [congruence|]. destruct (length (q :: d) =? 0) eqn:Z; [apply Nat.eqb_eq in Z; discriminate|].
  destruct (Nat.odd (length (q :: d))); reflexivity.
Qed.
Lemma mode_spec p d q : stat_mode p d = Some q ->
  exists a b, d = a ++ q :: b /\ (forall y, In y d -> how_many y d <= how_many q d) /\ (forall y, In y a -> how_many y d < how_many q d).
Proof.
  destruct d as [|x r]; [discriminate|]. cbn [stat_mode]. intros E. injection E as <-. set (D := x :: r).
  assert (G : forall l pre best a b, pre = a ++ best :: b -> (forall y, In y pre -> how_many y D <= how_many best D) -> (forall y, In y a -> how_many y D < how_many best D) ->
    let q := fold_left (fun best y => if occurs best D <? occurs y D then y else best) l best in
    exists a' b', pre ++ l = a' ++ q :: b' /\ (forall y, In y (pre ++ l) -> how_many y D <= how_many q D) /\ (forall y, In y a' -> how_many y D < how_many q D)).
  { induction l as [|y l IH]; intros pre best a b E M1 M2 q.
    - exists a, b. rewrite app_nil_r. split; [exact E|]. split; [exact M1|exact M2].
    - subst q. cbn [fold_left]. change (occurs best D) with (how_many best D). change (occurs y D) with (how_many y D).
      replace (pre ++ y :: l) with ((pre ++ [y]) ++ l) by (rewrite <- app_assoc; reflexivity).
      destruct (Nat.ltb_spec (how_many best D) (how_many y D)) as [Lt|Ge].
      + apply (IH (pre ++ [y]) y pre []); [reflexivity| |].
        * intros z Hz. apply in_app_or in Hz as [Hz|[<-|[]]]; [specialize (M1 z Hz); lia|lia].
        * intros z Hz. specialize (M1 z Hz). lia.
      + apply (IH (pre ++ [y]) best a (b ++ [y])); [rewrite E, <- app_assoc; reflexivity| |exact M2].
        intros z Hz. apply in_app_or in Hz as [Hz|[<-|[]]]; [now apply M1|exact Ge]. }
  destruct (G r [x] x [] [] eq_refl) as (a & b & H1 & H2 & H3); [intros y [->|[]]; lia|intros y []|]. exists a, b. split; [exact H1|]. split; [exact H2|exact H3].
Qed.
Lemma mode_some p d : d <> [] -> exists q, stat_mode p d = Some q.
Proof. destruct d; [congruence|]. intros _. eexists. reflexivity. Qed.
