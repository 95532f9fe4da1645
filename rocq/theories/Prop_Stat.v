(** C53: the statistical functions. *)
From Coq Require Import ZArith QArith Ascii String List Bool Lia Lqa Permutation Sorted.
From Verif Require Import Base Dec Num NumSpec Lex Bases Formats Units Install Syntax Pos Call CallSpec Loop Parse Exec Std StdSpec StdRun RangeSpec StatSpec StatProofs.
Import ListNotations.
Open Scope nat_scope.

(** [sum] is exact as long as the digits fit: the elements, in any format, are [xs] over a common denominator [d]. *)
Theorem c53_sum : forall L, exists o, assoc ($"sum") (g_funcs (std L)) = Some o /\ forall h stl x l s d xs,
  (1 <= l_prec L)%Z -> rval x = VList l -> (0 < d < 10 ^ l_prec L)%Z -> all_over L d xs l -> (zsum (map Z.abs xs) * d < 10 ^ l_prec L)%Z ->
  exists n, call (std_env L) h o stl [x] s = (OOk (mkRes (VNum n) None None), s) /\ over d (zsum xs) n.
Proof. intros L. exists (d_sum L). split; [apply find_sum|]. intros. now apply (sum_call L h stl x l). Qed.
Print Assumptions c53_sum.
Example c53_sum_ex : answer "sum([0.1, '16', -3.05])" = "13.05"%string /\ answer "sum([1..3 step 0])" = "0"%string.
Proof. vm_compute. split; reflexivity. Qed.
Example c53_over_ex : over 20 2 (mkNum 1 10 None None) /\ over 20 320 (mkNum 16 1 None None) /\ over 20 (-61) (mkNum (-61) 20 None None) /\ zsum [2; 320; -61]%Z = 261%Z.
Proof.
  assert (one : forall q, (q | 1)%Z -> q = 1%Z \/ q = (-1)%Z) by (intros; now apply Z.divide_1_r).
  split; [|split; [|split; [|reflexivity]]]; (split; [reflexivity|]); (split; [|reflexivity]); intros q H1 H2; cbn [nnum nden] in *; auto.
  apply one. replace 1%Z with (20 * (-3) + (-61) * (-1))%Z by lia. apply Z.divide_add_r; now apply Z.divide_mul_l.
Qed.

(** [min]: the first of the elements with the least number, with the value it was written with, its unit and its reference. *)
Theorem c53_min : forall L, exists o, assoc ($"min") (g_funcs (std L)) = Some o /\ forall h stl x l s, rval x = VList l -> numeric L l -> l <> [] ->
  exists a r b v, l = a ++ r :: b /\ call (std_env L) h o stl [x] s = (OOk (mkRes v (runit r) (rref r)), s) /\ same_value (rval r) v /\
    (forall y, In y l -> (key L r <= key L y)%Q) /\ (forall y, In y a -> (key L r < key L y)%Q).
Proof. intros L. exists (d_min L). split; [apply find_min|]. intros. now apply min_call. Qed.
Print Assumptions c53_min.
Theorem c53_max : forall L, exists o, assoc ($"max") (g_funcs (std L)) = Some o /\ forall h stl x l s, rval x = VList l -> numeric L l -> l <> [] ->
  exists a r b v, l = a ++ r :: b /\ call (std_env L) h o stl [x] s = (OOk (mkRes v (runit r) (rref r)), s) /\ same_value (rval r) v /\
    (forall y, In y l -> (key L y <= key L r)%Q) /\ (forall y, In y a -> (key L y < key L r)%Q).
Proof. intros L. exists (d_max L). split; [apply find_max|]. intros. now apply max_call. Qed.
Print Assumptions c53_max.
Example c53_pick_ex : answer "min([3, '0x2', 7, '2'])" = "'0x2'"%string /\ answer "max([3, '7', 7])" = "'7'"%string /\ answer "x = 5; max([x, 2])" = "5"%string.
Proof. vm_compute. repeat split; reflexivity. Qed.

(** [mean]: the exact mean of the decimals, rounded once. *)
Theorem c53_mean : forall L, exists o, assoc ($"mean") (g_funcs (std L)) = Some o /\ forall h stl x l s,
  (1 <= l_prec L)%Z -> rval x = VList l -> numeric L l -> l <> [] ->
  let m := rnd (l_prec L) (qsum (map (key L) l) / inject_Z (Z.of_nat (length l))) in narrow (l_prec L) m ->
  exists n, call (std_env L) h o stl [x] s = (OOk (mkRes (VNum n) None None), s) /\ (val n == m)%Q.
Proof.
  intros L. exists (d_stat L ($"mean") stat_mean). split; [apply find_mean|]. intros h stl x l s Hp Hx Hl Ne m Nm.
  destruct (stat_call L h stl x l s ($"mean") stat_mean m Hp Hx Hl) as (n & N1 & N2 & _); [|exact Nm|now exists n].
  destruct l as [|r l]; [congruence|]. cbn [map stat_mean]. unfold m. cbn [length map]. rewrite map_length. reflexivity.
Qed.
Print Assumptions c53_mean.
Example c53_mean_ex : answer "mean([1, '3', 0.25])" = "1.416666666666666666666666666667"%string.
Proof. vm_compute. reflexivity. Qed.

(** [median]: the middle one of the decimals in order, or half of the sum of the middle two. *)
Theorem c53_median : forall L, exists o, assoc ($"median") (g_funcs (std L)) = Some o /\ forall h stl x l s,
  (1 <= l_prec L)%Z -> rval x = VList l -> numeric L l -> l <> [] ->
  exists k, Permutation (map (key L) l) k /\ StronglySorted Qle k /\
  let i := length l / 2 in
  let m := if Nat.odd (length l) then nth i k 0%Q else rnd (l_prec L) (rnd (l_prec L) (nth (i - 1) k 0 + nth i k 0) / 2)%Q in
  (narrow (l_prec L) m -> exists n, call (std_env L) h o stl [x] s = (OOk (mkRes (VNum n) None None), s) /\ (val n == m)%Q).
Proof.
  intros L. exists (d_stat L ($"median") stat_median). split; [apply find_median|]. intros h stl x l s Hp Hx Hl Ne.
  destruct (median_sorted (l_prec L) (map (key L) l)) as (k & K1 & K2 & K3); [destruct l; [congruence|discriminate]|]. rewrite map_length in K3.
  exists k. split; [exact K1|]. split; [exact K2|]. intros i m Nm.
  destruct (stat_call L h stl x l s ($"median") stat_median m Hp Hx Hl K3 Nm) as (n & N1 & N2 & _). now exists n.
Qed.
Print Assumptions c53_median.
Example c53_median_ex : answer "median([7, 1, '3'])" = "3"%string /\ answer "median([7, 1, '3', 4])" = "3.5"%string.
Proof. vm_compute. split; reflexivity. Qed.

(** [mode]: the first of the decimals that occur most often. *)
Theorem c53_mode : forall L, exists o, assoc ($"mode") (g_funcs (std L)) = Some o /\ forall h stl x l s,
  (1 <= l_prec L)%Z -> rval x = VList l -> numeric L l -> l <> [] ->
  exists a m b, map (key L) l = a ++ m :: b /\ (forall y, In y (map (key L) l) -> how_many y (map (key L) l) <= how_many m (map (key L) l)) /\
    (forall y, In y a -> how_many y (map (key L) l) < how_many m (map (key L) l)) /\
  (narrow (l_prec L) m -> exists n, call (std_env L) h o stl [x] s = (OOk (mkRes (VNum n) None None), s) /\ (val n == m)%Q).
Proof.
  intros L. exists (d_stat L ($"mode") stat_mode). split; [apply find_mode|]. intros h stl x l s Hp Hx Hl Ne.
  destruct (mode_some (l_prec L) (map (key L) l)) as [m Hm]; [destruct l; [congruence|discriminate]|].
  destruct (mode_spec (l_prec L) (map (key L) l) m Hm) as (a & b & H1 & H2 & H3). exists a, m, b. split; [exact H1|]. split; [exact H2|]. split; [exact H3|].
  intros Nm. destruct (stat_call L h stl x l s ($"mode") stat_mode m Hp Hx Hl Hm Nm) as (n & N1 & N2 & _). now exists n.
Qed.
Print Assumptions c53_mode.
Example c53_mode_ex : answer "mode([1, 5, 2, '5.0', 2])" = "5"%string.
Proof. vm_compute. reflexivity. Qed.

(** Of an empty array, all of these but [sum] are errors. *)
Theorem c53_empty : forall L f, In f [$"min"; $"max"; $"mean"; $"median"; $"mode"] -> exists o, assoc f (g_funcs (std L)) = Some o /\
  forall h stl x s, rval x = VList [] -> e_tostr (std_env L) x = true -> call (std_env L) h o stl [x] s = (OErr (XCalc false (MOp f)), s).
Proof.
  intros L f [<-|[<-|[<-|[<-|[<-|[]]]]]]; eexists.
  - split; [apply find_min|]. intros h stl x s Hx Sh. eapply (none_call L h (d_min L)); try reflexivity; try assumption. repeat split; reflexivity.
  - split; [apply find_max|]. intros h stl x s Hx Sh. eapply (none_call L h (d_max L)); try reflexivity; try assumption. repeat split; reflexivity.
  - split; [apply find_mean|]. intros h stl x s Hx Sh. now apply stat_none.
  - split; [apply find_median|]. intros h stl x s Hx Sh. now apply stat_none.
  - split; [apply find_mode|]. intros h stl x s Hx Sh. now apply stat_none.
Qed.
Print Assumptions c53_empty.
Example c53_empty_ex : answer "min([1..3 step 0])" = "execute error"%string /\ answer "mode([1..3 step 0])" = "execute error"%string.
Proof. vm_compute. split; reflexivity. Qed.
