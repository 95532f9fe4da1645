(** C66: the statistical functions and [sort] on numbers with units. *)
From Coq Require Import ZArith QArith Ascii String List Bool Lia Lqa Permutation Sorted.
From Verif Require Import Base Dec Num NumSpec Bases Formats Units UnitsSpec Install Syntax Pos Call CallSpec Loop Parse Exec Std StdSpec StdProofs6 StatSpec StatProofs UnitReg UnitCalc UnitCalcSpec UnitRun GatherSpec GatherProofs.
Import ListNotations.
Open Scope nat_scope.

Lemma ufind_sum U : assoc ($"sum") (g_funcs (with_units U)) = Some (d_sum (u_lib U)). Proof. reflexivity. Qed.
Lemma ufind_min U : assoc ($"min") (g_funcs (with_units U)) = Some (d_min (u_lib U)). Proof. reflexivity. Qed.
Lemma ufind_max U : assoc ($"max") (g_funcs (with_units U)) = Some (d_max (u_lib U)). Proof. reflexivity. Qed.
Lemma ufind_sort U : assoc ($"sort") (g_funcs (with_units U)) = Some (d_sort (u_lib U)). Proof. reflexivity. Qed.
Lemma ufind_mean U : assoc ($"mean") (g_funcs (with_units U)) = Some (d_stat (u_lib U) ($"mean") stat_mean). Proof. reflexivity. Qed.
Lemma ufind_median U : assoc ($"median") (g_funcs (with_units U)) = Some (d_stat (u_lib U) ($"median") stat_median). Proof. reflexivity. Qed.
Lemma ufind_mode U : assoc ($"mode") (g_funcs (with_units U)) = Some (d_stat (u_lib U) ($"mode") stat_mode). Proof. reflexivity. Qed.

(** [sum]: the answer, in the unit of the first element, measures the sum of what the elements measure, exactly.  The
    elements, in that unit, are the fractions [xs] over [d]. *)
Theorem c66_sum : forall U us, world (u_rels U) us -> exists o, assoc ($"sum") (g_funcs (with_units U)) = Some o /\
  forall h stl x r0 l u s d xs, made_of us u -> steady (u_rels U) u -> rval x = VList (r0 :: l) -> runit r0 = Some u ->
  Forall (comparable U us u) (r0 :: l) -> (1 <= l_prec (u_lib U))%Z -> (0 < d < 10 ^ l_prec (u_lib U))%Z ->
  Forall2 (fun z r => (measure (u_lib U) r / size_of (Some u) == inject_Z z / inject_Z d)%Q) xs (r0 :: l) ->
  (zsum (map Z.abs xs) * d < 10 ^ l_prec (u_lib U))%Z ->
  exists n, call (unit_env U) h o stl [x] s = (OOk (mkRes (VNum n) (Some u) None), s) /\
    (val n * size_of (Some u) == qsum (map (measure (u_lib U)) (r0 :: l)))%Q.
Proof. intros U us W. exists (d_sum (u_lib U)). split; [apply ufind_sum|]. intros. now apply (sum_gather U us h stl x r0 l u s d xs). Qed.
Print Assumptions c66_sum.

(** [min] and [max]: the first of the elements that measure the least or the most, as it was given. *)
Theorem c66_min : forall U us, world (u_rels U) us -> exists o, assoc ($"min") (g_funcs (with_units U)) = Some o /\
  forall h stl x r0 l u s k, made_of us u -> steady (u_rels U) u -> (0 <= k)%Z -> (2 * k + 1 <= l_prec (u_lib U))%Z ->
  rval x = VList (r0 :: l) -> runit r0 = Some u -> Forall (fun r => comparable U us u r /\ fits (u_lib U) k u r) (r0 :: l) ->
  exists a r b v, r0 :: l = a ++ r :: b /\ call (unit_env U) h o stl [x] s = (OOk (mkRes v (runit r) (rref r)), s) /\ same_value (rval r) v /\
    (forall y, In y (r0 :: l) -> (measure (u_lib U) r <= measure (u_lib U) y)%Q) /\ (forall y, In y a -> (measure (u_lib U) r < measure (u_lib U) y)%Q).
Proof.
  intros U us W. exists (d_min (u_lib U)). split; [apply ufind_min|]. intros h stl x r0 l u s k Mu Su Hk Hp Hx H0 Hl.
  apply (min_gather U h stl x r0 l u s (measure (u_lib U)) (weighs U us k u)); auto. now apply measure_orders.
Qed.
Print Assumptions c66_min.
Theorem c66_max : forall U us, world (u_rels U) us -> exists o, assoc ($"max") (g_funcs (with_units U)) = Some o /\
  forall h stl x r0 l u s k, made_of us u -> steady (u_rels U) u -> (0 <= k)%Z -> (2 * k + 1 <= l_prec (u_lib U))%Z ->
  rval x = VList (r0 :: l) -> runit r0 = Some u -> Forall (fun r => comparable U us u r /\ fits (u_lib U) k u r) (r0 :: l) ->
  exists a r b v, r0 :: l = a ++ r :: b /\ call (unit_env U) h o stl [x] s = (OOk (mkRes v (runit r) (rref r)), s) /\ same_value (rval r) v /\
    (forall y, In y (r0 :: l) -> (measure (u_lib U) y <= measure (u_lib U) r)%Q) /\ (forall y, In y a -> (measure (u_lib U) y < measure (u_lib U) r)%Q).
Proof.
  intros U us W. exists (d_max (u_lib U)). split; [apply ufind_max|]. intros h stl x r0 l u s k Mu Su Hk Hp Hx H0 Hl.
  apply (max_gather U h stl x r0 l u s (measure (u_lib U)) (weighs U us k u)); auto. now apply measure_orders.
Qed.
Print Assumptions c66_max.

(** [sort]: the elements as they were given, in the order of what they measure; those that measure the same stay in order. *)
Theorem c66_sort : forall U us, world (u_rels U) us -> exists o, assoc ($"sort") (g_funcs (with_units U)) = Some o /\
  forall h stl x r0 l u s k, made_of us u -> steady (u_rels U) u -> (0 <= k)%Z -> (2 * k + 1 <= l_prec (u_lib U))%Z ->
  rval x = VList (r0 :: l) -> runit r0 = Some u -> Forall (fun r => comparable U us u r /\ fits (u_lib U) k u r) (r0 :: l) ->
  exists m, call (unit_env U) h o stl [x] s = (OOk (mkRes (VList m) None None), s) /\ Permutation (map plain (r0 :: l)) m /\
    StronglySorted (fun a b => measure (u_lib U) a <= measure (u_lib U) b)%Q m /\
    (forall q, filter (fun r => Qeq_bool (measure (u_lib U) r) q) m = filter (fun r => Qeq_bool (measure (u_lib U) r) q) (map plain (r0 :: l))).
Proof.
  intros U us W. exists (d_sort (u_lib U)). split; [apply ufind_sort|]. intros h stl x r0 l u s k Mu Su Hk Hp Hx H0 Hl.
  eexists. split; [apply (sort_gather U h stl x r0 l u s (measure (u_lib U)) (weighs U us k u)); auto; now apply measure_orders|].
  split; [apply sort_perm|]. split; [apply (sort_sorted (measure (u_lib U)))|]. intros q. apply (sort_same (measure (u_lib U)) q).
Qed.
Print Assumptions c66_sort.

(** [mean], [median] and [mode]: those of the decimals that the elements show in the unit of the first, and in that unit. *)
Theorem c66_mean : forall U us, world (u_rels U) us -> exists o, assoc ($"mean") (g_funcs (with_units U)) = Some o /\
  forall h stl x r0 l u s, made_of us u -> steady (u_rels U) u -> rval x = VList (r0 :: l) -> runit r0 = Some u ->
  Forall (comparable U us u) (r0 :: l) -> (1 <= l_prec (u_lib U))%Z ->
  let m := rnd (l_prec (u_lib U)) (qsum (map (shown_in (u_lib U) u) (r0 :: l)) / inject_Z (Z.of_nat (length (r0 :: l)))) in narrow (l_prec (u_lib U)) m ->
  exists n, call (unit_env U) h o stl [x] s = (OOk (mkRes (VNum n) (Some u) None), s) /\ (val n == m)%Q.
Proof.
  intros U us W. exists (d_stat (u_lib U) ($"mean") stat_mean). split; [apply ufind_mean|]. intros h stl x r0 l u s Mu Su Hx H0 Hl Hp m Nm.
  apply (stat_gather U us h stl x r0 l u s ($"mean") stat_mean m); auto. cbn [map stat_mean]. unfold m. cbn [length map]. rewrite map_length. reflexivity.
Qed.
Print Assumptions c66_mean.
Theorem c66_median : forall U us, world (u_rels U) us -> exists o, assoc ($"median") (g_funcs (with_units U)) = Some o /\
  forall h stl x r0 l u s, made_of us u -> steady (u_rels U) u -> rval x = VList (r0 :: l) -> runit r0 = Some u ->
  Forall (comparable U us u) (r0 :: l) -> (1 <= l_prec (u_lib U))%Z ->
  exists k, Permutation (map (shown_in (u_lib U) u) (r0 :: l)) k /\ StronglySorted Qle k /\
  let i := length (r0 :: l) / 2 in
  let m := if Nat.odd (length (r0 :: l)) then nth i k 0%Q else rnd (l_prec (u_lib U)) (rnd (l_prec (u_lib U)) (nth (i - 1) k 0 + nth i k 0) / 2)%Q in
  (narrow (l_prec (u_lib U)) m -> exists n, call (unit_env U) h o stl [x] s = (OOk (mkRes (VNum n) (Some u) None), s) /\ (val n == m)%Q).
Proof.
  intros U us W. exists (d_stat (u_lib U) ($"median") stat_median). split; [apply ufind_median|]. intros h stl x r0 l u s Mu Su Hx H0 Hl Hp.
  destruct (median_sorted (l_prec (u_lib U)) (map (shown_in (u_lib U) u) (r0 :: l))) as (k & K1 & K2 & K3); [discriminate|]. rewrite map_length in K3.
  exists k. split; [exact K1|]. split; [exact K2|]. intros i m Nm. now apply (stat_gather U us h stl x r0 l u s ($"median") stat_median m).
Qed.
Print Assumptions c66_median.
Theorem c66_mode : forall U us, world (u_rels U) us -> exists o, assoc ($"mode") (g_funcs (with_units U)) = Some o /\
  forall h stl x r0 l u s, made_of us u -> steady (u_rels U) u -> rval x = VList (r0 :: l) -> runit r0 = Some u ->
  Forall (comparable U us u) (r0 :: l) -> (1 <= l_prec (u_lib U))%Z -> let k := map (shown_in (u_lib U) u) (r0 :: l) in
  exists a m b, k = a ++ m :: b /\ (forall y, In y k -> how_many y k <= how_many m k) /\ (forall y, In y a -> how_many y k < how_many m k) /\
  (narrow (l_prec (u_lib U)) m -> exists n, call (unit_env U) h o stl [x] s = (OOk (mkRes (VNum n) (Some u) None), s) /\ (val n == m)%Q).
Proof.
  intros U us W. exists (d_stat (u_lib U) ($"mode") stat_mode). split; [apply ufind_mode|]. intros h stl x r0 l u s Mu Su Hx H0 Hl Hp k.
  destruct (mode_some (l_prec (u_lib U)) k) as [m Hm]; [discriminate|].
  destruct (mode_spec (l_prec (u_lib U)) k m Hm) as (a & b & H1 & H2 & H3). exists a, m, b. split; [exact H1|]. split; [exact H2|]. split; [exact H3|].
  intros Nm. now apply (stat_gather U us h stl x r0 l u s ($"mode") stat_mode m).
Qed.
Print Assumptions c66_mode.
Example c66_ex : map (uanswer demo_norm) ["sum([1 m, 50 cm, 2 ft])"; "min([1 m, 50 cm, 2 ft])"; "max([1 m, 100 cm])"; "min(100 cm, 1 m)"; "element(sort([1 m, 150 cm, 2 ft]), 1)"; "element(sort([1 m, 150 cm, 2 ft]), 3)"; "mean([1 m, 50 cm])"; "median([1 m, 50 cm, 2 ft])"; "mode([1 m, 2 m, 200 cm])"]%string =
  ["2.1096 meters"; "50 centimeters"; "1 meter"; "100 centimeters"; "2 feet"; "150 centimeters"; "0.75 meters"; "0.6096 meters"; "2 meters"]%string.
Proof. vm_compute. reflexivity. Qed.

(** Elements that do not go together are refused by all of these: one without a unit, or with one of other dimensions,
    after a first one with a unit ... *)
Lemma gathering_all U f : In f gathering -> exists o, assoc f (g_funcs (with_units U)) = Some o /\ gathers o /\ o_name o = f.
Proof.
  intros [<-|[<-|[<-|[<-|[<-|[<-|[<-|[]]]]]]]]; eexists.
  - split; [apply ufind_sum|repeat split; reflexivity].
  - split; [apply ufind_min|repeat split; reflexivity].
  - split; [apply ufind_max|repeat split; reflexivity].
  - split; [apply ufind_mean|repeat split; reflexivity].
  - split; [apply ufind_median|repeat split; reflexivity].
  - split; [apply ufind_mode|repeat split; reflexivity].
  - split; [apply ufind_sort|repeat split; reflexivity].
Qed.
Theorem c66_different : forall U us f, world (u_rels U) us -> In f gathering -> exists o, assoc f (g_funcs (with_units U)) = Some o /\
  forall h stl x r0 l u s, made_of us u -> steady (u_rels U) u -> rval x = VList (r0 :: l) -> runit r0 = Some u -> comparable U us u r0 ->
  Forall (fun r => comparable U us u r \/ other U us u r) l -> Exists (other U us u) l -> shows (u_lib U) (rval x) = true ->
  call (unit_env U) h o stl [x] s = (OErr (XCalc true (MOp f)), s).
Proof.
  intros U us f W Hf. destruct (gathering_all U f Hf) as (o & O1 & O2 & O3). exists o. split; [exact O1|]. intros h stl x r0 l u s Mu Su Hx H0 (n0 & v0 & N0 & _) Hl Ho Sh.
  rewrite <- O3. apply (gather_refused U h o stl x (r0 :: l) s O2 Hx); [|now apply (unit_then_other U us r0 l u)|exact Sh].
  intros r [<-|Hr]; [now exists n0|]. rewrite Forall_forall in Hl. destruct (Hl r Hr) as [(n & v & H & _) | (n & H & _)]; now exists n.
Qed.
Print Assumptions c66_different.
(** ... or one with a unit after a first one without. *)
Theorem c66_plain : forall U f, In f gathering -> exists o, assoc f (g_funcs (with_units U)) = Some o /\
  forall h stl x r0 l s, rval x = VList (r0 :: l) -> numeric (u_lib U) (r0 :: l) -> runit r0 = None -> (exists r, In r l /\ runit r <> None) ->
  shows (u_lib U) (rval x) = true -> call (unit_env U) h o stl [x] s = (OErr (XCalc true (MOp f)), s).
Proof.
  intros U f Hf. destruct (gathering_all U f Hf) as (o & O1 & O2 & O3). exists o. split; [exact O1|]. intros h stl x r0 l s Hx Hl H0 Ho Sh.
  rewrite <- O3. apply (gather_refused U h o stl x (r0 :: l) s O2 Hx Hl); [|exact Sh]. apply none_then_unit; auto. intros r Hr. apply Hl. now right.
Qed.
Print Assumptions c66_plain.
Example c66_refused_ex : map (uanswer demo_norm) ["sum([1 m, 2])"; "sort([1, 2 m])"; "max([1 m, 2 s])"; "sort([1 m, 1 m/s])"; "mean(1 m, 2 m, 3 kg)"]%string = ["execute error"; "execute error"; "execute error"; "execute error"; "execute error"]%string.
Proof. vm_compute. reflexivity. Qed.

(** Temperatures on any scales: [min], [max] and [sort] go by how warm they are. *)
Theorem c66_warmth : forall U f, In f [$"min"; $"max"; $"sort"] -> exists o, assoc f (g_funcs (with_units U)) = Some o /\
  forall h stl x r0 l t s k, temperature t -> (0 <= k)%Z -> (2 * k + 1 <= l_prec (u_lib U))%Z ->
  rval x = VList (r0 :: l) -> runit r0 = Some (mkEU [(t, 1%Z)] false) -> Forall (degrees (u_lib U) k t) (r0 :: l) ->
  exists y, call (unit_env U) h o stl [x] s = (OOk y, s) /\
    (f = $"min" -> exists r, In r (r0 :: l) /\ runit y = runit r /\ same_value (rval r) (rval y) /\ forall z, In z (r0 :: l) -> (warmth (u_lib U) r <= warmth (u_lib U) z)%Q) /\
    (f = $"max" -> exists r, In r (r0 :: l) /\ runit y = runit r /\ same_value (rval r) (rval y) /\ forall z, In z (r0 :: l) -> (warmth (u_lib U) z <= warmth (u_lib U) r)%Q) /\
    (f = $"sort" -> exists m, rval y = VList m /\ Permutation (map plain (r0 :: l)) m /\ StronglySorted (fun a b => warmth (u_lib U) a <= warmth (u_lib U) b)%Q m).
Proof.
  intros U f [<-|[<-|[<-|[]]]].
  - exists (d_min (u_lib U)). split; [apply ufind_min|]. intros h stl x r0 l t s k Tt Hk Hp Hx H0 Hl.
    destruct (min_gather U h stl x r0 l _ s (warmth (u_lib U)) (degrees (u_lib U) k t) (warmth_orders U t _ k Tt eq_refl Hk Hp) Hx H0 Hl) as (a & r & b & v & E & C & V & M & _).
    eexists. split; [exact C|]. split; [intros _|split; discriminate]. exists r. split; [rewrite E; apply in_or_app; right; now left|]. split; [reflexivity|]. split; [exact V|exact M].
  - exists (d_max (u_lib U)). split; [apply ufind_max|]. intros h stl x r0 l t s k Tt Hk Hp Hx H0 Hl.
    destruct (max_gather U h stl x r0 l _ s (warmth (u_lib U)) (degrees (u_lib U) k t) (warmth_orders U t _ k Tt eq_refl Hk Hp) Hx H0 Hl) as (a & r & b & v & E & C & V & M & _).
    eexists. split; [exact C|]. split; [discriminate|]. split; [intros _|discriminate]. exists r. split; [rewrite E; apply in_or_app; right; now left|]. split; [reflexivity|]. split; [exact V|exact M].
  - exists (d_sort (u_lib U)). split; [apply ufind_sort|]. intros h stl x r0 l t s k Tt Hk Hp Hx H0 Hl.
    eexists. split; [apply (sort_gather U h stl x r0 l _ s (warmth (u_lib U)) (degrees (u_lib U) k t) (warmth_orders U t _ k Tt eq_refl Hk Hp)); auto|].
    split; [discriminate|]. split; [discriminate|]. intros _. eexists. split; [reflexivity|]. split; [apply sort_perm|apply (sort_sorted (warmth (u_lib U)))].
Qed.
Print Assumptions c66_warmth.
Example c66_warmth_ex : map (uanswer demo_norm) ["max([20 celsius, 70 fahrenheit, 290 kelvin])"; "element(sort([20 celsius, 70 fahrenheit, 290 kelvin]), 1)"]%string = ["70 Fahrenheit"; "290 kelvin"]%string.
Proof. vm_compute. reflexivity. Qed.

(** But [sum] of temperatures is not what [+] makes of them: it converts the later ones as temperatures, [+] as numbers of
    degrees. *)
Theorem c66_degrees_refuted : map (uanswer demo_norm) ["20 celsius + 18 fahrenheit"; "sum([20 celsius, 18 fahrenheit])"]%string = ["30 Celsius"; "12.222222222222222222222222222222 Celsius"]%string.
Proof. vm_compute. reflexivity. Qed.
Print Assumptions c66_degrees_refuted.
