(** Averages of arrays written out, and sorting them. *)
From Coq Require Import ZArith QArith Qpower Ascii String List Bool Lia Permutation Sorted.
From Verif Require Import Base Dec Num NumSpec NumProofs3 Lex LexSpec Bases Formats Units Syntax Call Parse Exec Std StdSpec StdRun RangeSpec StatSpec VarNameSpec ArithTextSpec ArrayTextSpec ArithRunSpec ArrayRunSpec ArrayCallSpec StatProofs ArrayCallProofs Prop_Stat Prop_Std.
Import ListNotations.
Open Scope nat_scope.

Lemma mean_answer L vars k text es n fl s :
  exp_letter L -> pow_ok (l_prec L) (f_pow (l_fmt L)) -> (0 <= k)%Z -> (6 * k + 3 <= l_prec L)%Z -> vars_hold vars s ->
  array_call_text ($"mean") text es -> Forall (element_stays vars (l_prec L) k) es -> length text < n -> cf_parse_only fl = false ->
  exists items ls, Forall2 (element_of vars (shown_as s)) es ls /\
    let m := rnd (l_prec L) (qsum (map (key L) (concat ls)) / inject_Z (Z.of_nat (length (concat ls)))) in
    (narrow (l_prec L) m -> exists v, (val v == m)%Q /\ calculate (std L) n fl text s = (CDone [mkCR items (Some (VNum v, None)) (if cf_state fl then Some (s_vars s) else None)], s)).
Proof.
  intros Hx Hpow Hk Hp Hv Ht Hs Hn Hfl. destruct (c53_mean L) as (o & Ho & C).
  destruct (array_call_answer L vars k ($"mean") o text es n fl s Hx Hpow Hk Hp Hv ltac:(cbn; tauto) Ho Ht Hs Hn Hfl) as (items & ls & R & A).
  pose proof (all_numeric L _ (elements_numbers _ _ _ _ R)) as N. pose proof (elements_some _ _ _ _ _ _ (call_texts_some _ _ _ Ht) Hs R) as Ne.
  exists items, ls. split; [exact R|]. intros m Nm. destruct (C (callop (std L) (cf_stl fl)) (cf_stl fl) (the_list ls) (concat ls) s ltac:(lia) eq_refl N Ne Nm) as (v & C1 & V). exists v. split; [exact V|]. exact (A _ C1 eq_refl eq_refl).
Qed.
Lemma median_answer L vars k text es n fl s :
  exp_letter L -> pow_ok (l_prec L) (f_pow (l_fmt L)) -> (0 <= k)%Z -> (6 * k + 3 <= l_prec L)%Z -> vars_hold vars s ->
  array_call_text ($"median") text es -> Forall (element_stays vars (l_prec L) k) es -> length text < n -> cf_parse_only fl = false ->
  exists items ls ks, Forall2 (element_of vars (shown_as s)) es ls /\ Permutation (map (key L) (concat ls)) ks /\ StronglySorted Qle ks /\
    let i := length (concat ls) / 2 in
    let m := if Nat.odd (length (concat ls)) then nth i ks 0%Q else rnd (l_prec L) (rnd (l_prec L) (nth (i - 1) ks 0 + nth i ks 0) / 2)%Q in
    (narrow (l_prec L) m -> exists v, (val v == m)%Q /\ calculate (std L) n fl text s = (CDone [mkCR items (Some (VNum v, None)) (if cf_state fl then Some (s_vars s) else None)], s)).
Proof.
  intros Hx Hpow Hk Hp Hv Ht Hs Hn Hfl. destruct (c53_median L) as (o & Ho & C).
  destruct (array_call_answer L vars k ($"median") o text es n fl s Hx Hpow Hk Hp Hv ltac:(cbn; tauto) Ho Ht Hs Hn Hfl) as (items & ls & R & A).
  pose proof (all_numeric L _ (elements_numbers _ _ _ _ R)) as N. pose proof (elements_some _ _ _ _ _ _ (call_texts_some _ _ _ Ht) Hs R) as Ne.
  destruct (C (callop (std L) (cf_stl fl)) (cf_stl fl) (the_list ls) (concat ls) s ltac:(lia) eq_refl N Ne) as (ks & P & So & C0). exists items, ls, ks. split; [exact R|]. split; [exact P|]. split; [exact So|]. intros i m Nm. destruct (C0 Nm) as (v & C1 & V). exists v. split; [exact V|]. exact (A _ C1 eq_refl eq_refl).
Qed.
Lemma mode_answer L vars k text es n fl s :
  exp_letter L -> pow_ok (l_prec L) (f_pow (l_fmt L)) -> (0 <= k)%Z -> (6 * k + 3 <= l_prec L)%Z -> vars_hold vars s ->
  array_call_text ($"mode") text es -> Forall (element_stays vars (l_prec L) k) es -> length text < n -> cf_parse_only fl = false ->
  exists items ls a m b, Forall2 (element_of vars (shown_as s)) es ls /\ map (key L) (concat ls) = a ++ m :: b /\
    (forall y, In y (map (key L) (concat ls)) -> how_many y (map (key L) (concat ls)) <= how_many m (map (key L) (concat ls))) /\
    (forall y, In y a -> how_many y (map (key L) (concat ls)) < how_many m (map (key L) (concat ls))) /\
    (narrow (l_prec L) m -> exists v, (val v == m)%Q /\ calculate (std L) n fl text s = (CDone [mkCR items (Some (VNum v, None)) (if cf_state fl then Some (s_vars s) else None)], s)).
Proof.
  intros Hx Hpow Hk Hp Hv Ht Hs Hn Hfl. destruct (c53_mode L) as (o & Ho & C).
  destruct (array_call_answer L vars k ($"mode") o text es n fl s Hx Hpow Hk Hp Hv ltac:(cbn; tauto) Ho Ht Hs Hn Hfl) as (items & ls & R & A).
  pose proof (all_numeric L _ (elements_numbers _ _ _ _ R)) as N. pose proof (elements_some _ _ _ _ _ _ (call_texts_some _ _ _ Ht) Hs R) as Ne.
  destruct (C (callop (std L) (cf_stl fl)) (cf_stl fl) (the_list ls) (concat ls) s ltac:(lia) eq_refl N Ne) as (a & m & b & E & M1 & M2 & C0). exists items, ls, a, m, b. split; [exact R|]. split; [exact E|]. split; [exact M1|]. split; [exact M2|]. intros Nm. destruct (C0 Nm) as (v & C1 & V). exists v. split; [exact V|]. exact (A _ C1 eq_refl eq_refl).
Qed.
Lemma sort_answer L vars k text es n fl s :
  exp_letter L -> pow_ok (l_prec L) (f_pow (l_fmt L)) -> (0 <= k)%Z -> (6 * k + 3 <= l_prec L)%Z -> vars_hold vars s ->
  array_call_text ($"sort") text es -> Forall (element_stays vars (l_prec L) k) es -> length text < n -> cf_parse_only fl = false ->
  exists items ls m, Forall2 (element_of vars (shown_as s)) es ls /\
    Permutation (map StdSpec.plain (concat ls)) m /\ StronglySorted (fun a b => key L a <= key L b)%Q m /\
    (forall q, filter (fun r => Qeq_bool (key L r) q) m = filter (fun r => Qeq_bool (key L r) q) (map StdSpec.plain (concat ls))) /\
    calculate (std L) n fl text s = (CDone [mkCR items (Some (VList m, None)) (if cf_state fl then Some (s_vars s) else None)], s).
Proof.
  intros Hx Hpow Hk Hp Hv Ht Hs Hn Hfl. pose proof (StdProofs6.find_sort L) as Ho.
  destruct (array_call_answer L vars k ($"sort") _ text es n fl s Hx Hpow Hk Hp Hv ltac:(cbn; tauto) Ho Ht Hs Hn Hfl) as (items & ls & R & A).
  pose proof (all_numeric L _ (elements_numbers _ _ _ _ R)) as N. pose proof (elements_some _ _ _ _ _ _ (call_texts_some _ _ _ Ht) Hs R) as Ne.
  destruct (c37_sort L (callop (std L) (cf_stl fl)) (cf_stl fl) (the_list ls) (concat ls) s eq_refl N) as (o & m & Ho' & C & P & So & F). rewrite Ho in Ho'. injection Ho' as <-.
  exists items, ls, m. split; [exact R|]. split; [exact P|]. split; [exact So|]. split; [exact F|]. exact (A _ C eq_refl eq_refl).
Qed.
