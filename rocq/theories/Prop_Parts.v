(** C65: [format] splits a quantity into parts without losing any of it, largest first; [compact] keeps the quantity.
    unitfunctions.py:51-101. *)
From Coq Require Import ZArith QArith Qpower Lqa Ascii String List.
From Verif Require Import Base Num NumSpec BaseProofs Bases Formats Call Std Units UnitsSpec UnitsProofs2 UnitReg Syntax UnitCalcSpec UnitCalc UnitRun InstallProofs SimplifySpec
  Prop_Simplify PartsSpec PartsProofs PartsProofs2.
Import ListNotations.
Open Scope Q_scope.

(** What is left out of none: the parts add up to the quantity.  From the largest unit down, every part is a whole number of an
    unprefixed unit, all that follows is less than one of it; the prefix is the largest that leaves at least one.  A negative
    quantity is not split: it is one part, in the smallest unit of the system. *)
Theorem c65_parts : forall U us v u asked ps, units_ok us -> positive us -> goes_with (u_norm U) us -> over us u -> has_unprefixed (u_norm U) ->
  format_parts U v u asked = Ok ps ->
  total_worth ps == v * factor u /\
  exists w sys, In w us /\ system_used (u_norm U) w asked sys /\
    (0 <= v -> largest_first (u_norm U) sys (udim w) ps) /\
    (v < 0 -> exists p, ps = [p] /\ smallest (u_norm U) sys (udim w) (snd p)).
Proof. exact format_spec. Qed.
Print Assumptions c65_parts.
(** A single unit always has parts in a system that offers units for it, if the smallest of them go with an unprefixed one. *)
Theorem c65_answers : forall U us v u x w sys, units_ok us -> positive us -> goes_with (u_norm U) us -> over us u ->
  simplify U v u = Ok (x, [(w, 1%Z)]) -> (exists c, offered (u_norm U) sys (udim w) c) -> ends_well (u_norm U) sys (udim w) ->
  exists ps, format_parts U v u (Some sys) = Ok ps.
Proof. exact format_ok. Qed.
Print Assumptions c65_answers.
(** The function: its answer is the text of such parts, with the number format of the argument, and it changes nothing. *)
Theorem c65_format : forall U us h n more x units rs stl s r s', units_ok us -> positive us -> goes_with (u_norm U) us -> over us (eu_list x) ->
  has_unprefixed (u_norm U) -> fn_format U h (VNum n :: more) (Some x :: units) rs stl s = (OOk r, s') ->
  exists ps ts, r = mkOR (VStr (sjoin ($", ") ts)) (Some None) None /\ s' = s /\ Forall2 (written (l_fmt (u_lib U)) (ncast n)) ps ts /\
    total_worth ps == val n * factor (eu_list x).
Proof. exact fn_format_spec. Qed.
Print Assumptions c65_format.
Theorem c65_compact : forall U us h n x rs stl s r s', units_ok us -> goes_with (u_norm U) us -> over us (eu_list x) ->
  fn_compact U h [VNum n] [Some x] rs stl s = (OOk r, s') ->
  exists m u, r = mkOR (VNum m) (Some u) None /\ s' = s /\ val m * size_of u == val n * factor (eu_list x) /\ ncast m = ncast n.
Proof. exact fn_compact_spec. Qed.
Print Assumptions c65_compact.

(** *** The units of the code *)
Definition offers (sys : str) (cs : list cand) : list cand := filter (fun c => mem_str sys (usystems (c_unit c)) && c_use c)%bool cs.
Definition least (l : list cand) : list cand := filter (fun c => forallb (fun d => Qle_bool (size c) (size d)) l) l.
Definition checked (N : normaliser) : bool :=
  forallb (fun e => forallb (fun sys => let l := offers sys (snd e) in
     (match l with [] => true | _ => existsb plain_cand l end) &&
     (seq_eqb (fst e) ($"temperature") || forallb (fun c => forallb (fun z => seq_eqb (base z) (base c)) (least l)) (least (filter plain_cand l))))%bool
    (flat_map (fun c => usystems (c_unit c)) (snd e))) (n_units N).
Lemma least_in l c : In c l -> (forall d, In d l -> size c <= size d) -> In c (least l).
Proof. intros I H. apply filter_In. split; [exact I|]. apply forallb_forall. intros d J. apply Qle_bool_iff. now apply H. Qed.
Lemma offers_in sys cs c : In c (offers sys cs) <-> In c cs /\ In sys (usystems (c_unit c)) /\ c_use c = true.
Proof. unfold offers. rewrite filter_In, andb_true_iff, mem_str_in. tauto. Qed.
Lemma checked_ok N : checked N = true -> has_unprefixed N /\ forall sys dim, dim <> $"temperature" -> ends_well N sys dim.
Proof.
  unfold checked. rewrite forallb_forall. intros H. split.
  - intros sys dim c (cs & A & I & S & U). pose proof (H _ (assoc_some_in _ _ _ A)) as K. cbn [snd] in K. rewrite forallb_forall in K.
    specialize (K sys (proj2 (in_flat_map _ _ _) (ex_intro _ c (conj I S)))). cbv zeta in K. apply andb_true_iff in K as [K _].
    assert (J : In c (offers sys cs)) by (apply offers_in; auto). destruct (offers sys cs) as [|c1 l] eqn:E; [destruct J|]. rewrite <- E in K.
    apply existsb_exists in K as (d & Id & Pd). apply offers_in in Id as (Id & Sd & Ud). exists d. split; [exists cs; auto|now apply plain_cand_ok].
  - intros sys dim Nt c z ((cs & A & I & S & U) & P & L) ((cs' & A' & I' & S' & U') & L'). rewrite A in A'. injection A' as <-.
    pose proof (H _ (assoc_some_in _ _ _ A)) as K. cbn [snd] in K. rewrite forallb_forall in K.
    specialize (K sys (proj2 (in_flat_map _ _ _) (ex_intro _ c (conj I S)))). cbv zeta in K. apply andb_true_iff in K as [_ K].
    apply orb_true_iff in K as [K|K]; [cbn [fst] in K; apply seq_eqb_iff in K; contradiction|]. rewrite forallb_forall in K. specialize (K c). rewrite forallb_forall in K. apply seq_eqb_iff. apply K.
    + apply least_in; [apply filter_In; split; [apply offers_in; auto|now apply plain_cand_ok]|]. intros d J. apply filter_In in J as [J Q].
      apply offers_in in J as (J & Sd & Ud). apply L; [exists cs; auto|now apply plain_cand_ok].
    + apply least_in; [apply offers_in; auto|]. intros d J. apply offers_in in J as (J & Sd & Ud). apply L'. exists cs. auto.
Qed.
Theorem c65_preset : units_ok (cold_units demo_norm) /\ positive (cold_units demo_norm) /\ goes_with demo_norm (cold_units demo_norm) /\
  has_unprefixed demo_norm /\ forall sys dim, dim <> $"temperature" -> ends_well demo_norm sys dim.
Proof.
  destruct c64_preset as [A B]. split; [exact A|]. split; [|split; [exact B|apply checked_ok; vm_cast_no_check (@eq_refl bool true)]].
  apply Forall_forall. intros u I. assert (K : forallb (fun u => negb (Qle_bool (uscale u) 0)) (cold_units demo_norm) = true) by vm_cast_no_check (@eq_refl bool true).
  rewrite forallb_forall in K. specialize (K u I). apply Qnot_le_lt. intros Q. apply Qle_bool_iff in Q. rewrite Q in K. discriminate K.
Qed.
Print Assumptions c65_preset.
Example c65_ex : map (uanswer demo_norm) ["format(10000 seconds)"; "format(5000 inches)"; "format(1.234 hours)"; "format(1500.5 metres)"; "format(5 feet, 'si')";
    "format(3600 s)"; "format(200000 seconds)"; "format(12 feet + 1 inch)"; "compact(5 m / 2 s * 3 s)"; "format(5 m / 2 s * 3 s)"]%string =
  ["'2 hours, 46 minutes, 40 seconds'"; "'138 yards, 2 feet, 8 inches'"; "'1 hour, 14 minutes, 2.4 seconds'"; "'1.5005 kilometers'"; "'1.524 meters'";
   "'1 hour'"; "'2 days, 7 hours, 33 minutes, 20 seconds'"; "'4 yards, 1 inch'"; "7.5 meters"; "'7.5 meters'"]%string.
Proof. vm_compute. reflexivity. Qed.
(** The single part of a negative quantity is hardly what is wanted, and nothing is left of zero. *)
Example c65_negative : map (uanswer demo_norm) ["format(-5 metres)"; "format(-5 feet)"; "format(0 metres)"]%string =
  ["'-5000000000000000000 attometers'"; "'-60 inches'"; "''"]%string.
Proof. vm_compute. reflexivity. Qed.
(** Temperatures have to be left out: one degree Celsius is taken for 274.15 kelvin, and the parts add up to 573.15. *)
Theorem c65_temperature_refuted : exists p q, format_parts (demo_units demo_norm) 300 (ulist (unit_called demo_norm "K")) None = Ok [p; q] /\
  plural (c_unit (snd p)) = $"Celsius" /\ fst p == 26 /\ plural (c_unit (snd q)) = $"kelvin" /\ fst q == 274.
Proof. eexists. eexists. split; [vm_compute; reflexivity|]. repeat split. Qed.
Print Assumptions c65_temperature_refuted.
