(** C77: from the text of quantities to the answer. *)
From Coq Require Import ZArith QArith Qabs Ascii String List Bool Lia.
From Verif Require Import Base BaseProofs Num NumSpec Lex LexSpec Bases Formats Units UnitsSpec UnitReg UnitData Install Syntax Pos Call Loop Parse Exec Std StdRun ArithRunSpec UnitCalc UnitCalcSpec UnitRun UnitTable NameSpec TextSpec VarNameSpec ArithTextSpec ArithTextProofs3 UnitTextSpec UnitTextProofs3 UnitTextProofs4 UnitTextProofs5 UnitTextTable.
Import ListNotations.
Open Scope nat_scope.

(** A text of quantities of one dimension, with signs between them and perhaps [to] and a unit at the end, is worth the sum of
    what they are worth, given in the unit after [to], or else in the first one.  All spellings, all units, all numerals of
    so many digits; the variables stay as they are. *)
Theorem c77_quantities : forall U us steps k unit_at text q qs tgt n fl (s : st),
  reg_steps steps norm_init = Ok (u_norm U) -> world (u_rels U) us -> keys_apart (u_norm U) -> exp_letter (u_lib U) -> (1 <= k)%Z -> (3 * k + 1 <= l_prec (u_lib U))%Z ->
  sum_text text q qs tgt -> let u0 := unit_at (snd q) in
  (forall m, In m (snd q :: map (fun x => snd (snd x)) qs ++ match tgt with Some t => [t] | None => [] end) ->
     unit_for U us m (unit_at m) /\ same_dims (u_rels U) (Some (mkEU (ulist u0) false)) (Some (mkEU (ulist (unit_at m)) false))) ->
  digits_stay (l_prec (u_lib U)) k (fst q) u0 (map (with_unit unit_at) qs) -> cf_parse_only fl = false ->
  exists items x w, calculate (with_units U) (S n) fl text s = (CDone [mkCR items (Some (VNum x, Some w)) (if cf_state fl then Some (s_vars s) else None)], s) /\
    (val x * size_of (Some w) == total (amount (fst q) u0) (map (with_unit unit_at) qs))%Q /\
    eu_list w = ulist (match tgt with Some t => unit_at t | None => u0 end).
Proof. exact quantities_answer. Qed.
Print Assumptions c77_quantities.

(** Where quantities of another dimension come in, or the unit after [to] has another dimension, the text fails, whatever
    comes after, and the variables stay as they are. *)
Theorem c77_different : forall U us steps k unit_at text q qs qr tgt bad n fl (s : st),
  reg_steps steps norm_init = Ok (u_norm U) -> world (u_rels U) us -> keys_apart (u_norm U) -> exp_letter (u_lib U) -> (1 <= k)%Z -> (3 * k + 1 <= l_prec (u_lib U))%Z ->
  (0 <= k /\ 1 <= f_places (l_fmt (u_lib U)) /\ k + f_places (l_fmt (u_lib U)) <= l_prec (u_lib U))%Z ->
  sum_text text q (qs ++ qr) tgt -> let u0 := unit_at (snd q) in
  (forall m, In m (snd q :: map (fun x => snd (snd x)) (qs ++ qr) ++ match tgt with Some t => [t] | None => [] end) -> unit_for U us m (unit_at m)) ->
  (forall m, In m (map (fun x => snd (snd x)) qs) -> same_dims (u_rels U) (Some (mkEU (ulist u0) false)) (Some (mkEU (ulist (unit_at m)) false))) ->
  hd_error (map (fun x => snd (snd x)) qr ++ match tgt with Some t => [t] | None => [] end) = Some bad ->
  (exists d, dims_of (u_rels U) (Some (mkEU (ulist u0) false)) d <> dims_of (u_rels U) (Some (mkEU (ulist (unit_at bad)) false)) d) ->
  digits_stay (l_prec (u_lib U)) k (fst q) u0 (map (with_unit unit_at) qs) -> Forall (fun x => lit_fits (l_prec (u_lib U)) k (fst (snd x))) qr -> cf_parse_only fl = false ->
  exists items nx tr, calculate (with_units U) (S n) fl text s = (CFail false [] [items] nx tr, s).
Proof. exact quantities_differ. Qed.
Print Assumptions c77_different.

(** The calculator as it is built meets what is asked of the units, and any name [ready] says so of is one to use. *)
Theorem c77_table : reg_steps (preset_steps preset_computing) norm_init = Ok demo_norm /\ world (n_rels demo_norm) (plain_units demo_norm) /\ keys_apart demo_norm /\
  (forall n, ready demo_norm n = true -> unit_for (demo_units demo_norm) (plain_units demo_norm) n (unit_at demo_norm n)) /\
  (forall u v, udim u = udim v -> same_dims (n_rels demo_norm) (Some (mkEU (ulist u) false)) (Some (mkEU (ulist v) false))).
Proof. split; [exact demo_steps|]. split; [exact preset_world|]. split; [exact demo_keys|]. split; [exact (ready_ok demo_norm)|exact (same_udim (n_rels demo_norm))]. Qed.
Print Assumptions c77_table.

(** ** A case with everything in it *)
Definition ex_text : str := $" 1.5 km + 20 FEET -  3 Miles to m ".
Definition ex_first : declit * str := (mkLit false ($"1") (Some ($"5")), $"km").
Definition ex_more : list (bool * (declit * str)) := [(false, (mkLit false ($"20") None, $"FEET")); (true, (mkLit false ($"3") None, $"Miles"))].
Lemma ex_blank n : blank_text (repeat " "%char n).
Proof. induction n; constructor; [split; [reflexivity|discriminate]|assumption]. Qed.
Lemma ex_is : sum_text ex_text ex_first ex_more (Some ($"m")).
Proof.
  exists ($" "), ($"1.5 km"), ($" + 20 FEET -  3 Miles to m "). split; [reflexivity|]. split; [apply (ex_blank 1)|].
  split; [exists ($" "); repeat split; try discriminate; apply (ex_blank 1)|].
  apply (sum_more ($" ") false ($" ") ($"20 FEET") _ ($" -  3 Miles to m ")); try apply (ex_blank 1); [discriminate|exists ($" "); repeat split; try discriminate; apply (ex_blank 1)|].
  apply (sum_more ($" ") true ($"  ") ($"3 Miles") _ ($" to m ")); try apply (ex_blank 1); try apply (ex_blank 2); [discriminate|exists ($" "); repeat split; try discriminate; apply (ex_blank 1)|].
  apply (sum_to ($" ") ($" ") ($"m") ($" ")); try apply (ex_blank 1); discriminate.
Qed.
Lemma ex_names : names_b demo_norm ($"km") [$"km"; $"FEET"; $"Miles"; $"m"] = true.
Proof. vm_cast_no_check (@eq_refl bool true). Qed.
Lemma ex_stay : stay_b 100 33 (fst ex_first) (unit_at demo_norm ($"km")) (map (with_unit (unit_at demo_norm)) ex_more) = true.
Proof. vm_cast_no_check (@eq_refl bool true). Qed.
Lemma ex_total : Qeq_bool (total (amount (fst ex_first) (unit_at demo_norm ($"km"))) (map (with_unit (unit_at demo_norm)) ex_more)) (1500 + 20 * (3048 # 10000) - 3 * (1609344 # 1000))%Q = true.
Proof. vm_cast_no_check (@eq_refl bool true). Qed.
Example c77_ex_hyp : forall s, exists items x w, calculate (with_units (demo_units demo_norm)) 1 (mkCF false false false) ex_text s =
    (CDone [mkCR items (Some (VNum x, Some w)) None], s) /\
    (val x * size_of (Some w) == 1500 + 20 * (3048 # 10000) - 3 * (1609344 # 1000))%Q /\ eu_list w = ulist (unit_at demo_norm ($"m")).
Proof.
  intros s. destruct c77_table as (T1 & T2 & T3 & _). assert (L : demo = u_lib (demo_units demo_norm)) by reflexivity.
  destruct (c77_quantities (demo_units demo_norm) (plain_units demo_norm) _ 33 (unit_at demo_norm) ex_text ex_first ex_more (Some ($"m")) 0 (mkCF false false false) s T1 T2 T3) as (items & x & w & E & V & W).
  - rewrite <- L. exists "E"%char, []. split; [reflexivity|left; vm_compute; split; discriminate].
  - lia.
  - rewrite <- L. change (l_prec demo) with 100%Z. lia.
  - exact ex_is.
  - exact (names_b_ok demo_norm ($"km") _ ex_names).
  - rewrite <- L. change (l_prec demo) with 100%Z. apply stay_b_ok. exact ex_stay.
  - reflexivity.
  - exists items, x, w. split; [exact E|]. split; [|exact W]. rewrite V. apply Qeq_bool_iff. exact ex_total.
Qed.
(** One that fails: [1.5 km + 20 FEET to kg] *)
Definition ex_bad_text : str := $"1.5 km + 20 FEET to kg".
Lemma ex_bad_is : sum_text ex_bad_text ex_first ([(false, (mkLit false ($"20") None, $"FEET"))] ++ []) (Some ($"kg")).
Proof.
  exists [], ($"1.5 km"), ($" + 20 FEET to kg"). split; [reflexivity|]. split; [constructor|].
  split; [exists ($" "); repeat split; try discriminate; apply (ex_blank 1)|].
  apply (sum_more ($" ") false ($" ") ($"20 FEET") _ ($" to kg")); try apply (ex_blank 1); [discriminate|exists ($" "); repeat split; try discriminate; apply (ex_blank 1)|].
  apply (sum_to ($" ") ($" ") ($"kg") []); try apply (ex_blank 1); try discriminate. constructor.
Qed.
Lemma ex_bad_names : forallb (ready demo_norm) [$"km"; $"FEET"; $"kg"] = true.
Proof. vm_cast_no_check (@eq_refl bool true). Qed.
Lemma ex_bad_stay : stay_b 100 33 (fst ex_first) (unit_at demo_norm ($"km")) (map (with_unit (unit_at demo_norm)) [(false, (mkLit false ($"20") None, $"FEET"))]) = true.
Proof. vm_cast_no_check (@eq_refl bool true). Qed.
Lemma ex_bad_dims : negb (dims_of (u_rels (demo_units demo_norm)) (Some (mkEU (ulist (unit_at demo_norm ($"km"))) false)) ($"mass") =? dims_of (u_rels (demo_units demo_norm)) (Some (mkEU (ulist (unit_at demo_norm ($"kg"))) false)) ($"mass"))%Z = true.
Proof. vm_cast_no_check (@eq_refl bool true). Qed.
Example c77_ex_bad : forall s, exists items nx tr, calculate (with_units (demo_units demo_norm)) 1 (mkCF false false false) ex_bad_text s = (CFail false [] [items] nx tr, s).
Proof.
  intros s. destruct c77_table as (T1 & T2 & T3 & T4 & _). assert (L : demo = u_lib (demo_units demo_norm)) by reflexivity.
  apply (c77_different (demo_units demo_norm) (plain_units demo_norm) _ 33 (unit_at demo_norm) ex_bad_text ex_first [(false, (mkLit false ($"20") None, $"FEET"))] [] (Some ($"kg")) ($"kg") 0 (mkCF false false false) s T1 T2 T3).
  - rewrite <- L. exists "E"%char, []. split; [reflexivity|left; vm_compute; split; discriminate].
  - lia.
  - rewrite <- L. change (l_prec demo) with 100%Z. lia.
  - rewrite <- L. change (l_prec demo) with 100%Z. change (f_places (l_fmt demo)) with 30%Z. lia.
  - exact ex_bad_is.
  - intros m Hm. apply T4. pose proof ex_bad_names as H. rewrite forallb_forall in H. apply H, Hm.
  - intros m Hm. apply (names_b_ok demo_norm ($"km") _ ex_names). right. left. destruct Hm as [<-|[]]. reflexivity.
  - reflexivity.
  - exists ($"mass"). pose proof ex_bad_dims as H. apply negb_true_iff, Z.eqb_neq in H. exact H.
  - rewrite <- L. change (l_prec demo) with 100%Z. apply stay_b_ok. exact ex_bad_stay.
  - constructor.
  - reflexivity.
Qed.
Example c77_ex : map (uanswer demo_norm) [" 1.5 km + 20 FEET -  3 Miles to m "; "1 km + 500 m to m"; "1 km+500 m - 3 feet"; "2 hours + 30 minutes - 15 seconds"; "3 km to m + 5 km"; "1 km + 2 kg"; "1 km + 5"; "3 short tons + 1 kg to kg"]%string =
  ["-3321.936 meters"; "1500 meters"; "1.4990856 kilometers"; "2.495833333333333333333333333333 hours"; "execute error"; "execute error"; "execute error"; "2722.55422 kilograms"]%string.
Proof. vm_compute. reflexivity. Qed.
