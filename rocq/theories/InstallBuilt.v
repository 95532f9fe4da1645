(** The calculators of the model are what installing features gives. *)
From Coq Require Import ZArith QArith Ascii String List Bool Lia.
From Verif Require Import Base BaseProofs Dec Num Lex Bases Formats Units UnitsProofs5 UnitReg UnitData Syntax Pos Call Loop Parse Exec Std UnitCalc Dates Regex Floats Install InstallSpec InstallProofs2 InstallRun InstallRunSpec InstallRunProofs3 InstallRunProofs4 InstallBuiltSpec.
Import ListNotations.
Open Scope nat_scope.

(** The parts other than the units do not depend on the units *)
Definition no_units (e : effect) : bool := match e with EUnits | EUnit _ | EMulti _ => false | _ => true end.
Definition bare (K : calc) : calc := mkCalc (k_parsers K) (k_ops K) (k_dicts K) None.
Lemma effect_bare f K e K' : run_effect f K e = Ok K' -> if no_units e then run_effect f (bare K) e = Ok (bare K') else bare K' = bare K.
Proof.
  destruct e; cbn [run_effect no_units]; unfold bare; cbn [k_parsers k_ops k_dicts k_norm].
  - intros H. inversion H; subst. reflexivity.
  - destruct (add_op _ _ _ _); cbn [obind]; intros H; inversion H; subst; reflexivity.
  - intros H. inversion H; subst. reflexivity.
  - destruct (assoc _ _); intros H; inversion H; subst; reflexivity.
  - destruct (assoc _ _) as [l|]; [destruct (mem_str k l)|]; intros H; inversion H; subst; reflexivity.
  - intros H. inversion H; subst. reflexivity.
  - destruct (k_norm K); [|discriminate]. destruct (reg_step _ _); cbn [obind]; intros H; inversion H; subst; reflexivity.
  - destruct (k_norm K); [|discriminate]. destruct (make_multiunit _ _); cbn [obind]; intros H; inversion H; subst; reflexivity.
Qed.
Lemma effects_bare f : forall l K K', run_effects f l K = Ok K' -> run_effects f (filter no_units l) (bare K) = Ok (bare K').
Proof.
  induction l as [|e l IH]; intros K K' H; cbn [run_effects filter] in *; [inversion H; subst; reflexivity|].
  destruct (run_effect f K e) as [K1| |] eqn:E; cbn [obind] in H; [|discriminate|discriminate].
  pose proof (effect_bare _ _ _ _ E) as B. destruct (no_units e).
  - cbn [run_effects]. rewrite B. cbn [obind]. apply IH, H.
  - rewrite <- B. apply IH, H.
Qed.
Fixpoint run_bare (l : list str) (K : calc) : out calc :=
  match l with [] => Ok K | f :: r => do K' <- run_effects f (filter no_units (effects_of f)) K; run_bare r K' end.
Lemma features_bare : forall l K K', run_features l K = Ok K' -> run_bare l (bare K) = Ok (bare K').
Proof.
  induction l as [|f l IH]; intros K K' H; cbn [run_features run_bare] in *; [inversion H; subst; reflexivity|].
  destruct (run_effects f (effects_of f) K) as [K1| |] eqn:E; cbn [obind] in H; [|discriminate|discriminate].
  rewrite (effects_bare _ _ _ _ E). cbn [obind]. apply IH, H.
Qed.

(** * The check *)
Definition shape := (str * (bool * list str))%type.
Definition shape_eqb (a b : shape) : bool :=
  seq_eqb (fst a) (fst b) && Bool.eqb (fst (snd a)) (fst (snd b)) && if list_eq_dec (list_eq_dec Ascii.ascii_dec) (snd (snd a)) (snd (snd b)) then true else false.
Definition has_shape (a : shape) (l : list shape) : bool := existsb (shape_eqb a) l.
Definition same_shapes (l m : list shape) : bool := forallb (fun a => has_shape a m) l && forallb (fun a => has_shape a l) m.
Fixpoint same_levels (ls ms : list (list shape)) : bool :=
  match ls, ms with [], [] => true | l :: ls, m :: ms => if same_shapes l m then same_levels ls ms else false | _, _ => false end.
Definition same_keys (K : calc) (a : str) (ks : list str) : bool :=
  match assoc a (k_dicts K) with Some l => forallb (fun k => mem_str k ks) l && forallb (fun k => mem_str k l) ks | None => false end.
Definition parts_check (K : calc) (names : list str) (ls : list (list shape)) (funcs consts valids handlers : list str) : bool :=
  (if list_eq_dec (list_eq_dec Ascii.ascii_dec) (map fst (k_parsers K)) names then true else false) && same_levels (k_ops K) ls &&
  same_keys K ($"funcs") funcs && same_keys K ($"constants") consts && same_keys K ($"number_types") number_types &&
  same_keys K ($"validators") valids && same_keys K ($"function_pointer_handlers") handlers.
Definition built_check (fs names : list str) (ls : list (list shape)) (funcs consts valids handlers : list str) : bool :=
  match install 100 features fs (mkIst [] []) with
  | IOk st => match run_bare (trace st) new_calc with Ok K => parts_check K names ls funcs consts valids handlers | _ => false end
  | _ => false
  end.
Lemma shape_eqb_iff a b : shape_eqb a b = true <-> a = b.
Proof.
  destruct a as [n [r w]], b as [n' [r' w']]. unfold shape_eqb. cbn [fst snd]. split.
  - intros H. apply andb_true_iff in H as [H H3]. apply andb_true_iff in H as [H1 H2]. apply seq_eqb_iff in H1. apply eqb_prop in H2.
    destruct (list_eq_dec (list_eq_dec Ascii.ascii_dec) w w'); [|discriminate]. subst. reflexivity.
  - intros H. inversion H; subst. rewrite seq_eqb_refl, eqb_reflx. destruct (list_eq_dec (list_eq_dec Ascii.ascii_dec) w' w'); [reflexivity|contradiction].
Qed.
Lemma has_shape_iff a l : has_shape a l = true <-> In a l.
Proof.
  unfold has_shape. rewrite existsb_exists. split; [intros (b & I & E); apply shape_eqb_iff in E; subst; exact I|intros I; exists a; split; [exact I|now apply shape_eqb_iff]].
Qed.
Lemma same_shapes_ok l m : same_shapes l m = true -> forall o, In o l <-> In o m.
Proof.
  intros H o. apply andb_true_iff in H as [A B]. rewrite forallb_forall in A, B. split; intros I; apply has_shape_iff; auto.
Qed.
Lemma same_levels_ok : forall ls ms, same_levels ls ms = true -> Forall2 (fun l m => forall o, In o l <-> In o m) ls ms.
Proof.
  induction ls as [|l ls IH]; intros [|m ms] H; cbn [same_levels] in H; try discriminate; constructor.
  - destruct (same_shapes l m) eqn:E; [|discriminate]. apply same_shapes_ok, E.
  - destruct (same_shapes l m); [|discriminate]. apply IH, H.
Qed.
Lemma same_keys_ok K a ks : same_keys K a ks = true -> table_is K a ks.
Proof.
  unfold same_keys, table_is. destruct (assoc a (k_dicts K)) as [l|]; [|discriminate]. intros H. exists l. split; [reflexivity|].
  apply andb_true_iff in H as [A B]. rewrite forallb_forall in A, B. intros k. split; intros I; apply mem_str_iff; auto.
Qed.
Lemma Forall2_map_r {A B C} (R : A -> B -> Prop) (g : C -> B) : forall l m, Forall2 R l (map g m) -> Forall2 (fun a c => R a (g c)) l m.
Proof. induction l as [|a l IH]; intros [|c m] H; cbn [map] in H; inversion H; subst; constructor; auto. Qed.
Lemma known_features fs : forallb (fun f => match find_feat features f with Some _ => true | None => false end) fs = true -> forall n, In n (concat [fs]) -> find_feat features n <> None.
Proof.
  intros H n I. cbn [concat] in I. rewrite app_nil_r in I. rewrite forallb_forall in H. specialize (H _ I). destruct (find_feat features n); discriminate.
Qed.
Definition handlers (G : ecfg) : list str :=
  (if g_inline G then [$"InlineFunctionsPointerHandler"] else []) ++ if g_external G then [$"ExternalFunctionsPointerHandler"] else [].
Lemma bare_new : bare new_calc = new_calc.
Proof. reflexivity. Qed.
Lemma keys_bare K a ks : table_is (bare K) a ks -> table_is K a ks.
Proof. unfold table_is, bare. cbn [k_dicts]. auto. Qed.
Lemma one_call r st K st' K' : install_calls [r] st K = Ok (st', K') -> install_calc r st K = Ok (st', K').
Proof. cbn [install_calls]. destruct (install_calc r st K) as [[a b]| |]; cbn [obind fst snd]; auto; discriminate. Qed.
Lemma call_trace r st K st' K' : install_calc r st K = Ok (st', K') -> install 100 features r st = IOk st'.
Proof.
  unfold install_calc. destruct (install 100 features r st) as [s| | |]; try discriminate.
  destruct (run_features _ K) as [k| |]; cbn [obind]; intros H; inversion H; reflexivity.
Qed.
Lemma check_inv fs names ls funcs consts vs hs st K : install 100 features fs (mkIst [] []) = IOk st -> run_bare (trace st) new_calc = Ok K ->
  built_check fs names ls funcs consts vs hs = true -> parts_check K names ls funcs consts vs hs = true.
Proof.
  unfold built_check. generalize (install 100 features fs (mkIst [] [])). intros i -> R.
  revert R. generalize (run_bare (trace st) new_calc). intros r ->. auto.
Qed.
Lemma built_ok fs G more cs vs named names : (forall t, e_valid (g_env G) t <> None <-> In t vs) -> forallb (fun f => match find_feat features f with Some _ => true | None => false end) fs = true ->
  built_check fs names (map (map op_shape) (t_levels (g_ops G))) (map fst (g_funcs G) ++ more) cs vs (handlers G) = true ->
  map named names = map Some (pc_parsers (g_parse G)) -> built_by fs G more cs named.
Proof.
  intros V Kn C P. destruct (all_calls fs [] (known_features _ Kn)) as (st & K & E & _ & R & _); [intros []|].
  exists st, K. split; [exact E|].
  pose proof (features_bare _ _ _ R) as B. rewrite bare_new in B.
  pose proof (check_inv _ _ _ _ _ _ _ _ _ (call_trace _ _ _ _ _ (one_call _ _ _ _ _ E)) B C) as D. clear C. unfold parts_check in D.
  apply andb_true_iff in D as [D C6]. apply andb_true_iff in D as [D CV]. apply andb_true_iff in D as [D C5]. apply andb_true_iff in D as [D C4]. apply andb_true_iff in D as [D C3]. apply andb_true_iff in D as [C1 C2].
  unfold bare in C1, C2; cbn [k_parsers k_ops] in C1, C2.
  apply same_keys_ok, keys_bare in CV. destruct CV as (l & Vl & El).
  split; [|split; [|split; [|split; [|split; [|split]]]; [apply keys_bare, same_keys_ok; assumption..| |apply keys_bare, same_keys_ok; assumption]]].
  - destruct (list_eq_dec (list_eq_dec Ascii.ascii_dec) (map fst (k_parsers K)) names) as [En|]; [|discriminate]. rewrite <- P, <- En, map_map. reflexivity.
  - apply same_levels_ok in C2. apply Forall2_map_r in C2. exact C2.
  - exists l. split; [exact Vl|]. intros t. rewrite V. apply El.
Qed.
Definition with_names (ps : list str) : list str := filter (fun n => negb (mem_str n ps)) parser_map.
Definition std_const_names : list str := [$"e"; $"pi"; $"tau"].
Definition unit_const_names : list str := std_const_names ++ [$"G"; $"earthgravity"; $"speedoflight"; $"Planck"].
(** The validators *)
Definition std_valids : list str := [$"array"; $"number"; $"boolean"; $"string"; $"numericalrepresentation"; $"variable"; $"exception"].
Definition unit_valids : list str := [$"unit"; $"number with unit"; $"unitsystem"] ++ std_valids.
Definition date_valids : list str := $"date" :: unit_valids.
Lemma mem_iff t l : existsb (seq_eqb t) l = true <-> In t l.
Proof. exact (mem_str_iff t l). Qed.
Lemma if_name {A} (t n : str) (v : A) (o : option A) l : (o <> None <-> In t l) -> ((if seq_eqb t n then Some v else o) <> None <-> In t (n :: l)).
Proof.
  intros H. cbn [In]. destruct (seq_eqb t n) eqn:E.
  - apply seq_eqb_iff in E. split; [intros _; left; congruence|intros _; discriminate].
  - rewrite H. split; [tauto|]. intros [<-|I]; [rewrite seq_eqb_refl in E; discriminate|exact I].
Qed.
Lemma std_names L t : e_valid (g_env (std L)) t <> None <-> In t std_valids.
Proof.
  change (e_valid (g_env (std L)) t) with (std_valid L t). unfold std_valid, std_valids. apply if_name.
  rewrite <- mem_iff. destruct (existsb _ _); split; intros H; try discriminate; try reflexivity. contradiction.
Qed.
Lemma unit_names U t : e_valid (g_env (with_units U)) t <> None <-> In t unit_valids.
Proof.
  change (e_valid (g_env (with_units U)) t) with (unit_valid U t). unfold unit_valid, unit_valids. cbn [app]. do 3 apply if_name. exact (std_names (u_lib U) t).
Qed.
Lemma date_names U t : date_valid U t <> None <-> In t date_valids.
Proof. unfold date_valid, date_valids. apply if_name. exact (unit_names U t). Qed.
Lemma std_built L : built_by std_features (std L) [$"exp"; $"log"; $"stdev"] std_const_names (parser_for (l_fmt L) (map fst (std_funcs L)) (std_consts L) None).
Proof.
  apply built_ok with (vs := std_valids) (names := with_names [$"units"; $"unitsystems"]); [exact (std_names L)|vm_compute; reflexivity|vm_compute; reflexivity|reflexivity].
Qed.
Lemma regex_built L R : built_by regex_features (with_regex L R) [$"exp"; $"log"; $"stdev"] std_const_names (parser_for (l_fmt L) (map fst (regex_funcs L R)) (std_consts L) None).
Proof.
  apply built_ok with (vs := std_valids) (names := with_names [$"units"; $"unitsystems"]); [exact (std_names L)|vm_compute; reflexivity|vm_compute; reflexivity|reflexivity].
Qed.
Lemma unit_built U : built_by unit_features (with_units U) [$"exp"; $"log"; $"stdev"] unit_const_names (parser_for (l_fmt (u_lib U)) (map fst (unit_funcs U)) (unit_consts U) (Some U)).
Proof.
  apply built_ok with (vs := unit_valids) (names := with_names []); [exact (unit_names U)|vm_compute; reflexivity|vm_compute; reflexivity|reflexivity].
Qed.
Lemma date_built D : built_by date_features (with_dates D) [$"exp"; $"log"; $"stdev"; $"now"] unit_const_names
  (parser_for (l_fmt (u_lib (dl_units D))) (map fst (date_funcs D)) (unit_consts (dl_units D)) (Some (dl_units D))).
Proof.
  apply built_ok with (vs := date_valids) (names := with_names []); [exact (date_names (dl_units D))|vm_compute; reflexivity|vm_compute; reflexivity|reflexivity].
Qed.
Lemma float_built U X : built_by float_features (with_floats U X) [] unit_const_names
  (parser_for (l_fmt (u_lib U)) (map fst (float_funcs U X)) (unit_consts U) (Some U)).
Proof.
  apply built_ok with (vs := unit_valids) (names := with_names []); [exact (unit_names U)|vm_compute; reflexivity|vm_compute; reflexivity|reflexivity].
Qed.
