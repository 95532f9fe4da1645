(** One statement of an install method on a calculator. *)
From Coq Require Import ZArith QArith Ascii String List Bool Lia.
From Verif Require Import Base BaseProofs Bases Units UnitsProofs5 Install InstallSpec InstallProofs UnitReg UnitData InstallRun InstallRunSpec InstallRunProofs.
Import ListNotations.
Open Scope nat_scope.

Definition usteps (l : list effect) : list ustep := flat_map (fun e => match e with EUnit s => [s] | _ => [] end) l.
Definition pars (D : list (str * effect)) : list (str * str) := flat_map (fun x => match snd x with EParser n => [(n, fst x)] | _ => [] end) D.
Definition eops (l : list effect) : list (str * (bool * list str)) := flat_map (fun e => match e with EOp s r w => [(s, (r, w))] | _ => [] end) l.

Definition cinv (D : list (str * effect)) (K : calc) : Prop :=
  k_parsers K = in_map_order parser_map (pars D) /\ table_ok (eops (map snd D)) op_map (k_ops K) /\
  (forall a, assoc a (k_dicts K) <> None <-> In a tables_at_start \/ In (ENew a) (map snd D)) /\
  (forall a l k, assoc a (k_dicts K) = Some l -> (In k l <-> from_start a k \/ In (EPut a k) (map snd D))) /\
  match k_norm K with Some N => In EUnits (map snd D) /\ uinv (usteps (map snd D)) N /\ reg_steps (usteps (map snd D)) norm_init = Ok N | None => ~ In EUnits (map snd D) /\ usteps (map snd D) = [] end.

(** When a statement cannot fail, after the statements [l] *)
Definition can (l : list effect) (e : effect) : Prop :=
  match e with
  | EParser _ => True
  | EOp s r w => In s (concat op_map) /\ rtl_ok fst op_map (eops l ++ [(s, (r, w))])
  | ENew a => ~ In a tables_at_start /\ forall k, ~ In (EPut a k) l
  | EPut a k => In a tables_at_start \/ In (ENew a) l
  | EGet a k => (In a tables_at_start \/ In (ENew a) l) /\ (from_start a k \/ In (EPut a k) l)
  | EUnits => usteps l = []
  | EUnit s => In EUnits l /\ static_ok s = true /\ (forall p, In p (prefixes_of (usteps l)) -> In p all_prefixes) /\
      (forall d, In d (needs_dims s) -> In d (dims_of (usteps l))) /\ forall n, In n (needs_names s) -> named (usteps l) n
  | EMulti m => In EUnits l /\ multi_ok m = true /\ forall n, In n (map fst m) -> named (usteps l) n
  end.

Lemma disjoint_op_map : disjoint_levels op_map.
Proof.
  assert (E : (fix d (m : list (list str)) : bool := match m with [] => true | l :: r => forallb (fun s => negb (mem_str s (concat r))) l && d r end) op_map = true)
    by (vm_compute; reflexivity).
  revert E. generalize op_map. intros m. induction m as [|l m IH]; cbn [disjoint_levels]; intros E; [exact I|]. apply andb_true_iff in E as [A B].
  split; [|exact (IH B)]. intros s J K. rewrite forallb_forall in A. specialize (A s J). apply mem_str_iff in K. rewrite K in A. discriminate.
Qed.

Lemma cinv_start : cinv [] new_calc.
Proof.
  split; [vm_compute; reflexivity|]. split.
  { unfold table_ok. cbn [map eops flat_map]. replace (filter (used []) op_map) with (@nil (list str)); [constructor|]. vm_compute; reflexivity. }
  split; [|split; [|split; [intros []|reflexivity]]].
  - intros a. cbn [new_calc k_dicts map]. rewrite assoc_none_iff. cbn [map fst]. unfold tables_at_start. split.
    + intros H. left. destruct (in_dec (list_eq_dec ascii_dec) a [$"validators"; $"number_types"; $"feature_options"]); [assumption|contradiction].
    + intros [H|[]]. auto.
  - intros a l k. cbn [new_calc k_dicts map]. cbn [assoc]. unfold from_start. destruct (seq_eqb ($"validators") a) eqn:E1.
    + apply seq_eqb_iff in E1. subst a. intros [= <-]. cbn [In]. split; [intros [<-|[<-|[]]]; left; split; auto|intros [[_ [->| ->]]|[]]; auto].
    + assert (a <> $"validators") by (intros ->; rewrite seq_eqb_refl in E1; discriminate).
      destruct (seq_eqb ($"number_types") a); [intros [= <-]; split; [intros []|intros [[H' _]|[]]; contradiction]|].
      destruct (seq_eqb ($"feature_options") a); [intros [= <-]; split; [intros []|intros [[H' _]|[]]; contradiction]|discriminate].
Qed.

Lemma in_put k l x : In x (put k l) <-> x = k \/ In x l.
Proof.
  unfold put. destruct (mem_str k l) eqn:E; [apply mem_str_iff in E; split; [auto|intros [-> |]; auto]|].
  rewrite in_app_iff. cbn [In]. split; [intros [H|[H|[]]]; auto|intros [H|H]; auto].
Qed.

Lemma reg_steps_app a : forall b N, reg_steps (a ++ b) N = do N' <- reg_steps a N; reg_steps b N'.
Proof. induction a as [|s a IH]; intros b N; cbn [app reg_steps obind]; [reflexivity|]. destruct (reg_step N s); cbn [obind]; auto. Qed.

Lemma effect_runs f D K e : cinv D K -> can (map snd D) e -> exists K', run_effect f K e = Ok K' /\ cinv (D ++ [(f, e)]) K'.
Proof.
  intros (P & O & T & E & U) C.
  assert (Mp : map snd (D ++ [(f, e)]) = map snd D ++ [e]) by apply map_app.
  assert (Pa : pars (D ++ [(f, e)]) = pars D ++ match e with EParser n => [(n, f)] | _ => [] end).
  { unfold pars. rewrite flat_map_app. cbn [flat_map fst snd]. now rewrite app_nil_r. }
  assert (Oa : eops (map snd D ++ [e]) = eops (map snd D) ++ match e with EOp s r w => [(s, (r, w))] | _ => [] end).
  { unfold eops. rewrite flat_map_app. cbn [flat_map]. now rewrite app_nil_r. }
  assert (Ua : usteps (map snd D ++ [e]) = usteps (map snd D) ++ match e with EUnit s => [s] | _ => [] end).
  { unfold usteps. rewrite flat_map_app. cbn [flat_map]. now rewrite app_nil_r. }
  unfold cinv. rewrite Mp, Pa, Oa, Ua.
  (* what does not change *)
  assert (T' : (forall a, e <> ENew a) -> forall a, assoc a (k_dicts K) <> None <-> In a tables_at_start \/ In (ENew a) (map snd D ++ [e])).
  { intros H a. rewrite T, in_app_iff. cbn [In]. split; [tauto|]. intros [X|[X|[X|[]]]]; auto. destruct (H a X). }
  assert (E' : (forall a k, e <> EPut a k) -> forall a l k, assoc a (k_dicts K) = Some l -> (In k l <-> from_start a k \/ In (EPut a k) (map snd D ++ [e]))).
  { intros H a l k X. rewrite (E a l k X), in_app_iff. cbn [In]. split; [tauto|]. intros [Y|[Y|[Y|[]]]]; auto. destruct (H a k Y). }
  assert (U' : e <> EUnits -> (forall s, e <> EUnit s) -> match k_norm K with Some N => In EUnits (map snd D ++ [e]) /\ uinv (usteps (map snd D) ++ match e with EUnit s => [s] | _ => [] end) N /\
                 reg_steps (usteps (map snd D) ++ match e with EUnit s => [s] | _ => [] end) norm_init = Ok N
               | None => ~ In EUnits (map snd D ++ [e]) /\ usteps (map snd D) ++ match e with EUnit s => [s] | _ => [] end = [] end).
  { intros H1 H2. assert (match e with EUnit s => [s] | _ => [] end = []) as -> by (destruct e; try reflexivity; destruct (H2 s eq_refl)).
    rewrite app_nil_r. destruct (k_norm K); [destruct U as (V & U & W); split; [apply in_or_app; now left|auto]|]. destruct U as [U1 U2]. split; [|exact U2]. rewrite in_app_iff. intros [X|[X|[]]]; [auto|congruence]. }
  destruct e as [n|sym rtl words|a|a k|a k| |s|m]; cbn [run_effect can] in *; rewrite ?app_nil_r in *.
  - eexists. split; [reflexivity|]. cbn [k_parsers k_ops k_dicts k_norm]. rewrite P, add_parser_spec. split; [reflexivity|]. split; [exact O|].
    split; [apply T'; discriminate|]. split; [apply E'; discriminate|]. apply U'; discriminate.
  - destruct C as [C1 C2].
    destruct (add_ops_spec fst op_map disjoint_op_map [(sym, (rtl, words))] (eops (map snd D)) (k_ops K)) as (ops' & Eo & To).
    { intros s [<-|[]]. exact C1. } { exact C2. } { exact O. }
    cbn [add_ops] in Eo. destruct (add_op fst op_map (k_ops K) (sym, (rtl, words))) as [o| |]; cbn [obind] in Eo; try discriminate Eo.
    cbn [obind]. eexists. split; [reflexivity|]. cbn [k_parsers k_ops k_dicts k_norm]. assert (o = ops') by congruence. subst o.
    split; [exact P|]. split; [exact To|]. split; [apply T'; discriminate|]. split; [apply E'; discriminate|]. apply U'; discriminate.
  - destruct C as [C1 C2]. eexists. split; [reflexivity|]. cbn [k_parsers k_ops k_dicts k_norm].
    split; [exact P|]. split; [exact O|]. split; [|split; [|apply U'; discriminate]].
    + intros b. rewrite assoc_dset, in_app_iff. cbn [In]. destruct (seq_eqb a b) eqn:F.
      * apply seq_eqb_iff in F. subst b. split; [intros _; right; right; left; reflexivity|discriminate].
      * rewrite T. split; [tauto|]. intros [X|[X|[X|[]]]]; auto. injection X as ->. rewrite seq_eqb_refl in F. discriminate.
    + intros b l k. rewrite assoc_dset, in_app_iff. cbn [In]. destruct (seq_eqb a b) eqn:F.
      * apply seq_eqb_iff in F. subst b. intros [= <-]. split; [intros []|]. intros [[X _]|[X|[X|[]]]]; [|destruct (C2 k X)|discriminate X].
        destruct C1. subst a. now left.
      * intros X. rewrite (E b l k X). split; [tauto|]. intros [Y|[Y|[Y|[]]]]; auto. discriminate Y.
  - apply T in C. destruct (assoc a (k_dicts K)) as [l|] eqn:A; [|destruct (C eq_refl)]. clear C. eexists. split; [reflexivity|]. cbn [k_parsers k_ops k_dicts k_norm].
    split; [exact P|]. split; [exact O|]. split; [|split; [|apply U'; discriminate]].
    + intros b. rewrite assoc_dset, in_app_iff. cbn [In]. destruct (seq_eqb a b) eqn:F.
      * apply seq_eqb_iff in F. subst b. split; [|discriminate]. intros _. assert (X : assoc a (k_dicts K) <> None) by (rewrite A; discriminate). apply T in X. tauto.
      * rewrite T. split; [tauto|]. intros [X|[X|[X|[]]]]; auto. discriminate X.
    + intros b l' k'. rewrite assoc_dset, in_app_iff. cbn [In]. destruct (seq_eqb a b) eqn:F.
      * apply seq_eqb_iff in F. subst b. intros [= <-]. rewrite in_put, (E a l k' A). split; [intros [-> |[X|X]]; auto|].
        intros [X|[X|[X|[]]]]; auto. injection X as ->. now left.
      * intros X. rewrite (E b l' k' X). split; [tauto|]. intros [Y|[Y|[Y|[]]]]; auto. injection Y as -> ->. rewrite seq_eqb_refl in F. discriminate.
  - destruct C as [C1 C2]. apply T in C1. destruct (assoc a (k_dicts K)) as [l|] eqn:A; [|destruct (C1 eq_refl)]. apply (E a l k A) in C2.
    rewrite (proj2 (mem_str_iff k l) C2). eexists. split; [reflexivity|].
    split; [exact P|]. split; [exact O|]. split; [apply T'; discriminate|]. split; [apply E'; discriminate|]. apply U'; discriminate.
  - eexists. split; [reflexivity|]. cbn [k_parsers k_ops k_dicts k_norm]. split; [exact P|]. split; [exact O|]. split; [apply T'; discriminate|].
    split; [apply E'; discriminate|]. rewrite C. split; [apply in_or_app; right; now left|]. split; [apply uinv_start|reflexivity].
  - destruct C as (C1 & C2 & C3 & C4 & C5). destruct (k_norm K) as [N|]; [|destruct U as [U _]; contradiction]. destruct U as (_ & U & W).
    destruct (ustep_runs _ N s U C2 C3 C4 C5) as (N' & R & V). rewrite R. cbn [obind]. eexists. split; [reflexivity|]. cbn [k_parsers k_ops k_dicts k_norm].
    split; [exact P|]. split; [exact O|]. split; [apply T'; discriminate|]. split; [apply E'; discriminate|]. split; [apply in_or_app; now left|]. split; [exact V|]. rewrite reg_steps_app, W. cbn [obind reg_steps]. rewrite R. reflexivity.
  - destruct C as (C1 & C2 & C3). destruct (k_norm K) as [N|] eqn:Nk; [|destruct U as [U _]; contradiction]. destruct U as (_ & U & W).
    destruct (multi_made _ N m U C2 C3) as (x & R). rewrite R. cbn [obind]. eexists. split; [reflexivity|]. rewrite Nk.
    split; [exact P|]. split; [exact O|]. split; [apply T'; discriminate|]. split; [apply E'; discriminate|]. split; [apply in_or_app; now left|]. auto.
Qed.

Lemma effects_run f : forall l D K, cinv D K -> (forall l1 e l2, l = l1 ++ e :: l2 -> can (map snd D ++ l1) e) ->
  exists K', run_effects f l K = Ok K' /\ cinv (D ++ map (pair f) l) K'.
Proof.
  induction l as [|e l IH]; intros D K I C; cbn [run_effects map]; [rewrite app_nil_r; eauto|].
  destruct (effect_runs f D K e I) as (K1 & R & I1); [pose proof (C [] e l eq_refl) as X; now rewrite app_nil_r in X|].
  rewrite R. cbn [obind]. destruct (IH (D ++ [(f, e)]) K1 I1) as (K2 & R2 & I2).
  { intros l1 e' l2 ->. rewrite map_app. cbn [map snd]. rewrite <- app_assoc. apply (C (e :: l1) e' l2). reflexivity. }
  exists K2. split; [exact R2|]. rewrite <- app_assoc in I2. exact I2.
Qed.
Definition alle (tr : list str) : list (str * effect) := flat_map (fun f => map (pair f) (effects_of f)) tr.
Lemma alle_snd tr : map snd (alle tr) = flat_map effects_of tr.
Proof.
  induction tr as [|f tr IH]; [reflexivity|]. unfold alle. cbn [flat_map]. rewrite map_app. fold (alle tr). rewrite IH, map_map. cbn [snd]. now rewrite map_id.
Qed.
Lemma features_run : forall tr p K, cinv (alle p) K ->
  (forall q f s l1 e l2, tr = q ++ f :: s -> effects_of f = l1 ++ e :: l2 -> can (flat_map effects_of (p ++ q) ++ l1) e) ->
  exists K', run_features tr K = Ok K' /\ cinv (alle (p ++ tr)) K'.
Proof.
  induction tr as [|f tr IH]; intros p K I C; cbn [run_features]; [rewrite app_nil_r; eauto|].
  destruct (effects_run f (effects_of f) (alle p) K I) as (K1 & R & I1).
  { intros l1 e l2 E. rewrite alle_snd. pose proof (C [] f tr l1 e l2 eq_refl E) as X. now rewrite app_nil_r in X. }
  rewrite R. cbn [obind]. destruct (IH (p ++ [f]) K1) as (K2 & R2 & I2).
  { unfold alle. rewrite flat_map_app. cbn [flat_map]. rewrite app_nil_r. exact I1. }
  { intros q g s l1 e l2 -> E. rewrite <- app_assoc. apply (C (f :: q) g s l1 e l2 eq_refl E). }
  exists K2. split; [exact R2|]. rewrite <- app_assoc in I2. exact I2.
Qed.
