(** In an order in which everything needed comes first, every statement of every install method can be done. *)
From Coq Require Import ZArith QArith Ascii String List Bool Lia.
From Verif Require Import Base BaseProofs Bases Units UnitsProofs5 Install InstallSpec InstallProofs UnitReg UnitData InstallRun InstallRunSpec InstallRunProofs InstallRunProofs2.
Import ListNotations.
Open Scope nat_scope.

(** What a feature needs, directly or not *)
Definition direct (f : str) : list str := match find_feat features f with Some ft => fdeps ft ++ match fsubs ft with Some l => l | None => [] end | None => [] end.
Fixpoint closure (n : nat) (f : str) : list str :=
  match n with O => [] | S n => flat_map (fun d => d :: closure n d) (direct f) end.
Definition unitconstants : str := $"units.unitconstants".
Definition mass : str := $"unitdefinitions.mass".
Definition kilo : str := $"units.basicunitprefixes".
(** What is before a feature; [b]: in a calculator with [units.unitconstants] *)
Definition before (b : bool) (f : str) : list str := closure 2 f ++ (if b && seq_eqb f mass then [kilo] else []).

Definition in_good_order (tr : list str) : Prop :=
  NoDup tr /\ (forall p x s, tr = p ++ x :: s -> find_feat features x <> None /\ forall y, needs features x y -> In y p) /\
  (forall p s, tr = p ++ mass :: s -> In unitconstants tr -> In kilo p).

Lemma direct_needs f d : In d (direct f) -> needs features f d.
Proof.
  unfold direct, needs. destruct (find_feat features f) as [ft|]; [|intros []]. intros I. apply in_app_or in I. exists ft. split; [reflexivity|].
  destruct I as [I|I]; [now left|]. right. destruct (fsubs ft) as [l|]; [eauto|destruct I].
Qed.
Lemma closure_before tr : in_good_order tr -> forall n p x s, tr = p ++ x :: s -> incl (closure n x) p.
Proof.
  intros (ND & H & _). induction n as [|n IH]; intros p x s E y I; cbn [closure] in I; [destruct I|].
  apply in_flat_map in I as (d & Id & I). destruct (H p x s E) as [_ H']. pose proof (H' d (direct_needs _ _ Id)) as Ip.
  destruct I as [<-|I]; [exact Ip|]. apply in_split in Ip as (p1 & p2 & ->). rewrite <- app_assoc in E. cbn [app] in E.
  apply in_or_app. left. exact (IH p1 d _ E y I).
Qed.
Lemma before_before tr b p x s : in_good_order tr -> (b = true -> In unitconstants tr) -> tr = p ++ x :: s -> incl (before b x) p.
Proof.
  intros G Hb E y I. apply in_app_or in I as [I|I]; [exact (closure_before tr G 2 p x s E y I)|].
  destruct (b && seq_eqb x mass) eqn:B; [|destruct I]. apply andb_true_iff in B as [B M]. apply seq_eqb_iff in M. subst x. destruct I as [<-|[]].
  destruct G as (_ & _ & G). apply (G p s E (Hb B)).
Qed.

(** * The checks, feature by feature; [B]: what is before the feature, [L]: its statements *)
Definition all_names : list str := map fid features.
Definition puts (a : str) (e : effect) : bool := match e with EPut b _ => seq_eqb a b | _ => false end.
Definition has_new (a : str) (l : list effect) : bool := existsb (fun e => match e with ENew b => seq_eqb a b | _ => false end) l.
Definition has_put (a k : str) (l : list effect) : bool := existsb (fun e => match e with EPut b j => if seq_eqb k j then seq_eqb a b else false | _ => false end) l.
Definition has_units (l : list effect) : bool := existsb (fun e => match e with EUnits => true | _ => false end) l.
Definition is_unit (e : effect) : bool := match e with EUnit _ => true | _ => false end.
Definition steps (l : list str) : list ustep := usteps (flat_map effects_of l).
Definition gives (ps : list prefix) (n : str) (s : ustep) : bool := mem_str (lower n) (map lower (registers ps s)).
Definition gives_name (b : bool) (B : list str) (L l1 : list effect) (n : str) : bool :=
  if existsb (gives (prefixes_of (usteps L)) n) (usteps l1) then true
  else existsb (fun g => existsb (gives (prefixes_of (steps (before b g))) n) (usteps (effects_of g))) B.
Definition table_there (L l1 : list effect) (a : str) : bool :=
  if mem_str a tables_at_start then true else if has_new a L then true else has_new a l1.
Definition entry_there (L l1 : list effect) (a k : str) : bool :=
  if has_put a k l1 then true else has_put a k L.
Definition units_there (L l1 : list effect) : bool := if has_units L then true else has_units l1.
(** Every other feature with a statement of the kind [q] needs [f] *)
Definition only_after (f : str) (q : effect -> bool) : bool :=
  forallb (fun g => if existsb q (effects_of g) then if seq_eqb g f then true else mem_str f (before false g) else true) all_names.
Definition all_ops : list (str * (bool * list str)) := eops (flat_map effects_of all_names).
Definition same_way (lv : list str) : bool :=
  let l := filter (fun x => mem_str (fst x) lv) all_ops in forallb (fun x => forallb (fun y => Bool.eqb (fst (snd x)) (fst (snd y))) l) l.
Definition rtl_check : bool := forallb same_way op_map.

Definition check (f : str) (B : list str) (L l1 : list effect) (e : effect) : bool :=
  match e with
  | EParser _ => true
  | EOp s r w => mem_str s (concat op_map)
  | ENew a => negb (mem_str a tables_at_start) && negb (existsb (puts a) l1) && only_after f (puts a)
  | EPut a k => table_there L l1 a
  | EGet a k => table_there L l1 a && entry_there L l1 a k
  | EUnits => match usteps l1 with [] => true | _ => false end && only_after f is_unit
  | EUnit s => units_there L l1 && static_ok s && forallb (fun d => mem_str d (dims_of (usteps (L ++ l1)))) (needs_dims s) &&
      forallb (gives_name (seq_eqb f unitconstants) B L l1) (needs_names s)
  | EMulti m => units_there L l1 && multi_ok m && forallb (gives_name (seq_eqb f unitconstants) B L l1) (map fst m)
  end.
Fixpoint check_all (f : str) (B : list str) (L l1 l : list effect) : bool :=
  match l with [] => true | e :: r => check f B L l1 e && check_all f B L (l1 ++ [e]) r end.
Lemma check_all_at f B L : forall l l0 l1 e l2, check_all f B L l0 l = true -> l = l1 ++ e :: l2 -> check f B L (l0 ++ l1) e = true.
Proof.
  induction l as [|x l IH]; intros l0 l1 e l2 C E; [destruct l1; discriminate|]. cbn [check_all] in C. apply andb_true_iff in C as [C1 C2].
  destruct l1 as [|y l1]; cbn [app] in E; injection E as -> E; [now rewrite app_nil_r|]. replace (l0 ++ y :: l1) with ((l0 ++ [y]) ++ l1) by (now rewrite <- app_assoc). eapply IH; eauto.
Qed.
Lemma features_checked : forallb (fun f => check_all f (before (seq_eqb f unitconstants) f) (flat_map effects_of (before (seq_eqb f unitconstants) f)) [] (effects_of f)) all_names = true.
Proof. vm_cast_no_check (@eq_refl bool true). Qed.
Lemma rtl_checked : rtl_check = true.
Proof. vm_cast_no_check (@eq_refl bool true). Qed.
Lemma prefixes_checked : prefixes_of (steps all_names) = all_prefixes.
Proof. vm_cast_no_check (@eq_refl (list prefix) all_prefixes). Qed.

(** * From the checks to the conditions *)
Lemma known_name f : find_feat features f <> None -> In f all_names.
Proof.
  unfold all_names. generalize features. intros l. induction l as [|x l IH]; cbn [find_feat map]; [congruence|].
  destruct (seq_eqb (fid x) f) eqn:E; [apply seq_eqb_iff in E; intros _; now left|intros H; right; auto].
Qed.
Lemma has_new_in a l : has_new a l = true -> In (ENew a) l.
Proof. intros H. apply existsb_exists in H as (e & I & H). destruct e; try discriminate H. apply seq_eqb_iff in H. now subst. Qed.
Lemma has_put_in a k l : has_put a k l = true -> In (EPut a k) l.
Proof.
  intros H. apply existsb_exists in H as (e & I & H). destruct e; try discriminate H. destruct (seq_eqb k k0) eqn:E; [|discriminate H].
  apply seq_eqb_iff in H, E. now subst.
Qed.
Lemma has_units_in l : has_units l = true -> In EUnits l.
Proof. intros H. apply existsb_exists in H as (e & I & H). destruct e; try discriminate H. exact I. Qed.
Lemma effects_incl B p : incl B p -> incl (flat_map effects_of B) (flat_map effects_of p).
Proof. intros H e I. apply in_flat_map in I as (g & Ig & I). apply in_flat_map. eauto. Qed.
Lemma usteps_app a b : usteps (a ++ b) = usteps a ++ usteps b.
Proof. apply flat_map_app. Qed.
Lemma usteps_in s l : In s (usteps l) <-> In (EUnit s) l.
Proof.
  unfold usteps. rewrite in_flat_map. split.
  - intros (e & I & H). destruct e; try destruct H. subst. exact I. contradiction.
  - intros I. exists (EUnit s). split; [exact I|now left].
Qed.
Lemma usteps_incl l m : incl l m -> incl (usteps l) (usteps m).
Proof. intros H s I. apply usteps_in, H, usteps_in, I. Qed.
Lemma prefixes_incl l m : incl l m -> incl (prefixes_of l) (prefixes_of m).
Proof. intros H p I. apply in_flat_map in I as (s & Is & I). apply in_flat_map. eauto. Qed.
Lemma dims_incl l m : incl l m -> incl (dims_of l) (dims_of m).
Proof. intros H p I. apply in_flat_map in I as (s & Is & I). apply in_flat_map. eauto. Qed.
Lemma registers_incl ps qs s : incl ps qs -> incl (registers ps s) (registers qs s).
Proof.
  intros H n I. destruct s; cbn [registers] in *; auto. apply in_flat_map in I as (p & Ip & I). apply in_flat_map. exists p. auto.
Qed.

(** A step that gives the name, with the prefixes before it *)
Lemma gives_named us1 s us2 ps n : gives ps n s = true -> incl ps (prefixes_of us1) -> named (us1 ++ s :: us2) n.
Proof.
  unfold gives. intros G I. apply mem_str_iff in G. apply in_map_iff in G as (m & L & M). exists us1, s, us2, m.
  split; [reflexivity|]. split; [apply (registers_incl ps); assumption|exact L].
Qed.
Lemma named_more us us' n : named us n -> named (us ++ us') n.
Proof. intros (us1 & s & us2 & m & -> & I & L). exists us1, s, (us2 ++ us'), m. split; [now rewrite <- app_assoc|auto]. Qed.

Lemma name_given tr b p f s l1 n : in_good_order tr -> (b = true -> In unitconstants tr) -> tr = p ++ f :: s ->
  gives_name b (before b f) (flat_map effects_of (before b f)) l1 n = true -> named (usteps (flat_map effects_of p ++ l1)) n.
Proof.
  intros G Hb E H. pose proof (before_before tr b p f s G Hb E) as Bp. rewrite usteps_app. unfold gives_name in H.
  destruct (existsb (gives (prefixes_of (usteps (flat_map effects_of (before b f)))) n) (usteps l1)) eqn:X.
  - clear H. apply existsb_exists in X as (st & I & X). apply in_split in I as (x & y & ->). rewrite app_assoc.
    eapply gives_named; [exact X|]. rewrite prefixes_app. intros q Hq. apply in_or_app. left. revert q Hq. apply prefixes_incl, usteps_incl, effects_incl, Bp.
  - clear X. apply named_more. apply existsb_exists in H as (g & Ig & H). apply existsb_exists in H as (st & I & H).
    pose proof (Bp g Ig) as Ip. apply in_split in Ip as (p1 & p2 & ->). rewrite <- app_assoc in E. cbn [app] in E.
    pose proof (before_before tr b p1 g _ G Hb E) as Bg. rewrite flat_map_app, usteps_app. cbn [flat_map]. rewrite usteps_app.
    apply in_split in I as (x & y & ->). rewrite <- app_assoc. cbn [app]. rewrite app_assoc. eapply gives_named; [exact H|].
    rewrite prefixes_app. intros q Hq. apply in_or_app. left. revert q Hq. apply prefixes_incl, usteps_incl, effects_incl, Bg.
Qed.

Lemma not_yet tr p f s q : in_good_order tr -> tr = p ++ f :: s -> only_after f q = true -> forall e, In e (flat_map effects_of p) -> q e = false.
Proof.
  intros G E O e I. pose proof G as (ND & K & _). destruct (q e) eqn:Q; [|reflexivity]. exfalso. apply in_flat_map in I as (g & Ig & I).
  assert (Np : ~ In f p).
  { intros J. rewrite E in ND. apply nodup_parts in ND as (_ & _ & ND). apply (ND f J). now left. }
  apply in_split in Ig as (p1 & p2 & Ep). assert (E1 : tr = p1 ++ g :: (p2 ++ f :: s)) by (rewrite E, Ep, <- app_assoc; reflexivity).
  unfold only_after in O. rewrite forallb_forall in O. specialize (O g (known_name g (proj1 (K _ _ _ E1)))).
  rewrite (proj2 (existsb_exists q (effects_of g)) (ex_intro _ e (conj I Q))) in O. destruct (seq_eqb g f) eqn:F.
  - apply seq_eqb_iff in F. subst g. apply Np. rewrite Ep. apply in_or_app. right. now left.
  - apply mem_str_iff in O. apply Np. rewrite Ep. apply in_or_app. left. eapply (before_before tr false); eauto. discriminate.
Qed.

Lemma all_can tr p f s l1 e l2 : in_good_order tr -> tr = p ++ f :: s -> effects_of f = l1 ++ e :: l2 -> can (flat_map effects_of p ++ l1) e.
Proof.
  intros G E Ef. set (b := seq_eqb f unitconstants). pose proof G as (ND & K & _). pose proof (known_name f (proj1 (K _ _ _ E))) as Nf.
  assert (Hb : b = true -> In unitconstants tr).
  { intros H. apply seq_eqb_iff in H. rewrite E, <- H. apply in_or_app. right. now left. }
  pose proof features_checked as C. rewrite forallb_forall in C. specialize (C f Nf). cbv beta in C. fold b in C.
  pose proof (check_all_at f _ _ _ _ _ _ _ C Ef) as H. cbn [app] in H. clear C.
  pose proof (before_before tr b p f s G Hb E) as Bp. pose proof (effects_incl _ _ Bp) as Lp.
  set (B := before b f) in *. set (L := flat_map effects_of B) in *. set (P := flat_map effects_of p) in *.
  assert (Tt : forall a, table_there L l1 a = true -> In a tables_at_start \/ In (ENew a) (P ++ l1)).
  { intros a X. unfold table_there in X. destruct (mem_str a tables_at_start) eqn:M; [left; now apply mem_str_iff|]. right. apply in_or_app.
    destruct (has_new a L) eqn:N; [left; apply Lp, has_new_in, N|right; apply has_new_in, X]. }
  assert (Ut : units_there L l1 = true -> In EUnits (P ++ l1)).
  { intros X. unfold units_there in X. apply in_or_app. destruct (has_units L) eqn:N; [left; apply Lp, has_units_in, N|right; apply has_units_in, X]. }
  destruct e as [n|sym rtl words|a|a k|a k| |st|m]; cbn [check can] in *.
  - exact I.
  - split; [now apply mem_str_iff|]. pose proof rtl_checked as R. unfold rtl_check in R. rewrite forallb_forall in R.
    assert (In_ops : forall x, In x (eops (P ++ l1) ++ [(sym, (rtl, words))]) -> In x all_ops).
    { intros x X. assert (A : In x (eops (flat_map effects_of (p ++ [f])))).
      { rewrite flat_map_app. cbn [flat_map]. rewrite app_nil_r, Ef. fold P. unfold eops in *. rewrite !flat_map_app in *. cbn [flat_map].
        rewrite !in_app_iff in *. tauto. }
      unfold eops in A. apply in_flat_map in A as (e & Ie & A). apply in_flat_map in Ie as (g & Ig & Ie).
      unfold all_ops, eops. apply in_flat_map. exists e. split; [|exact A]. apply in_flat_map. exists g. split; [|exact Ie].
      apply in_app_or in Ig as [Ig|[<-|[]]]; [|exact Nf]. apply in_split in Ig as (p1 & p2 & Ep). apply known_name.
      eapply (K p1 g). rewrite E, Ep, <- app_assoc. reflexivity. }
    intros lv s1 o1 s2 o2 Il I1 I2 J1 J2. specialize (R lv Il). unfold same_way in R. rewrite forallb_forall in R.
    specialize (R (s1, o1)). rewrite forallb_forall in R. apply eqb_prop. apply (R) with (x := (s2, o2)); apply filter_In; (split; [auto|now apply mem_str_iff]).
  - apply andb_true_iff in H as [H H3]. apply andb_true_iff in H as [H1 H2]. split.
    + intros X. apply mem_str_iff in X. rewrite X in H1. discriminate.
    + intros k X. assert (Q : puts a (EPut a k) = true) by apply seq_eqb_refl. apply in_app_or in X as [X|X].
      * rewrite (not_yet tr p f s _ G E H3 _ X) in Q. discriminate.
      * rewrite (proj2 (existsb_exists (puts a) l1) (ex_intro _ _ (conj X Q))) in H2. discriminate.
  - apply Tt, H.
  - apply andb_true_iff in H as [H1 H2]. split; [apply Tt, H1|]. right. apply in_or_app. unfold entry_there in H2.
    destruct (has_put a k l1) eqn:N; [right; apply has_put_in, N|left; apply Lp, has_put_in, H2].
  - apply andb_true_iff in H as [H1 H2]. rewrite usteps_app. destruct (usteps l1); [|discriminate H1]. rewrite app_nil_r.
    destruct (usteps P) as [|st us] eqn:X; [reflexivity|]. assert (J : In (EUnit st) P) by (apply usteps_in; rewrite X; now left).
    pose proof (not_yet tr p f s _ G E H2 _ J) as Q. discriminate Q.
  - apply andb_true_iff in H as [H H4]. apply andb_true_iff in H as [H H3]. apply andb_true_iff in H as [H1 H2].
    split; [apply Ut, H1|]. split; [exact H2|]. split; [|split].
    + intros q Hq. rewrite <- prefixes_checked. revert q Hq. apply prefixes_incl, usteps_incl. intros e X. apply in_app_or in X as [X|X].
      * apply in_flat_map in X as (g & Ig & X). apply in_flat_map. exists g. split; [|exact X]. apply in_split in Ig as (p1 & p2 & Ep). apply known_name.
        eapply (K p1 g). rewrite E, Ep, <- app_assoc. reflexivity.
      * apply in_flat_map. exists f. split; [exact Nf|]. rewrite Ef. apply in_or_app. now left.
    + intros d Hd. rewrite forallb_forall in H3. specialize (H3 d Hd). apply mem_str_iff in H3. revert d H3 Hd. clear - Lp.
      intros d H _. revert d H. apply dims_incl, usteps_incl. intros e X. apply in_app_or in X as [X|X]; apply in_or_app; [left; apply Lp, X|now right].
    + intros n Hn. rewrite forallb_forall in H4. exact (name_given tr b p f s l1 n G Hb E (H4 n Hn)).
  - apply andb_true_iff in H as [H H3]. apply andb_true_iff in H as [H1 H2]. split; [apply Ut, H1|]. split; [exact H2|].
    intros n Hn. rewrite forallb_forall in H3. exact (name_given tr b p f s l1 n G Hb E (H3 n Hn)).
Qed.

(** * All features *)
Lemma tables_checked : forallb (fun f => forallb (fun e => match e with EUnit _ => false | EUnits => seq_eqb f ($"units.units") | _ => true end)
    match assoc f feature_effects with Some l => l | None => [] end) all_names = true.
Proof. vm_cast_no_check (@eq_refl bool true). Qed.
Lemma usteps_map l : usteps (map EUnit l) = l.
Proof. induction l as [|s l IH]; [reflexivity|]. cbn [map]. unfold usteps in *. cbn [flat_map app]. now rewrite IH. Qed.
Lemma usteps_of f : In f all_names -> usteps (effects_of f) = steps_of f /\ (In EUnits (effects_of f) -> f = $"units.units").
Proof.
  intros I. pose proof tables_checked as C. rewrite forallb_forall in C. specialize (C f I). cbv beta in C. unfold effects_of. rewrite usteps_app, usteps_map.
  rewrite forallb_forall in C. split.
  - assert (E : forall l, (forall e, In e l -> (match e with EUnit _ => false | EUnits => seq_eqb f ($"units.units") | _ => true end) = true) -> usteps l = []).
    { clear. induction l as [|e l IH]; intros C; [reflexivity|]. unfold usteps in *. cbn [flat_map]. rewrite IH by (intros x H; apply C; now right).
      specialize (C e (or_introl eq_refl)). destruct e; try reflexivity. discriminate C. }
    rewrite (E _ C). reflexivity.
  - intros J. apply in_app_or in J as [J|J]; [specialize (C _ J); cbn in C; now apply seq_eqb_iff|]. apply in_map_iff in J as (s & X & _). discriminate X.
Qed.

Lemma good_installs tr : in_good_order tr -> exists K, run_features tr new_calc = Ok K /\ made_of tr K /\ units_of tr K /\
  forall N n, k_norm K = Some N -> named (flat_map steps_of tr) n -> assoc (lower n) (rnames (n_reg N)) <> None.
Proof.
  intros G. destruct (features_run tr [] new_calc cinv_start) as (K & R & I).
  { intros q f s l1 e l2 E Ef. cbn [app]. exact (all_can tr q f s l1 e l2 G E Ef). }
  exists K. split; [exact R|]. cbn [app] in I. destruct I as (P & O & T & E & U). rewrite alle_snd in O, T, E, U.
  assert (Pq : pars (alle tr) = parsers_of tr).
  { unfold pars, alle, parsers_of. clear. induction tr as [|f tr IH]; [reflexivity|]. cbn [flat_map]. rewrite flat_map_app, IH.
    rewrite (app_inv_tail_iff _ _ _). induction (effects_of f) as [|e l IHl]; [reflexivity|]. cbn [map flat_map fst snd]. now rewrite IHl. }
  assert (Oq : eops (flat_map effects_of tr) = ops_of tr).
  { unfold eops, ops_of. clear. induction tr as [|f tr IH]; [reflexivity|]. cbn [flat_map]. now rewrite flat_map_app, IH. }
  assert (Kn : forall f, In f tr -> In f all_names).
  { intros f If. apply in_split in If as (p & s & Ep). apply known_name. destruct G as (_ & H & _). exact (proj1 (H p f s Ep)). }
  assert (Uq : usteps (flat_map effects_of tr) = flat_map steps_of tr).
  { clear - Kn. induction tr as [|f tr IH]; [reflexivity|]. cbn [flat_map]. rewrite usteps_app, IH by (intros x H; apply Kn; now right).
    now rewrite (proj1 (usteps_of f (Kn f (or_introl eq_refl)))). }
  rewrite Uq in U. split; [|split].
  - split; [now rewrite <- Pq|]. split; [now rewrite <- Oq|]. split.
    + intros a. rewrite T, in_flat_map. reflexivity.
    + intros a l k A. rewrite (E a l k A), in_flat_map. reflexivity.
  - unfold units_of. destruct (k_norm K) as [N|].
    + destruct U as (U1 & _ & U3). split; [|exact U3]. apply in_flat_map in U1 as (f & If & Ie). apply (proj2 (usteps_of f (Kn f If))) in Ie. now subst f.
    + destruct U as [U _]. intros I. apply U, in_flat_map. exists ($"units.units"). split; [exact I|]. apply has_units_in. vm_compute. reflexivity.
  - intros N n EN. rewrite EN in U. destruct U as (_ & (_ & _ & _ & Nm & _) & _). apply Nm.
Qed.
