(** That the facts hold of a table of units: a decision procedure. *)
From Coq Require Import ZArith QArith Qpower Ascii String List Bool Lia Permutation.
From Verif Require Import Base BaseProofs Dec Num NumSpec NumProofs Bases Formats Units UnitsSpec UnitsProofs UnitsProofs2 UnitReg UnitData Install Syntax Pos Call Loop Parse Exec Std UnitCalc UnitCalcSpec UnitCalcProofs UnitCalcProofs3 UnitRun UnitTable DefinitionSpec.
Import ListNotations.
Open Scope Z_scope.

Definition look (N : normaliser) (n : string) : option unit := match get_unit (n_prefs N) (n_reg N) ($n) with Ok (Some (UDef u)) => Some u | _ => None end.
Fixpoint looks (N : normaliser) (l : list (string * Z)) : option upl :=
  match l with [] => Some [] | (n, k) :: r => match look N n, looks N r with Some u, Some v => Some ((u, k) :: v) | _, _ => None end end.
Fixpoint no_vanish_b (cur : Z) (ps : list Z) : bool := match ps with [] => true | q :: r => negb (cur =? 0) && no_vanish_b (cur + q) r end.
Definition steady_b (l : dlist) : bool := forallb (fun k => match powers_of seq_eqb k l with [] => true | q :: r => no_vanish_b q r end) (map fst l).
Definition same_b (a b : dlist) : bool := forallb (fun d => psum seq_eqb d a =? psum seq_eqb d b) (map fst a ++ map fst b).
Definition strs_same (a b : list str) : bool := if list_eq_dec (list_eq_dec ascii_dec) a b then true else false.
Definition unit_same (a b : unit) : bool :=
  if uid a =? uid b then strs_same (unames a) (unames b) && strs_same (usyms a) (usyms b) && seq_eqb (udim a) (udim b) && (Qnum (uscale a) =? Qnum (uscale b)) &&
  (Qden (uscale a) =? Qden (uscale b))%positive && match ukind_of a, ukind_of b with UScale, UScale | UCelsius, UCelsius | UFahrenheit, UFahrenheit => true | _, _ => false end &&
  strs_same (usystems a) (usystems b) else false.
Definition there (us : list unit) (u : unit) : bool := existsb (unit_same u) us.
Definition fact_b (N : normaliser) (us : list unit) (f : fact) : bool :=
  let '(n, k, l) := f in
  match look N n, looks N l with
  | Some u, Some v =>
    let a := expand_dims (n_rels N) [(u, 1)] in let b := expand_dims (n_rels N) v in
    there us u && forallb (fun e => there us (fst e)) v && Qeq_bool (factor [(u, 1)]) (k * factor v) && steady_b a && steady_b b && same_b a b
  | _, _ => false
  end.

Lemma look_ok N n u : look N n = Some u <-> stands_for N n u.
Proof. unfold look, stands_for. destruct (get_unit _ _ _) as [[[x|x]|]| |]; split; intros H; inversion H; reflexivity. Qed.
Lemma looks_ok N l v : stand_for N l v -> looks N l = Some v.
Proof.
  induction 1 as [|[n k] [u j] l v [H1 H2] _ IH]; [reflexivity|]. cbn [looks fst snd] in *. apply look_ok in H1. rewrite H1, IH, H2. reflexivity.
Qed.
Lemma looks_stand N l v : looks N l = Some v -> stand_for N l v.
Proof.
  revert v. induction l as [|[n k] l IH]; intros v H; cbn [looks] in H; [injection H as <-; constructor|].
  destruct (look N n) as [u|] eqn:L; [|discriminate]. destruct (looks N l) as [w|]; [|discriminate]. injection H as <-.
  constructor; [split; [now apply look_ok|reflexivity]|now apply IH].
Qed.
Lemma no_vanish_b_ok ps : forall c, no_vanish_b c ps = true -> no_vanish c ps.
Proof.
  induction ps as [|q r IH]; intros c; cbn [no_vanish_b no_vanish]; [auto|]. rewrite andb_true_iff, negb_true_iff, Z.eqb_neq. intros [H1 H2]. split; [exact H1|now apply IH].
Qed.
Lemma psum_absent d (l : dlist) : ~ In d (map fst l) -> psum seq_eqb d l = 0.
Proof.
  induction l as [|[k q] l IH]; cbn [map fst In psum]; [reflexivity|]. intros H. destruct (seq_eqb k d) eqn:E; [apply seq_eqb_iff in E; tauto|]. rewrite IH by tauto. reflexivity.
Qed.
Lemma powers_absent d (l : dlist) : ~ In d (map fst l) -> powers_of seq_eqb d l = [].
Proof.
  unfold powers_of. induction l as [|[k q] l IH]; cbn [map fst In filter]; [reflexivity|]. intros H. destruct (seq_eqb k d) eqn:E; [apply seq_eqb_iff in E; tauto|]. apply IH. tauto.
Qed.
Lemma in_or_not (d : str) (l : list str) : In d l \/ ~ In d l.
Proof. destruct (in_dec (list_eq_dec ascii_dec) d l); auto. Qed.
Lemma steady_b_ok l : steady_b l = true -> no_vanishing seq_eqb l.
Proof.
  intros H k. unfold steady_b in H. rewrite forallb_forall in H. destruct (in_or_not k (map fst l)) as [I|I].
  - apply H in I. destruct (powers_of seq_eqb k l) as [|q r]; [exact Logic.I|now apply no_vanish_b_ok].
  - rewrite (powers_absent k l I). exact Logic.I.
Qed.
Lemma same_b_ok a b : same_b a b = true -> forall d, psum seq_eqb d a = psum seq_eqb d b.
Proof.
  intros H d. unfold same_b in H. rewrite forallb_forall in H. destruct (in_or_not d (map fst a ++ map fst b)) as [I|I].
  - apply Z.eqb_eq, H, I.
  - rewrite in_app_iff in I. rewrite !psum_absent by tauto. reflexivity.
Qed.
Lemma strs_same_ok a b : strs_same a b = true -> a = b.
Proof. unfold strs_same. destruct (list_eq_dec (list_eq_dec ascii_dec) a b); [auto|discriminate]. Qed.
Lemma unit_same_ok a b : unit_same a b = true -> a = b.
Proof.
  unfold unit_same. destruct (uid a =? uid b) eqn:E; [|discriminate]. rewrite !andb_true_iff. intros [[[[[[H1 H2] H3] H4] H5] H6] H7].
  destruct a as [i n s d [qn qd] k y], b as [i' n' s' d' [qn' qd'] k' y']. cbn [uid unames usyms udim uscale ukind_of usystems Qnum Qden] in *.
  apply Z.eqb_eq in E, H4. apply Pos.eqb_eq in H5. apply strs_same_ok in H1, H2, H7. apply seq_eqb_iff in H3. subst.
  destruct k, k'; try discriminate; reflexivity.
Qed.
Lemma there_ok us u : there us u = true -> In u us.
Proof. unfold there. intros H. apply existsb_exists in H as [v [H1 H2]]. apply unit_same_ok in H2. now subst. Qed.
Lemma fact_b_ok N us n k l u v : fact_b N us (n, k, l) = true -> stands_for N n u -> stand_for N l v ->
  In u us /\ over us v /\ (factor [(u, 1%Z)] == k * factor v)%Q /\ no_vanishing seq_eqb (expand_dims (n_rels N) [(u, 1)]) /\ no_vanishing seq_eqb (expand_dims (n_rels N) v) /\
  forall d, psum seq_eqb d (expand_dims (n_rels N) [(u, 1)]) = psum seq_eqb d (expand_dims (n_rels N) v).
Proof.
  intros H Hu Hv. apply look_ok in Hu. apply looks_ok in Hv. unfold fact_b in H. rewrite Hu, Hv in H. cbv zeta in H. rewrite !andb_true_iff in H.
  destruct H as [[[[[H1 H2] H3] H4] H5] H6]. split; [now apply there_ok|]. split; [|split; [now apply Qeq_bool_iff|split; [now apply steady_b_ok|split; [now apply steady_b_ok|now apply same_b_ok]]]].
  unfold over. rewrite Forall_forall. rewrite forallb_forall in H2. intros e He. apply there_ok, H2, He.
Qed.
Lemma fact_b_known N us n k l : fact_b N us (n, k, l) = true -> exists u v, stands_for N n u /\ stand_for N l v.
Proof.
  unfold fact_b. destruct (look N n) as [u|] eqn:L; [|discriminate]. destruct (looks N l) as [v|] eqn:M; [|discriminate]. intros _. exists u, v.
  split; [now apply look_ok|now apply looks_stand].
Qed.
Definition wrong (N : normaliser) (fs : list fact) : list fact := let us := plain_units N in filter (fun f => negb (fact_b N us f)) fs.

Lemma wrong_none N fs f : wrong N fs = [] -> In f fs -> fact_b N (plain_units N) f = true.
Proof.
  intros H I. destruct (fact_b N (plain_units N) f) eqn:E; [reflexivity|]. assert (J : In f (wrong N fs)); [|rewrite H in J; destruct J].
  unfold wrong. cbv zeta. apply filter_In. rewrite E. auto.
Qed.
Lemma no_wrong : is_nil (wrong demo_norm facts) = true.
Proof. vm_cast_no_check (@eq_refl bool true). Qed.
Lemma preset_facts f : In f facts -> fact_b demo_norm (plain_units demo_norm) f = true.
Proof. apply wrong_none. pose proof no_wrong as H. destruct (wrong demo_norm facts); [reflexivity|discriminate H]. Qed.
