(** That the units the code defines make a world: a decision procedure, run on the table. *)
From Coq Require Import ZArith QArith Ascii String List Bool Lia.
From Verif Require Import Base BaseProofs Bases Units UnitsSpec UnitsProofs UnitReg UnitData Install Syntax UnitCalc UnitCalcSpec UnitRun.
Import ListNotations.
Open Scope Z_scope.

Fixpoint nodup_b {A} (eqb : A -> A -> bool) (l : list A) : bool :=
  match l with [] => true | x :: r => negb (existsb (eqb x) r) && nodup_b eqb r end.
Lemma nodup_b_inj {A B} (eqb : B -> B -> bool) (f : A -> B) l : (forall x y, eqb x y = true <-> x = y) -> nodup_b eqb (map f l) = true ->
  forall u v, In u l -> In v l -> f u = f v -> u = v.
Proof.
  intros E. induction l as [|x l IH]; cbn [map nodup_b In]; [tauto|]. intros H u v Hu Hv F. apply andb_true_iff in H as [H1 H2]. apply negb_true_iff in H1.
  assert (N : forall w, In w l -> f x <> f w).
  { intros w Hw Q. assert (existsb (eqb (f x)) (map f l) = true); [|congruence]. apply existsb_exists. exists (f w). split; [now apply in_map|now apply E]. }
  destruct Hu as [->|Hu], Hv as [->|Hv]; [reflexivity|exfalso; exact (N v Hv F)|exfalso; exact (N u Hu (eq_sym F))|now apply IH].
Qed.
Definition clean_b (s : str) : bool := negb (existsb (ceq "^"%char) s) && negb (existsb (ceq ","%char) s).
Lemma not_in_b c s : existsb (ceq c) s = false -> ~ In c s.
Proof. intros H I. assert (existsb (ceq c) s = true); [|congruence]. apply existsb_exists. exists c. split; [exact I|]. unfold ceq. apply Ascii.eqb_refl. Qed.
Lemma clean_b_ok s : clean_b s = true -> clean s.
Proof. unfold clean_b. rewrite andb_true_iff, !negb_true_iff. intros [H1 H2]. split; now apply not_in_b. Qed.
Definition scaled_b (u : unit) : bool := match ukind_of u with UScale => true | _ => false end && (0 <? Qnum (uscale u))%Z.
Fixpoint once_b (l : dlist) : bool :=
  match l with [] => true | (k, _) :: r => forallb (fun e => negb (seq_eqb (fst e) k)) r && once_b r end.
Lemma once_b_ok l : once_b l = true -> once seq_eqb l.
Proof.
  induction l as [|[k q] l IH]; cbn [once_b once]; [auto|]. rewrite andb_true_iff. intros [H1 H2]. split; [|auto].
  rewrite forallb_forall in H1. rewrite Forall_forall. intros e He. apply H1 in He. now apply negb_true_iff.
Qed.
Definition dim_ok_b (rel : rels) (u : unit) : bool :=
  let ds := norm_dim rel (udim u) in
  once_b ds && forallb (fun e => negb (snd e =? 0)) ds && negb (match ds with [] => true | _ => false end) && forallb (fun e => clean_b (fst e)) ds.
Lemma dim_ok_b_ok rel u : dim_ok_b rel u = true -> dim_ok rel u.
Proof.
  unfold dim_ok_b, dim_ok. cbv zeta. rewrite !andb_true_iff. intros [[[H1 H2] H3] H4]. split; [now apply once_b_ok|]. split; [|split].
  - unfold nonzero. rewrite Forall_forall. rewrite forallb_forall in H2. intros e He. apply H2 in He. apply negb_true_iff, Z.eqb_neq in He. exact He.
  - intros Z. rewrite Z in H3. discriminate.
  - rewrite Forall_forall. rewrite forallb_forall in H4. intros e He. apply clean_b_ok, H4, He.
Qed.
Definition world_b (rel : rels) (us : list unit) : bool :=
  nodup_b Z.eqb (map uid us) && nodup_b seq_eqb (map plural us) && forallb (fun u => clean_b (plural u)) us && forallb scaled_b us && forallb (dim_ok_b rel) us.
Lemma world_b_ok rel us : world_b rel us = true -> world rel us.
Proof.
  unfold world_b. rewrite !andb_true_iff. intros [[[[H1 H2] H3] H4] H5]. rewrite forallb_forall in H3, H4, H5.
  assert (P : forall u, In u us -> ukind_of u = UScale /\ (0 < uscale u)%Q).
  { intros u Hu. apply H4 in Hu. unfold scaled_b in Hu. apply andb_true_iff in Hu as [K S]. split; [destruct (ukind_of u); auto; discriminate|].
    apply Z.ltb_lt in S. unfold Qlt. cbn. lia. }
  split; [split|split; [split|split]].
  - intros u v Hu Hv E. exact (nodup_b_inj Z.eqb uid us (fun x y => Z.eqb_eq x y) H1 u v Hu Hv E).
  - rewrite Forall_forall. intros u Hu. destruct (P u Hu) as [K S]. split; [exact K|]. intros Z. rewrite Z in S. discriminate.
  - intros u Hu. apply clean_b_ok, H3, Hu.
  - exact (nodup_b_inj seq_eqb plural us (fun x y => seq_eqb_iff x y) H2).
  - rewrite Forall_forall. intros u Hu. apply dim_ok_b_ok, H5, Hu.
  - rewrite Forall_forall. intros u Hu. apply (P u Hu).
Qed.
Definition plain_units (N : normaliser) : list unit := filter (fun u => match ukind_of u with UScale => true | _ => false end) (all_units N).
Lemma preset_world : world (n_rels demo_norm) (plain_units demo_norm).
Proof. apply world_b_ok. vm_cast_no_check (@eq_refl bool true). Qed.
Lemma plain_or_not N u : In u (all_units N) -> In u (plain_units N) \/ (temperature u /\ ukind_of u <> UScale).
Proof.
  intros Hu. unfold plain_units. rewrite filter_In. unfold temperature. destruct (ukind_of u); [left; auto|right; split; [exact I|discriminate]|right; split; [exact I|discriminate]].
Qed.
Lemma preset_count : length (plain_units demo_norm) = 424%nat.
Proof. vm_cast_no_check (@eq_refl nat 424%nat). Qed.
