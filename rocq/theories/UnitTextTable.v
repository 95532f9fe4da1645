(** Deciding what the theorem about texts of quantities asks for. *)
From Coq Require Import ZArith QArith Ascii String List Bool Lia.
From Verif Require Import Base BaseProofs Num Lex LexSpec Bases Units UnitsSpec UnitsProofs5 UnitReg UnitData Install Syntax Pos Call Loop Parse Exec UnitCalc UnitCalcSpec UnitRun UnitTable NameSpec TextSpec TextProofs VarNameSpec VarNameProofs ArithTextSpec UnitTextSpec UnitTextProofs3.
Import ListNotations.
Open Scope nat_scope.

(** The unit a name stands for *)
Definition unit_at (N : normaliser) (n : str) : unit :=
  match get_unit (n_prefs N) (n_reg N) n with Ok (Some (UDef u)) => u | _ => mkUnit 0 [] [] [] 1 UScale [] end.
Definition unit_dec (a b : unit) : {a = b} + {a <> b}.
Proof. repeat decide equality. Defined.
Definition has {A} (k : str) (l : list (str * A)) : bool := existsb (fun e => seq_eqb (fst e) k) l.
Lemma has_ok {A} k (l : list (str * A)) : has k l = true -> exists d, In (k, d) l.
Proof. unfold has. rewrite existsb_exists. intros ([m d] & H & E). apply seq_eqb_iff in E. cbn in E. subst m. exists d. exact H. Qed.
Definition ready (N : normaliser) (n : str) : bool :=
  negb (is_nil n) && forallb is_alpha n && negb (mem_str n (($"to") :: operator_words ++ constant_names ++ more_constants)) && negb (mem_str (lower n) [$"true"; $"false"]) &&
  match get_unit (n_prefs N) (n_reg N) n with Ok (Some (UDef u)) => existsb (fun v => if unit_dec v u then true else false) (plain_units N) | _ => false end &&
  (has (lower n) (rnames (n_reg N)) || (length n <=? n_maxlen N) && has n (rsyms (n_reg N))).
Lemma ready_ok N n : ready N n = true -> unit_for (demo_units N) (plain_units N) n (unit_at N n).
Proof.
  unfold ready. rewrite !andb_true_iff. intros [[[[[H1 H2] H3] H4] H5] H6]. unfold unit_for, unit_word, unit_at.
  destruct (get_unit (n_prefs N) (n_reg N) n) as [[[u|]|]| |] eqn:E; try discriminate H5.
  apply negb_true_iff in H3. assert (K : ~ In n (($"to") :: operator_words ++ constant_names ++ more_constants)) by (intros I; apply mem_str_iff in I; congruence). clear H3. cbn [In] in K. rewrite !in_app_iff in K.
  apply negb_true_iff in H4. assert (T : lower n <> $"true" /\ lower n <> $"false") by (split; intros I; rewrite I in H4; discriminate H4).
  split; [|split; [|split]].
  - split; [intros ->; discriminate H1|]. split; [apply Forall_forall; intros c Hc; apply letter_iff; rewrite forallb_forall in H2; apply H2, Hc|].
    split; [tauto|]. split; [intros ->; apply K; left; reflexivity|]. split; [intros I; apply (proj1 T), (proj2 (caseless_iff _ _) I)|]. split; [intros I; apply (proj2 T), (proj2 (caseless_iff _ _) I)|]. split; tauto.
  - exact E.
  - unfold unit_here. split; [destruct n; [discriminate H1|cbn; lia]|]. split; [lia|]. split; [intros c Hc; rewrite (proj2 (nth_error_None n (length n))) in Hc by lia; discriminate|]. rewrite firstn_all.
    apply orb_true_iff in H6. destruct H6 as [H6|H6]; [left; apply has_ok, H6|right]. apply andb_true_iff in H6. destruct H6 as [L H6]. apply Nat.leb_le in L. split; [reflexivity|]. split; [exact L|apply has_ok, H6].
  - apply existsb_exists in H5. destruct H5 as (v & Hv & Ev). destruct (unit_dec v u) as [->|]; [exact Hv|discriminate].
Qed.
(** Keys *)
Definition on_b (r : str) : bool := match r with c :: _ => negb (is_space c) | [] => false end.
Lemma on_b_ok r : on_b r = true -> goes_on r.
Proof. destruct r as [|c r]; [discriminate|]. cbn. intros H. apply negb_true_iff in H. exists c, r. auto. Qed.
Fixpoint apart_b (k : str) : bool :=
  match k with
  | [] => true
  | c :: r => (negb (is_nil r) || negb (is_space c)) && (negb (ceq c "+" || ceq c "-") || on_b r) && (negb (is_space c && prefixb ($"to") r) || on_b (skipn 2 r)) && apart_b r
  end.
Lemma apart_b_ok k : apart_b k = true -> key_apart k.
Proof.
  induction k as [|x k IH]; intros H.
  - split; [intros a c E; destruct a; discriminate E|]. split; [intros a m r E; destruct a; discriminate E|intros a c r E; destruct a; discriminate E].
  - cbn [apart_b] in H. rewrite !andb_true_iff in H. destruct H as [[[H1 H2] H3] H4]. destruct (IH H4) as (I1 & I2 & I3). split; [|split].
    + intros [|y a] c E; [|apply (I1 a c); cbn [app] in E; congruence]. assert (c = x /\ k = []) as [-> ->] by (split; cbn [app] in E; congruence). cbn in H1. apply negb_true_iff, H1.
    + intros [|y a] m r E; [|apply (I2 a m r); cbn [app] in E; congruence]. assert (x = sign_char m /\ k = r) as [-> ->] by (split; cbn [app] in E; congruence). apply on_b_ok. destruct m; exact H2.
    + intros [|y a] c r E Hc; [|apply (I3 a c r); [cbn [app] in E; congruence|exact Hc]]. assert (c = x /\ k = $"to" ++ r) as [-> ->] by (split; cbn [app] in E; congruence). apply on_b_ok.
      rewrite Hc in H3. exact H3.
Qed.
Definition keys_b (N : normaliser) : bool := forallb (fun e => apart_b (fst e)) (rnames (n_reg N)) && forallb (fun e => apart_b (fst e)) (rsyms (n_reg N)).
Lemma keys_b_ok N : keys_b N = true -> keys_apart N.
Proof.
  unfold keys_b. rewrite andb_true_iff, !forallb_forall. intros [H1 H2]. split; intros k d I; apply apart_b_ok; [exact (H1 _ I)|exact (H2 _ I)].
Qed.
(** Units with the same dimension *)
Lemma same_udim rel u v : udim u = udim v -> same_dims rel (Some (mkEU (ulist u) false)) (Some (mkEU (ulist v) false)).
Proof. intros H d. unfold dims_of, dim_total, ulist, eu_list. cbn. rewrite H. reflexivity. Qed.
Lemma ok_is (x : out normaliser) : match x with Ok _ => true | _ => false end = true -> x = Ok (match x with Ok n => n | _ => norm_init end).
Proof. destruct x; [reflexivity|discriminate|discriminate]. Qed.
Lemma demo_steps : reg_steps (preset_steps preset_computing) norm_init = Ok demo_norm.
Proof. apply ok_is. vm_cast_no_check (@eq_refl bool true). Qed.
Lemma demo_keys : keys_apart demo_norm.
Proof. apply keys_b_ok. vm_cast_no_check (@eq_refl bool true). Qed.
(** Digits *)
Definition has_b (k : Z) (q : Q) : bool := (Z.abs (Qnum (Qred q)) <? 10 ^ k)%Z && (Z.pos (Qden (Qred q)) <? 10 ^ k)%Z.
Lemma has_b_ok k q : has_b k q = true -> has_digits k q.
Proof. unfold has_b. rewrite andb_true_iff, !Z.ltb_lt. intros H. exact H. Qed.
Definition lit_b (p k : Z) (l : declit) : bool := has_b k (spec_val l) && match l_frac l with Some f => (Z.of_nat (length f) <=? p)%Z | None => true end.
Lemma lit_b_ok p k l : lit_b p k l = true -> lit_fits p k l.
Proof. unfold lit_b, lit_fits. rewrite andb_true_iff. intros [H1 H2]. split; [apply has_b_ok, H1|]. destruct (l_frac l); [apply Z.leb_le, H2|exact I]. Qed.
Definition stay_b (p k : Z) (l0 : declit) (u0 : unit) (qs : list (bool * declit * unit)) : bool :=
  lit_b p k l0 && forallb (fun x => let '(_, l, u) := x in lit_b p k l && has_b k (spec_val l * uscale u / uscale u0)%Q) qs &&
  forallb (fun s => has_b k (s / uscale u0)%Q) (sums_along (amount l0 u0) qs).
Lemma stay_b_ok p k l0 u0 qs : stay_b p k l0 u0 qs = true -> digits_stay p k l0 u0 qs.
Proof.
  unfold stay_b. rewrite !andb_true_iff, !forallb_forall. intros [[H1 H2] H3]. split; [apply lit_b_ok, H1|]. split; apply Forall_forall.
  - intros [[m l] u] I. specialize (H2 _ I). cbn in H2. apply andb_true_iff in H2. destruct H2. split; [apply lit_b_ok|apply has_b_ok]; assumption.
  - intros q I. apply has_b_ok, (H3 _ I).
Qed.
(** Names of one dimension *)
Definition names_b (N : normaliser) (n : str) (ns : list str) : bool := forallb (fun m => ready N m && seq_eqb (udim (unit_at N n)) (udim (unit_at N m))) ns.
Lemma names_b_ok N n ns : names_b N n ns = true -> forall m, In m ns ->
  unit_for (demo_units N) (plain_units N) m (unit_at N m) /\ same_dims (u_rels (demo_units N)) (Some (mkEU (ulist (unit_at N n)) false)) (Some (mkEU (ulist (unit_at N m)) false)).
Proof.
  unfold names_b. rewrite forallb_forall. intros H m I. specialize (H m I). apply andb_true_iff in H. destruct H as [H1 H2]. split; [apply ready_ok, H1|]. apply same_udim, seq_eqb_iff, H2.
Qed.
