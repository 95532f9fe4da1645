(** C26: arguments declared to be arrays of a type. *)
From Coq Require Import ZArith QArith Ascii String List Bool Lia.
From Verif Require Import Base BaseProofs Dec Num Lex Bases Formats Units Install Syntax Pos Call Parse Exec Std StdRun UnitReg UnitCalc.
Import ListNotations.
Open Scope nat_scope.

Lemma forallb_Forall {A} (f : A -> bool) (P : A -> Prop) l : (forall x, f x = true <-> P x) -> (forallb f l = true <-> Forall P l).
Proof. intros H. rewrite forallb_forall, Forall_forall. split; intros G x I; apply H, G, I. Qed.
Lemma ok_true b : @Ok bool b = Ok true <-> b = true.
Proof. split; [intros [= ->]|intros ->]; reflexivity. Qed.
Lemma valid_one L sub v u r : seq_eqb sub ($"array") = false ->
  (match valid1 L sub v r with Some b => b | None => false end = true <-> validate_input (std_env L) (Some (sub, None)) v u r = Ok true).
Proof.
  intros Ha. unfold validate_input. cbn [e_valid std_env]. unfold std_valid. rewrite Ha.
  destruct (existsb (seq_eqb sub) _) eqn:E; [rewrite ok_true; reflexivity|].
  cbn [existsb] in E. rewrite !orb_false_iff in E. destruct E as (E1 & E2 & E3 & E4 & E5 & E6 & _). unfold valid1. rewrite E1, E2, E3, E4, E5, E6. split; discriminate.
Qed.
(** An argument declared [array[t]] is accepted if and only if it is an array and every element of it would be accepted as [t];
    otherwise it is refused, and the check itself never fails. *)
Theorem c26_array_of : forall L sub v u r,
  (validate_input (std_env L) (arr_of sub) v u r = Ok true <->
    exists l, v = VList l /\ Forall (fun x => validate_input (std_env L) (ty sub) (rval x) (runit x) (rref x) = Ok true) l) /\
  (validate_input (std_env L) (arr_of sub) v u r = Ok true \/ validate_input (std_env L) (arr_of sub) v u r = Ok false).
Proof.
  intros L sub v u r. assert (El : forall l, validate_input (std_env L) (arr_of sub) (VList l) u r = Ok true <-> Forall (fun x => validate_input (std_env L) (ty sub) (rval x) (runit x) (rref x) = Ok true) l).
  { intros l. unfold validate_input at 1, arr_of. cbn [e_valid std_env]. unfold std_valid at 1. change (seq_eqb ($"array") ($"array")) with true. cbv iota beta.
    destruct (seq_eqb sub ($"array")) eqn:Ha; rewrite ok_true; apply forallb_Forall; intros x.
    - apply seq_eqb_iff in Ha as ->. unfold validate_input, ty. cbn [e_valid std_env]. unfold std_valid. change (seq_eqb ($"array") ($"array")) with true. cbv iota beta. destruct (rval x); rewrite ok_true; reflexivity.
    - now apply valid_one. }
  split.
  - destruct v; try (split; [discriminate|intros (l & [=] & _)]). rewrite El. split; [intros H; eexists; split; [reflexivity|exact H]|intros (l' & [= <-] & H); exact H].
  - unfold validate_input, arr_of. cbn [e_valid std_env]. unfold std_valid. change (seq_eqb ($"array") ($"array")) with true. cbv iota beta.
    destruct v; auto. destruct (seq_eqb sub ($"array")); [destruct (forallb _ _)|destruct (forallb _ _)]; auto.
Qed.
Print Assumptions c26_array_of.
(** An array with one element that is none is refused, whatever the others are; one of texts that read as numbers is not. *)
Example c26_array_of_ex : answer "sum([1, '2', true])" = "4"%string /\ answer "sum([1, 'two', 3])" <> answer "sum([1, 3])" /\
  validate_input (std_env demo) (arr_of ($"number")) (VList [mkRes (VStr ($"two")) None None; mkRes (VStr ($"2")) None None]) None None = Ok false /\
  validate_input (std_env demo) (arr_of ($"array")) (VList [mkRes (VList []) None None; mkRes (VStr ($"2")) None None]) None None = Ok false /\
  validate_input (std_env demo) (arr_of ($"array")) (VList [mkRes (VList []) None None]) None None = Ok true.
Proof. split; [vm_compute; reflexivity|]. split; [vm_compute; discriminate|]. repeat split; vm_compute; reflexivity. Qed.
