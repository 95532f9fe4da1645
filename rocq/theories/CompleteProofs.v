(** Complete statements, and the arguments of functions. *)
From Coq Require Import ZArith QArith Ascii String List Bool Lia.
From Verif Require Import Base Dec Num Bases Units Syntax Pos Call Loop Parse Exec ExecSpec ExecProofs2 ExecProofs3 ErrorSpec.
Import ListNotations.
Open Scope nat_scope.

(** * Statements that end with an operand *)
(** The slots of a list that has operators with at most one right operand and ends with an operand *)
Definition ends_well (P : str -> Prop) (sl : list slot) : Prop :=
  (exists a r i, sl = a ++ [SRes r i]) /\ (forall s i, In (SOp s i) sl -> P s).

Lemma action_sym : forall T l sl i sym w (P : str -> Prop), action T l sl i = Some (sym, w) ->
  (forall s j, In (SOp s j) sl -> P s) -> i < length sl /\ (P sym \/ unwritten T sym).
Proof.
  intros T l sl i sym w P H Hp. unfold action in H. destruct (nth_error sl i) as [x|] eqn:E; [|discriminate]. cbv zeta in H.
  split; [apply nth_error_Some; rewrite E; discriminate|].
  assert (K : forall o, in_level o l = true -> o = Some (opt_get o)) by (intros [t|]; [reflexivity|discriminate]).
  repeat match type of H with (if ?b then _ else _) = _ => destruct b eqn:?B end.
  - injection H as <- <-. right. left. apply K. repeat (apply andb_prop in B; destruct B as [B ?]). exact B.
  - injection H as <- <-. right. right. left. apply K. repeat (apply andb_prop in B0; destruct B0 as [B0 ?]). exact B0.
  - injection H as <- <-. right. right. right. left. apply K. repeat (apply andb_prop in B1; destruct B1 as [B1 ?]). exact B1.
  - injection H as <- <-. right. right. right. right. apply K. repeat (apply andb_prop in B2; destruct B2 as [B2 ?]). exact B2.
  - destruct x; [|discriminate]. match type of H with (if ?b then _ else _) = _ => destruct b end; [|discriminate].
    injection H as <- <-. left. eapply Hp, nth_error_In, E.
Qed.
Lemma scan_sym : forall T l sl is i sym w (P : str -> Prop), scan T l sl is = Some (i, sym, w) ->
  (forall s j, In (SOp s j) sl -> P s) -> i < length sl /\ (P sym \/ unwritten T sym).
Proof.
  intros T l sl is. induction is as [|k r IH]; intros i sym w P H Hp; cbn [scan] in H; [discriminate|].
  destruct (action T l sl k) as [[s' w']|] eqn:E; [|eapply IH; eassumption]. injection H as <- <- <-. eapply action_sym; eassumption.
Qed.
Lemma scan_levels_sym : forall T ls sl i sym w (P : str -> Prop), scan_levels T ls sl = Ok (Some (i, sym, w)) ->
  (forall s j, In (SOp s j) sl -> P s) -> i < length sl /\ (P sym \/ unwritten T sym).
Proof.
  intros T ls. induction ls as [|l r IH]; intros sl i sym w P H Hp; cbn [scan_levels] in H; [discriminate|].
  destruct (level_rtl T l) as [b| |]; try discriminate. cbn [obind] in H. cbv zeta in H.
  destruct (scan T l sl _) as [[[i' s'] w']|] eqn:E; [|eapply IH; eassumption]. injection H as <- <- <-. eapply scan_sym; eassumption.
Qed.

Lemma in_firstn : forall A n (l : list A) x, In x (firstn n l) -> In x l.
Proof. intros A n l x H. rewrite <- (firstn_skipn n l). apply in_or_app. left. exact H. Qed.
Lemma in_skipn : forall A n (l : list A) x, In x (skipn n l) -> In x l.
Proof. intros A n l x H. rewrite <- (firstn_skipn n l). apply in_or_app. right. exact H. Qed.
Lemma skipn_last : forall A n (l : list A) x, skipn n (l ++ [x]) = [] \/ exists a, skipn n (l ++ [x]) = a ++ [x].
Proof.
  intros A n. induction n as [|n IH]; intros l x; [right; exists l; reflexivity|]. destruct l as [|y l].
  - left. cbn. destruct n; reflexivity.
  - cbn [app skipn]. apply IH.
Qed.

Definition not_missing {A} (o : oc A) : Prop := forall sym its nx tr, o <> OErr (XExec (MMissRight sym) its nx tr).

Lemma take_not_missing : forall orig sym prev want have s, not_missing (fst (take_inputs orig sym prev want have s)).
Proof.
  intros orig sym prev want. induction want as [|w want IH]; intros have s; cbn [take_inputs]; [discriminate|].
  destruct w as [t|], have as [|[t' i|r i] have]; try discriminate.
  - destruct (seq_eqb t' t); [apply IH|discriminate].
  - unfold bind. specialize (IH have s). destruct (take_inputs orig sym prev want have s) as [o s1]. cbn [fst] in IH.
    destruct o; try discriminate. intros a b c d H. injection H as ->. eapply IH. reflexivity.
Qed.
Lemma run_op_complete : forall T (P : str -> Prop) orig sl i sym w s,
  (forall t o, P t \/ unwritten T t -> find_op T t = Some o -> length (op_r o) <= 1) ->
  ends_well P sl -> i < length sl -> (P sym \/ unwritten T sym) ->
  (w = 0 \/ (w = 1 /\ exists t j, nth_error sl i = Some (SOp t j))) ->
  match fst (run_op T orig fake_call sl i sym w s) with OOk sl' => ends_well P sl' | o => not_missing o end.
Proof.
  intros T P orig sl i sym w s HT [[a [r [k Esl]]] Hin] Hi Hs Hw. unfold run_op. destruct (find_op T sym) as [o|] eqn:Eo; [|discriminate].
  destruct (nth_error sl i) as [x|] eqn:Ex; [|discriminate]. specialize (HT _ _ Hs Eo).
  assert (Hi2 : i + length (op_r o) + w <= length sl).
  { destruct Hw as [->|[-> [t [j Et]]]]; [lia|]. injection Et as ->.
    assert (S i < length sl); [|lia]. rewrite Esl in Hi |- *. rewrite app_length in *. cbn [length] in *.
    destruct (Nat.eq_dec i (length a)) as [->|Hne]; [|lia]. rewrite Esl, nth_error_app2, Nat.sub_diag in Ex by lia. discriminate. }
  destruct (i <? length (op_l o)); [discriminate|].
  assert (Hlt : length sl <? i + length (op_r o) + w = false) by (apply Nat.ltb_ge; exact Hi2). rewrite Hlt.
  cbv zeta. unfold bind at 1. match goal with |- context [take_inputs ?a ?b ?c ?d ?e s] => pose proof (take_not_missing a b c d e s) as Kt;
    destruct (take_inputs a b c d e s) as [y s1] end. cbn [fst] in Kt.
  destruct y as [ins|e| |]; try discriminate; [|intros b1 b2 b3 b4 E; injection E as ->; eapply Kt; reflexivity].
  unfold bind, fake_call. destruct ins as [|r0 ins]; [discriminate|]. cbn [fst ret]. split.
  - set (n := i + w + length (op_r o)). replace (skipn n sl) with (skipn n (a ++ [SRes r k])) by (rewrite <- Esl; reflexivity). destruct (skipn_last _ n a (SRes r k)) as [->|[b ->]].
    + rewrite app_nil_r. eauto.
    + rewrite !app_assoc. eauto.
  - intros s0 i0 H. repeat (apply in_app_or in H; destruct H as [H|H]); [eapply Hin, in_firstn, H| |eapply Hin, in_skipn, H].
    destruct H as [H|[]]. discriminate.
Qed.
Lemma op_loop_complete : forall n T (P : str -> Prop) orig sl s,
  (forall t o, P t \/ unwritten T t -> find_op T t = Some o -> length (op_r o) <= 1) ->
  ends_well P sl -> not_missing (fst (op_loop n T orig fake_call sl s)).
Proof.
  induction n as [|n IH]; intros T P orig sl s HT Hsl; cbn [op_loop]; [discriminate|].
  destruct (scan_levels T (t_levels T) sl) as [[[[i sym] w]|]| |] eqn:E; try discriminate.
  destruct (scan_levels_sym _ _ _ _ _ _ P E (proj2 Hsl)) as [Hi Hs].
  pose proof (run_op_complete T P orig sl i sym w s HT Hsl Hi Hs (scan_levels_width _ _ _ _ _ _ E)) as K. unfold bind.
  destruct (run_op T orig fake_call sl i sym w s) as [o s1]. cbn [fst] in K. destruct o as [sl'|e| |]; try discriminate.
  - apply (IH T P); assumption.
  - intros b1 b2 b3 b4 H. injection H as ->. eapply K. reflexivity.
Qed.

Lemma fake_slots_app : forall a b n, fake_slots n (a ++ b) = fake_slots n a ++ fake_slots (n + length a) b.
Proof.
  induction a as [|i a IH]; intros b n; cbn [app length]; [rewrite Nat.add_0_r; reflexivity|]. rewrite <- Nat.add_succ_comm.
  destruct i; cbn [fake_slots app]; rewrite IH; reflexivity.
Qed.
Lemma fake_slots_ops : forall l n s i, In (SOp s i) (fake_slots n l) -> In (IOp s) l.
Proof.
  induction l as [|x l IH]; intros n s i H; [exact H|].
  destruct x; cbn [fake_slots] in H; destruct H as [H|H]; try discriminate H; try (right; eapply IH; exact H).
  injection H as -> _. left. reflexivity.
Qed.
Theorem ends_complete : forall T func x s, iisop x = false ->
  (forall t o, In (IOp t) func \/ unwritten T t -> find_op T t = Some o -> length (op_r o) <= 1) ->
  incomplete T (func ++ [x]) s = false.
Proof.
  intros T func x s Hx HT. unfold incomplete. destruct (func ++ [x]) as [|f0 fs] eqn:Ef; [destruct func; discriminate|]. rewrite <- Ef. clear Ef f0 fs.
  assert (Hsl : ends_well (fun t => In (IOp t) func) (fake_slots 0 (func ++ [x]))).
  { rewrite fake_slots_app. split.
    - exists (fake_slots 0 func). destruct x; try discriminate Hx; cbn [fake_slots]; eauto.
    - intros t i H. apply in_app_or in H. destruct H as [H|H]; [eapply fake_slots_ops, H|].
      destruct x; try discriminate Hx; cbn [fake_slots] in H; destruct H as [H|[]]; discriminate. }
  set (sl := fake_slots 0 (func ++ [x])) in *. unfold run_slots, bind.
  pose proof (op_loop_complete (loop_fuel sl) T _ (func ++ [x]) sl s HT Hsl) as K.
  destruct (op_loop _ _ _ _ _ _) as [o s1]. cbn [fst] in K. destruct o as [sl'|[b m|m its nx tr]| |]; try reflexivity.
  - unfold ends. destruct sl' as [|[t i|r i] [|y l]]; try reflexivity; cbn [filter slot_op]; try reflexivity.
    destruct (slot_op y); [reflexivity|]. destruct (filter slot_op l); reflexivity.
  - cbn [fst]. destruct m; try reflexivity. exfalso. eapply K. reflexivity.
Qed.

(** * The arguments of a function are run one after the other, and given to it in that order *)
Lemma eval_args_turn : forall rec stl allow text items mk args s rs s', args_in_turn (rec stl) args s rs s' ->
  (allow = true \/ Forall no_error rs) -> forall n acc, eval_args rec stl allow text items mk args n acc s = (OOk (acc ++ rs), s').
Proof.
  intros rec stl allow text items mk args s rs s' H. induction H as [s|a l s r s1 rs s2 E H IH]; intros Ha n acc; cbn [eval_args].
  - rewrite app_nil_r. reflexivity.
  - rewrite E. cbv zeta.
    assert (K : eval_args rec stl allow text items mk l (n + length a + 1) (acc ++ [r]) s1 = (OOk (acc ++ r :: rs), s2)).
    { rewrite IH; [rewrite <- app_assoc; reflexivity|]. destruct Ha as [Ha|Ha]; [left; exact Ha|right; inversion Ha; assumption]. }
    destruct (rval r) eqn:Er; try exact K. destruct Ha as [->|Ha]; [destruct e; exact K|].
    inversion Ha as [|? ? Hn Hr]. exfalso. exact (Hn _ Er).
Qed.
Theorem function_call : forall G rec stl text tr items name args s rs s' d, assoc name (g_funcs G) = Some d ->
  args_in_turn (rec stl) args s rs s' -> (o_excs d = true \/ Forall no_error rs) ->
  eval_item G rec stl (IFunc text tr items name args) s = call (g_env G) (callop G stl) d stl rs s'.
Proof.
  intros G rec stl text tr items name args s rs s' d Hd H Ha. cbn [eval_item]. unfold eval_func. rewrite Hd. unfold bind.
  rewrite (eval_args_turn _ _ _ _ _ _ _ _ _ _ H Ha). reflexivity.
Qed.
Theorem pointer_call : forall G rec stl text tr items name args s rs s' b u, assoc name (s_vars s) = Some (VFun b, u) ->
  args_in_turn (rec stl) args s rs s' -> Forall no_error rs ->
  forall d, pointer_def G rec (VFun b) = Some (Ok d) ->
  eval_item G rec stl (IPtr text tr items name args) s = call (g_env G) (callop G stl) d stl rs s'.
Proof.
  intros G rec stl text tr items name args s rs s' b u Hv H Ha d Hd. cbn [eval_item]. unfold eval_ptr. rewrite Hv. unfold bind.
  rewrite (eval_args_turn _ _ _ _ _ _ _ _ _ _ H (or_intror Ha)). unfold call_pointer. rewrite Hd. reflexivity.
Qed.
