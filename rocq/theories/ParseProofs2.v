(** More lemmas about parsing: operators, string literals, terminators. *)
From Coq Require Import ZArith QArith Ascii String List Bool Lia Sorted.
From Verif Require Import Base Dec Num Bases Units Syntax Pos PosSpec Call Loop Parse ParseSpec BaseProofs PosProofs UnitsProofs5 ParseProofs.
Import ListNotations.
Open Scope nat_scope.

(** * Operators *)
Definition longer (x y : str) : Prop := length y <= length x.
Lemma insert_sorted x l : StronglySorted longer l -> StronglySorted longer (insert_len x l).
Proof.
  intros H. induction H as [|y l H IH HF]; cbn [insert_len]; [repeat constructor|].
  destruct (Nat.leb_spec (length x) (length y)) as [Hl|Hl].
  - constructor; [exact IH|]. rewrite Forall_forall in *. intros z Hz. apply insert_len_in in Hz. destruct Hz as [->|Hz]; [exact Hl|exact (HF z Hz)].
  - constructor; [constructor; assumption|]. constructor; [unfold longer; lia|].
    rewrite Forall_forall in *. intros z Hz. specialize (HF z Hz). unfold longer in *. lia.
Qed.
Lemma sort_sorted l : StronglySorted longer (sort_len l).
Proof. induction l as [|x l IH]; [constructor|]. apply insert_sorted. exact IH. Qed.
Lemma find_longest p l x : StronglySorted longer l -> find p l = Some x -> forall y, In y l -> p y = true -> longer x y.
Proof.
  intros H. induction H as [|z l H IH HF]; cbn [find]; [discriminate|]. intros E y Hy Hp. destruct (p z) eqn:Ez.
  - injection E as <-. destruct Hy as [<-|Hy]; [unfold longer; lia|]. rewrite Forall_forall in HF. exact (HF y Hy).
  - destruct Hy as [<-|Hy]; [congruence|]. exact (IH E y Hy Hp).
Qed.
Lemma alpha_str_iff op : is_alpha_str op = true <-> op <> [] /\ Forall (fun c => is_alpha c = true) op.
Proof.
  destruct op as [|c r]; [split; [discriminate|intros [H _]; congruence]|]. unfold is_alpha_str. rewrite forallb_forall, Forall_forall.
  split; [intros H; split; [discriminate|exact H]|intros [_ H]; exact H].
Qed.
Lemma op_starts_iff s op : op_starts s op <-> prefixb op s = true /\ op_ok s op = true.
Proof.
  unfold op_starts, op_ok. rewrite prefixb_iff. split.
  - intros [r [E H]]. split; [exists r; exact E|]. destruct (is_alpha_str op) eqn:Ea; [|reflexivity]. apply alpha_str_iff in Ea.
    specialize (H (proj1 Ea) (proj2 Ea)). unfold word_end. rewrite E, nth_error_app2, Nat.sub_diag by lia. destruct r as [|c r]; cbn; [reflexivity|].
    rewrite H. reflexivity.
  - intros [[r E] H]. exists r. split; [exact E|]. intros H1 H2. rewrite (proj2 (alpha_str_iff op) (conj H1 H2)) in H.
    unfold word_end in H. rewrite E, nth_error_app2, Nat.sub_diag in H by lia. destruct r as [|c r]; cbn in H; [exact I|]. destruct (is_word c); [discriminate|reflexivity].
Qed.
Lemma match_op_longest syms s op : match_op syms s = Some op <->
  In op syms /\ op_starts s op /\ forall op', In op' syms -> op_starts s op' -> length op' <= length op.
Proof.
  assert (Hin : forall o, In o (sort_len (filter (fun op => prefixb op s) syms)) <-> In o syms /\ prefixb o s = true).
  { intros o. rewrite sort_len_in, filter_In. reflexivity. }
  assert (Hfwd : forall o, match_op syms s = Some o -> In o syms /\ op_starts s o /\ forall op', In op' syms -> op_starts s op' -> length op' <= length o).
  { intros o H. destruct (match_op_in _ _ _ H) as [H1 [H2 H3]]. split; [exact H1|]. split; [apply op_starts_iff; auto|].
    intros o' G1 G2. apply op_starts_iff in G2. unfold match_op in H. apply (find_longest _ _ _ (sort_sorted _) H o'); [|tauto]. apply Hin. tauto. }
  split; [apply Hfwd|]. intros [H1 [H2 H3]]. destruct (match_op syms s) as [o|] eqn:E.
  - destruct (Hfwd o eq_refl) as [G1 [G2 G3]]. specialize (H3 o G1 G2). specialize (G3 op H1 H2).
    destruct G2 as [r [E1 _]], H2 as [r' [E2 _]]. f_equal. rewrite E1 in E2. symmetry.
    assert (El : length op = length o) by lia. apply (f_equal (firstn (length o))) in E2.
    rewrite firstn_len_app in E2. rewrite <- El, firstn_len_app in E2. congruence.
  - unfold match_op in E. apply op_starts_iff in H2. assert (Hf := find_none _ _ E op (proj2 (Hin op) (conj H1 (proj1 H2)))). destruct H2. congruence.
Qed.
Lemma match_op_none syms s : match_op syms s = None <-> forall op, In op syms -> ~ op_starts s op.
Proof.
  split.
  - intros E op H1 H2. unfold match_op in E. apply op_starts_iff in H2. assert (Hf := find_none _ _ E op). rewrite sort_len_in, filter_In in Hf.
    destruct H2 as [H2 H3]. specialize (Hf (conj H1 H2)). congruence.
  - intros H. destruct (match_op syms s) as [o|] eqn:E; [|reflexivity]. apply match_op_longest in E. destruct E as [H1 [H2 _]]. destruct (H o H1 H2).
Qed.

(** * String literals *)
Lemma str_scan_escaped q e : q <> e -> forall s rest acc n,
  str_scan q e (escaped q e s ++ q :: rest) false acc n = Some (acc ++ s, n + length (escaped q e s)).
Proof.
  intros Hqe. induction s as [|c s IH]; intros rest acc n; cbn [escaped app].
  - cbn [str_scan]. unfold ceq at 1. rewrite Ascii.eqb_refl. cbn. rewrite app_nil_r, Nat.add_0_r. reflexivity.
  - destruct (ceq c q || ceq c e) eqn:Ec; cbn [app str_scan].
    + assert (E1 : ceq e q = false) by (unfold ceq; apply Ascii.eqb_neq; congruence). assert (E2 : ceq e e = true) by (unfold ceq; apply Ascii.eqb_refl).
      rewrite E1, E2. cbn [andb negb]. rewrite andb_false_r.
      assert (E3 : (if ceq c e then false else false) = false) by (destruct (ceq c e); reflexivity). cbn [negb]. rewrite E3. cbn [str_scan].
      rewrite IH. cbn [length]. rewrite <- app_assoc. cbn [app]. f_equal. f_equal. lia.
    + apply orb_false_elim in Ec. destruct Ec as [E1 E2]. rewrite E1, E2. cbn [andb]. rewrite IH, <- app_assoc. cbn [length app]. f_equal. f_equal. lia.
Qed.

(** * Terminators *)
(** fake execution neither changes nor depends on the state *)
Definition stateless {A} (m : M A) : Prop := exists o, forall s, m s = (o, s).
Lemma stateless_ret {A} (x : A) : stateless (ret x). Proof. eexists. reflexivity. Qed.
Lemma stateless_raise {A} e : stateless (@raise A e). Proof. eexists. reflexivity. Qed.
Lemma stateless_py {A} : stateless (@pyerr A). Proof. eexists. reflexivity. Qed.
Lemma stateless_bind {A B} (m : M A) (f : A -> M B) : stateless m -> (forall x, stateless (f x)) -> stateless (bind m f).
Proof.
  intros [o H] Hf. unfold bind. destruct o as [x|e| |].
  - destruct (Hf x) as [o' H']. exists o'. intros s. rewrite H. apply H'.
  - eexists. intros s. rewrite H. reflexivity.
  - eexists. intros s. rewrite H. reflexivity.
  - eexists. intros s. rewrite H. reflexivity.
Qed.
Lemma take_inputs_stateless orig sym prev : forall want have, stateless (take_inputs orig sym prev want have).
Proof.
  induction want as [|w want IH]; intros have; [apply stateless_ret|]. cbn [take_inputs].
  destruct w as [s|], have as [|[t i|r i] have]; try apply stateless_ret; try apply stateless_raise; try apply stateless_py.
  - destruct (seq_eqb t s); [apply IH|apply stateless_raise].
  - apply stateless_bind; [apply IH|]. intros x. apply stateless_ret.
Qed.
Lemma run_op_stateless T orig callop sl i sym w : (forall sym ins, stateless (callop sym ins)) -> stateless (run_op T orig callop sl i sym w).
Proof.
  intros Hc. unfold run_op. destruct (find_op T sym) as [o|]; [|apply stateless_py]. destruct (nth_error sl i) as [x|]; [|apply stateless_py].
  cbv zeta. destruct (i <? length (op_l o)); [apply stateless_raise|]. destruct (length sl <? i + length (op_r o) + w); [apply stateless_raise|].
  apply stateless_bind; [apply take_inputs_stateless|]. intros ins. apply stateless_bind; [|intros r; apply stateless_ret].
  destruct (Hc sym ins) as [o' H]. destruct o'; eexists; intros s; rewrite H; reflexivity.
Qed.
Lemma op_loop_stateless T orig callop : (forall sym ins, stateless (callop sym ins)) -> forall fuel sl, stateless (op_loop fuel T orig callop sl).
Proof.
  intros Hc. induction fuel as [|fuel IH]; intros sl; cbn [op_loop]; [eexists; reflexivity|].
  destruct (scan_levels T (t_levels T) sl) as [[[[i sym] w]|]| |]; try apply stateless_py; [|apply stateless_ret].
  apply stateless_bind; [apply run_op_stateless; exact Hc|]. intros sl'. apply IH.
Qed.
Lemma run_slots_stateless T orig callop sl : (forall sym ins, stateless (callop sym ins)) -> stateless (run_slots T orig callop sl).
Proof.
  intros Hc. apply stateless_bind; [apply op_loop_stateless; exact Hc|]. intros sl'. unfold ends.
  destruct sl' as [|[] [|]]; try apply stateless_py; try apply stateless_ret; try apply stateless_raise;
    (destruct (filter slot_op _); [apply stateless_py|apply stateless_raise]).
Qed.
Lemma fake_stateless sym ins : stateless (fake_call sym ins).
Proof. destruct ins; [apply stateless_py|apply stateless_ret]. Qed.
Lemma fake_no_effect T func s : snd (run_slots T func fake_call (fake_slots 0 func) s) = s /\ forall s',
  fst (run_slots T func fake_call (fake_slots 0 func) s) = fst (run_slots T func fake_call (fake_slots 0 func) s').
Proof.
  destruct (run_slots_stateless T func fake_call (fake_slots 0 func) fake_stateless) as [o H]. split; [rewrite H; reflexivity|].
  intros s'. rewrite (H s), (H s'). reflexivity.
Qed.
Lemma incomplete_state T func s s' : incomplete T func s = incomplete T func s'.
Proof. unfold incomplete. destruct func as [|x func]; [reflexivity|]. rewrite (proj2 (fake_no_effect T (x :: func) s) s'). reflexivity. Qed.

(** what parsers return contains no terminator, except the terminator parser *)
Definition term_res (C : pcfg) (cur : list item) (r : pres) : Prop :=
  match r with
  | PRitems items _ false => term_free items
  | PRitems items _ true => exists sym, items = [INon NTerm sym] /\ In (PTerm sym) (pc_parsers C) /\
                            forall st, incomplete (pc_ops C) (functional_items cur) st = false
  | PRend items _ => term_free items
  | PRerr items _ => term_free items
  | _ => True
  end.
Lemma free_one x : is_term x = false -> term_free [x]. Proof. intros H. repeat constructor. exact H. Qed.
Lemma free_nil : term_free []. Proof. constructor. Qed.
Lemma call_term C rec nxt head hlen name mk lft cur : (forall t a b, is_term (mk t a b) = false) ->
  term_res C cur (fst (parse_call rec nxt head hlen name mk lft)).
Proof.
  intros Hmk. unfold parse_call. destruct (args_loop _ _ _ _ _ _ _) as [[i fi args [|]|items next| | |] l]; cbn [fst term_res]; try exact I.
  - apply free_one, Hmk.
  - apply free_nil.
  - destruct (truncate _ _ _); [|exact I]. apply free_one. reflexivity.
Qed.
Lemma array_term C rec A nxt lft cur : term_res C cur (fst (parse_array rec A nxt lft)).
Proof.
  unfold parse_array. destruct (arr_loop _ _ _ _ _ _ _ _) as [[i items elems [[]|]|items next elems| | |] l]; cbn [fst term_res]; try exact I; try apply free_nil.
  - apply free_one. reflexivity.
  - destruct (truncate _ _ _); [|exact I]. apply free_one. reflexivity.
Qed.
Lemma inner_term C rec fl nxt lft cur : term_res C cur (fst (parse_inner rec fl nxt lft)).
Proof.
  unfold parse_inner. cbv zeta. destruct (rec _ _ _) as [[sts len [[]|]|sts next| | |] l]; cbn [fst term_res]; try exact I; try apply free_nil.
  - apply free_one. reflexivity.
  - destruct (truncate _ _ _); [|exact I]. apply free_one. reflexivity.
Qed.
Lemma inline_term C rec fl nxt lft cur : term_res C cur (fst (parse_inline rec fl nxt lft)).
Proof.
  unfold parse_inline. cbv zeta. destruct (rec _ _ _) as [[sts len [[]|]|sts next| | |] l]; cbn [fst term_res]; try exact I; try apply free_nil.
  - apply free_one. reflexivity.
  - destruct (truncate _ _ _); [|exact I]. apply free_one. reflexivity.
Qed.
Ltac term_auto :=
  repeat (cbn [fst found term_res]; cbv zeta;
          match goal with
          | |- True => exact I
          | |- term_free [_] => apply free_one; reflexivity
          | |- term_free [] => apply free_nil
          | |- context [match ?x with _ => _ end] => destruct x
          end).
Lemma run_parser_term C rec p fl cur nxt lft : In p (pc_parsers C) -> term_res C cur (fst (run_parser C rec p fl cur nxt lft)).
Proof.
  intros Hin. destruct p; cbn [run_parser]; cbv zeta; cbn [fst].
  all: try solve [unfold found; term_auto].
  - unfold parse_term. destruct (fl_ign fl); [exact I|]. destruct (prefixb sym nxt); [|exact I]. cbv zeta.
    match goal with |- context [if ?c then (PRnone, _) else _] => destruct c end; [exact I|].
    destruct (pc_vars C); cbn [negb]; [|exact I]. destruct (incomplete _ _ _) eqn:Ei; [exact I|]. cbn [fst term_res].
    exists sym. split; [reflexivity|]. split; [exact Hin|]. intros st. rewrite <- Ei. apply incomplete_state.
  - destruct (match_name nxt); [|exact I]. destruct (_ && _); [|exact I]. apply call_term. reflexivity.
  - destruct (prefixb sym nxt); [|exact I]. destruct (match_name _); [|exact I]. destruct (prefixb _ _); [|exact I]. apply call_term. reflexivity.
  - destruct (prefixb _ _); [|exact I]. apply inner_term.
  - destruct (prefixb _ _); [|exact I]. apply inline_term.
  - destruct (prefixb _ _); [|exact I]. apply array_term.
Qed.
Lemma try_parsers_term C rec fl cur nxt : forall ps lft, (forall p, In p ps -> In p (pc_parsers C)) ->
  term_res C cur (fst (try_parsers C rec ps fl cur nxt lft)).
Proof.
  induction ps as [|p ps IH]; intros lft Hin; [exact I|]. cbn [try_parsers].
  pose proof (run_parser_term C rec p fl cur nxt lft (Hin p (or_introl eq_refl))) as Hg.
  destruct (run_parser C rec p fl cur nxt lft) as [[] l]; try exact Hg. apply IH. intros q Hq. apply Hin. right. exact Hq.
Qed.
Definition split_ok (C : pcfg) (sts : list (list item)) : Prop :=
  exists done cur, sts = done ++ [cur] /\ Forall (ended C) done /\ term_free cur.
Lemma parse_loop_split C rec : forall fuel fl done cur n rest lft, Forall (ended C) done -> term_free cur ->
  match fst (parse_loop C rec fuel fl done cur n rest lft) with
  | POk sts _ _ => split_ok C sts
  | PErr sts _ => split_ok C sts
  | _ => True
  end.
Proof.
  induction fuel as [|fuel IH]; intros fl done cur n rest lft Hd Hc; [exact I|]. cbn [parse_loop].
  destruct rest as [|c rest0] eqn:Er; [exists done, cur; auto|]. rewrite <- Er in *.
  pose proof (try_parsers_term C rec fl cur rest (pc_parsers C) lft (fun p H => H)) as Hg.
  destruct (try_parsers C rec (pc_parsers C) fl cur rest lft) as [[|items len endst|items e|items next| | |] l]; cbn [fst] in *; cbn [term_res] in Hg; try exact I.
  - exists done, cur. auto.
  - assert (H2 : Forall (ended C) (if endst then done ++ [cur ++ items] else done) /\ term_free (if endst then [] else cur ++ items)).
    { destruct endst.
      - destruct Hg as [sym [-> [G1 G2]]]. split; [|apply free_nil]. apply Forall_app. split; [exact Hd|]. constructor; [|constructor].
        exists cur, sym. auto.
      - split; [exact Hd|]. apply Forall_app. auto. }
    destruct H2 as [H2 H3]. destruct (len =? 0); [|apply IH; assumption]. cbn [fst]. eexists _, _. split; [reflexivity|]. auto.
  - exists done, (cur ++ items). split; [reflexivity|]. split; [exact Hd|apply Forall_app; auto].
  - exists done, (cur ++ items). split; [reflexivity|]. split; [exact Hd|apply Forall_app; auto].
Qed.
Lemma parse_split C n fl text lft :
  match fst (parse C n fl text lft) with
  | POk sts _ _ => split_ok C sts
  | PErr sts _ => split_ok C sts
  | _ => True
  end.
Proof. destruct n as [|n]; [exact I|]. cbn [parse]. apply parse_loop_split; constructor. Qed.

(** what is remembered *)
Definition keeps (C : pcfg) (rec : prec) : Prop := forall fl t l, memory_ok C l -> memory_ok C (snd (rec fl t l)).
Lemma args_keeps C rec : keeps C rec -> forall fuel nxt i fi args lft, memory_ok C lft -> memory_ok C (snd (args_loop rec fuel nxt i fi args lft)).
Proof.
  intros Hr. induction fuel as [|fuel IH]; intros nxt i fi args lft Hm; [exact Hm|]. cbn [args_loop].
  destruct (length nxt <=? i); [exact Hm|]. pose proof (Hr func_flags (skipn i nxt) lft Hm) as H.
  destruct (rec func_flags (skipn i nxt) lft) as [[sts len rf|sts next| | |] l]; try exact H. cbv zeta. cbn [snd] in H.
  destruct rf as [[]|]; try (apply IH; exact H). exact H.
Qed.
Lemma call_keeps C rec nxt head hlen name mk lft : keeps C rec -> memory_ok C lft -> memory_ok C (snd (parse_call rec nxt head hlen name mk lft)).
Proof.
  intros Hr Hm. unfold parse_call. pose proof (args_keeps C rec Hr (S (length nxt)) nxt hlen head [] lft Hm) as H.
  destruct (args_loop _ _ _ _ _ _ _) as [[i fi args [|]|items next| | |] l]; try exact H. destruct (truncate _ _ _); exact H.
Qed.
Lemma elem_keeps C rec A nxt i ai elems lft : keeps C rec -> memory_ok C lft -> memory_ok C (snd (arr_elem rec A nxt i ai elems lft)).
Proof.
  intros Hr Hm. unfold arr_elem. cbv zeta. pose proof (Hr arr_flags (skipn i nxt) lft Hm) as H1.
  destruct (rec arr_flags (skipn i nxt) lft) as [[sts len rf|sts next| | |] l]; try exact H1. cbn [snd] in H1.
  destruct (is_nil (first_st sts)); [destruct (len =? 0); exact H1|]. destruct rf as [[]|]; try exact H1.
  match goal with |- context [rec ?f ?t l] => pose proof (Hr f t l H1) as H2; destruct (rec f t l) as [[sts2 len2 rf2|sts2 next| | |] l2] end; try exact H2. cbn [snd] in H2.
  destruct (is_nil (first_st sts2)); [destruct (len2 =? 0); exact H2|]. destruct rf2 as [[]|]; try exact H2.
  match goal with |- context [rec ?f ?t l2] => pose proof (Hr f t l2 H2) as H3; destruct (rec f t l2) as [[sts3 len3 rf3|sts3 next| | |] l3] end; try exact H3. cbn [snd] in H3.
  destruct (is_nil (first_st sts3)); exact H3.
Qed.
Lemma arr_keeps C rec A : keeps C rec -> forall fuel nxt i ai elems lft, memory_ok C lft -> memory_ok C (snd (arr_loop rec fuel A nxt i ai elems lft)).
Proof.
  intros Hr. induction fuel as [|fuel IH]; intros nxt i ai elems lft Hm; [exact Hm|]. cbn [arr_loop].
  destruct (length nxt <=? i); [exact Hm|]. pose proof (elem_keeps C rec A nxt i ai elems lft Hr Hm) as H.
  destruct (arr_elem rec A nxt i ai elems lft) as [[i1 ai1 el1 rf|items next el1| | |] l]; try exact H. cbn [snd] in H.
  destruct rf as [[]|]; try (apply IH; exact H). exact H.
Qed.
Lemma array_keeps C rec A nxt lft : keeps C rec -> memory_ok C lft -> memory_ok C (snd (parse_array rec A nxt lft)).
Proof.
  intros Hr Hm. unfold parse_array. pose proof (arr_keeps C rec A Hr (S (length nxt)) nxt (length (as_open A)) [INon NArrStart (as_open A)] [] lft Hm) as H.
  destruct (arr_loop _ _ _ _ _ _ _ _) as [[i items elems [[]|]|items next elems| | |] l]; try exact H. destruct (truncate _ _ _); exact H.
Qed.
Lemma inner_keeps C rec fl nxt lft : keeps C rec -> memory_ok C lft -> memory_ok C (snd (parse_inner rec fl nxt lft)).
Proof.
  intros Hr Hm. unfold parse_inner. cbv zeta. pose proof (Hr (inner_flags fl) (skipn 1 nxt) lft Hm) as H.
  destruct (rec _ _ _) as [[sts len [[]|]|sts next| | |] l]; try exact H. destruct (truncate _ _ _); exact H.
Qed.
Lemma inline_keeps C rec fl nxt lft : keeps C rec -> memory_ok C lft -> memory_ok C (snd (parse_inline rec fl nxt lft)).
Proof.
  intros Hr Hm. unfold parse_inline. cbv zeta. pose proof (Hr (inline_flags fl) (skipn 1 nxt) lft Hm) as H.
  destruct (rec _ _ _) as [[sts len [[]|]|sts next| | |] l]; try exact H. destruct (truncate _ _ _); exact H.
Qed.
Lemma run_parser_keeps C rec p fl cur nxt lft : keeps C rec -> memory_ok C lft -> memory_ok C (snd (run_parser C rec p fl cur nxt lft)).
Proof.
  intros Hr Hm. destruct p; cbn [run_parser]; cbv zeta; cbn [snd]; try exact Hm.
  - unfold parse_term. destruct (fl_ign fl); [exact Hm|]. destruct (prefixb sym nxt); [|exact Hm]. cbv zeta.
    match goal with |- context [if ?c then (PRnone, _) else _] => destruct c end; [exact Hm|].
    destruct (pc_vars C); cbn [negb]; [|exact Hm]. destruct (incomplete _ _ _) eqn:Ei; [|exact Hm]. cbn [snd memory_ok].
    eexists. split; [reflexivity|]. intros st. rewrite <- Ei. apply incomplete_state.
  - destruct (match_name nxt); [|exact Hm]. destruct (_ && _); [|exact Hm]. apply call_keeps; assumption.
  - destruct (prefixb sym nxt); [|exact Hm]. destruct (match_name _); [|exact Hm]. destruct (prefixb _ _); [|exact Hm]. apply call_keeps; assumption.
  - destruct (prefixb _ _); [|exact Hm]. apply inner_keeps; assumption.
  - destruct (prefixb _ _); [|exact Hm]. apply inline_keeps; assumption.
  - destruct (prefixb _ _); [|exact Hm]. apply array_keeps; assumption.
Qed.
Lemma try_parsers_keeps C rec fl cur nxt : keeps C rec -> forall ps lft, memory_ok C lft -> memory_ok C (snd (try_parsers C rec ps fl cur nxt lft)).
Proof.
  intros Hr. induction ps as [|p ps IH]; intros lft Hm; [exact Hm|]. cbn [try_parsers].
  pose proof (run_parser_keeps C rec p fl cur nxt lft Hr Hm) as H.
  destruct (run_parser C rec p fl cur nxt lft) as [[] l]; try exact H. apply IH. exact H.
Qed.
Lemma parse_loop_keeps C rec : keeps C rec -> forall fuel fl done cur n rest lft, memory_ok C lft ->
  memory_ok C (snd (parse_loop C rec fuel fl done cur n rest lft)).
Proof.
  intros Hr. induction fuel as [|fuel IH]; intros fl done cur n rest lft Hm; [exact Hm|]. cbn [parse_loop].
  destruct rest as [|c rest0] eqn:Er; [exact Hm|]. rewrite <- Er in *.
  pose proof (try_parsers_keeps C rec fl cur rest Hr (pc_parsers C) lft Hm) as H.
  destruct (try_parsers C rec (pc_parsers C) fl cur rest lft) as [[|items len endst|items e|items next| | |] l]; try exact H.
  destruct (len =? 0); [exact H|]. apply IH. exact H.
Qed.
Lemma parse_keeps C : forall n, keeps C (parse C n).
Proof. induction n as [|n IH]; intros fl t l Hm; [exact Hm|]. cbn [parse]. apply parse_loop_keeps; assumption. Qed.
