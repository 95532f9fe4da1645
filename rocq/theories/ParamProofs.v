(** Calls of inline functions. *)
From Coq Require Import ZArith Ascii String List Bool Lia.
From Verif Require Import Base BaseProofs Bases Units Install InstallProofs Syntax Call CallSpec CallProofs Loop Parse Exec UnitsProofs2 Std StdSpec StdProofs2 StdProofs5 ParamSpec.
Import ListNotations.
Open Scope nat_scope.

(** * The names of the parameters *)
Lemma digit_facts c : is_digit c = true -> ten_digit c /\ Z.of_nat (nat_of_ascii c - 48) = digit_val c.
Proof. destruct c as [[] [] [] [] [] [] [] []]; cbv; intros H; try discriminate H; (split; [lia|reflexivity]). Qed.
Lemma value_snoc ds c : digits_value (ds ++ [c]) = 10 * digits_value ds + (nat_of_ascii c - 48).
Proof. unfold digits_value. rewrite fold_left_app. reflexivity. Qed.
Lemma value_Z ds : forallb is_digit ds = true -> Z.of_nat (digits_value ds) = str_val ds.
Proof.
  induction ds as [|c ds IH] using rev_ind; intros H; [reflexivity|].
  rewrite forallb_app in H. apply andb_true_iff in H as [H1 H2]. cbn [forallb] in H2. rewrite andb_true_r in H2.
  rewrite value_snoc. unfold str_val, digits_val. rewrite map_app, fold_left_app. cbn [map fold_left].
  fold (digits_val 10 (map digit_val ds)). fold (str_val ds). rewrite <- (IH H1), <- (proj2 (digit_facts c H2)). lia.
Qed.
Lemma value_pos ds : Forall ten_digit ds -> ds <> [] -> hd_error ds <> Some "0"%char -> 1 <= digits_value ds.
Proof.
  intros F N Z. induction ds as [|c ds IH] using rev_ind; [now elim N|].
  rewrite value_snoc. apply Forall_app in F as [F1 F2].
  destruct ds as [|d ds].
  - cbn [app hd_error] in Z. cbn. apply Forall_inv in F2. unfold ten_digit in F2.
    destruct (Nat.eq_dec (nat_of_ascii c) 48) as [E|E]; [|lia].
    exfalso. apply Z. f_equal. rewrite <- (ascii_nat_embedding c), E. reflexivity.
  - assert (1 <= digits_value (d :: ds)); [|lia]. apply IH; [exact F1|discriminate|exact Z].
Qed.
Lemma writes_unique : forall ds ds' k, writes ds k -> writes ds' k -> ds = ds'.
Proof.
  intros ds. induction ds as [|c ds IH] using rev_ind; intros ds' k (N & F & V & Z) (N' & F' & V' & Z'); [now elim N|].
  destruct (exists_last N') as [es [e ->]].
  rewrite value_snoc in V, V'. apply Forall_app in F as [F1 F2]. apply Forall_app in F' as [F1' F2'].
  apply Forall_inv in F2. apply Forall_inv in F2'. unfold ten_digit in F2, F2'.
  assert (E : nat_of_ascii c = nat_of_ascii e /\ digits_value ds = digits_value es) by lia. destruct E as [E1 E2].
  assert (c = e) as -> by (rewrite <- (ascii_nat_embedding c), E1; apply ascii_nat_embedding). f_equal.
  destruct ds as [|d ds], es as [|d' es]; [reflexivity| | |].
  - exfalso. assert (1 <= digits_value (d' :: es)) by (apply value_pos; [exact F1'|discriminate|exact Z']). cbn in E2. cbn in H. lia.
  - exfalso. assert (1 <= digits_value (d :: ds)) by (apply value_pos; [exact F1|discriminate|exact Z]). cbn in E2. cbn in H. lia.
  - apply (IH _ (digits_value (d :: ds))); (split; [discriminate|split; [assumption|split; [congruence|assumption]]]).
Qed.
Lemma dec_writes k : 1 <= k -> writes (dec_str (Z.of_nat k)) k.
Proof.
  intros Hk. destruct (dec_str_spec (Z.of_nat k) ltac:(lia)) as (V & D & N). split; [exact N|]. split.
  - apply Forall_forall. intros c Hc. apply digit_facts. rewrite forallb_forall in D. now apply D.
  - split; [apply Nat2Z.inj; rewrite value_Z by exact D; exact V|].
    unfold dec_str. destruct (zdigits_spec 10 (Z.of_nat k) ltac:(lia) ltac:(lia)) as (_ & F & d & ds & E & _ & P).
    rewrite E. cbn [map hd_error]. rewrite E in F. apply Forall_inv in F. specialize (P ltac:(lia)).
    intros H. assert (H1 : digit_char d = "0"%char) by (injection H; auto).
    assert (H2 := digit_char_val d ltac:(lia)). rewrite H1 in H2. cbn in H2. lia.
Qed.
Lemma param_iff k n : 1 <= k -> (names_param k n <-> n = param_name k).
Proof.
  intros Hk. split.
  - intros (ds & -> & W). unfold param_name. f_equal. apply (writes_unique _ _ k W). now apply dec_writes.
  - intros ->. exists (dec_str (Z.of_nat k)). split; [reflexivity|now apply dec_writes].
Qed.
Lemma param_inj i j : param_name i = param_name j -> i = j.
Proof.
  unfold param_name. intros H. apply app_inv_head in H. apply dec_str_inj in H; lia.
Qed.
Lemma set_params_assoc : forall ins i V n,
  assoc n (set_params i (map rval ins) (map runit ins) V) =
  match find (fun k => seq_eqb (param_name (i + k)) n) (seq 0 (length ins)) with
  | Some k => match nth_error ins k with Some r => Some (rval r, runit r) | None => None end
  | None => assoc n V
  end.
Proof.
  induction ins as [|r ins IH]; intros i V n; [reflexivity|].
  cbn [map set_params length seq find]. rewrite IH, Nat.add_0_r, assoc_dset.
  rewrite <- seq_shift.
  assert (S : forall l, find (fun k => seq_eqb (param_name (i + k)) n) (map S l) =
                        match find (fun k => seq_eqb (param_name (S i + k)) n) l with Some k => Some (S k) | None => None end).
  { induction l as [|x l IHl]; [reflexivity|]. cbn [map find]. rewrite Nat.add_succ_r, Nat.add_succ_l.
    destruct (seq_eqb (param_name (S (i + x))) n); [reflexivity|]. exact IHl. }
  rewrite S. destruct (seq_eqb (param_name i) n) eqn:E.
  - apply seq_eqb_iff in E. subst n.
    destruct (find _ (seq 0 (length ins))) as [k|] eqn:F; [|reflexivity].
    apply find_some in F as [_ F]. apply seq_eqb_iff in F. apply param_inj in F. lia.
  - destruct (find _ (seq 0 (length ins))) as [k|]; reflexivity.
Qed.
Lemma enters ins V : entered ins V (set_params 1 (map rval ins) (map runit ins) V).
Proof.
  split.
  - intros k r n Hk Hn. apply param_iff in Hn; [|lia]. subst n. rewrite set_params_assoc.
    destruct (find _ _) as [j|] eqn:F.
    + apply find_some in F as [_ F]. apply seq_eqb_iff in F. apply param_inj in F. assert (j = k) as -> by lia. now rewrite Hk.
    + exfalso. assert (I : In k (seq 0 (length ins))).
      { apply in_seq. split; [lia|]. apply nth_error_Some. rewrite Hk. discriminate. }
      assert (X := find_none _ _ F k I). cbn beta in X. rewrite seq_eqb_refl in X. discriminate X.
  - intros n H. rewrite set_params_assoc. destruct (find _ _) as [j|] eqn:F; [|reflexivity].
    apply find_some in F as [I F]. apply in_seq in I. apply seq_eqb_iff in F. exfalso. apply (H j); [lia|].
    apply param_iff; [lia|]. now rewrite <- F.
Qed.

(** * The statements of the body *)
Lemma split_app : forall p cur q, Forall (fun i => ~ ends_part i) p -> split_terms (p ++ q) cur = split_terms q (cur ++ p).
Proof.
  induction p as [|i p IH]; intros cur q F; [now rewrite app_nil_r|]. apply Forall_cons_iff in F as [F1 F2].
  cbn [app split_terms].
  assert (E : split_terms (i :: p ++ q) cur = split_terms (p ++ q) (cur ++ [i])).
  { destruct i; try reflexivity. destruct k; try reflexivity. exfalso. apply F1. eexists. reflexivity. }
  cbn [split_terms] in E. rewrite E, (IH _ _ F2), <- app_assoc. reflexivity.
Qed.
Lemma split_parts : forall items ps, body_parts items ps -> split_terms items [] = ps.
Proof.
  intros items ps H. induction H as [p F|p t q ps F [x ->] _ IH].
  - rewrite <- (app_nil_r p) at 1. now rewrite (split_app p [] [] F).
  - rewrite (split_app p [] _ F). cbn [app split_terms]. now rewrite IH.
Qed.
Lemma worth_filter : forall ps sts, worth_running ps sts -> filter (fun l => negb (is_nil (functional_items l))) ps = sts.
Proof.
  intros ps sts H. induction H as [|p ps sts (i & I & F) _ IH|p ps sts F _ IH]; [reflexivity| |]; cbn [filter].
  - assert (E : In i (functional_items p)) by (apply filter_In; split; assumption).
    destruct (functional_items p); [destruct E|]. cbn [is_nil negb]. now rewrite IH.
  - assert (E : functional_items p = []).
    { unfold functional_items. clear -F. induction p as [|i p IHp]; [reflexivity|]. cbn [filter]. rewrite (F i) by now left.
      apply IHp. intros j Hj. apply F. now right. }
    rewrite E. exact IH.
Qed.
Lemma body_statements items sts : body_of items sts -> statements_of items = sts.
Proof. intros (ps & P & W). unfold statements_of. rewrite (split_parts _ _ P). now apply worth_filter. Qed.
Lemma run_all_done : forall f l s r s', done f l s r s' -> forall last, run_all f l last s = (OOk (Some r), s').
Proof.
  intros f l s r s' H. induction H as [x s r s' H|x l s r0 s1 r s' H _ IH]; intros last; cbn [run_all]; unfold bind; rewrite H; [reflexivity|apply IH].
Qed.
Lemma done_run_all : forall f l last s r s', run_all f l last s = (OOk (Some r), s') -> l <> [] -> done f l s r s'.
Proof.
  intros f l. induction l as [|x l IH]; intros last s r s' H N; [now elim N|]. cbn [run_all] in H. unfold bind in H.
  destruct (f x s) as [[v|e| |] s1] eqn:E; try discriminate H.
  destruct l as [|y l].
  - cbn [run_all] in H. unfold ret in H. assert (v = r /\ s1 = s') as [-> ->] by (split; congruence). now apply done_last.
  - apply (done_more f x _ s v s1); [exact E|]. apply (IH (Some v)); [exact H|discriminate].
Qed.

(** * The call *)
Lemma inline_prepare E rec items ins : (forall r, In r ins -> simple (rval r)) ->
  prepare E (inline_def rec items) (map rval ins) (map runit ins) (map rref ins) = Ok (map rval ins, map runit ins, None, None).
Proof.
  intros H. unfold prepare. assert (V : validate E (inline_def rec items) (map rval ins) (map runit ins) (map rref ins) = Ok tt) by reflexivity.
  rewrite V. cbn [obind o_autoin inline_def fst snd]. destruct (all_numbers _ _ _ _).
  - cbn [o_norm]. destruct (e_norm E); reflexivity.
  - rewrite norm_arrays_scalar; [reflexivity|]. intros l Hl. apply in_map_iff in Hl as (x & E1 & E2). apply (proj1 (H x E2) l E1).
Qed.
Lemma inline_call E h rec items stl ins s : (forall r, In r ins -> simple (rval r)) ->
  call E h (inline_def rec items) stl ins s =
  match inline_impl rec items stl (map rval ins) (map runit ins) s with
  | (OOk o, s') => (OOk (finish (inline_def rec items) None None o), s')
  | (OErr e, s') => if wrapped e then (OErr e, s')
                    else if forallb (e_tostr E) ins then (OErr (XCalc true (MOp ($"inline function"))), s') else (OPy, s')
  | (OPy, s') => if forallb (e_tostr E) ins then (OErr (XCalc false (MOp ($"inline function"))), s') else (OPy, s')
  | (OFuel, s') => (OFuel, s')
  end.
Proof.
  intros H. rewrite call_scalars; [| |reflexivity].
  - unfold call_plain. assert (F : find_exc ins = None).
    { unfold find_exc. destruct (find _ ins) as [r|] eqn:F; [|reflexivity]. apply find_some in F as [I F]. exfalso.
      destruct (rval r) eqn:Er; try discriminate F. apply (proj2 (H r I) e Er). }
    cbn [o_excs inline_def]. rewrite F. fold (inline_def rec items). cbv zeta. rewrite (inline_prepare E rec items ins H).
    unfold bind, lift, ret. cbn [fst snd o_impl inline_def o_name].
    destruct (inline_impl rec items stl _ _ s) as [[o|e| |] s']; reflexivity.
  - apply forallb_forall. intros r I. destruct (H r I) as [A _]. destruct (rval r); try reflexivity. now elim (A l).
Qed.
Lemma inline_gives E h rec items sts stl ins s r s1 w : body_of items sts -> (forall r, In r ins -> simple (rval r)) ->
  done (rec stl) sts (set_vars s (set_params 1 (map rval ins) (map runit ins) (s_vars s))) r s1 -> handed_back (rval r) w ->
  call E h (inline_def rec items) stl ins s = (OOk (mkRes w (runit r) None), set_vars s1 (s_vars s)).
Proof.
  intros B H D [N W]. rewrite inline_call by exact H. unfold inline_impl. rewrite (body_statements _ _ B). cbv zeta.
  rewrite (run_all_done _ _ _ _ _ D None). destruct (rval r) eqn:Er; subst w; try reflexivity. now elim (N e).
Qed.
Lemma inline_given E h rec items sts stl ins s x s' : body_of items sts -> (forall r, In r ins -> simple (rval r)) ->
  call E h (inline_def rec items) stl ins s = (OOk x, s') ->
  exists r s1 w, done (rec stl) sts (set_vars s (set_params 1 (map rval ins) (map runit ins) (s_vars s))) r s1 /\ handed_back (rval r) w /\
    x = mkRes w (runit r) None /\ s' = set_vars s1 (s_vars s).
Proof.
  intros B H. rewrite inline_call by exact H. unfold inline_impl. rewrite (body_statements _ _ B). cbv zeta.
  destruct (run_all _ sts None _) as [[[r|]|e| |] s1] eqn:R.
  - assert (N : sts <> []) by (intros ->; cbn [run_all] in R; unfold ret in R; discriminate R).
    assert (D := done_run_all _ _ _ _ _ _ R N). intros C. exists r, s1.
    assert (X : forall v, (forall e, v <> VExc e) -> rval r = v ->
      (OOk (finish (inline_def rec items) None None (mkOR v (Some (runit r)) None)), set_vars s1 (s_vars s)) = (OOk x, s') ->
      exists w, done (rec stl) sts (set_vars s (set_params 1 (map rval ins) (map runit ins) (s_vars s))) r s1 /\ handed_back (rval r) w /\
        x = mkRes w (runit r) None /\ s' = set_vars s1 (s_vars s)).
    { intros v Nv Ev Cv. exists (match v with VList l => VList (map restore l) | _ => v end). split; [exact D|]. split.
      - rewrite Ev. split; [exact Nv|]. destruct v; reflexivity.
      - assert (C1 : finish (inline_def rec items) None None (mkOR v (Some (runit r)) None) = x) by congruence.
        split; [|congruence]. rewrite <- C1. destruct v; reflexivity. }
    destruct (rval r) as [| | | | | |e|] eqn:Er; try (eapply X; [|reflexivity|exact C]; discriminate).
    destruct (wrapped e); [discriminate C|]. destruct (forallb (e_tostr E) ins); discriminate C.
  - destruct (forallb (e_tostr E) ins); discriminate.
  - destruct e as [[] m|m its nx tr]; cbn; try discriminate; destruct (forallb (e_tostr E) ins); discriminate.
  - destruct (forallb (e_tostr E) ins); discriminate.
  - discriminate.
Qed.

(** * The item for a call *)
Lemma inputs_args rec stl text items mk args s ins s1 : inputs (rec stl) args s ins s1 -> forall k acc,
  eval_args rec stl false text items mk args k acc s = (OOk (acc ++ ins), s1).
Proof.
  intros H. induction H as [s|a l s r s1 rs s' E [N X] _ IH]; intros k acc; cbn [eval_args].
  - now rewrite app_nil_r.
  - rewrite E. replace (acc ++ r :: rs) with ((acc ++ [r]) ++ rs) by now rewrite <- app_assoc.
    cbv zeta. destruct (rval r); try apply IH. now elim (X e).
Qed.
Lemma inputs_simple f args s ins s1 : inputs f args s ins s1 -> forall r, In r ins -> simple (rval r).
Proof. intros H. induction H as [s|a l s r s1 rs s' E N _ IH]; intros x [].  - now subst x. - now apply IH. Qed.
Lemma ptr_call G rec stl text tr items name args s ins s1 body v u : g_inline G = true ->
  assoc name (s_vars s) = Some (v, u) -> is_function body v -> inputs (rec stl) args s ins s1 ->
  eval_item G rec stl (IPtr text tr items name args) s = call (g_env G) (callop G stl) (inline_def rec body) stl ins s1.
Proof.
  intros HG HV (t & b & ->) HI. cbn [eval_item]. unfold eval_ptr. rewrite HV. unfold bind.
  rewrite (inputs_args _ _ _ _ _ _ _ _ _ HI 2 []). cbn [app]. unfold call_pointer, pointer_def. rewrite HG. reflexivity.
Qed.
Lemma ptr_calls G rec stl text tr items name args s ins s1 bodies l u rs s2 : g_inline G = true ->
  assoc name (s_vars s) = Some (VList l, u) -> Forall2 is_function bodies (map rval l) -> inputs (rec stl) args s ins s1 ->
  called (rec stl) (set_params 1 (map rval ins) (map runit ins)) bodies s1 rs s2 ->
  eval_item G rec stl (IPtr text tr items name args) s = (OOk (mkRes (VList rs) None None), s2).
Proof.
  intros HG HV HF HI HC. cbn [eval_item]. unfold eval_ptr. rewrite HV. unfold bind at 1.
  rewrite (inputs_args _ _ _ _ _ _ _ _ _ HI 2 []). cbn [app].
  assert (HS := inputs_simple _ _ _ _ _ HI). clear HV HI.
  assert (E : call_pointers (call_pointer G rec stl (IPtr [] tr [] name args) ins) (map rval l) s1 = (OOk rs, s2));
    [|unfold bind; rewrite E; reflexivity].
  revert HF. generalize (map rval l) as vs. induction HC as [s1|b sts bodies s1 r s3 w rs s4 B D W _ IH]; intros vs HF.
  - apply Forall2_nil_inv_l in HF || inversion HF; subst; reflexivity.
  - destruct vs as [|v vs]; [inversion HF|]. assert (HF1 : is_function b v) by (inversion HF; assumption).
    assert (HF2 : Forall2 is_function bodies vs) by (inversion HF; assumption). destruct HF1 as (t & b' & ->).
    cbn [call_pointers]. unfold bind at 1. unfold call_pointer at 1, pointer_def. rewrite HG.
    rewrite (inline_gives (g_env G) (callop G stl) rec b sts stl ins s1 r s3 w B HS D W).
    unfold bind. rewrite (IH vs HF2). reflexivity.
Qed.

(** * A function that calls itself does not stop. *)
Lemma harmless_split name body : Forall (harmless name) body -> Exists (self_call name) body -> forall cur, split_terms body cur = [cur ++ body].
Proof.
  intros F _. induction body as [|i body IH]; intros cur; [now rewrite app_nil_r|]. apply Forall_cons_iff in F as [F1 F2].
  assert (E : split_terms (i :: body) cur = split_terms body (cur ++ [i])).
  { destruct F1 as [[y ->]|[(t & v & ->)|[[x ->]|[(k & t & -> & N)|(t & tr & its & ->)]]]]; try reflexivity. destruct k; try reflexivity. now elim N. }
  rewrite E, (IH F2), <- app_assoc. reflexivity.
Qed.
Lemma self_functional name body : Exists (self_call name) body -> is_nil (functional_items body) = false.
Proof.
  intros H. apply Exists_exists in H as (i & I & t & tr & its & ->).
  assert (E : In (IPtr t tr its name []) (functional_items body)) by (apply filter_In; split; [exact I|reflexivity]).
  destruct (functional_items body); [destruct E|reflexivity].
Qed.
Lemma no_stop G name stl body v u : g_inline G = true -> is_function body v -> Forall (harmless name) body -> Exists (self_call name) body ->
  forall n items s, Forall (harmless name) items -> Exists (self_call name) items ->
  assoc name (s_vars s) = Some (v, u) -> fst (execute G n stl items s) = OFuel.
Proof.
  intros HG HF FB EB. induction n as [|n IH]; intros items s FI EI HV; [reflexivity|].
  cbn [execute]. unfold execute_body. rewrite (self_functional name items EI). unfold bind at 1.
  assert (E : forall l k sl orig, Forall (harmless name) l -> Exists (self_call name) l ->
    fst (eval_operands G (execute G n) stl l k sl orig s) = OFuel);
    [|specialize (E items 0 [] [] FI EI); destruct (eval_operands G (execute G n) stl items 0 [] [] s) as [o s']; cbn [fst] in E; now subst o].
  induction l as [|i l IHl]; intros k sl orig FL EL; [inversion EL|]. apply Forall_cons_iff in FL as [F1 F2].
  assert (P : forall t tr its, fst (eval_item G (execute G n) stl (IPtr t tr its name []) s) = OFuel).
  { intros t tr its. rewrite (ptr_call G (execute G n) stl t tr its name [] s [] s body v u HG HV HF (inputs_nil _ s)).
    rewrite inline_call by (intros r []). unfold inline_impl. unfold statements_of. rewrite (harmless_split name body FB EB []).
    cbn [app filter]. rewrite (self_functional name body EB). cbn [negb map set_params run_all]. cbv zeta. unfold bind.
    assert (X := IH body (set_vars s (s_vars s)) FB EB HV). destruct (execute G n stl body (set_vars s (s_vars s))) as [o s'].
    cbn [fst] in X. now subst o. }
  assert (Q : (exists t tr its, i = IPtr t tr its name []) -> fst (eval_operands G (execute G n) stl (i :: l) k sl orig s) = OFuel).
  { intros (t & tr & its & ->). cbn [eval_operands ifunc]. unfold bind at 1, eval_operand. specialize (P t tr its).
    destruct (eval_item G (execute G n) stl (IPtr t tr its name []) s) as [o s']. cbn [fst] in P. now subst o. }
  destruct F1 as [[y ->]|[(t & w & ->)|[[x ->]|[(q & t & -> & N)|C]]]]; [| | | |now apply Q];
    (assert (EL' : Exists (self_call name) l) by (apply Exists_cons in EL as [(t' & tr' & its' & D)|D]; [discriminate D|exact D]));
    cbn [eval_operands ifunc].
  - now apply IHl.
  - unfold bind, eval_operand. cbn [eval_item]. unfold ret. cbn [fst snd]. now apply IHl.
  - unfold bind, eval_operand. cbn [eval_item]. destruct (assoc x (s_vars s)) as [[v' u']|]; cbn [fst snd]; now apply IHl.
  - now apply IHl.
Qed.

(** * One item with blanks around it *)
Lemma run_item L k stl w0 i w1 v s s1 : blanks w0 -> blanks w1 -> ifunc i = true -> iisop i = false ->
  eval_item (std L) (execute (std L) k) stl i s = (OOk v, s1) -> usable v ->
  execute (std L) (S k) stl (w0 ++ [i] ++ w1) s = (OOk v, s1).
Proof.
  intros B0 B1 Hf Ho He Hv. cbn [execute]. unfold execute_body.
  rewrite (functional_in _ i); [|rewrite !in_app_iff; cbn [In]; tauto|exact Hf].
  set (G := std L) in *. set (rec := execute G k) in *.
  assert (E : exists orig, eval_operands G rec stl (w0 ++ [i] ++ w1) 0 [] [] s = (OOk ([SRes v 0], orig), s1)).
  { eexists. rewrite (operands_blank _ _ _ w0) by exact B0. cbn [app].
    rewrite (operands_item _ _ _ _ _ _ _ _ v s s1); [|exact Hf|exact Ho|exact He].
    rewrite operands_end by exact B1. reflexivity. }
  destruct E as [orig E]. unfold bind at 1. rewrite E. clear E.
  assert (S2 : run_slots (g_ops G) orig (callop G stl) [SRes v 0] s1 = (OOk v, s1)).
  { unfold run_slots. replace (loop_fuel [SRes v 0]) with 3 by reflexivity. unfold bind. cbn [op_loop].
    assert (S2 : scan_levels (g_ops G) (t_levels (g_ops G)) [SRes v 0] = Ok None).
    { unfold G. lazy -[slot_unit]. destruct (slot_unit (SRes v 0)); reflexivity. }
    rewrite S2. reflexivity. }
  rewrite S2. unfold usable in Hv. destruct (rval v); try reflexivity. discriminate Hv.
Qed.
Lemma filling_blanks w : filling w -> blanks w.
Proof. apply Forall_impl. now intros i []. Qed.
Lemma filling_body w0 i w1 : filling w0 -> filling w1 -> ifunc i = true -> body_of (w0 ++ [i] ++ w1) [w0 ++ [i] ++ w1].
Proof.
  intros F0 F1 Hi. exists [w0 ++ [i] ++ w1]. split.
  - apply body_parts_one. apply Forall_app. split; [revert F0; apply Forall_impl; tauto|]. constructor; [|revert F1; apply Forall_impl; tauto].
    intros [t ->]. discriminate Hi.
  - apply worth_take; [|constructor]. exists i. split; [|exact Hi]. rewrite in_app_iff. right. now left.
Qed.
