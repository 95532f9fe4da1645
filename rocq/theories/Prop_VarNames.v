(** C71: names are read whole, and any name but a few can be the name of a variable. *)
From Coq Require Import ZArith QArith Ascii String List Bool Lia.
From Verif Require Import Base BaseProofs Dec Num NumProofs Lex LexSpec LexProofs NumSpec Bases Formats Units Install InstallProofs Syntax Pos Call CallSpec Loop LoopSpec Parse ParseSpec Exec ExecSpec Std StdSpec StdRun StdProofs StdProofs2 TextSpec TextProofs VarNameSpec VarNameProofs.
Import ListNotations.
Open Scope nat_scope.

(** Anywhere in a text, whatever was read before: a name is read as one variable, up to its last letter, digit or
    underscore.  It must not be taken, not be a function called here, and not start with [step] in an array. *)
Theorem c71_read_whole : forall L rec fl cur n rest lft, is_name n -> name_over rest -> ~ taken n ->
  (fl_arr fl = true -> ~ starts ($"step") n) -> ~ (In n (map fst (std_funcs L)) /\ starts ($"(") rest) ->
  try_parsers (std_pcfg L) rec (pc_parsers (std_pcfg L)) fl cur (n ++ rest) lft = (PRitems [IVar n] (length n) false, lft).
Proof. exact name_read. Qed.
Print Assumptions c71_read_whole.

(** The name alone answers the value and unit of the variable, none if there is none, and changes nothing *)
Theorem c71_value : forall L k fl n s v u, is_name n -> ~ taken n -> cf_parse_only fl = false -> is_exc v = false ->
  match assoc n (s_vars s) with Some x => x = (v, u) | None => v = VNone /\ u = None end ->
  exists rs, calculate (std L) (S k) fl n s = (CDone rs, s) /\ map cr_answer rs = [Some (v, u)].
Proof.
  intros L k fl n s v u Hn Ht Hp Hv Hs. unfold calculate, calculate_with. destruct n as [|c n'] eqn:En; [destruct Hn as (? & ? & ? & _); discriminate|]. rewrite <- En in *.
  rewrite (name_parse L n (s_lft s) Hn Ht : parse_text (g_parse (std L)) n (s_lft s) = _). cbv beta iota zeta.
  replace (mkSt (s_vars s) (s_lft s)) with s by (destruct s; reflexivity). cbn [run_statements]. rewrite Hp.
  replace (is_nil (functional_items [IVar n])) with false by reflexivity. cbn [orb].
  destruct (run_get L k (cf_stl fl) n s) as [R|(e & w & E)].
  - rewrite R. assert (Er : match assoc n (s_vars s) with Some (v0, u0) => mkRes v0 u0 (Some (RVar n)) | None => mkRes VNone None (Some (RVar n)) end = mkRes v u (Some (RVar n))).
    { destruct (assoc n (s_vars s)) as [[v0 u0]|]; [injection Hs as -> ->; reflexivity|destruct Hs as [-> ->]; reflexivity]. }
    rewrite Er. cbn [rval runit g_final std]. destruct v; try discriminate; eexists; (split; [reflexivity|]); reflexivity.
  - exfalso. rewrite E in Hs. injection Hs as <- _. discriminate Hv.
Qed.
Print Assumptions c71_value.

(** Copying one variable to another, with blanks or none around the sign: then both have the value and unit, no other
    variable changes.  The answer is the value (for an array, with its elements as arrays keep them). *)
Theorem c71_copy : forall L k fl n i j m s v u, is_name n -> ~ taken n -> is_name m -> ~ taken m ->
  cf_parse_only fl = false -> cf_stl fl = false -> is_exc v = false -> assoc m (s_vars s) = Some (v, u) ->
  (forall w x, assoc n (s_vars s) = Some (w, x) -> is_exc w = false) ->
  exists rs s', calculate (std L) (S k) fl (n ++ gap i ++ $"=" ++ gap j ++ m) s = (CDone rs, s') /\
    (exists a, map cr_answer rs = [Some (a, u)] /\ ((forall l, v <> VList l) -> a = v)) /\
    assoc n (s_vars s') = Some (v, u) /\ assoc m (s_vars s') = Some (v, u) /\
    (forall x, x <> n -> assoc x (s_vars s') = assoc x (s_vars s)).
Proof.
  intros L k fl n i j m s v u Hn Ht Hm Hu Hp Hl Hv Hs Ho. unfold calculate, calculate_with.
  destruct (n ++ gap i ++ $"=" ++ gap j ++ m) as [|c t'] eqn:Et; [exfalso; destruct Hn as (? & ? & -> & _); discriminate|]. rewrite <- Et. clear Et c t'.
  rewrite (copy_parse L n i j m (s_lft s) Hn Ht Hm Hu : parse_text (g_parse (std L)) _ (s_lft s) = _). cbv beta iota zeta.
  replace (mkSt (s_vars s) (s_lft s)) with s by (destruct s; reflexivity). cbn [run_statements]. rewrite Hp.
  set (its := [IVar n] ++ repeat (INon NSpace ($" ")) i ++ [IOp ($"=")] ++ repeat (INon NSpace ($" ")) j ++ [IVar m]).
  replace (is_nil (functional_items its)) with false by reflexivity. cbn [orb].
  assert (B : forall q, blanks (repeat (INon NSpace ($" ")) q)) by (intros q; apply Forall_forall; intros x Hx; apply repeat_spec in Hx; subst x; reflexivity).
  assert (E : eval_item (std L) (execute (std L) k) false (IVar m) s = (OOk (mkRes v u (Some (RVar m))), s)) by (cbn [eval_item]; rewrite Hs; reflexivity).
  pose proof (run_set L k false [] n (repeat (INon NSpace ($" ")) i) (repeat (INon NSpace ($" ")) j) (IVar m) [] (mkRes v u (Some (RVar m))) s s
    (Forall_nil _) (B i) (B j) (Forall_nil _) eq_refl eq_refl Ho E Hv) as R.
  cbn [app] in R. rewrite Hl.
  replace (execute (std L) (S k) false its s) with (OOk (mkRes (shown v) u None), mkSt (dset n (v, u) (s_vars s)) (s_lft s)) by (symmetry; exact R).
  cbn [rval runit g_final std].
  assert (D : is_exc (shown v) = false) by (destruct v; try reflexivity; discriminate).
  set (s' := mkSt (dset n (v, u) (s_vars s)) (s_lft s)).
  exists [mkCR its (Some (shown v, u)) (if cf_state fl then Some (s_vars s') else None)], s'. split; [destruct (shown v); try reflexivity; discriminate|].
  split; [exists (shown v); split; [reflexivity|]; intros K; destruct v; try reflexivity; exfalso; exact (K l eq_refl)|].
  unfold s'. cbn [s_vars]. split; [rewrite assoc_dset, seq_eqb_refl; reflexivity|]. split.
  - rewrite assoc_dset. destruct (seq_eqb n m); [reflexivity|exact Hs].
  - intros x Hx. rewrite assoc_dset. destruct (seq_eqb n x) eqn:Q; [|reflexivity]. apply seq_eqb_iff in Q. congruence.
Qed.
Print Assumptions c71_copy.

(** A constant is found first even if a digit or underscore follows, and the rest of the name is left *)
Theorem c71_constant_first : forall L rec fl cur w d r lft, In w constant_names -> name_char d -> ~ letter d ->
  exists v u, assoc w (std_consts L) = Some (v, u) /\
    try_parsers (std_pcfg L) rec (pc_parsers (std_pcfg L)) fl cur (w ++ d :: r) lft = (PRitems [IConst w v u] (length w) false, lft).
Proof. exact const_read. Qed.
Print Assumptions c71_constant_first.

(** What the constants are worth, when the precision is at least fifty; they are in no format of their own, so that of the other operand is taken *)
Theorem c71_constant_value : forall L w q, (50 <= l_prec L)%Z -> constant_value w q ->
  exists n, assoc w (std_consts L) = Some (LNum n, None) /\ (val n == q)%Q /\ lowest n /\ ncast n = None.
Proof.
  intros L w q P [H|[H|[H|[]]]]; injection H as <- <-.
  all: match goal with |- context [assoc ?w _] => set (t := w) end.
  1: pose (x := $"2.71828182845904523536028747135266249775724709369995").
  2: pose (x := $"3.14159265358979323846264338327950288419716939937511").
  3: pose (x := $"6.28318530717958647692528676655900576839433879875022").
  all: assert (E : exists l, match_number x = Some (l, []) /\ lit_ok l /\ (match l_frac l with Some f => length f = 50%nat | None => True end) /\ assoc t (std_consts L) = Some (the_number L x)).
  1, 3, 5: eexists; split; [vm_compute; reflexivity|]; split; [repeat constructor; lazy; discriminate|]; split; [reflexivity|reflexivity].
  all: destruct E as (l & M & K & F & A); rewrite A; unfold the_number; rewrite M.
  all: destruct (number_of_lit_exact (l_prec L) l) as (n & N & V & _ & Lo); [lia|exact K|destruct (l_frac l); [rewrite F; exact P|exact I]|].
  all: rewrite N; exists n; split; [reflexivity|]; split; [rewrite V; vm_compute in M; injection M as <-; vm_compute; reflexivity|]; split; [exact Lo|].
  all: unfold number_of_lit in N; clear - N; unfold num_make in N; destruct (Qeq_bool 1 0); [discriminate N|].
  all: destruct (if q_is_int (decimal_of_lit l) then _ else _) as [a b]; destruct (if q_is_int b then _ else _) as [c d]; injection N as <-; unfold num_reduce; destruct (if (_ <? 0)%Z then _ else _) as [u v]; destruct (1 <? Z.gcd u v)%Z; reflexivity.
Qed.
Print Assumptions c71_constant_value.
Example c71_constant_ex : (50 <= l_prec demo)%Z /\ map answer ["pi - pi + 0x10"; "0x10 + pi - pi"; "tau - 2 * pi"; "16 - pi + pi"]%string = ["0x10"; "0x10"; "0"; "16"]%string.
Proof. split; [lazy; discriminate|vm_compute; reflexivity]. Qed.

(** So not every name that is no other word can be a variable: [pi2 = 5] is an error, though [p2 = 5] is none *)
Theorem c71_any_name_refuted : exists n, is_name n /\ ~ In n operator_words /\ ~ caseless n ($"true") /\ ~ caseless n ($"false") /\
  ~ In n constant_names /\ ~ In n format_names /\ ~ In n (map fst (std_funcs demo)) /\
  exists p rs sts nx tr s', calculate (std demo) 20 plain_flags (n ++ $" = 5") (mkSt [] None) = (CFail p rs sts nx tr, s').
Proof.
  exists ($"pi2"). split; [exists "p"%char, ($"i2"); split; [reflexivity|]; split; [left; right; lazy; intuition discriminate|]; repeat constructor; unfold name_char, letter; lazy; intuition discriminate|].
  split; [lazy; intuition discriminate|]. split; [intros H; apply caseless_iff in H; lazy in H; discriminate H|].
  split; [intros H; apply caseless_iff in H; lazy in H; discriminate H|].
  split; [lazy; intuition discriminate|]. split; [lazy; intuition discriminate|]. split; [lazy; intuition discriminate|].
  do 6 eexists. vm_compute. reflexivity.
Qed.
Print Assumptions c71_any_name_refuted.
(** In an array a name that starts with [step] is not read whole: [[steps]] is an error where [[stop]] is none *)
Theorem c71_step_refuted : exists n, is_name n /\ ~ taken n /\
  answer "steps = 5"%string = "5"%string /\ (exists rs s', calculate (std demo) 20 plain_flags n (mkSt [(n, (VBool true, None))] None) = (CDone rs, s')) /\
  exists p rs sts nx tr s', calculate (std demo) 20 plain_flags ($"[" ++ n ++ $"]") (mkSt [(n, (VBool true, None))] None) = (CFail p rs sts nx tr, s').
Proof.
  exists ($"steps"). split; [exists "s"%char, ($"teps"); split; [reflexivity|]; split; [left; right; lazy; intuition discriminate|]; repeat constructor; unfold name_char, letter; lazy; intuition discriminate|].
  split; [|split; [vm_compute; reflexivity|split; [do 2 eexists; vm_compute; reflexivity|do 6 eexists; vm_compute; reflexivity]]].
  unfold taken. intros [H|[H|[H|[[r H]|[(w & Hw & r & H & _)|(w & Hw & r & H & _)]]]]].
  - revert H. lazy. intuition discriminate.
  - apply caseless_iff in H. lazy in H. discriminate H.
  - apply caseless_iff in H. lazy in H. discriminate H.
  - discriminate H.
  - unfold constant_names in Hw. cbn [map In] in Hw. repeat (destruct Hw as [<-|Hw]; [discriminate H|]). destruct Hw.
  - unfold format_names in Hw. cbn [map In] in Hw. repeat (destruct Hw as [<-|Hw]; [discriminate H|]). destruct Hw.
Qed.
Print Assumptions c71_step_refuted.

(** Names that meet the conditions, and the answers *)
Example c71_name_ex : is_name ($"total_2") /\ ~ taken ($"total_2").
Proof.
  split; [exists "t"%char, ($"otal_2"); split; [reflexivity|]; split; [left; right; lazy; intuition discriminate|]; repeat constructor; unfold name_char, letter; lazy; intuition discriminate|].
  unfold taken. intros [H|[H|[H|[[r H]|[(w & Hw & r & H & _)|(w & Hw & r & H & _)]]]]].
  - revert H. lazy. intuition discriminate.
  - apply caseless_iff in H. lazy in H. discriminate H.
  - apply caseless_iff in H. lazy in H. discriminate H.
  - discriminate H.
  - unfold constant_names in Hw. cbn [map In] in Hw. repeat (destruct Hw as [<-|Hw]; [discriminate H|]). destruct Hw.
  - unfold format_names in Hw. cbn [map In] in Hw. repeat (destruct Hw as [<-|Hw]; [discriminate H|]). destruct Hw.
Qed.
Example c71_answers_ex : let s := mkSt [($"total_2", (VBool true, None))] None in
  map cr_answer (match fst (calc_in s ($"total_2")) with CDone rs => rs | _ => [] end) = [Some (VBool true, None)] /\
  vars_of (snd (calc_in s ($"_x9  = total_2"))) ($"_x9") = Some (VBool true, None).
Proof. vm_compute. split; reflexivity. Qed.
(** [boolean] is the name of a format, though nothing can be shown in it *)
Example c71_boolean_ex : answer "boolean = 3" = "execute error"%string /\ answer "booleans = 3" = "3"%string.
Proof. vm_compute. split; reflexivity. Qed.
