(** C20, C21, C22, C40, C41, C42, C43: parsing. *)
From Coq Require Import ZArith QArith Ascii String List Bool Lia.
From Verif Require Import Base Dec Num Lex Bases Units Syntax Pos PosSpec Call Loop Parse ParseSpec PosProofs ParseProofs ParseProofs2.
Import ListNotations.
Open Scope nat_scope.

(** C20: whatever parsers are installed, in whatever order, and whatever the number, unit and word lists are, a
    successful parse gives statements whose texts spell the input, and all the nested items spell their own texts. *)
Theorem c20_lossless : forall C text lft sts len rf, fst (parse_text C text lft) = POk sts len rf ->
  concat (map items_text sts) = text /\ len = length text /\ rf = None /\ Forall (Forall spelled) sts.
Proof.
  intros C text lft sts len rf E. pose proof (parse_text_good C text lft) as H. rewrite E in H.
  destruct H as [body [rest [E1 [E2 [E3 [E4 [E5 _]]]]]]].
  destruct rf as [e|]; [destruct E5 as [_ E5]; destruct e; discriminate|]. cbn [extra] in E3. rewrite app_nil_r in E3.
  subst rest. rewrite app_nil_r in E1. subst body len. split; [exact E3|]. split; [reflexivity|]. split; [reflexivity|exact (proj1 E4)].
Qed.
Print Assumptions c20_lossless.
(** C20: so highlighting a parsed text gives one fragment for each leaf, in order. *)
Theorem c20_highlight : forall C text lft sts len rf, fst (parse_text C text lft) = POk sts len rf ->
  highlight text (concat sts) = Some (map (fun y => (category y, itext y)) (flat_map leaves (concat sts))).
Proof.
  intros C text lft sts len rf E. destruct (c20_lossless _ _ _ _ _ _ E) as [E1 [_ [_ E2]]].
  assert (Et : items_text (concat sts) = text) by (rewrite <- statements_text_concat; exact E1).
  rewrite <- Et at 1. apply highlight_leaves. apply forall_concat. exact E2.
Qed.
Print Assumptions c20_highlight.

(** C21: a failing parse reports items that spell the text before the failing place, and the text from there on. *)
Theorem c21_position : forall C text lft sts next, fst (parse_text C text lft) = PErr sts next ->
  text = concat (map items_text sts) ++ next /\ Forall (Forall spelled) sts /\
  find_pos text sts (Some next) = Some (length text - length next).
Proof.
  intros C text lft sts next E. pose proof (parse_text_good C text lft) as H. rewrite E in H. destruct H as [E1 [E2 _]].
  split; [exact E1|]. split; [exact E2|]. rewrite E1 at 1. rewrite find_pos_exact; [|apply prefixb_iff; exists []; symmetry; apply app_nil_r].
  f_equal. rewrite E1, app_length. unfold statements_text. lia.
Qed.
Print Assumptions c21_position.

(** C22: nesting depth [length text + 1] always suffices: parsing never exhausts it. *)
Theorem c22_terminates : forall C text lft, as_open (pc_arr C) <> [] -> fst (parse_text C text lft) <> PFuel.
Proof.
  intros C text lft Ho E. pose proof (parse_text_good C text lft) as H. rewrite E in H. specialize (H Ho). lia.
Qed.
Print Assumptions c22_terminates.
(** C22: and with parsers that do not fail themselves it ends with a result or a parsing error. *)
Theorem c22_result_or_error : forall C text lft, as_open (pc_arr C) <> [] -> quiet C ->
  (exists sts len rf, fst (parse_text C text lft) = POk sts len rf) \/ (exists sts next, fst (parse_text C text lft) = PErr sts next).
Proof.
  intros C text lft Ho Hq. pose proof (parse_text_good C text lft) as H. destruct (fst (parse_text C text lft)) eqn:E.
  - left. eauto.
  - right. eauto.
  - destruct (H Hq).
  - destruct (H Hq).
  - specialize (H Ho). lia.
Qed.
Print Assumptions c22_result_or_error.
(** C22 fails for the empty array symbol, which the options permit: no depth suffices. *)
Theorem c22_empty_symbol_refuted : exists C, forall n, fst (parse C n no_flags ($"1") None) = PFuel.
Proof.
  exists (mkPC [PArr] (mkTab [] None None None None None) (mkAS [] ($"..") ($":") ($",") ($"]")) true).
  enough (H : forall n fl l, fst (parse (mkPC [PArr] (mkTab [] None None None None None) (mkAS [] ($"..") ($":") ($",") ($"]")) true) n fl ($"1") l) = PFuel)
    by (intros n; apply H).
  induction n as [|n IH]; intros fl l; [reflexivity|].
  specialize (IH arr_flags l).
  cbn [parse length parse_loop pc_parsers try_parsers run_parser prefixb pc_arr as_open parse_array arr_loop Nat.leb]. unfold parse_array.
  cbn [length as_open arr_loop Nat.leb arr_elem]. unfold arr_elem. cbn [skipn].
  destruct (parse _ n arr_flags _ l) as [r l']. cbn [fst] in IH. subst r. reflexivity.
Qed.
Print Assumptions c22_empty_symbol_refuted.

(** C40: the operator parser finds the longest operator the text starts with; there is none only if no operator starts
    the text. *)
Theorem c40_longest : forall C rec fl cur text lft op,
  fst (run_parser C rec POp fl cur text lft) = PRitems [IOp op] (length op) false <->
  (In op (op_symbols (pc_ops C)) /\ op_starts text op /\
   forall op', In op' (op_symbols (pc_ops C)) -> op_starts text op' -> length op' <= length op).
Proof.
  intros C rec fl cur text lft op. rewrite <- match_op_longest. cbn [run_parser fst].
  destruct (match_op (op_symbols (pc_ops C)) text) as [o|]; [|split; discriminate]. split; intros H; injection H; intros; subst; reflexivity.
Qed.
Print Assumptions c40_longest.
Theorem c40_none : forall C rec fl cur text lft,
  fst (run_parser C rec POp fl cur text lft) = PRnone <-> forall op, In op (op_symbols (pc_ops C)) -> ~ op_starts text op.
Proof.
  intros C rec fl cur text lft. rewrite <- match_op_none. cbn [run_parser fst].
  destruct (match_op (op_symbols (pc_ops C)) text) as [o|]; split; try discriminate; reflexivity.
Qed.
Print Assumptions c40_none.

(** C41: a text with quotes and escape characters escaped, in quotes, parses to itself, whatever follows. *)
Theorem c41_string : forall C rec fl cur q e s rest lft, q <> e ->
  fst (run_parser C rec (PString q e) fl cur (q :: escaped q e s ++ q :: rest) lft) =
  PRitems [ILit (q :: escaped q e s ++ [q]) (LStr s)] (length (q :: escaped q e s ++ [q])) false.
Proof.
  intros C rec fl cur q e s rest lft H. cbn [run_parser fst]. unfold ceq at 1. rewrite Ascii.eqb_refl, (str_scan_escaped q e H). unfold found. cbv zeta.
  replace (q :: escaped q e s ++ q :: rest) with ((q :: escaped q e s ++ [q]) ++ rest) by (cbn [app]; rewrite <- app_assoc; reflexivity).
  replace (1 + length (escaped q e s) + 1) with (length (q :: escaped q e s ++ [q])) by (cbn [length]; rewrite app_length; cbn; lia).
  rewrite firstn_len_app. reflexivity.
Qed.
Print Assumptions c41_string.

(** C42: parsing, successful or not, divides a text into statements at the terminators: every statement but the last
    ends with a terminator, contains no other one, and is complete without it; the last one contains none. *)
Theorem c42_statements : forall C text lft,
  match fst (parse_text C text lft) with
  | POk sts _ _ | PErr sts _ => exists done last, sts = done ++ [last] /\ Forall (ended C) done /\ term_free last
  | _ => True
  end.
Proof. intros C text lft. exact (parse_split C _ _ text lft). Qed.
Print Assumptions c42_statements.
(** C42: what is remembered from one parse to the next is always the text of an incomplete statement. *)
Theorem c42_memory : forall C text lft, memory_ok C lft -> memory_ok C (snd (parse_text C text lft)).
Proof. intros C text lft. exact (parse_keeps C _ no_flags text lft). Qed.
Print Assumptions c42_memory.

(** * An example configuration, in the order of layout.py *)
Definition ex_digits (s : str) : out (option (nat * lit)) :=
  match match_number s with
  | Some (l, r) => match number_of_lit 30 l with Some v => Ok (Some (length s - length r, LNum v)) | None => Py end
  | None => Ok None
  end.
Definition ex_pdef (n : str) : opdef :=
  mkOp n (Some 2) (Some 2) [] [] false false false false false false (fun _ _ _ _ _ => ret (mkOR VNone None None)).
Definition ex_pbin (n : string) : str * operator := ($n, mkOper [None] [None] false (ex_pdef ($n))).
Definition ex_ptab : optable :=
  mkTab [[(($"not"), mkOper [] [None] false (ex_pdef ($"not")))]; [ex_pbin "*"]; [ex_pbin "+"; ex_pbin "-"; ex_pbin "+$"]; [ex_pbin "and"]; [ex_pbin "="]]
        None None None None None.
Definition ex_cfg : pcfg :=
  mkPC [PTerm [newline]; PSpace; PComment ($"#"); PLit true ex_digits; POp; PString "'"%char "\"%char; PPtr ($"@"); PFunc [$"f"];
        PFuncParam; PFuncEnd; PInner; PInnerEnd; PInline; PInlineEnd; PArr; PArrRange; PArrStep; PArrParam; PArrEnd; PVar]
       ex_ptab (mkAS ($"[") ($"..") ($":") ($",") ($"]")) true.
Definition nl : str := [newline].
Definition ex_text : str := $"x = f(a, [1..3:2, 'it\'s'] ) +" ++ nl ++ $"{PARAM1 * (y)}# c" ++ nl ++ $"@g(x)".
Example c20_ex : exists s1 s2 n, fst (parse_text ex_cfg ex_text None) = POk [s1; s2] n None /\ length s1 = 11 /\ length s2 = 1 /\
  n = length ex_text.
Proof. eexists _, _, _. split; [vm_compute; reflexivity|]. vm_compute. repeat split. Qed.
Example c21_ex : exists items1 items2, fst (parse_text ex_cfg ($"1" ++ nl ++ $"f(a, [1, (2 ?)])") None) = PErr [items1; items2] ($"?)])") /\
  map (fun i => length (leaves i)) items2 = [12].
Proof. eexists _, _. split; [vm_compute; reflexivity|]. vm_compute. reflexivity. Qed.
Example c22_ex : as_open (pc_arr ex_cfg) <> [] /\ fst (parse_text ex_cfg ($"((((((((((") None) <> PFuel.
Proof. split; [discriminate|]. apply c22_terminates. discriminate. Qed.
Example c40_ex : op_starts ($"+$b") ($"+$") /\ op_starts ($"and(") ($"and") /\ ~ op_starts ($"android") ($"and").
Proof.
  repeat split.
  - exists ($"b"). split; [reflexivity|]. intros _ H. inversion H. discriminate.
  - exists ($"("). split; [reflexivity|]. intros _ _. reflexivity.
  - intros [r [E H]]. injection E as <-. assert (Ha : Forall (fun c => is_alpha c = true) ($"and")) by (repeat constructor).
    specialize (H ltac:(discriminate) Ha). discriminate.
Qed.
Example c41_ex : escaped "'"%char "\"%char ($"it's \o/") = $"it\'s \\o/". Proof. reflexivity. Qed.
Example c41_ex_parse : fst (parse_text ex_cfg ($"'it\'s \\o/' + 'b'") None) =
  POk [[ILit ($"'it\'s \\o/'") (LStr ($"it's \o/")); INon NSpace ($" "); IOp ($"+"); INon NSpace ($" "); ILit ($"'b'") (LStr ($"b"))]] 18 None.
Proof. vm_compute. reflexivity. Qed.
(** An incomplete line goes on in the next one; a complete one does not. *)
Example c42_ex : fst (parse_text ex_cfg ($"x +" ++ nl ++ $"y" ++ nl ++ $"z") None) =
  POk [[IVar ($"x"); INon NSpace ($" "); IOp ($"+"); INon NSpace nl; IVar ($"y"); INon NTerm nl]; [IVar ($"z")]] 7 None.
Proof. vm_compute. reflexivity. Qed.

(** C42: parsing a text depends on what was parsed before: after [x not], the complete statement [xnot] is not ended by
    the newline, so two statements become one. *)
Theorem c42_history_refuted : exists C before text, snd (parse_text C before None) = Some ($"xnot") /\
  (exists s1 s2 n, fst (parse_text C text None) = POk [s1; s2] n None) /\
  (exists s n, fst (parse_text C text (snd (parse_text C before None))) = POk [s] n None).
Proof.
  exists ex_cfg, ($"x not" ++ nl), ($"xnot" ++ nl ++ $"y"). split; [vm_compute; reflexivity|].
  split; [eexists _, _, _|eexists _, _]; vm_compute; reflexivity.
Qed.
Print Assumptions c42_history_refuted.

(** C43: the one thing in parsing that executes items, the check for completeness, neither changes the variables nor
    depends on them. *)
Theorem c43_fake_execution : forall T func s s',
  snd (run_slots T func fake_call (fake_slots 0 func) s) = s /\ incomplete T func s = incomplete T func s'.
Proof. intros T func s s'. split; [exact (proj1 (fake_no_effect T func s))|apply incomplete_state]. Qed.
Print Assumptions c43_fake_execution.
Example c43_ex : let s := mkSt [(($"x"), (VNum (mkNum 5 1 None None), None))] None in
  incomplete ex_ptab [IVar ($"x"); IOp ($"="); IVar ($"y"); IOp ($"+")] s = true /\
  incomplete ex_ptab [IVar ($"x"); IOp ($"="); IVar ($"y")] s = false /\
  run_slots ex_ptab [] fake_call (fake_slots 0 [IVar ($"x"); IOp ($"="); IVar ($"y")]) s = (OOk (mkRes VNone None None), s).
Proof. vm_compute. repeat split. Qed.
