(** C72: the parameters of inline functions. *)
From Coq Require Import ZArith QArith Ascii String List Bool Lia.
From Verif Require Import Base Dec Num Lex Bases Formats Units Install InstallProofs Syntax Call CallSpec Loop Parse Exec ExecSpec Std StdSpec StdProofs StdProofs2 StdRun ParamSpec ParamProofs.
Import ListNotations.
Open Scope nat_scope.

(** A call gives what the statements of the body give, with the inputs as the parameters; the variables are then as before.
    There is no other way to get an answer. *)
Theorem c72_call : forall G n stl text tr items name args s ins s1 body v u sts, g_inline G = true ->
  assoc name (s_vars s) = Some (v, u) -> is_function body v -> body_of body sts ->
  inputs (execute G n stl) args s ins s1 ->
  exists V, entered ins (s_vars s1) V /\
    (forall r s2 w, done (execute G n stl) sts (set_vars s1 V) r s2 -> handed_back (rval r) w ->
       eval_item G (execute G n) stl (IPtr text tr items name args) s = (OOk (mkRes w (runit r) None), set_vars s2 (s_vars s1))) /\
    (forall x s', eval_item G (execute G n) stl (IPtr text tr items name args) s = (OOk x, s') ->
       exists r s2 w, done (execute G n stl) sts (set_vars s1 V) r s2 /\ handed_back (rval r) w /\
         x = mkRes w (runit r) None /\ s' = set_vars s2 (s_vars s1)).
Proof.
  intros G n stl text tr items name args s ins s1 body v u sts HG HV HF HB HI.
  exists (set_params 1 (map rval ins) (map runit ins) (s_vars s1)). split; [apply enters|].
  assert (HS := inputs_simple _ _ _ _ _ HI).
  rewrite (ptr_call G (execute G n) stl text tr items name args s ins s1 body v u HG HV HF HI). split.
  - intros r s2 w D W. apply (inline_gives _ _ _ _ sts); assumption.
  - intros x s' C. apply (inline_given _ _ _ _ sts _ _ _ _ _ HB HS C).
Qed.
Print Assumptions c72_call.
(** A variable holding an array of functions: all of them are called, with the same inputs. *)
Theorem c72_functions : forall G n stl text tr items name args s ins s1 bodies l u, g_inline G = true ->
  assoc name (s_vars s) = Some (VList l, u) -> Forall2 is_function bodies (map rval l) ->
  inputs (execute G n stl) args s ins s1 ->
  exists enter, (forall V, entered ins V (enter V)) /\
    forall rs s2, called (execute G n stl) enter bodies s1 rs s2 ->
      eval_item G (execute G n) stl (IPtr text tr items name args) s = (OOk (mkRes (VList rs) None None), s2).
Proof.
  intros G n stl text tr items name args s ins s1 bodies l u HG HV HF HI.
  exists (set_params 1 (map rval ins) (map runit ins)). split; [intros V; apply enters|].
  intros rs s2 HC. apply (ptr_calls G (execute G n) stl text tr items name args s ins s1 bodies l u); assumption.
Qed.
Print Assumptions c72_functions.
(** The body [PARAMk] gives the input number [k], with its unit. *)
Theorem c72_kth : forall L n stl text tr items name args s ins s1 w0 p w1 v u k r,
  assoc name (s_vars s) = Some (v, u) -> is_function (w0 ++ [IVar p] ++ w1) v -> filling w0 -> filling w1 -> names_param (S k) p ->
  inputs (execute (std L) (S n) stl) args s ins s1 -> nth_error ins k = Some r ->
  eval_item (std L) (execute (std L) (S n)) stl (IPtr text tr items name args) s = (OOk (mkRes (rval r) (runit r) None), s1).
Proof.
  intros L n stl text tr items name args s ins s1 w0 p w1 v u k r HV HF F0 F1 HP HI HK.
  assert (HB := filling_body w0 (IVar p) w1 F0 F1 eq_refl).
  destruct (c72_call (std L) (S n) stl text tr items name args s ins s1 _ v u _ eq_refl HV HF HB HI) as (V & [E1 _] & C & _).
  specialize (E1 k r p HK HP). assert (HS := inputs_simple _ _ _ _ _ HI r (nth_error_In _ _ HK)).
  assert (D : execute (std L) (S n) stl (w0 ++ [IVar p] ++ w1) (set_vars s1 V) = (OOk (mkRes (rval r) (runit r) (Some (RVar p))), set_vars s1 V)).
  { apply run_item; [now apply filling_blanks|now apply filling_blanks|reflexivity|reflexivity| |].
    - cbn [eval_item s_vars set_vars]. rewrite E1. reflexivity.
    - unfold usable. cbn [rval mkRes]. destruct (rval r) eqn:Er; try reflexivity. now elim (proj2 HS e). }
  rewrite (C _ _ (rval r) (done_last _ _ _ _ _ D)).
  - cbn [runit mkRes]. destruct s1; reflexivity.
  - cbn [rval mkRes]. split; [apply HS|]. destruct (rval r) eqn:Er; try reflexivity. now elim (proj1 HS l).
Qed.
Print Assumptions c72_kth.
(** Numbers, texts and functions as inputs; nested calls; an array of functions *)
Example c72_ex : answer "f = {PARAM2 - PARAM1};@f(3, 10)" = "7"%string /\
  answer "f = {lower(PARAM1)};@f('AB')" = "'ab'"%string /\
  answer "twice = {@PARAM1(@PARAM1(PARAM2))};inc = {PARAM1 + 1};@twice(inc, 5)" = "7"%string /\
  answer "f = {PARAM10};@f(1,2,3,4,5,6,7,8,9,20,30)" = "20"%string /\
  answer "f = [{PARAM1 + 1}, {PARAM1 * 2}];@f(10)" = "[11;20;]"%string /\
  answer "x = 2;f = {x = PARAM1;x * 10};@f(4) + x" = "42"%string.
Proof. vm_compute. repeat split; reflexivity. Qed.

(** A function that got fewer inputs uses those of the function that called it. *)
Theorem c72_own_parameters_refuted : exists text, (* f's second parameter, when it is called with one input *)
  text = "f = {PARAM2};g = {@f(1)};@g(3, 4)"%string /\ answer text = "4"%string /\ answer "f = {PARAM2};@f(1)" = "None"%string.
Proof. eexists. split; [reflexivity|]. vm_compute. split; reflexivity. Qed.
Print Assumptions c72_own_parameters_refuted.
(** An array is not given to a function: the function is called for each of its elements. *)
Theorem c72_array_refuted : answer "f = {count(PARAM1)};@f([1, 2])" <> answer "count([1, 2])".
Proof. vm_compute. discriminate. Qed.
Print Assumptions c72_array_refuted.
(** An error in a statement that is not the last is not reported. *)
Theorem c72_error_refuted : answer "f = {1/0; 5};@f()" = "5"%string /\ answer "1/0; 5" = "execute error"%string.
Proof. vm_compute. split; reflexivity. Qed.
Print Assumptions c72_error_refuted.

(** A function that calls itself does not stop, whatever stands around the call: both branches of [then ... else] are run. *)
Theorem c72_no_stop : forall G n stl name body v u s, g_inline G = true ->
  assoc name (s_vars s) = Some (v, u) -> is_function body v -> Forall (harmless name) body -> Exists (self_call name) body ->
  fst (execute G n stl body s) = OFuel.
Proof. intros. eapply no_stop; eassumption. Qed.
Print Assumptions c72_no_stop.
Definition endless : str := lines "f = {false then @f() else 1};@f()".
Theorem c72_recursion_refuted : exists text, text = endless /\ forall n, fst (calculate (std demo) n plain_flags text start) = CFuel.
Proof.
  exists endless. split; [reflexivity|]. intros n.
  assert (P : exists sts a b lft, parse_text (g_parse (std demo)) endless None = (POk sts a b, lft) /\
    exists w1 w2 w3 t body items, sts = [[] ++ [IVar ($"f")] ++ w1 ++ [IOp ($"=")] ++ w2 ++ [IInline t false body] ++ w3; items] /\
    blanks w1 /\ blanks w2 /\ blanks w3 /\ Forall (harmless ($"f")) body /\ Exists (self_call ($"f")) body /\
    Forall (harmless ($"f")) items /\ Exists (self_call ($"f")) items).
  { eexists _, _, _, _. split; [vm_compute; reflexivity|].
    exists [INon NSpace ($" ")], [INon NSpace ($" ")], [INon NTerm [newline]]. eexists _, _, _.
    split; [reflexivity|].
    assert (H : forall i, match i with IOp _ | ILit _ _ | IVar _ => true | INon k _ => match k with NTerm => false | _ => true end
                          | IPtr _ _ _ m [] => seq_eqb m ($"f") | _ => false end = true -> harmless ($"f") i).
    { intros i Hi. unfold harmless, self_call. destruct i; try discriminate Hi; eauto.
      - right. right. right. left. exists k, text. split; [reflexivity|]. intros ->. discriminate Hi.
      - destruct args; [|discriminate Hi]. apply BaseProofs.seq_eqb_iff in Hi. subst name. do 4 right. eauto. }
    split; [apply Forall_cons; [reflexivity|apply Forall_nil]|]. split; [apply Forall_cons; [reflexivity|apply Forall_nil]|].
    split; [apply Forall_cons; [reflexivity|apply Forall_nil]|]. split.
    { repeat (apply Forall_cons; [apply H; reflexivity|]). apply Forall_nil. }
    split.
    { do 5 apply Exists_cons_tl. apply Exists_cons_hd. eexists _, _, _. reflexivity. }
    split.
    { repeat (apply Forall_cons; [apply H; reflexivity|]). apply Forall_nil. }
    apply Exists_cons_hd. eexists _, _, _. reflexivity. }
  destruct P as (sts & a & b & lft & P & w1 & w2 & w3 & t & body & items & -> & B1 & B2 & B3 & FB & EB & FI & EI).
  assert (N : endless <> []) by discriminate.
  unfold calculate, calculate_with. destruct endless as [|c text]; [now elim N|]. cbn [s_lft start]. rewrite P. cbv zeta.
  cbn [run_statements s_vars start]. rewrite (functional_in _ (IVar ($"f"))); [|now left|reflexivity]. cbn [orb cf_parse_only plain_flags cf_stl].
  destruct n as [|n]; [reflexivity|].
  rewrite (run_set demo n false [] ($"f") w1 w2 (IInline t false body) w3 (mkRes (VFun (IInline t false body)) None None) (mkSt [] lft) (mkSt [] lft)
    ltac:(constructor) B1 B2 B3 eq_refl eq_refl); [|discriminate|reflexivity|reflexivity].
  cbn [rval mkRes shown]. unfold std at 1. cbn [g_final].
  rewrite (self_functional ($"f") items EI). cbn [orb].
  assert (SO : fst (execute (std demo) (S n) false items (mkSt (dset ($"f") (VFun (IInline t false body), None) []) lft)) = OFuel).
  { apply (no_stop (std demo) ($"f") false body (VFun (IInline t false body)) None); try assumption; [reflexivity|eexists _, _; reflexivity|reflexivity]. }
  cbn [s_lft s_vars runit mkRes rval].
  destruct (execute (std demo) (S n) false items _) as [o s']. cbn [fst] in SO. subst o. reflexivity.
Qed.
Print Assumptions c72_recursion_refuted.
(** A choice between functions stops: the factorial. *)
Example c72_recursion_ex : answer "one = {1};step = {PARAM1 * @fact(PARAM1 - 1)};fact = {h = PARAM1 < 1 then one else step; @h(PARAM1)};@fact(4)" = "24"%string.
Proof. vm_compute. reflexivity. Qed.
