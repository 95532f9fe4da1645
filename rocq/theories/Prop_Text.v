(** C54: texts. *)
From Coq Require Import ZArith QArith Ascii String List Bool Lia.
From Verif Require Import Base BaseProofs Dec Num NumSpec Lex Bases Formats Units Install Syntax Pos Call CallSpec Loop Parse Exec Std StdSpec StdRun TextSpec TextProofs.
Import ListNotations.
Open Scope nat_scope.
Definition yes : result := mkRes (VBool true) None None.
Definition int (z : Z) : result := mkRes (VNum (mkNum z 1 None None)) None None.

(** Any operand but an array or an error is taken as the text it is shown as. *)
Theorem c54_add : forall L stl x y t u s, shown_as L x t -> shown_as L y u -> callop (std L) stl ($"+$") [x; y] s = (OOk (text (t ++ u)), s).
Proof. intros. now apply text_add_call. Qed.
Print Assumptions c54_add.
Theorem c54_times : forall L stl x y t i s, (1 <= l_prec L)%Z -> shown_as L x t -> integer_at L y i ->
  callop (std L) stl ($"*$") [x; y] s = (OOk (text (concat (repeat t (Z.to_nat i)))), s).
Proof. intros. now apply times_call. Qed.
Print Assumptions c54_times.
Theorem c54_length : forall L, exists d, assoc ($"length") (g_funcs (std L)) = Some d /\ forall h stl x t s, shown_as L x t ->
  exists n, call (std_env L) h d stl [x] s = (OOk (mkRes (VNum n) None None), s) /\ nnum n = Z.of_nat (length t) /\ nden n = 1%Z.
Proof. intros L. eexists. split; [apply find_length|]. intros h stl x t s Hx. eexists. split; [apply length_call; exact Hx|]. split; reflexivity. Qed.
Print Assumptions c54_length.
Example c54_shown_ex : shown_as demo (int 12) ($"12") /\ shown_as demo yes ($"True") /\ shown_as demo (text ($"a")) ($"a") /\ integer_at demo (text ($"3")) 3.
Proof.
  split; [|split; [|split]].
  1-3: split; [reflexivity|split; [reflexivity|vm_compute; reflexivity]].
  split; [reflexivity|]. eexists. split; [vm_compute; reflexivity|]. split; [reflexivity|]. split; reflexivity.
Qed.
Example c54_ex : answer "'ab' +$ 12 +$ true" = "'ab12True'"%string /\ answer "'ab' *$ 3" = "'ababab'"%string /\ answer "length(1000)" = "4"%string /\ answer "'ab' *$ (0-1)" = "''"%string.
Proof. vm_compute. repeat split; reflexivity. Qed.

(** [find]: the least place, from 0, or -1. *)
Theorem c54_find : forall L, exists d, assoc ($"find") (g_funcs (std L)) = Some d /\ forall h stl x y t u s, shown_as L x t -> shown_as L y u ->
  exists n, call (std_env L) h d stl [x; y] s = (OOk (mkRes (VNum n) None None), s) /\ nden n = 1%Z /\
    ((exists i, nnum n = Z.of_nat i /\ found u t i /\ forall j, found u t j -> i <= j) \/ (nnum n = (-1)%Z /\ forall j, ~ found u t j)).
Proof.
  intros L. eexists. split; [apply find_find|]. intros h stl x y t u s Hx Hy. eexists. split; [apply find_call; eassumption|]. split; [reflexivity|]. apply find_spec.
Qed.
Print Assumptions c54_find.
Example c54_find_ex : answer "find('banana', 'an')" = "1"%string /\ answer "find('banana', 'x')" = "-1"%string /\ answer "find('x', '')" = "0"%string.
Proof. vm_compute. repeat split; reflexivity. Qed.

(** [substr]: positions from 0, negative ones from the end; the last one is included. *)
Theorem c54_substr_from : forall L, exists d, assoc ($"substr") (g_funcs (std L)) = Some d /\ forall h stl x y t i s,
  (1 <= l_prec L)%Z -> shown_as L x t -> integer_at L y i -> (0 <= place (length t) i)%Z ->
  exists r, call (std_env L) h d stl [x; y] s = (OOk (text r), s) /\ forall k, nth_error r k = nth_error t (Z.to_nat (place (length t) i) + k).
Proof.
  intros L. exists (d_substr L). split; [apply find_substr|]. intros h stl x y t i s Hp Hx Hy H. eexists. split; [now apply (substr2_call L h stl x y t i)|]. now apply substr2_spec.
Qed.
Print Assumptions c54_substr_from.
Theorem c54_substr : forall L, exists d, assoc ($"substr") (g_funcs (std L)) = Some d /\ forall h stl x y z t i j s,
  (1 <= l_prec L)%Z -> rval x = VStr t -> integer_at L y i -> integer_at L z j -> (0 <= place (length t) i)%Z -> (0 <= place (length t) j)%Z ->
  exists r, call (std_env L) h d stl [x; y; z] s = (OOk (text r), s) /\
    forall k, nth_error r k = (if (place (length t) i + Z.of_nat k <=? place (length t) j)%Z then nth_error t (Z.to_nat (place (length t) i) + k) else None).
Proof.
  intros L. exists (d_substr L). split; [apply find_substr|]. intros h stl x y z t i j s Hp Hx Hy Hz H G. eexists. split; [now apply (substr3_call L h stl x y z t i j)|]. now apply substr3_spec.
Qed.
Print Assumptions c54_substr.
Example c54_substr_ex : answer "substr('banana', 2)" = "'nana'"%string /\ answer "substr('banana', 0-2)" = "'na'"%string /\ answer "substr('banana', 1, 3)" = "'ana'"%string /\
  answer "substr('banana', 1, 0-2)" = "'anan'"%string /\ answer "substr('banana', 4, 2)" = "''"%string.
Proof. vm_compute. repeat split; reflexivity. Qed.
(** An end before the first character is not the empty text: it goes round twice; and it fails for a text given as a number. *)
Theorem c54_substr_refuted : ~ (forall L d, assoc ($"substr") (g_funcs (std L)) = Some d -> forall h stl x y z t i j s,
  (1 <= l_prec L)%Z -> rval x = VStr t -> integer_at L y i -> integer_at L z j -> (place (length t) j < 0)%Z ->
  call (std_env L) h d stl [x; y; z] s = (OOk (text []), s)).
Proof.
  intros H. specialize (H demo (d_substr demo) eq_refl (fun _ _ => pyerr) false (text ($"abc")) (int 0) (int (-5)) ($"abc") 0%Z (-5)%Z start).
  assert (P : forall i, (Z.abs i <? 100)%Z = true -> integer_at demo (int i) i).
  { intros i Hi. split; [reflexivity|]. exists (mkNum i 1 None None). split; [reflexivity|]. split; [reflexivity|]. split; [reflexivity|]. apply Z.ltb_lt in Hi. assert (100 < 10 ^ l_prec demo)%Z by reflexivity. lia. }
  specialize (H ltac:(discriminate) eq_refl (P 0%Z eq_refl) (P (-5)%Z eq_refl) eq_refl). vm_compute in H. discriminate.
Qed.
Print Assumptions c54_substr_refuted.
Example c54_substr_refuted_ex : answer "substr('abc', 0, 0-5)" = "'ab'"%string /\ answer "substr(123, 0, 0-1)" = "execute error"%string /\ answer "substr(123, 0, 1)" = "'12'"%string.
Proof. vm_compute. repeat split; reflexivity. Qed.

(** [lstrip], [rstrip], [strip]: characters of the set are taken off until one is left that is not in it. *)
Theorem c54_strip : forall L, exists dl dr db, assoc ($"lstrip") (g_funcs (std L)) = Some dl /\ assoc ($"rstrip") (g_funcs (std L)) = Some dr /\ assoc ($"strip") (g_funcs (std L)) = Some db /\
  forall h stl x y t cs s, shown_as L x t -> rval y = VStr cs ->
  (exists u r, call (std_env L) h dl stl [x; y] s = (OOk (text r), s) /\ t = u ++ r /\ Forall (fun c => In c cs) u /\ (forall c w, r = c :: w -> ~ In c cs)) /\
  (exists u r, call (std_env L) h dr stl [x; y] s = (OOk (text r), s) /\ t = r ++ u /\ Forall (fun c => In c cs) u /\ (forall c w, r = w ++ [c] -> ~ In c cs)) /\
  (exists u v r, call (std_env L) h db stl [x; y] s = (OOk (text r), s) /\ t = u ++ r ++ v /\ Forall (fun c => In c cs) (u ++ v) /\
    (forall c w, r = c :: w -> ~ In c cs) /\ (forall c w, r = w ++ [c] -> ~ In c cs)).
Proof.
  intros L. eexists. eexists. eexists. split; [apply find_lstrip|]. split; [apply find_rstrip|]. split; [apply find_strip|]. intros h stl x y t cs s Hx Hy.
  assert (Sy : shown_as L y cs) by (unfold shown_as; rewrite Hy; auto). split; [|split].
  - destruct (lstrip_spec cs t) as (u & E & U & N). exists u, (lstrip_set cs t). split; [now apply lstrip_call|auto].
  - destruct (rstrip_spec cs t) as (u & E & U & N). exists u, (rstrip_set cs t). split; [now apply rstrip_call|auto].
  - destruct (strip_spec cs t) as (u & w & E & U & N). exists u, w, (rstrip_set cs (lstrip_set cs t)). split; [now apply strip_call|auto].
Qed.
Print Assumptions c54_strip.
Example c54_strip_ex : answer "strip('..a.b-.', '.-')" = "'a.b'"%string /\ answer "lstrip('..a.', '.')" = "'a.'"%string /\ answer "rstrip('...', '.')" = "''"%string.
Proof. vm_compute. repeat split; reflexivity. Qed.
(** The characters may be given as a number for [rstrip] and [strip], but not for [lstrip] *)
Example c54_lstrip_ex : answer "rstrip('211', 1)" = "'2'"%string /\ answer "lstrip('112', 1)" = "execute error"%string.
Proof. vm_compute. split; reflexivity. Qed.

(** [replace]: the text is its parts with the searched text between them, none of which ends the part sooner; the result has
    the new text between them. *)
Theorem c54_replace : forall L, exists d, assoc ($"replace") (g_funcs (std L)) = Some d /\ forall h stl x y z t a b s,
  shown_as L x t -> shown_as L y a -> shown_as L z b -> a <> [] ->
  exists ts r, t = sjoin a (ts ++ [r]) /\ Forall (ends_part a) ts /\ (forall i, ~ found a r i) /\
    call (std_env L) h d stl [x; y; z] s = (OOk (text (sjoin b (ts ++ [r]))), s).
Proof.
  intros L. eexists. split; [apply find_replace|]. intros h stl x y z t a b s Hx Hy Hz Ha. destruct (replace_spec t a b Ha) as (ts & r & E & H1 & H2 & H3).
  exists ts, r. split; [exact E|]. split; [exact H1|]. split; [exact H2|]. rewrite <- H3. now apply replace_call.
Qed.
Print Assumptions c54_replace.
(** Of an empty text: the replacement comes between all the characters, before the first and after the last. *)
Theorem c54_replace_empty : forall L, exists d, assoc ($"replace") (g_funcs (std L)) = Some d /\ forall h stl x y z t b s,
  shown_as L x t -> shown_as L y [] -> shown_as L z b ->
  call (std_env L) h d stl [x; y; z] s = (OOk (text (sjoin b ([] :: map (fun c => [c]) t ++ [[]]))), s).
Proof.
  intros L. eexists. split; [apply find_replace|]. intros h stl x y z t b s Hx Hy Hz. eapply eq_trans; [apply (replace_call L h stl x y z t [] b s Hx Hy Hz)|].
  assert (E : forall u, b ++ concat (map (fun c => c :: b) u) = sjoin b ([] :: map (fun c => [c]) u ++ [[]])); [|unfold py_replace; rewrite E; reflexivity].
  induction u as [|c u IH]; [cbn [map concat app sjoin]; rewrite app_nil_r; reflexivity|]. rewrite StdProofs8.sjoin_cons by discriminate. cbn [app map concat]. f_equal.
  rewrite IH. rewrite !StdProofs8.sjoin_cons by (destruct (map (fun c => [c]) u); discriminate). reflexivity.
Qed.
Print Assumptions c54_replace_empty.
Example c54_replace_ex : answer "replace('banana', 'ana', 'x')" = "'bxna'"%string /\ answer "replace('aaa', 'a', '')" = "''"%string /\ answer "replace('ab', '', '-')" = "'-a-b-'"%string.
Proof. vm_compute. repeat split; reflexivity. Qed.

(** [lower] and [upper]: the same text but for the case of letters, without capital or without small letters. *)
Theorem c54_case : forall L, exists dl du, assoc ($"lower") (g_funcs (std L)) = Some dl /\ assoc ($"upper") (g_funcs (std L)) = Some du /\
  forall h stl x t s, shown_as L x t ->
  (exists r, call (std_env L) h dl stl [x] s = (OOk (text r), s) /\ caseless r t /\ Forall (fun c => ~ (65 <= code c <= 90)%Z) r) /\
  (exists r, call (std_env L) h du stl [x] s = (OOk (text r), s) /\ caseless r t /\ Forall (fun c => ~ (97 <= code c <= 122)%Z) r).
Proof.
  intros L. eexists. eexists. split; [apply find_lower|]. split; [apply find_upper|]. intros h stl x t s Hx. split.
  - exists (lower t). split; [|split; [apply lower_caseless|apply lower_no_upper]]. eapply eq_trans; [eapply text1_call; [apply takes_d_text|reflexivity|exact Hx|reflexivity]|reflexivity].
  - exists (upper t). split; [|split; [apply upper_caseless|apply upper_no_lower]]. eapply eq_trans; [eapply text1_call; [apply takes_d_text|reflexivity|exact Hx|reflexivity]|reflexivity].
Qed.
Print Assumptions c54_case.
Example c54_case_ex : answer "lower('A[b]Z')" = "'a[b]z'"%string /\ answer "upper('a{b`Z')" = "'A{B`Z'"%string.
Proof. vm_compute. split; reflexivity. Qed.

(** Comparison by characters. *)
Theorem c54_order : forall L stl sym (P : str -> str -> Prop) x y t u s,
  In (sym, P) [($"<$", before); ($">$", fun a b => before b a); ($"<=$", fun a b => a = b \/ before a b); ($">=$", fun a b => b = a \/ before b a);
               ($"==$", eq); ($"!=$", fun a b => a <> b)] -> shown_as L x t -> shown_as L y u ->
  exists r, callop (std L) stl sym [x; y] s = (OOk r, s) /\ yes_no r (P t u).
Proof.
  intros L stl sym P x y t u s H Hx Hy. pose (same := fun z : str => z).
  assert (G : exists f, In (sym, (same, f)) text_ops /\ (f t u = true <-> P t u)).
  { destruct H as [H|[H|[H|[H|[H|[H|[]]]]]]]; injection H as <- <-; eexists; (split; [cbn [text_ops In]; tauto|]); cbn beta.
    - apply before_iff.
    - apply before_iff.
    - apply not_ltb.
    - apply not_ltb.
    - apply seq_eqb_iff.
    - rewrite negb_true_iff, <- not_true_iff_false. now rewrite seq_eqb_iff. }
  destruct G as (f & G1 & G2). eexists. split; [now apply (text_op_call L stl sym same f x y t u)|]. now apply yes_no_bool.
Qed.
Print Assumptions c54_order.
(** And the same of the texts in small letters. *)
Theorem c54_caseless : forall L stl sym (P : str -> str -> Prop) x y t u a b s,
  In (sym, P) [($"<~", before); ($">~", fun a b => before b a); ($"<=~", fun a b => a = b \/ before a b); ($">=~", fun a b => b = a \/ before b a);
               ($"==~", eq); ($"!=~", fun a b => a <> b)] -> shown_as L x t -> shown_as L y u -> in_small t a -> in_small u b ->
  exists r, callop (std L) stl sym [x; y] s = (OOk r, s) /\ yes_no r (P a b).
Proof.
  intros L stl sym P x y t u a b s H Hx Hy Ha Hb. apply small_unique in Ha, Hb.
  assert (G : exists f, In (sym, (lower, f)) text_ops /\ (f a b = true <-> P a b)).
  { destruct H as [H|[H|[H|[H|[H|[H|[]]]]]]]; injection H as <- <-; eexists; (split; [cbn [text_ops In]; tauto|]); cbn beta.
    - apply before_iff.
    - apply before_iff.
    - apply not_ltb.
    - apply not_ltb.
    - apply seq_eqb_iff.
    - rewrite negb_true_iff, <- not_true_iff_false. now rewrite seq_eqb_iff. }
  destruct G as (f & G1 & G2). eexists. split; [now apply (text_op_call L stl sym lower f x y t u)|]. subst a b. now apply yes_no_bool.
Qed.
Print Assumptions c54_caseless.
Theorem c54_caseless_equal : forall L stl x y t u s, shown_as L x t -> shown_as L y u ->
  exists r, callop (std L) stl ($"==~") [x; y] s = (OOk r, s) /\ yes_no r (caseless t u).
Proof.
  intros L stl x y t u s Hx Hy. eexists. split; [apply (text_op_call L stl ($"==~") lower seq_eqb x y t u); [cbn [text_ops In]; tauto|exact Hx|exact Hy]|].
  apply yes_no_bool. rewrite seq_eqb_iff. apply caseless_iff.
Qed.
Print Assumptions c54_caseless_equal.
(** It is a total order. *)
Theorem c54_total : (forall t, ~ before t t) /\ (forall t u v, before t u -> before u v -> before t v) /\ (forall t u, before t u \/ t = u \/ before u t).
Proof.
  split; [|split].
  - intros t H. apply before_iff in H. now rewrite ltb_irrefl in H.
  - intros t u v H G. apply before_iff in H, G. apply before_iff. eapply ltb_trans; eassumption.
  - intros t u. destruct (str_ltb t u) eqn:A; [left; now apply before_iff|]. destruct (str_ltb u t) eqn:B; [right; right; now apply before_iff|]. right. left. now apply ltb_total.
Qed.
Print Assumptions c54_total.
Example c54_order_ex : answer "'abc' <$ 'abd'" = "True"%string /\ answer "'B' <$ 'a'" = "True"%string /\ answer "'B' <~ 'a'" = "False"%string /\ answer "'ab' >=$ 'a'" = "True"%string
  /\ answer "'aB' ==~ 'Ab'" = "True"%string /\ answer "'1' !=$ 1" = "False"%string /\ answer "'a' <=~ 'A'" = "True"%string.
Proof. vm_compute. repeat split; reflexivity. Qed.
