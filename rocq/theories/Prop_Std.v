(** C35, C37, C47: truth values, arrays and texts in the standard calculator. *)
From Coq Require Import ZArith QArith Ascii String List Bool Lia Permutation Sorted.
From Verif Require Import Base BaseProofs Dec Num NumSpec NumProofs NumProofs4 Lex Bases Formats Units Install Syntax Pos Call CallSpec Loop LoopSpec Parse Exec ExecSpec Std StdSpec StdRun StdProofs StdProofs4 StdProofs5 StdProofs6 StdProofs7 StdProofs8.
Import ListNotations.
Open Scope nat_scope.

(** * C35 *)
Theorem c35_tables : forall L stl sym x y a b s, In sym bool_syms -> rval x = VBool a -> rval y = VBool b ->
  callop (std L) stl sym [x; y] s = (OOk (mkRes (VBool (truth sym a b)) None None), s).
Proof. exact bool_table. Qed.
Print Assumptions c35_tables.
Theorem c35_not : forall L stl x a s, rval x = VBool a ->
  callop (std L) stl ($"not") [x] s = (OOk (mkRes (VBool (negb a)) None None), s).
Proof. exact not_call. Qed.
Print Assumptions c35_not.
(** An error on the right: ignored where the left side decides, and only there *)
Theorem c35_right_error : forall L stl sym x y a e s, In sym bool_syms -> rval x = VBool a -> rval y = VExc e ->
  match decided sym a with
  | Some c => callop (std L) stl sym [x; y] s = (OOk (mkRes (VBool c) None None), s) /\ forall b, truth sym a b = c
  | None => exists e', callop (std L) stl sym [x; y] s = (OErr e', s)
  end.
Proof.
  intros L stl sym x y a e s Hs Hx Hy. pose proof (bool_right_error L stl sym x y a e s Hs Hx Hy) as H.
  destruct (decided sym a) as [c|] eqn:E; [|exact H]. split; [exact H|]. intros b. cbn in Hs.
  destruct Hs as [<-|[<-|[<-|[]]]]; destruct a, b; vm_compute in E |- *; congruence.
Qed.
Print Assumptions c35_right_error.
(** What is no truth value is refused, and so is an error on the left *)
Theorem c35_refused : forall L stl sym x y s, In sym bool_syms -> is_list (rval x) = false -> is_list (rval y) = false ->
  (forall a, rval x <> VBool a) \/ (forall b, rval y <> VBool b) /\ is_exc (rval y) = false ->
  exists o, callop (std L) stl sym [x; y] s = (o, s) /\ forall r, o <> OOk r.
Proof. exact bool_refused. Qed.
Print Assumptions c35_refused.
(** The conditional: value, unit and reference of the chosen branch, whatever it is (an error too) *)
Theorem c35_then : forall L stl x y z a s, rval x = VBool a -> is_list (rval y) = false -> is_list (rval z) = false ->
  callop (std L) stl ($"then") [x; y; z] s =
  (OOk (mkRes (rval (if a then y else z)) (runit (if a then y else z)) (rref (if a then y else z))), s).
Proof. exact then_call. Qed.
Print Assumptions c35_then.
Theorem c35_then_refused : forall L stl x y z s, (forall a, rval x <> VBool a) -> is_list (rval x) = false ->
  is_list (rval y) = false -> is_list (rval z) = false ->
  exists o, callop (std L) stl ($"then") [x; y; z] s = (o, s) /\ forall r, o <> OOk r.
Proof. exact then_refused. Qed.
Print Assumptions c35_then_refused.
Definition yes : result := mkRes (VBool true) None None.
Definition no : result := mkRes (VBool false) None None.
Definition int (z : Z) : result := mkRes (VNum (mkNum z 1 None None)) None None.
Definition bad : result := mkRes (VExc (XCalc false MOther)) None None.
(** With an array as a branch it is false: the branches are taken element by element, also the one not chosen. *)
Theorem c35_then_array_refuted : exists x y z r, rval x = VBool false /\ is_list (rval z) = false /\
  callop (std demo) false ($"then") [x; y; z] start = (OOk r, start) /\ rval r <> rval z.
Proof.
  exists no, (mkRes (VList [int 1; int 2]) None None), (int 5), (mkRes (VList [int 5; int 5]) None None).
  split; [reflexivity|]. split; [reflexivity|]. split; [vm_compute; reflexivity|discriminate].
Qed.
Print Assumptions c35_then_array_refuted.
Example c35_ex : answer "true and not false" = "True"%string /\ answer "false and 1/0" = "False"%string
  /\ answer "true or 1/0" = "True"%string /\ answer "true and 1/0" = "execute error"%string
  /\ answer "true xor 1/0" = "execute error"%string /\ answer "1/0 or true" = "execute error"%string
  /\ answer "1<2 then 10 else 1/0" = "10"%string /\ answer "false then [1,2] else 5" = "[5;5;]"%string.
Proof. vm_compute. repeat split. Qed.
Example c35_errors_ex : callop (std demo) false ($"or") [yes; bad] start = (OOk yes, start)
  /\ callop (std demo) false ($"then") [yes; int 3; bad] start = (OOk (int 3), start)
  /\ (exists e, callop (std demo) false ($"or") [no; bad] start = (OErr e, start)).
Proof. split; [vm_compute; reflexivity|]. split; [vm_compute; reflexivity|]. eexists. vm_compute. reflexivity. Qed.
(** Both branches are run in any case. *)
Example c35_both_run : vars_after "true then (x=1) else (x=2)" = [("x", "2")]%string.
Proof. vm_compute. reflexivity. Qed.

(** * C37 *)
(** Any array whose elements count as numbers (numbers, texts of numbers, truth values): the elements themselves, their
    values unconverted, ordered by their decimals, those with equal decimals in the order they had. *)
Theorem c37_sort : forall L h stl x l s, rval x = VList l -> numeric L l ->
  exists d m, assoc ($"sort") (g_funcs (std L)) = Some d /\
    call (std_env L) h d stl [x] s = (OOk (mkRes (VList m) None None), s) /\
    Permutation (map plain l) m /\ StronglySorted (fun a b => key L a <= key L b)%Q m /\
    (forall q, filter (fun r => Qeq_bool (key L r) q) m = filter (fun r => Qeq_bool (key L r) q) (map plain l)).
Proof.
  intros L h stl x l s Hx Hl. exists (d_sort L). eexists. split; [apply find_sort|]. split; [apply sort_call; eassumption|].
  split; [apply sort_perm|]. split; [apply (sort_sorted (key L))|]. intros q. apply (sort_same (key L) q).
Qed.
Print Assumptions c37_sort.
(** With at most [k] digits above and below the line, half the precision, the decimals order as the exact values do. *)
Theorem c37_sort_exact : forall L h stl x l s k, rval x = VList l -> (0 <= k)%Z -> (2 * k + 1 <= l_prec L)%Z ->
  (forall r, In r l -> exists n, number_at L r n /\ good n /\ size_le k n) ->
  exists d m, assoc ($"sort") (g_funcs (std L)) = Some d /\
    call (std_env L) h d stl [x] s = (OOk (mkRes (VList m) None None), s) /\ Permutation (map plain l) m /\
    StronglySorted (fun a b => forall n o, number_at L a n -> number_at L b o -> val n <= val o)%Q m.
Proof.
  intros L h stl x l s k Hx Hk Hp Hl.
  assert (Hn : numeric L l) by (intros r Hr; destruct (Hl r Hr) as (n & H & _); eauto).
  destruct (c37_sort L h stl x l s Hx Hn) as (d & m & H1 & H2 & H3 & H4 & _). exists d, m. repeat split; auto.
  assert (Hm : forall r, In r m -> exists n, number_at L r n /\ good n /\ size_le k n).
  { intros r Hr. apply (Permutation_in _ (Permutation_sym H3)) in Hr. apply in_map_iff in Hr as [y [<- Hy]].
    destruct (Hl y Hy) as (n & Hn1 & Hn2). exists n. split; [exact Hn1|exact Hn2]. }
  clear H3 H2. induction H4 as [|a m Hs IH Ha]; constructor.
  - apply IH. intros r Hr. apply Hm. now right.
  - rewrite Forall_forall in Ha |- *. intros b Hb n o Hna Hno. specialize (Ha b Hb).
    destruct (Hm a (or_introl eq_refl)) as (n' & En & Gn & Sn). destruct (Hm b (or_intror Hb)) as (o' & Eo & Go & So).
    unfold number_at in *. rewrite Hna in En. injection En as <-. rewrite Hno in Eo. injection Eo as <-.
    apply Qnot_lt_le. intros Hlt.
    pose proof (proj2 (proj1 (num_ltb_exact (l_prec L) k o n Hk Hp Go Gn So Sn)) Hlt) as B.
    unfold num_ltb in B. apply negb_true_iff in B. unfold key in Ha. rewrite Hna, Hno in Ha.
    assert (C : Qle_bool (to_decimal (l_prec L) n) (to_decimal (l_prec L) o) = true); [|congruence].
    apply Qle_bool_iff. rewrite !to_decimal_val. exact Ha.
Qed.
Print Assumptions c37_sort_exact.
(** The other functions are the functions on lists of the same name; [restore] gives an element back the value it had
    before a conversion and changes nothing else. *)
Theorem c37_reverse : forall L h stl x l s, rval x = VList l -> exists d, assoc ($"reverse") (g_funcs (std L)) = Some d /\
  call (std_env L) h d stl [x] s = (OOk (mkRes (VList (map restore (rev l))) None None), s).
Proof. intros. eexists. split; [apply find_reverse|]. now apply reverse_call. Qed.
Print Assumptions c37_reverse.
Theorem c37_concat : forall L h stl x y a b s, rval x = VList a -> rval y = VList b -> exists d, assoc ($"concat") (g_funcs (std L)) = Some d /\
  call (std_env L) h d stl [x; y] s = (OOk (mkRes (VList (map restore (a ++ b))) None None), s).
Proof. intros. eexists. split; [apply find_concat|]. now apply concat_call. Qed.
Print Assumptions c37_concat.
Theorem c37_count : forall L h stl x l s, rval x = VList l -> exists d, assoc ($"count") (g_funcs (std L)) = Some d /\
  call (std_env L) h d stl [x] s = (OOk (mkRes (VNum (mkNum (Z.of_nat (length l)) 1 None None)) None None), s).
Proof. intros. eexists. split; [apply find_count|]. now apply count_call. Qed.
Print Assumptions c37_count.
(** Filtering with as many truth values: the elements whose truth value is true, in order *)
Theorem c37_filter : forall L h stl x y l t bs s, rval x = VList l -> rval y = VList t -> map rval t = map VBool bs -> length t = length l ->
  exists d, assoc ($"filter") (g_funcs (std L)) = Some d /\
  call (std_env L) h d stl [x; y] s = (OOk (mkRes (VList (map restore (map snd (filter fst (combine bs l))))) None None), s).
Proof. intros. eexists. split; [apply find_filter|]. eapply filter_call; eassumption. Qed.
Print Assumptions c37_filter.
(** The element at a place from 1 to the length: its value (a number shown in the format of the index, if that has one),
    unit and reference. *)
Theorem c37_element : forall L h stl x y l n i s, rval x = VList l -> rval y = VNum n -> (1 <= l_prec L)%Z ->
  (val n == inject_Z i)%Q -> (Z.abs i <= 10 ^ l_prec L)%Z -> (1 <= i <= Z.of_nat (length l))%Z ->
  exists d e v, assoc ($"element") (g_funcs (std L)) = Some d /\ nth_error l (Z.to_nat (i - 1)) = Some e /\
    call (std_env L) h d stl [x; y] s = (OOk (mkRes v (runit e) (rref e)), s) /\
    (is_list (rval e) = false -> same_value v (rval e)).
Proof.
  intros L h stl x y l n i s Hx Hy Hp Hv Hi Hr. exists (d_element L).
  assert (N : exists e, nth_error l (Z.to_nat (i - 1)) = Some e).
  { destruct (nth_error l (Z.to_nat (i - 1))) eqn:E; [eauto|]. apply nth_error_None in E. lia. }
  destruct N as [e N]. exists e, (recast (ncast n) (rval e)). split; [apply find_element|]. split; [exact N|].
  rewrite (element_call L h stl x y l n s Hx Hy), (num_int_Z _ n i Hp Hv Hi), (py_index_in l i Hr), N. split; [reflexivity|].
  intros He. unfold recast. destruct (rval e); try reflexivity; [|discriminate].
  destruct (ncast n); split; reflexivity.
Qed.
Print Assumptions c37_element.
(** Outside, counted from both ends, there is an error. *)
Theorem c37_element_out : forall L h stl x y l n i s, rval x = VList l -> rval y = VNum n -> (1 <= l_prec L)%Z ->
  (val n == inject_Z i)%Q -> (Z.abs i <= 10 ^ l_prec L)%Z -> (i > Z.of_nat (length l) \/ i < 1 - Z.of_nat (length l))%Z ->
  exists d, assoc ($"element") (g_funcs (std L)) = Some d /\ forall r s', call (std_env L) h d stl [x; y] s <> (OOk r, s').
Proof.
  intros L h stl x y l n i s Hx Hy Hp Hv Hi Hr. exists (d_element L). split; [apply find_element|]. intros r s'.
  rewrite (element_call L h stl x y l n s Hx Hy), (num_int_Z _ n i Hp Hv Hi), (py_index_out l i Hr).
  destruct (e_tostr (std_env L) x && e_tostr (std_env L) y); discriminate.
Qed.
Print Assumptions c37_element_out.
(** That there is an error for every place that is not in the array is false: 0 and down to 1 - length count from the end. *)
Theorem c37_element_zero_refuted : forall L h stl x y l n e s, rval x = VList (l ++ [e]) -> rval y = VNum n -> (1 <= l_prec L)%Z ->
  (val n == 0)%Q -> exists d v, assoc ($"element") (g_funcs (std L)) = Some d /\
    call (std_env L) h d stl [x; y] s = (OOk (mkRes v (runit e) (rref e)), s).
Proof.
  intros L h stl x y l n e s Hx Hy Hp Hv. exists (d_element L), (recast (ncast n) (rval e)). split; [apply find_element|].
  assert (Hi : (Z.abs 0 <= 10 ^ l_prec L)%Z) by (pose proof (Z.pow_pos_nonneg 10 (l_prec L)); cbn; lia).
  rewrite (element_call L h stl x y (l ++ [e]) n s Hx Hy), (num_int_Z _ n 0 Hp Hv Hi), py_index_back by (rewrite app_length; cbn [length]; lia).
  rewrite app_length. cbn [length]. replace (Z.to_nat (Z.of_nat (length l + 1) + 0 - 1)) with (length l) by lia.
  rewrite nth_error_app2, Nat.sub_diag by lia. reflexivity.
Qed.
Print Assumptions c37_element_zero_refuted.
Example c37_ex : answer "sort([3,'1',2,true])" = "['1';True;2;3;]"%string /\ answer "reverse([3,1,2])" = "[2;1;3;]"%string
  /\ answer "concat([1,2],[3])" = "[1;2;3;]"%string /\ answer "count([5,5,5])" = "3"%string
  /\ answer "element([7,8,9],2)" = "8"%string /\ answer "element([7,8,9],0)" = "9"%string /\ answer "element([7,8,9],4)" = "execute error"%string
  /\ answer "filter([7,8,9],[true,false,true])" = "[7;9;]"%string /\ answer "sort([1,'a'])" = "execute error"%string.
Proof. vm_compute. repeat split. Qed.
Example c37_numeric_ex : numeric demo [int 3; text ($"1"); yes] /\ number_at demo (text ($"1")) (mkNum 1 1 (Some CDec) None) /\
  size_le 2 (mkNum 1 1 (Some CDec) None) /\ (2 * 2 + 1 <= l_prec demo)%Z.
Proof.
  split; [|split; [vm_compute; reflexivity|split; [split; reflexivity|vm_compute; discriminate]]].
  intros r [<-|[<-|[<-|[]]]]; eexists; vm_compute; reflexivity.
Qed.

(** * C47 *)
(** For every text and delimiter: an empty delimiter is an error, otherwise joining the parts gives the text back. *)
Theorem c47_split_join : forall L h stl x y t d s, rval x = VStr t -> rval y = VStr d -> d <> [] ->
  exists ds dj ps, assoc ($"split") (g_funcs (std L)) = Some ds /\ assoc ($"join") (g_funcs (std L)) = Some dj /\
    call (std_env L) h ds stl [x; y] s = (OOk (mkRes (VList (map text ps)) None None), s) /\
    call (std_env L) h dj stl [mkRes (VList (map text ps)) None None; y] s = (OOk (text t), s).
Proof.
  intros L h stl x y t d s Hx Hy Hd. exists (d_split L), (d_join L).
  assert (P : exists ps, py_split t d = Some ps) by (destruct d; [congruence|eexists; reflexivity]). destruct P as [ps P]. exists ps.
  split; [apply find_split|]. split; [apply find_join|]. split.
  - rewrite (split_call L h stl x y t d s Hx Hy), P. reflexivity.
  - rewrite (join_call L h stl (mkRes (VList (map text ps)) None None) y (map text ps) ps d s eq_refl); [|rewrite map_map; reflexivity|exact Hy].
    rewrite (split_join t d ps P). reflexivity.
Qed.
Print Assumptions c47_split_join.
Theorem c47_split_empty : forall L h stl x y t s, rval x = VStr t -> rval y = VStr [] ->
  exists ds e, assoc ($"split") (g_funcs (std L)) = Some ds /\ call (std_env L) h ds stl [x; y] s = (OErr e, s).
Proof. intros L h stl x y t s Hx Hy. exists (d_split L). eexists. split; [apply find_split|]. rewrite (split_call L h stl x y t [] s Hx Hy). reflexivity. Qed.
Print Assumptions c47_split_empty.
(** The other way round, at least one part: no part may make a delimiter sooner than the one that follows it, and the last
    must have none. *)
Theorem c47_join_split : forall L h stl x y ts t d s, rval x = VList (map text (ts ++ [t])) -> rval y = VStr d -> d <> [] ->
  Forall (ends_part d) ts -> (forall i, ~ found d t i) ->
  exists ds dj j, assoc ($"split") (g_funcs (std L)) = Some ds /\ assoc ($"join") (g_funcs (std L)) = Some dj /\
    call (std_env L) h dj stl [x; y] s = (OOk (text j), s) /\
    call (std_env L) h ds stl [text j; y] s = (OOk (mkRes (VList (map text (ts ++ [t]))) None None), s).
Proof.
  intros L h stl x y ts t d s Hx Hy Hd H Ht. exists (d_split L), (d_join L), (sjoin d (ts ++ [t])).
  split; [apply find_split|]. split; [apply find_join|]. split.
  - rewrite (join_call L h stl x y (map text (ts ++ [t])) (ts ++ [t]) d s Hx); [reflexivity|rewrite map_map; reflexivity|exact Hy].
  - rewrite (split_call L h stl (text _) y _ d s eq_refl Hy), (join_split d ts t Hd H Ht). reflexivity.
Qed.
Print Assumptions c47_join_split.
(** With a delimiter of one character it is enough that no part has it. *)
Theorem c47_join_split_char : forall L h stl x y ps c s, rval x = VList (map text ps) -> rval y = VStr [c] -> ps <> [] ->
  (forall t, In t ps -> ~ In c t) ->
  exists ds dj j, assoc ($"split") (g_funcs (std L)) = Some ds /\ assoc ($"join") (g_funcs (std L)) = Some dj /\
    call (std_env L) h dj stl [x; y] s = (OOk (text j), s) /\
    call (std_env L) h ds stl [text j; y] s = (OOk (mkRes (VList (map text ps)) None None), s).
Proof.
  intros L h stl x y ps c s Hx Hy Hn H. destruct (exists_last Hn) as (ts & t & ->).
  apply (c47_join_split L h stl x y ts t [c] s Hx Hy); [discriminate| |].
  - apply Forall_forall. intros u Hu. apply one_char_part, H, in_or_app. now left.
  - intros i. apply one_char_absent, H, in_or_app. right. now left.
Qed.
Print Assumptions c47_join_split_char.
(** That no part contains the delimiter is not enough for longer delimiters; and no parts at all come back as one. *)
Theorem c47_join_split_refuted : exists d ps, d <> [] /\ ps <> [] /\ (forall t, In t ps -> forall i, ~ found d t i) /\
  py_split (sjoin d ps) d <> Some ps.
Proof.
  exists ($"aa"), [$"a"; $"b"]. split; [discriminate|]. split; [discriminate|]. split; [|vm_compute; discriminate].
  intros t Ht i (a & b & E & _). assert (N : length t <= 1) by (destruct Ht as [<-|[<-|[]]]; cbn; lia).
  rewrite E, !app_length in N. cbn in N. lia.
Qed.
Print Assumptions c47_join_split_refuted.
Theorem c47_none_refuted : forall d, d <> [] -> py_split (sjoin d []) d = Some [[]].
Proof. intros d H. destruct d; [congruence|reflexivity]. Qed.
Print Assumptions c47_none_refuted.
Example c47_ex : answer "split('a, b,c', ',')" = "['a';' b';'c';]"%string /\ answer "join(split('a--b-', '--'), '--')" = "'a--b-'"%string
  /\ answer "split(join(['a','b'], 'aa'), 'aa')" = "['';'ab';]"%string /\ answer "split('abc', '')" = "execute error"%string
  /\ answer "split(join(['x','','z'], ';'), ';')" = "['x';'';'z';]"%string.
Proof. vm_compute. repeat split. Qed.
Example c47_ends_ex : ends_part ($"--") ($"a") /\ ~ ends_part ($"aa") ($"a") /\ found ($"--") ($"x--y") 1.
Proof.
  split; [|split].
  - intros i Hi (a & b & E & F). cbn in Hi. assert (a = []) by (destruct a; [reflexivity|cbn in F; lia]). subst a. discriminate.
  - intros H. apply (H 0); [cbn; lia|]. exists [], ($"a"). split; reflexivity.
  - exists ($"x"), ($"y"). split; reflexivity.
Qed.
