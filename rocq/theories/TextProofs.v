(** Texts. *)
From Coq Require Import ZArith QArith Ascii String List Bool Lia.
From Verif Require Import Base BaseProofs Dec Num NumSpec Bases BasesProofs Formats Units Install Syntax Pos PosProofs Call CallSpec CallProofs Loop Parse Exec ExecSpec Std StdSpec StdProofs StdProofs4 StdProofs5 StdProofs6 StdProofs7 StdProofs8 TextSpec.
Import ListNotations.
Open Scope nat_scope.

(** * Calls of operations that take texts *)
Definition takes_texts (k : nat) (d : opdef) : Prop :=
  o_vals d = all_are tystr /\ o_min d = Some k /\ o_max d = Some k /\ o_units d = [] /\ o_excs d = false.
Definition texts_of (L : lib) (ins : list result) (ts : list str) : Prop := Forall2 (shown_as L) ins ts.
Lemma text_valid L ins ts : texts_of L ins ts -> forall i r, nth_error ins i = Some r ->
  validate_types (std_env L) [tystr] (rval r) (runit r) (rref r) = Ok tt.
Proof.
  intros H i r Hi. assert (G : exists t, shown_as L r t).
  { clear -H Hi. revert i Hi. induction H as [|x t ins ts H1 _ IH]; intros [|i] Hi; try discriminate; [injection Hi as <-; eauto|eapply IH; eauto]. }
  destruct G as (t & _ & _ & E). cbn [validate_types]. unfold validate_input. cbn [tystr ty e_valid std_env]. unfold std_valid.
  replace (seq_eqb ($"string") ($"array")) with false by reflexivity.
  replace (existsb (seq_eqb ($"string")) [$"number"; $"boolean"; $"string"; $"numericalrepresentation"; $"variable"; $"exception"]) with true by reflexivity.
  unfold valid1. replace (seq_eqb ($"string") ($"number")) with false by reflexivity. replace (seq_eqb ($"string") ($"boolean")) with false by reflexivity.
  replace (seq_eqb ($"string") ($"string")) with true by reflexivity. rewrite E. reflexivity.
Qed.
Lemma texts_validate L d ins ts : takes_texts (length ins) d -> texts_of L ins ts ->
  validate (std_env L) d (map rval ins) (map runit ins) (map rref ins) = Ok tt.
Proof.
  intros (Ev & Emin & Emax & Eu & _) H. unfold validate. rewrite Ev, Emin, Emax, Eu, !map_length, Nat.ltb_irrefl. cbn [obind all_are out_each rs_from rs_to rs_types].
  match goal with |- (do _ <- (do _ <- ?a; _); _) = _ => assert (A : a = Ok tt) end; [|rewrite A; reflexivity].
  apply out_each_ok. intros i Hi. unfold indices in Hi. apply in_seq in Hi. rewrite !nth_error_map.
  destruct (nth_error ins i) as [r|] eqn:N; [|apply nth_error_None in N; lia]. cbn [option_map]. now apply (text_valid L ins ts H i).
Qed.
Lemma scalars_norm E d vs : Forall (fun v => is_list v = false) vs -> forall i c ru, norm_arrays E d i vs c ru = Ok (vs, c, ru).
Proof.
  intros H. induction H as [|v vs Hv _ IH]; intros i c ru; [reflexivity|]. cbn [norm_arrays].
  replace (match v with VList l => if must_be d i s_array (Some s_number) then
      do q <- array_numbers E l c; do n <- match e_norm E with Some f => if o_norm d then f (fst q) (map runit l) (o_multi d) (o_rel d) else Ok (fst q, map runit l, ru) | None => Ok (fst q, map runit l, ru) end;
      do l' <- put_back l (fst (fst n)) (snd (fst n)); Ok (VList l', snd q, snd n) else Ok (v, c, ru) | _ => Ok (v, c, ru) end) with (Ok (v, c, ru))
    by (destruct v; try reflexivity; discriminate).
  cbn [obind fst snd]. rewrite IH. reflexivity.
Qed.
Lemma texts_scalar L ins ts : texts_of L ins ts -> Forall (fun v => is_list v = false) (map rval ins).
Proof. intros H. induction H as [|x t ins ts (H1 & _) _ IH]; constructor; assumption. Qed.
Lemma texts_prepare L d ins ts : takes_texts (length ins) d -> texts_of L ins ts -> ins <> [] ->
  prepare (std_env L) d (map rval ins) (map runit ins) (map rref ins) = Ok (map rval ins, map runit ins, None, None).
Proof.
  intros Hd H Ne. unfold prepare. rewrite (texts_validate L d ins ts Hd H). cbn [obind]. destruct Hd as (Ev & _).
  unfold convert_numbers. rewrite Ev. cbn [all_are fold_left rs_types existsb is_plain_number tystr ty]. replace (seq_eqb ($"string") s_number) with false by reflexivity.
  cbn [orb]. replace (if o_autoin d then (map rval ins, None) else (map rval ins, None)) with (map rval ins, None : option cast) by (destruct (o_autoin d); reflexivity).
  cbn [fst snd]. destruct ins as [|x ins]; [congruence|]. cbn [map all_numbers]. unfold can_be. rewrite Ev. cbn [all_are existsb rs_types tystr ty covers rs_from rs_to Nat.leb andb orb typ_is].
  replace (seq_eqb ($"string") s_number) with false by reflexivity. cbn [orb andb].
  change (rval x :: map rval ins) with (map rval (x :: ins)). rewrite (scalars_norm _ _ _ (texts_scalar L (x :: ins) ts H)). reflexivity.
Qed.
Lemma texts_call L h d stl ins ts s : takes_texts (length ins) d -> texts_of L ins ts -> ins <> [] ->
  call (std_env L) h d stl ins s =
  match o_impl d h (map rval ins) (map runit ins) (map rref ins) stl s with
  | (OOk o, s') => (OOk (finish d None None o), s')
  | (OErr e, s') => if wrapped e then (OErr e, s') else if forallb (e_tostr (std_env L)) ins then (OErr (XCalc true (MOp (o_name d))), s') else (OPy, s')
  | (OPy, s') => if forallb (e_tostr (std_env L)) ins then (OErr (XCalc false (MOp (o_name d))), s') else (OPy, s')
  | (OFuel, s') => (OFuel, s')
  end.
Proof.
  intros Hd H Ne. rewrite call_scalars.
  2:{ apply forallb_forall. intros r Hr. pose proof (texts_scalar L ins ts H) as F. rewrite Forall_forall in F. rewrite (F (rval r)) by (now apply in_map). reflexivity. }
  2:{ unfold must_be. destruct Hd as (Ev & _). rewrite Ev. reflexivity. }
  unfold call_plain. replace (o_excs d) with false by (symmetry; apply Hd).
  assert (X : find_exc ins = None). { unfold find_exc. clear -H. induction H as [|x t ins ts (_ & H1 & _) _ IH]; [reflexivity|]. cbn [find]. now rewrite H1. }
  rewrite X, (texts_prepare L d ins ts Hd H Ne). unfold bind, lift. cbn [fst snd].
  destruct (o_impl d h _ _ _ stl s) as [[o|e| |] s']; reflexivity.
Qed.
Lemma text1_call L h d f stl x t s : takes_texts 1 d -> o_impl d = fn_text1 L f -> shown_as L x t -> forall v, f t = just v ->
  call (std_env L) h d stl [x] s = (OOk (finish d None None (mkOR v None None)), s).
Proof.
  intros Hd Hi Hx v Hv. rewrite (texts_call L h d stl [x] [t] s Hd); [|unfold texts_of; auto|discriminate]. rewrite Hi. cbn [map]. unfold fn_text1, bind, lift.
  destruct Hx as (_ & _ & Hx). rewrite Hx, Hv. reflexivity.
Qed.
Lemma text2_call L h d f stl x y t u s : takes_texts 2 d -> o_impl d = fn_text2 L f -> shown_as L x t -> shown_as L y u -> forall v, f t u = just v ->
  call (std_env L) h d stl [x; y] s = (OOk (finish d None None (mkOR v None None)), s).
Proof.
  intros Hd Hi Hx Hy v Hv. rewrite (texts_call L h d stl [x; y] [t; u] s Hd); [|unfold texts_of; auto|discriminate]. rewrite Hi. cbn [map]. unfold fn_text2, bind, lift.
  destruct Hx as (_ & _ & Hx). destruct Hy as (_ & _ & Hy). rewrite Hx, Hy, Hv. reflexivity.
Qed.

(** * The functions *)
Definition d_text (L : lib) (nm : str) (k : nat) (f : impl) : opdef := snd (fdef nm k k (all_are tystr) f).
Lemma takes_d_text L nm k f : takes_texts k (d_text L nm k f).
Proof. repeat split; reflexivity. Qed.
Definition f_length (L : lib) : impl := fn_text1 L (fun s => just (VNum (num_of_Z (l_prec L) (Z.of_nat (length s))))).
Definition f_find (L : lib) : impl := fn_text2 L (fun s t => just (VNum (num_of_Z (l_prec L) (zofind s t)))).
Lemma find_length L : assoc ($"length") (g_funcs (std L)) = Some (d_text L ($"length") 1 (f_length L)). Proof. reflexivity. Qed.
Lemma find_lower L : assoc ($"lower") (g_funcs (std L)) = Some (d_text L ($"lower") 1 (fn_text1 L (fun s => just (VStr (lower s))))). Proof. reflexivity. Qed.
Lemma find_upper L : assoc ($"upper") (g_funcs (std L)) = Some (d_text L ($"upper") 1 (fn_text1 L (fun s => just (VStr (upper s))))). Proof. reflexivity. Qed.
Lemma find_find L : assoc ($"find") (g_funcs (std L)) = Some (d_text L ($"find") 2 (f_find L)). Proof. reflexivity. Qed.
Lemma find_rstrip L : assoc ($"rstrip") (g_funcs (std L)) = Some (d_text L ($"rstrip") 2 (fn_text2 L (fun s c => just (VStr (rstrip_set c s))))). Proof. reflexivity. Qed.
Lemma find_strip L : assoc ($"strip") (g_funcs (std L)) = Some (d_text L ($"strip") 2 (fn_text2 L (fun s c => just (VStr (rstrip_set c (lstrip_set c s)))))). Proof. reflexivity. Qed.
Definition f_lstrip (L : lib) : impl := fun h vs us rs stl =>
  match vs with [_; VStr _] => fn_text2 L (fun s c => just (VStr (lstrip_set c s))) h vs us rs stl | _ => pyerr end.
Lemma find_lstrip L : assoc ($"lstrip") (g_funcs (std L)) = Some (d_text L ($"lstrip") 2 (f_lstrip L)). Proof. reflexivity. Qed.
Lemma find_replace L : assoc ($"replace") (g_funcs (std L)) = Some (d_text L ($"replace") 3 (fn_replace L)). Proof. reflexivity. Qed.
Lemma length_call L h stl x t s : shown_as L x t ->
  call (std_env L) h (d_text L ($"length") 1 (f_length L)) stl [x] s = (OOk (mkRes (VNum (mkNum (Z.of_nat (length t)) 1 None None)) None None), s).
Proof. intros Hx. eapply eq_trans; [eapply text1_call; [apply takes_d_text|reflexivity|exact Hx|reflexivity]|]. rewrite num_of_Z_eq. reflexivity. Qed.
Lemma find_call L h stl x y t u s : shown_as L x t -> shown_as L y u ->
  call (std_env L) h (d_text L ($"find") 2 (f_find L)) stl [x; y] s = (OOk (mkRes (VNum (mkNum (zofind t u) 1 None None)) None None), s).
Proof. intros Hx Hy. eapply eq_trans; [eapply text2_call; [apply takes_d_text|reflexivity|exact Hx|exact Hy|reflexivity]|]. rewrite num_of_Z_eq. reflexivity. Qed.
Lemma find_spec t u : (exists i, zofind t u = Z.of_nat i /\ found u t i /\ forall j, found u t j -> i <= j) \/ (zofind t u = (-1)%Z /\ forall j, ~ found u t j).
Proof.
  unfold zofind. destruct (sfind u t) as [i|] eqn:E.
  - left. exists i. split; [reflexivity|]. split; [apply sfind_sound in E as (a & b & -> & <-); now exists a, b|].
    intros j (a & b & -> & <-). destruct (sfind_complete u a b) as (k & K1 & K2). congruence.
  - right. split; [reflexivity|]. intros j (a & b & -> & _). destruct (sfind_complete u a b) as (k & K1 & _). congruence.
Qed.
Lemma ceq_in c cs : existsb (ceq c) cs = true <-> In c cs.
Proof. rewrite existsb_exists. split; [intros (d & H & E); apply ceq_iff in E; now subst|intros H; exists c; split; [exact H|now apply ceq_iff]]. Qed.
Lemma lstrip_spec cs s : exists u, s = u ++ lstrip_set cs s /\ Forall (fun c => In c cs) u /\ (forall c r, lstrip_set cs s = c :: r -> ~ In c cs).
Proof.
  induction s as [|c s (u & E & U & N)]; [exists []; split; [reflexivity|]; split; [constructor|discriminate]|]. cbn [lstrip_set].
  destruct (existsb (ceq c) cs) eqn:X.
  - exists (c :: u). split; [cbn; now rewrite <- E|]. split; [constructor; [now apply ceq_in|exact U]|exact N].
  - exists []. split; [reflexivity|]. split; [constructor|]. intros d r H. injection H as <- _. intros C. apply ceq_in in C. congruence.
Qed.
Lemma rstrip_spec cs s : exists u, s = rstrip_set cs s ++ u /\ Forall (fun c => In c cs) u /\ (forall c r, rstrip_set cs s = r ++ [c] -> ~ In c cs).
Proof.
  destruct (lstrip_spec cs (rev s)) as (u & E & U & N). exists (rev u). unfold rstrip_set. split; [|split].
  - rewrite <- rev_app_distr, <- E. symmetry. apply rev_involutive.
  - now apply Forall_rev.
  - intros c r H. apply (N c (rev r)). rewrite <- (rev_involutive (lstrip_set cs (rev s))), H, rev_app_distr. reflexivity.
Qed.
Lemma lstrip_call L h stl x y t cs s : shown_as L x t -> rval y = VStr cs ->
  call (std_env L) h (d_text L ($"lstrip") 2 (f_lstrip L)) stl [x; y] s = (OOk (text (lstrip_set cs t)), s).
Proof.
  intros Hx Hy. rewrite (texts_call L h _ stl [x; y] [t; cs] s (takes_d_text L _ 2 _)); [| |discriminate].
  - cbn [o_impl d_text snd fdef map]. unfold f_lstrip. rewrite Hy. unfold fn_text2, bind, lift. destruct Hx as (_ & _ & ->). reflexivity.
  - constructor; [exact Hx|]. constructor; [|constructor]. unfold shown_as. rewrite Hy. repeat split.
Qed.
Lemma rstrip_call L h stl x y t cs s : shown_as L x t -> shown_as L y cs ->
  call (std_env L) h (d_text L ($"rstrip") 2 (fn_text2 L (fun s c => just (VStr (rstrip_set c s))))) stl [x; y] s = (OOk (text (rstrip_set cs t)), s).
Proof. intros Hx Hy. eapply eq_trans; [eapply text2_call; [apply takes_d_text|reflexivity|exact Hx|exact Hy|reflexivity]|reflexivity]. Qed.
Lemma strip_call L h stl x y t cs s : shown_as L x t -> shown_as L y cs ->
  call (std_env L) h (d_text L ($"strip") 2 (fn_text2 L (fun s c => just (VStr (rstrip_set c (lstrip_set c s)))))) stl [x; y] s = (OOk (text (rstrip_set cs (lstrip_set cs t))), s).
Proof. intros Hx Hy. eapply eq_trans; [eapply text2_call; [apply takes_d_text|reflexivity|exact Hx|exact Hy|reflexivity]|reflexivity]. Qed.
Lemma strip_spec cs s : exists u w, s = u ++ rstrip_set cs (lstrip_set cs s) ++ w /\ Forall (fun c => In c cs) (u ++ w) /\
  (forall c r, rstrip_set cs (lstrip_set cs s) = c :: r -> ~ In c cs) /\ (forall c r, rstrip_set cs (lstrip_set cs s) = r ++ [c] -> ~ In c cs).
Proof.
  destruct (lstrip_spec cs s) as (u & E & U & N). destruct (rstrip_spec cs (lstrip_set cs s)) as (w & E' & W & N').
  exists u, w. split; [now rewrite <- E'|]. split; [apply Forall_app; auto|]. split; [|exact N'].
  intros c r H. apply (N c (r ++ w)). rewrite E', H. reflexivity.
Qed.
Lemma replace_call L h stl x y z t a b s : shown_as L x t -> shown_as L y a -> shown_as L z b ->
  call (std_env L) h (d_text L ($"replace") 3 (fn_replace L)) stl [x; y; z] s = (OOk (text (py_replace t a b)), s).
Proof.
  intros Hx Hy Hz. rewrite (texts_call L h _ stl [x; y; z] [t; a; b] s (takes_d_text L _ 3 _)); [|unfold texts_of; auto|discriminate].
  cbn [o_impl d_text snd fdef map]. unfold fn_replace, bind, lift. destruct Hx as (_ & _ & ->), Hy as (_ & _ & ->), Hz as (_ & _ & ->). reflexivity.
Qed.
(** A text is divided into the parts before each occurrence and the rest *)
Lemma split_parts_ex d : d <> [] -> forall k s, length s <= k -> exists ts t, s = sjoin d (ts ++ [t]) /\ Forall (ends_part d) ts /\ (forall i, ~ found d t i).
Proof.
  intros Hd. induction k as [|k IH]; intros s Hs.
  - destruct s; [|cbn in Hs; lia]. exists [], []. split; [reflexivity|]. split; [constructor|]. intros i (a & b & E & _). destruct a, d; discriminate || congruence.
  - destruct (sfind d s) as [i|] eqn:E.
    + pose proof (sfind_sound d s i E) as (a & b & F & F2). destruct (IH b) as (ts & t & B1 & B2 & B3).
      { subst s. rewrite !app_length in Hs. destruct d; [congruence|]. cbn in Hs. lia. }
      exists (a :: ts), t. split; [cbn [app]; rewrite sjoin_cons by (destruct ts; discriminate); now rewrite <- B1|]. split; [|exact B3]. constructor; [|exact B2].
      intros j Hj (u & w & G1 & G2). assert (Q : s = u ++ d ++ w ++ b) by (rewrite F, app_assoc, G1, <- !app_assoc; reflexivity).
      destruct (sfind_complete d u (w ++ b)) as (q & Q1 & Q2). rewrite <- Q in Q1. rewrite Q1 in E. injection E as ->. lia.
    + exists [], s. split; [reflexivity|]. split; [constructor|]. intros i (a & b & F & _). destruct (sfind_complete d a b) as (q & Q1 & _). congruence.
Qed.
Lemma replace_spec t a b : a <> [] -> exists ts r, t = sjoin a (ts ++ [r]) /\ Forall (ends_part a) ts /\ (forall i, ~ found a r i) /\ py_replace t a b = sjoin b (ts ++ [r]).
Proof.
  intros Ha. destruct (split_parts_ex a Ha (length t) t (le_n _)) as (ts & r & E & H1 & H2). exists ts, r. split; [exact E|]. split; [exact H1|]. split; [exact H2|].
  pose proof (join_split a ts r Ha H1 H2) as J. rewrite <- E in J. unfold py_split in J. unfold py_replace. destruct a; [congruence|]. injection J as ->. reflexivity.
Qed.

(** * Letters *)
Lemma chr_code z : (0 <= z < 256)%Z -> code (chr z) = z.
Proof. intros H. unfold code, chr. rewrite N_ascii_embedding by (change 256%N with (Z.to_N 256); apply Z2N.inj_lt; lia). rewrite Z2N.id; lia. Qed.
Lemma code_chr c : chr (code c) = c.
Proof. unfold code, chr. rewrite N2Z.id. apply ascii_N_embedding. Qed.
Lemma code_inj c d : code c = code d -> c = d.
Proof. intros H. rewrite <- (code_chr c), <- (code_chr d). now rewrite H. Qed.
Lemma is_upper_iff c : is_upper c = true <-> (65 <= code c <= 90)%Z.
Proof. unfold is_upper. rewrite andb_true_iff, !Z.leb_le. reflexivity. Qed.
Lemma is_lower_iff c : is_lower c = true <-> (97 <= code c <= 122)%Z.
Proof. unfold is_lower. rewrite andb_true_iff, !Z.leb_le. reflexivity. Qed.
Lemma lower_code c : code (lower_c c) = (if is_upper c then code c + 32 else code c)%Z.
Proof. unfold lower_c. destruct (is_upper c) eqn:E; [|reflexivity]. apply is_upper_iff in E. apply chr_code. lia. Qed.
Lemma upper_code c : code (upper_c c) = (if is_lower c then code c - 32 else code c)%Z.
Proof. unfold upper_c. destruct (is_lower c) eqn:E; [|reflexivity]. apply is_lower_iff in E. apply chr_code. lia. Qed.
Lemma letter_lower c d : lower_c c = lower_c d <-> c = d \/ letter_pair c d.
Proof.
  split.
  - intros H. apply (f_equal code) in H. rewrite !lower_code in H. destruct (is_upper c) eqn:A, (is_upper d) eqn:B.
    + left. apply code_inj. lia.
    + right. apply is_upper_iff in A. exists (code d). split; [lia|]. right. split; lia.
    + right. apply is_upper_iff in B. exists (code c). split; [lia|]. left. split; lia.
    + left. now apply code_inj.
  - intros [->|(k & Hk & H)]; [reflexivity|]. apply code_inj. rewrite !lower_code.
    destruct (is_upper c) eqn:A, (is_upper d) eqn:B; try apply is_upper_iff in A; try apply is_upper_iff in B; try lia.
    all: destruct H as [[H1 H2]|[H1 H2]]; exfalso; try lia; (apply not_true_iff_false in A; apply A, is_upper_iff; lia) || (apply not_true_iff_false in B; apply B, is_upper_iff; lia).
Qed.
Lemma caseless_iff a b : lower a = lower b <-> caseless a b.
Proof.
  unfold caseless. split.
  - revert b. induction a as [|c a IH]; intros [|d b] H; try discriminate; [constructor|]. cbn in H. injection H as H1 H2. constructor; [now apply letter_lower|now apply IH].
  - intros H. induction H as [|c d a b H1 _ IH]; [reflexivity|]. cbn. apply letter_lower in H1. unfold lower in *. now rewrite H1, IH.
Qed.
Lemma lower_caseless s : caseless (lower s) s.
Proof.
  apply caseless_iff. unfold lower. rewrite map_map. apply map_ext. intros c. apply code_inj. rewrite !lower_code. destruct (is_upper c) eqn:E.
  - destruct (is_upper (lower_c c)) eqn:E'; [|reflexivity]. apply is_upper_iff in E, E'. rewrite lower_code in E'. replace (is_upper c) with true in E' by (symmetry; now apply is_upper_iff). lia.
  - replace (lower_c c) with c by (unfold lower_c; now rewrite E). now rewrite E.
Qed.
Lemma lower_no_upper s : Forall (fun c => ~ (65 <= code c <= 90)%Z) (lower s).
Proof.
  induction s as [|c s IH]; constructor; [|exact IH]. rewrite lower_code. destruct (is_upper c) eqn:E; [apply is_upper_iff in E; lia|].
  intros H. apply is_upper_iff in H. congruence.
Qed.
Lemma upper_no_lower s : Forall (fun c => ~ (97 <= code c <= 122)%Z) (upper s).
Proof.
  induction s as [|c s IH]; constructor; [|exact IH]. rewrite upper_code. destruct (is_lower c) eqn:E; [apply is_lower_iff in E; lia|].
  intros H. apply is_lower_iff in H. congruence.
Qed.
Lemma upper_caseless s : caseless (upper s) s.
Proof.
  induction s as [|c s IH]; constructor; [|exact IH]. unfold upper_c. destruct (is_lower c) eqn:E; [|now left]. right. apply is_lower_iff in E.
  exists (code c). split; [exact E|]. right. split; [reflexivity|]. apply chr_code. lia.
Qed.

(** * Order *)
Lemma before_iff a b : str_ltb a b = true <-> before a b.
Proof.
  split.
  - revert b. induction a as [|c a IH]; intros [|d b] H; try discriminate; [exists [], [], (d :: b); now repeat split|].
    cbn [str_ltb] in H. apply orb_true_iff in H as [H|H].
    + apply Z.ltb_lt in H. exists [], (c :: a), (d :: b). now repeat split.
    + apply andb_true_iff in H as [H1 H2]. apply Z.eqb_eq, code_inj in H1. subst d. destruct (IH b H2) as (p & x & y & -> & -> & H). exists (c :: p), x, y. now repeat split.
  - intros (p & x & y & -> & -> & H). induction p as [|c p IH].
    + cbn [app]. destruct x as [|c x], y as [|d y]; try contradiction; [reflexivity|]. cbn [str_ltb]. apply orb_true_iff. left. now apply Z.ltb_lt.
    + cbn [app str_ltb]. rewrite Z.eqb_refl, IH. now rewrite orb_true_r.
Qed.
Lemma ltb_irrefl a : str_ltb a a = false.
Proof. induction a as [|c a IH]; [reflexivity|]. cbn [str_ltb]. now rewrite Z.ltb_irrefl, Z.eqb_refl, IH. Qed.
Lemma ltb_total a b : str_ltb a b = false -> str_ltb b a = false -> a = b.
Proof.
  revert b. induction a as [|c a IH]; intros [|d b]; try discriminate; [reflexivity|]. cbn [str_ltb]. intros H1 H2.
  apply orb_false_iff in H1 as [A1 B1], H2 as [A2 B2]. apply Z.ltb_ge in A1, A2. assert (E : code c = code d) by lia. rewrite E, Z.eqb_refl in B1, B2. f_equal; [now apply code_inj|now apply IH].
Qed.
Lemma ltb_trans a b c : str_ltb a b = true -> str_ltb b c = true -> str_ltb a c = true.
Proof.
  revert b c. induction a as [|x a IH]; intros [|y b] [|z c]; try discriminate; [reflexivity|]. cbn [str_ltb]. rewrite !orb_true_iff, !andb_true_iff, !Z.ltb_lt, !Z.eqb_eq.
  intros [H|[H1 H2]] [G|[G1 G2]]; [left; lia|left; lia|left; lia|right; split; [lia|eapply IH; eassumption]].
Qed.
Definition d_textop (L : lib) (sym : str) (f : impl) : opdef := odef sym 2 (all_are tystr) false false true false f.
Lemma takes_d_textop L sym f : takes_texts 2 (d_textop L sym f).
Proof. repeat split; reflexivity. Qed.
Definition text_ops : list (str * ((str -> str) * (str -> str -> bool))) :=
  let same (s : str) := s in
  [($"<$", (same, str_ltb)); ($">$", (same, fun s t => str_ltb t s)); ($"<=$", (same, fun s t => negb (str_ltb t s))); ($">=$", (same, fun s t => negb (str_ltb s t)));
   ($"<~", (lower, str_ltb)); ($">~", (lower, fun s t => str_ltb t s)); ($"<=~", (lower, fun s t => negb (str_ltb t s))); ($">=~", (lower, fun s t => negb (str_ltb s t)));
   ($"==$", (same, seq_eqb)); ($"!=$", (same, fun s t => negb (seq_eqb s t))); ($"==~", (lower, seq_eqb)); ($"!=~", (lower, fun s t => negb (seq_eqb s t)))].
Lemma find_text_op L sym g f : In (sym, (g, f)) text_ops -> find_op (g_ops (std L)) sym = Some (mkOper [None] [None] false (d_textop L sym (op_text_cmp L g f))).
Proof. intros H. repeat (destruct H as [H|H]; [injection H as <- <- <-; reflexivity|]). destruct H. Qed.
Lemma text_op_call L stl sym g f x y t u s : In (sym, (g, f)) text_ops -> shown_as L x t -> shown_as L y u ->
  callop (std L) stl sym [x; y] s = (OOk (mkRes (VBool (f (g t) (g u))) None None), s).
Proof.
  intros Hs Hx Hy. rewrite callop_eq, (find_text_op L sym g f Hs). cbn [op_def].
  eapply eq_trans; [eapply text2_call; [apply takes_d_textop|reflexivity|exact Hx|exact Hy|reflexivity]|reflexivity].
Qed.
Lemma find_text_add L : find_op (g_ops (std L)) ($"+$") = Some (mkOper [None] [None] false (d_textop L ($"+$") (fn_text2 L (fun s t => just (VStr (s ++ t)))))).
Proof. reflexivity. Qed.
Lemma text_add_call L stl x y t u s : shown_as L x t -> shown_as L y u -> callop (std L) stl ($"+$") [x; y] s = (OOk (text (t ++ u)), s).
Proof.
  intros Hx Hy. rewrite callop_eq, find_text_add. cbn [op_def]. eapply eq_trans; [eapply text2_call; [apply takes_d_textop|reflexivity|exact Hx|exact Hy|reflexivity]|reflexivity].
Qed.

(** * Parts and repetitions *)
Definition d_substr (L : lib) : opdef := snd (fdef ($"substr") 2 3 [mkRestr 0 (Some 0) [tystr]; mkRestr 1 (Some 2) [tynum]] (fn_substr L)).
Lemma find_substr L : assoc ($"substr") (g_funcs (std L)) = Some (d_substr L). Proof. reflexivity. Qed.
Definition d_times (L : lib) : opdef := odef ($"*$") 2 (each_is 0 [[tystr]; [tynum]]) false false true false (op_text_mult L).
Lemma find_times L : find_op (g_ops (std L)) ($"*$") = Some (mkOper [None] [None] false (d_times L)). Proof. reflexivity. Qed.
Lemma valid_text L x t : shown_as L x t -> std_valid L ($"string") = std_valid L ($"string") -> valid1 L ($"string") (rval x) (rref x) = Some true.
Proof. intros (_ & _ & H) _. unfold valid1. replace (seq_eqb ($"string") ($"number")) with false by reflexivity. replace (seq_eqb ($"string") ($"boolean")) with false by reflexivity.
  replace (seq_eqb ($"string") ($"string")) with true by reflexivity. now rewrite H. Qed.
Lemma valid_num L x n : number_at L x n -> valid1 L ($"number") (rval x) (rref x) = Some true.
Proof. intros H. unfold valid1. replace (seq_eqb ($"number") ($"number")) with true by reflexivity. unfold number_at in H. now rewrite H. Qed.
Lemma is_num_scalar L x n : number_at L x n -> is_list (rval x) = false /\ is_exc (rval x) = false.
Proof. unfold number_at. destruct (rval x); try discriminate; auto. Qed.
Lemma type_text L x t : shown_as L x t -> validate_types (std_env L) [tystr] (rval x) (runit x) (rref x) = Ok tt.
Proof. intros H. apply (text_valid L [x] [t]) with (i := 0); [unfold texts_of; auto|reflexivity]. Qed.
Lemma type_num L x n : number_at L x n -> validate_types (std_env L) [tynum] (rval x) (runit x) (rref x) = Ok tt.
Proof.
  intros H. cbn [validate_types]. unfold validate_input. cbn [tynum ty e_valid std_env]. unfold std_valid.
  replace (seq_eqb ($"number") ($"array")) with false by reflexivity.
  replace (existsb (seq_eqb ($"number")) [$"number"; $"boolean"; $"string"; $"numericalrepresentation"; $"variable"; $"exception"]) with true by reflexivity.
  rewrite (valid_num L x n H). reflexivity.
Qed.
Lemma substr2_prepare L x y t n : shown_as L x t -> number_at L y n -> exists c,
  prepare (std_env L) (d_substr L) [rval x; rval y] [runit x; runit y] [rref x; rref y] = Ok ([rval x; VNum n], [runit x; runit y], c, None).
Proof.
  intros Hx Hy. unfold prepare. assert (V : validate (std_env L) (d_substr L) [rval x; rval y] [runit x; runit y] [rref x; rref y] = Ok tt).
  { unfold validate. cbn [d_substr snd fdef o_min o_max o_vals o_units length Nat.ltb Nat.leb obind out_each indices rs_from rs_to rs_types Nat.min Nat.add Nat.sub seq nth_error].
    rewrite (type_text L x t Hx), (type_num L y n Hy). reflexivity. }
  rewrite V. cbn [obind]. replace (o_autoin (d_substr L)) with true by reflexivity.
  unfold convert_numbers. cbn [d_substr snd fdef o_vals fold_left rs_types existsb is_plain_number tystr tynum ty rs_from rs_to].
  replace (seq_eqb ($"string") s_number) with false by reflexivity. replace (seq_eqb ($"number") s_number) with true by reflexivity. cbn [orb].
  unfold convert_range. cbn [rs_from rs_to Nat.add Nat.sub seq fold_left]. unfold convert_one. cbn [nth_error]. rewrite to_number_any. unfold number_at in Hy. rewrite Hy. cbn [fst snd list_set].
  eexists. cbn [all_numbers]. unfold can_be. cbn [d_substr snd fdef o_vals existsb rs_types tystr tynum ty covers rs_from rs_to Nat.leb andb orb typ_is].
  replace (seq_eqb ($"string") s_number) with false by reflexivity. cbn [orb andb].
  rewrite scalars_norm; [reflexivity|]. constructor; [apply Hx|]. constructor; [reflexivity|constructor].
Qed.
Lemma substr3_prepare L x y z t n m : shown_as L x t -> number_at L y n -> number_at L z m -> exists c,
  prepare (std_env L) (d_substr L) [rval x; rval y; rval z] [runit x; runit y; runit z] [rref x; rref y; rref z] = Ok ([rval x; VNum n; VNum m], [runit x; runit y; runit z], c, None).
Proof.
  intros Hx Hy Hz. unfold prepare. assert (V : validate (std_env L) (d_substr L) [rval x; rval y; rval z] [runit x; runit y; runit z] [rref x; rref y; rref z] = Ok tt).
  { unfold validate. cbn [d_substr snd fdef o_min o_max o_vals o_units length Nat.ltb Nat.leb obind out_each indices rs_from rs_to rs_types Nat.min Nat.add Nat.sub seq nth_error].
    rewrite (type_text L x t Hx), (type_num L y n Hy), (type_num L z m Hz). reflexivity. }
  rewrite V. cbn [obind]. replace (o_autoin (d_substr L)) with true by reflexivity.
  unfold convert_numbers. cbn [d_substr snd fdef o_vals fold_left rs_types existsb is_plain_number tystr tynum ty rs_from rs_to].
  replace (seq_eqb ($"string") s_number) with false by reflexivity. replace (seq_eqb ($"number") s_number) with true by reflexivity. cbn [orb].
  unfold convert_range. cbn [rs_from rs_to Nat.add Nat.sub seq fold_left]. unfold convert_one. cbn [nth_error]. rewrite !to_number_any. unfold number_at in Hy, Hz. rewrite Hy, Hz. cbn [fst snd list_set].
  eexists. cbn [all_numbers]. unfold can_be. cbn [d_substr snd fdef o_vals existsb rs_types tystr tynum ty covers rs_from rs_to Nat.leb andb orb typ_is].
  replace (seq_eqb ($"string") s_number) with false by reflexivity. cbn [orb andb].
  rewrite scalars_norm; [reflexivity|]. constructor; [apply Hx|]. repeat constructor.
Qed.
Lemma times_prepare L x y t n : shown_as L x t -> number_at L y n -> exists c,
  prepare (std_env L) (d_times L) [rval x; rval y] [runit x; runit y] [rref x; rref y] = Ok ([rval x; VNum n], [runit x; runit y], c, None).
Proof.
  intros Hx Hy. unfold prepare. assert (V : validate (std_env L) (d_times L) [rval x; rval y] [runit x; runit y] [rref x; rref y] = Ok tt).
  { unfold validate. cbn [d_times odef o_min o_max o_vals o_units length Nat.ltb Nat.leb obind each_is out_each indices rs_from rs_to rs_types Nat.min Nat.add Nat.sub seq nth_error].
    rewrite (type_text L x t Hx), (type_num L y n Hy). reflexivity. }
  rewrite V. cbn [obind]. replace (o_autoin (d_times L)) with true by reflexivity.
  unfold convert_numbers. cbn [d_times odef o_vals each_is fold_left rs_types existsb is_plain_number tystr tynum ty rs_from rs_to].
  replace (seq_eqb ($"string") s_number) with false by reflexivity. replace (seq_eqb ($"number") s_number) with true by reflexivity. cbn [orb].
  unfold convert_range. cbn [rs_from rs_to Nat.add Nat.sub seq fold_left]. unfold convert_one. cbn [nth_error]. rewrite to_number_any. unfold number_at in Hy. rewrite Hy. cbn [fst snd list_set].
  eexists. cbn [all_numbers]. unfold can_be. cbn [d_times odef o_vals each_is existsb rs_types tystr tynum ty covers rs_from rs_to Nat.leb andb orb typ_is].
  replace (seq_eqb ($"string") s_number) with false by reflexivity. cbn [orb andb].
  rewrite scalars_norm; [reflexivity|]. constructor; [apply Hx|]. repeat constructor.
Qed.
Lemma integer_int L y i n : (1 <= l_prec L)%Z -> nnum n = i -> nden n = 1%Z -> (Z.abs i < 10 ^ l_prec L)%Z -> number_at L y n -> num_int (l_prec L) n = i.
Proof. intros Hp E1 E2 S _. apply num_int_Z; [exact Hp| |lia]. unfold val. rewrite E1, E2. unfold Qdiv. change (/ inject_Z 1)%Q with 1%Q. apply Qmult_1_r. Qed.
Lemma substr2_call L h stl x y t i s : (1 <= l_prec L)%Z -> shown_as L x t -> integer_at L y i ->
  call (std_env L) h (d_substr L) stl [x; y] s = (OOk (text (py_slice t i None)), s).
Proof.
  intros Hp Hx (Ly & n & Hn & E1 & E2 & S). destruct (substr2_prepare L x y t n Hx Hn) as [c P]. destruct (is_num_scalar L y n Hn) as [_ Xy].
  rewrite call_scalars; [| |reflexivity].
  2: cbn [forallb]; rewrite Ly; destruct Hx as (-> & _); reflexivity.
  unfold call_plain. replace (o_excs (d_substr L)) with false by reflexivity. unfold find_exc. cbn [find map]. rewrite Xy. pose proof Hx as (_ & -> & Hs).
  rewrite P. unfold bind at 1. unfold lift at 1. cbn [fst snd d_substr fdef o_impl fn_substr]. unfold bind, lift. rewrite Hs.
  rewrite (integer_int L y i n Hp E1 E2 S Hn). reflexivity.
Qed.
Lemma substr3_call L h stl x y z t i j s : (1 <= l_prec L)%Z -> rval x = VStr t -> integer_at L y i -> integer_at L z j ->
  call (std_env L) h (d_substr L) stl [x; y; z] s = (OOk (text (py_slice t i (Some (if (j + 1 <=? 0)%Z then j + 1 + Z.of_nat (length t) else j + 1)%Z))), s).
Proof.
  intros Hp Hx (Ly & n & Hn & E1 & E2 & S) (Lz & m & Hm & F1 & F2 & S'). assert (Sx : shown_as L x t) by (unfold shown_as; rewrite Hx; auto).
  destruct (substr3_prepare L x y z t n m Sx Hn Hm) as [c P]. destruct (is_num_scalar L y n Hn) as [_ Xy]. destruct (is_num_scalar L z m Hm) as [_ Xz].
  rewrite call_scalars; [| |reflexivity].
  2: cbn [forallb]; rewrite Ly, Lz, Hx; reflexivity.
  unfold call_plain. replace (o_excs (d_substr L)) with false by reflexivity. unfold find_exc. cbn [find map]. rewrite Xy, Xz. replace (is_exc (rval x)) with false by (rewrite Hx; reflexivity).
  rewrite P. unfold bind at 1. unfold lift at 1. cbn [fst snd d_substr fdef o_impl fn_substr].
  rewrite (integer_int L y i n Hp E1 E2 S Hn), (integer_int L z j m Hp F1 F2 S' Hm). rewrite Hx. destruct (j + 1 <=? 0)%Z; reflexivity.
Qed.
Lemma slice_nth (s : str) a b k : nth_error (firstn (b - a) (skipn a s)) k = if a + k <? b then nth_error s (a + k) else None.
Proof.
  assert (G : forall (l : str) n i, nth_error (firstn n l) i = if i <? n then nth_error l i else None).
  { induction l as [|c l IH]; intros n i.
    - rewrite firstn_nil. assert (N : nth_error (@nil ascii) i = None) by (destruct i; reflexivity). rewrite N. now destruct (i <? n).
    - destruct n as [|n]; [destruct i; reflexivity|]. destruct i as [|i]; [reflexivity|]. cbn [firstn nth_error]. rewrite IH. reflexivity. }
  assert (K : forall a (l : str) i, nth_error (skipn a l) i = nth_error l (a + i)).
  { induction a0 as [|a0 IH]; intros l i; [reflexivity|]. destruct l; [destruct i; reflexivity|]. cbn [skipn Nat.add nth_error]. apply IH. }
  rewrite G, K. destruct (Nat.ltb_spec k (b - a)), (Nat.ltb_spec (a + k) b); try lia; reflexivity.
Qed.
Lemma slice_place len i : (0 <= place len i)%Z -> slice_pos len i = Nat.min len (Z.to_nat (place len i)).
Proof. unfold slice_pos, place. destruct (Z.ltb_spec i 0), (Z.leb_spec 0 i); lia. Qed.
Lemma substr2_spec t i : (0 <= place (length t) i)%Z -> forall k, nth_error (py_slice t i None) k = nth_error t (Z.to_nat (place (length t) i) + k).
Proof.
  intros H k. unfold py_slice. rewrite slice_nth, (slice_place _ _ H). set (a := Z.to_nat _).
  destruct (Nat.ltb_spec (Nat.min (length t) a + k) (length t)).
  - f_equal. lia.
  - symmetry. apply nth_error_None. lia.
Qed.
Lemma substr3_spec t i j : (0 <= place (length t) i)%Z -> (0 <= place (length t) j)%Z ->
  forall k, nth_error (py_slice t i (Some (if (j + 1 <=? 0)%Z then j + 1 + Z.of_nat (length t) else j + 1)%Z)) k =
    (if (place (length t) i + Z.of_nat k <=? place (length t) j)%Z then nth_error t (Z.to_nat (place (length t) i) + k) else None).
Proof.
  intros H G k. unfold py_slice. rewrite slice_nth, (slice_place _ _ H).
  set (e := (if (j + 1 <=? 0)%Z then j + 1 + Z.of_nat (length t) else j + 1)%Z). assert (E : (e = place (length t) j + 1)%Z).
  { unfold e, place. destruct (Z.leb_spec (j + 1) 0), (Z.ltb_spec j 0); lia. }
  assert (E' : slice_pos (length t) e = Nat.min (length t) (Z.to_nat e)). { unfold slice_pos. destruct (Z.leb_spec 0 e); [reflexivity|lia]. }
  rewrite E', E. destruct (Nat.ltb_spec (Nat.min (length t) (Z.to_nat (place (length t) i)) + k) (Nat.min (length t) (Z.to_nat (place (length t) j + 1)))), (Z.leb_spec (place (length t) i + Z.of_nat k) (place (length t) j)); try lia; try reflexivity.
  - f_equal. lia.
  - symmetry. apply nth_error_None. lia.
Qed.
Lemma times_repeat {A} n (l : list A) : times n l = concat (repeat l n).
Proof. induction n as [|n IH]; [reflexivity|]. cbn [times repeat concat]. now rewrite IH. Qed.
Lemma times_call L stl x y t i s : (1 <= l_prec L)%Z -> shown_as L x t -> integer_at L y i ->
  callop (std L) stl ($"*$") [x; y] s = (OOk (text (concat (repeat t (Z.to_nat i)))), s).
Proof.
  intros Hp Hx (Ly & n & Hn & E1 & E2 & S). destruct (times_prepare L x y t n Hx Hn) as [c P]. destruct (is_num_scalar L y n Hn) as [_ Xy].
  rewrite callop_eq, find_times. cbn [op_def]. rewrite call_scalars; [| |reflexivity].
  2: cbn [forallb]; rewrite Ly; destruct Hx as (-> & _); reflexivity.
  unfold call_plain. replace (o_excs (d_times L)) with false by reflexivity. unfold find_exc. cbn [find map]. rewrite Xy. pose proof Hx as (_ & -> & Hs).
  rewrite P. unfold bind at 1. unfold lift at 1. cbn [fst snd d_times odef o_impl op_text_mult]. unfold bind, lift. rewrite Hs.
  rewrite (integer_int L y i n Hp E1 E2 S Hn), times_repeat. reflexivity.
Qed.
Lemma small_unique t a : in_small t a -> a = lower t.
Proof.
  intros [H N]. apply caseless_iff in H. rewrite <- H. clear H. induction N as [|c a Hc _ IH]; [reflexivity|]. cbn. f_equal; [|exact IH].
  unfold lower_c. destruct (is_upper c) eqn:E; [|reflexivity]. apply is_upper_iff in E. contradiction.
Qed.
Lemma yes_no_bool b P : (b = true <-> P) -> yes_no (mkRes (VBool b) None None) P.
Proof. intros H. destruct b; [left|right]; (split; [reflexivity|]); [now apply H|]. intros C. apply H in C. discriminate. Qed.
Lemma not_ltb a b : negb (str_ltb b a) = true <-> a = b \/ before a b.
Proof.
  rewrite negb_true_iff, <- before_iff. split.
  - intros H. destruct (str_ltb a b) eqn:E; [now right|left; now apply ltb_total].
  - intros [->|H]; [apply ltb_irrefl|]. destruct (str_ltb b a) eqn:E; [|reflexivity]. pose proof (ltb_trans _ _ _ H E) as C. now rewrite ltb_irrefl in C.
Qed.
