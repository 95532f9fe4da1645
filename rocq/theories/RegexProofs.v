(** Regular expressions: the loop over the matches, and the operations. *)
From Coq Require Import ZArith QArith Ascii String List Bool Lia.
From Verif Require Import Base BaseProofs Dec Num NumSpec Bases BasesProofs Formats Units Install Syntax Pos PosProofs Call CallSpec CallProofs Loop Parse Exec ExecSpec Std StdSpec StdProofs StdProofs4 StdProofs5 StdProofs6 StdProofs7 StdProofs8 TextSpec TextProofs DateSpec Regex RegexSpec.
Import ListNotations.
Open Scope nat_scope.

(** * The loop *)
Definition sound (m : matcher) : Prop := forall s from (adv : bool) r, from <= length s -> m s from adv = Some r ->
  from <= m_from r /\ m_from r <= m_to r /\ m_to r <= length s /\ (adv = true -> from < m_to r).
Lemma scan_total m s : sound m -> forall n from (adv : bool), from <= length s -> 2 * (length s - from) + (if adv then 0 else 1) < n ->
  exists l, scan m s n from adv = Some l /\ scanned m s from adv l.
Proof.
  intros Hm. induction n as [|n IH]; intros from adv H1 H2; [lia|]. cbn [scan]. destruct (m s from adv) as [r|] eqn:E.
  - destruct (Hm s from adv r H1 E) as (A & B & C & D). destruct (IH (m_to r) (m_to r =? m_from r) C) as (l & L1 & L2).
    + destruct (Nat.eqb_spec (m_to r) (m_from r)) as [F|F]; destruct adv; try specialize (D eq_refl); lia.
    + rewrite L1. exists (r :: l). split; [reflexivity|]. now apply scanned_some.
  - exists []. split; [reflexivity|]. now apply scanned_none.
Qed.
Lemma scanned_one m s from adv l l' : scanned m s from adv l -> scanned m s from adv l' -> l = l'.
Proof.
  intros H. revert l'. induction H as [from adv E|from adv r l E H IH]; intros l' H'; inversion H' as [f a E'|f a r' k E' K]; subst; try congruence.
  assert (r = r') by congruence. subst r'. now rewrite (IH k K).
Qed.
Lemma scan_all_eq m s l st : sound m -> scanned m s 0 false l -> scan_all m s st = (OOk l, st).
Proof.
  intros Hm H. destruct (scan_total m s Hm (scan_fuel s) 0 false) as (l' & E & H'); [lia|unfold scan_fuel; lia|].
  unfold scan_all. rewrite E. now rewrite (scanned_one _ _ _ _ _ _ H H').
Qed.
Lemma laid_weave k t l ps xs : laid k t l ps xs -> weave ps xs = t.
Proof. intros H. induction H as [|k p x t r l ps xs _ _ _ IH]; [reflexivity|]. cbn [weave]. now rewrite IH. Qed.
Lemma scanned_laid m s : sound m -> forall from adv l, scanned m s from adv l -> from <= length s ->
  exists ps xs, laid from (skipn from s) l ps xs /\ map (fun r => slice s (m_from r) (m_to r)) l = xs /\
    (forall f, sub_from f s from l = weave ps (map f l)) /\
    (forall n f, sub_from f s from (firstn n l) = weave ps (first_of n (map f l) xs)) /\
    (ungrouped l -> split_from s from l = map Some ps).
Proof.
  intros Hm from adv l H. induction H as [from adv E|from adv r l E H IH]; intros Hf.
  - assert (Q : slice s from (length s) = skipn from s) by (unfold slice; apply firstn_all2; rewrite skipn_length; lia).
    exists [skipn from s], []. repeat split; [constructor|intros f; exact Q| |intros _; cbn [split_from]; now rewrite Q].
    intros n f. rewrite firstn_nil. replace (first_of n (map f []) []) with (@nil str) by (destruct n; reflexivity). exact Q.
  - destruct (Hm s from adv r Hf E) as (A & B & C & _). destruct (IH C) as (ps & xs & L & X & S & T & P).
    exists (slice s from (m_from r) :: ps), (slice s (m_from r) (m_to r) :: xs).
    assert (L' : laid from (skipn from s) (r :: l) (slice s from (m_from r) :: ps) (slice s (m_from r) (m_to r) :: xs)).
    { assert (Q : skipn from s = slice s from (m_from r) ++ slice s (m_from r) (m_to r) ++ skipn (m_to r) s).
      { unfold slice. rewrite <- (firstn_skipn (m_from r - from) (skipn from s)) at 1. f_equal.
        assert (K : skipn (m_from r - from) (skipn from s) = skipn (m_from r) s).
        { clear -A. revert from A. generalize (m_from r) as k. intros k from A. replace k with (from + (k - from)) at 2 by lia. generalize (k - from) as j. clear k A.
          intros j. revert s. induction from as [|n IH]; intros s; [reflexivity|]. destruct s as [|c s]; [now rewrite !skipn_nil|]. apply IH. }
        rewrite K. rewrite <- (firstn_skipn (m_to r - m_from r) (skipn (m_from r) s)) at 1. f_equal.
        replace (m_to r) with (m_from r + (m_to r - m_from r)) at 2 by lia. generalize (m_to r - m_from r) as j. generalize (m_from r) as k. clear.
        intros k j. revert s. induction k as [|n IH]; intros s; [reflexivity|]. destruct s as [|c s]; [now rewrite !skipn_nil|]. apply IH. }
      rewrite Q. assert (N1 : length (slice s from (m_from r)) = m_from r - from) by (unfold slice; rewrite firstn_length, skipn_length; lia).
      assert (N2 : length (slice s (m_from r) (m_to r)) = m_to r - m_from r) by (unfold slice; rewrite firstn_length, skipn_length; lia).
      apply laid_more; [rewrite N1; lia|rewrite N1, N2; lia|exact L]. }
    repeat split; [exact L'| | | |].
    + cbn [map]. now rewrite X.
    + intros f. cbn [sub_from map weave]. now rewrite S.
    + intros [|n] f.
      * cbn [firstn first_of sub_from]. rewrite (laid_weave _ _ _ _ _ L'). unfold slice. apply firstn_all2. rewrite skipn_length. lia.
      * cbn [firstn first_of sub_from map weave]. now rewrite T.
    + intros U. apply Forall_cons_iff in U as [U1 U2]. cbn [split_from map]. rewrite U1, (P U2). reflexivity.
Qed.

(** * Calls *)
Definition get_restr : list restr := [mkRestr 0 (Some 1) [tystr]; mkRestr 2 (Some 2) [tynum]].
Definition sub_restr : list restr := [mkRestr 0 (Some 2) [tystr]; mkRestr 3 (Some 3) [tynum]].
Definition d_get (L : lib) (R : relib) : opdef := snd (fdef ($"regexget") 2 3 get_restr (fn_regexget L R)).
Definition d_resplit (L : lib) (R : relib) : opdef := d_text L ($"regexsplit") 2 (fn_regexsplit L R).
Definition d_sub (L : lib) (R : relib) : opdef := snd (fdef ($"regexsub") 3 4 sub_restr (fn_regexsub L R)).
Definition d_count (L : lib) (R : relib) : opdef := snd (fdef ($"regexcount") 2 2 [mkRestr 0 (Some 1) [tystr]] (fn_regexcount L R)).
Definition d_op (L : lib) (R : relib) (neg : bool) : opdef := d_textop L (if neg then $"!~" else $"=~") (op_regex L R neg).
Lemma run_get L R stl ins : run_named (with_regex L R) stl ($"regexget") ins = call (std_env L) (callop (with_regex L R) stl) (d_get L R) stl ins. Proof. reflexivity. Qed.
Lemma run_split L R stl ins : run_named (with_regex L R) stl ($"regexsplit") ins = call (std_env L) (callop (with_regex L R) stl) (d_resplit L R) stl ins. Proof. reflexivity. Qed.
Lemma run_sub L R stl ins : run_named (with_regex L R) stl ($"regexsub") ins = call (std_env L) (callop (with_regex L R) stl) (d_sub L R) stl ins. Proof. reflexivity. Qed.
Lemma run_count L R stl ins : run_named (with_regex L R) stl ($"regexcount") ins = call (std_env L) (callop (with_regex L R) stl) (d_count L R) stl ins. Proof. reflexivity. Qed.
Lemma run_op L R (neg : bool) stl ins : run_named (with_regex L R) stl (if neg then $"!~" else $"=~") ins = call (std_env L) (op_handle (with_regex L R) 4 stl) (d_op L R neg) stl ins.
Proof. destruct neg; reflexivity. Qed.
Ltac checked d := unfold validate; cbn [d snd fdef o_min o_max o_vals o_units get_restr sub_restr length Nat.ltb Nat.leb obind out_each indices rs_from rs_to rs_types Nat.min Nat.add Nat.sub seq nth_error].
Ltac converted d := cbn [obind]; match goal with |- context [o_autoin ?z] => replace (o_autoin z) with true by reflexivity end;
  unfold convert_numbers; cbn [d snd fdef o_vals get_restr sub_restr fold_left rs_types existsb is_plain_number tystr tynum ty rs_from rs_to];
  replace (seq_eqb ($"string") s_number) with false by reflexivity; replace (seq_eqb ($"number") s_number) with true by reflexivity; cbn [orb].
Ltac finished d := cbn [all_numbers]; unfold can_be; cbn [d snd fdef o_vals get_restr sub_restr existsb rs_types tystr tynum ty covers rs_from rs_to Nat.leb andb orb typ_is];
  replace (seq_eqb ($"string") s_number) with false by reflexivity; cbn [orb andb]; rewrite scalars_norm; [reflexivity|].
Lemma get2_prepare L R x y t p : shown_as L x t -> shown_as L y p -> exists c,
  prepare (std_env L) (d_get L R) [rval x; rval y] [runit x; runit y] [rref x; rref y] = Ok ([rval x; rval y], [runit x; runit y], c, None).
Proof.
  intros Hx Hy. unfold prepare. assert (V : validate (std_env L) (d_get L R) [rval x; rval y] [runit x; runit y] [rref x; rref y] = Ok tt).
  { checked d_get. rewrite (type_text L x t Hx), (type_text L y p Hy). reflexivity. }
  rewrite V. converted d_get. unfold convert_range. cbn [rs_from rs_to Nat.add Nat.sub seq fold_left]. unfold convert_one. cbn [nth_error fst snd].
  eexists. finished d_get. constructor; [apply Hx|]. constructor; [apply Hy|constructor].
Qed.
Lemma get3_prepare L R x y z t p n : shown_as L x t -> shown_as L y p -> number_at L z n -> exists c,
  prepare (std_env L) (d_get L R) [rval x; rval y; rval z] [runit x; runit y; runit z] [rref x; rref y; rref z] = Ok ([rval x; rval y; VNum n], [runit x; runit y; runit z], c, None).
Proof.
  intros Hx Hy Hz. unfold prepare. assert (V : validate (std_env L) (d_get L R) [rval x; rval y; rval z] [runit x; runit y; runit z] [rref x; rref y; rref z] = Ok tt).
  { checked d_get. rewrite (type_text L x t Hx), (type_text L y p Hy), (type_num L z n Hz). reflexivity. }
  rewrite V. converted d_get. unfold convert_range. cbn [rs_from rs_to Nat.add Nat.sub seq fold_left]. unfold convert_one. cbn [nth_error]. rewrite to_number_any. unfold number_at in Hz. rewrite Hz. cbn [fst snd list_set].
  eexists. finished d_get. constructor; [apply Hx|]. constructor; [apply Hy|]. repeat constructor.
Qed.
Lemma count_prepare L R x y t p : shown_as L x t -> shown_as L y p ->
  prepare (std_env L) (d_count L R) [rval x; rval y] [runit x; runit y] [rref x; rref y] = Ok ([rval x; rval y], [runit x; runit y], None, None).
Proof.
  intros Hx Hy. unfold prepare. assert (V : validate (std_env L) (d_count L R) [rval x; rval y] [runit x; runit y] [rref x; rref y] = Ok tt).
  { checked d_count. rewrite (type_text L x t Hx), (type_text L y p Hy). reflexivity. }
  rewrite V. converted d_count. finished d_count. constructor; [apply Hx|]. constructor; [apply Hy|constructor].
Qed.
Lemma sub3_prepare L R x y z t p w : shown_as L x t -> shown_as L y p -> shown_as L z w -> exists c,
  prepare (std_env L) (d_sub L R) [rval x; rval y; rval z] [runit x; runit y; runit z] [rref x; rref y; rref z] = Ok ([rval x; rval y; rval z], [runit x; runit y; runit z], c, None).
Proof.
  intros Hx Hy Hz. unfold prepare. assert (V : validate (std_env L) (d_sub L R) [rval x; rval y; rval z] [runit x; runit y; runit z] [rref x; rref y; rref z] = Ok tt).
  { checked d_sub. rewrite (type_text L x t Hx), (type_text L y p Hy), (type_text L z w Hz). reflexivity. }
  rewrite V. converted d_sub. unfold convert_range. cbn [rs_from rs_to Nat.add Nat.sub seq fold_left]. unfold convert_one. cbn [nth_error fst snd].
  eexists. finished d_sub. constructor; [apply Hx|]. constructor; [apply Hy|]. constructor; [apply Hz|constructor].
Qed.
Lemma sub4_prepare L R x y z k t p w n : shown_as L x t -> shown_as L y p -> shown_as L z w -> number_at L k n -> exists c,
  prepare (std_env L) (d_sub L R) [rval x; rval y; rval z; rval k] [runit x; runit y; runit z; runit k] [rref x; rref y; rref z; rref k] =
  Ok ([rval x; rval y; rval z; VNum n], [runit x; runit y; runit z; runit k], c, None).
Proof.
  intros Hx Hy Hz Hk. unfold prepare. assert (V : validate (std_env L) (d_sub L R) [rval x; rval y; rval z; rval k] [runit x; runit y; runit z; runit k] [rref x; rref y; rref z; rref k] = Ok tt).
  { checked d_sub. rewrite (type_text L x t Hx), (type_text L y p Hy), (type_text L z w Hz), (type_num L k n Hk). reflexivity. }
  rewrite V. converted d_sub. unfold convert_range. cbn [rs_from rs_to Nat.add Nat.sub seq fold_left]. unfold convert_one. cbn [nth_error]. rewrite to_number_any. unfold number_at in Hk. rewrite Hk. cbn [fst snd list_set].
  eexists. finished d_sub. constructor; [apply Hx|]. constructor; [apply Hy|]. constructor; [apply Hz|]. repeat constructor.
Qed.
(** The operands of a call, all of them neither arrays nor errors *)
Definition scalars (ins : list result) : Prop := Forall (fun r => is_list (rval r) = false /\ is_exc (rval r) = false) ins.
Lemma scalars_call L h d stl ins vs us c s : scalars ins -> must_be d 0 s_array None = false -> o_excs d = false ->
  prepare (std_env L) d (map rval ins) (map runit ins) (map rref ins) = Ok (vs, us, c, None) ->
  call (std_env L) h d stl ins s =
  match o_impl d h vs us (map rref ins) stl s with
  | (OOk o, s') => (OOk (finish d c None o), s')
  | (OErr e, s') => if wrapped e then (OErr e, s') else if forallb (e_tostr (std_env L)) ins then (OErr (XCalc true (MOp (o_name d))), s') else (OPy, s')
  | (OPy, s') => if forallb (e_tostr (std_env L)) ins then (OErr (XCalc false (MOp (o_name d))), s') else (OPy, s')
  | (OFuel, s') => (OFuel, s')
  end.
Proof.
  intros H M X P. rewrite call_scalars; [|apply forallb_forall; intros r Hr; unfold scalars in H; rewrite Forall_forall in H; now rewrite (proj1 (H r Hr))|exact M].
  unfold call_plain. rewrite X. assert (E : find_exc ins = None).
  { unfold find_exc. clear -H. induction H as [|x ins (_ & H1) _ IH]; [reflexivity|]. cbn [find]. now rewrite H1. }
  rewrite E, P. unfold bind, lift. cbn [fst snd]. destruct (o_impl d h vs us (map rref ins) stl s) as [[o|e| |] s']; reflexivity.
Qed.

(** * What the operations do *)
Lemma scanned_low m s : sound m -> forall from (adv : bool) l, scanned m s from adv l -> from <= length s ->
  Forall (fun r => from <= m_from r /\ m_from r <= m_to r /\ (adv = true -> from < m_to r)) l.
Proof.
  intros Hm from adv l H. induction H as [from adv E|from adv r l E H IH]; intros Hf; [constructor|].
  destruct (Hm s from adv r Hf E) as (A & B & C & D). constructor; [auto|]. specialize (IH C). rewrite Forall_forall in *. intros b Hb.
  destruct (IH b Hb) as (F & G & _). repeat split; try lia. intros Ha. specialize (D Ha). lia.
Qed.
Lemma scanned_order m s : sound m -> forall from (adv : bool) l, scanned m s from adv l -> from <= length s ->
  one_after_other from l /\ ForallOrdPairs (fun a b => ~ same_place a b) l.
Proof.
  intros Hm from adv l H. induction H as [from adv E|from adv r l E H IH]; intros Hf; [split; constructor|].
  destruct (Hm s from adv r Hf E) as (A & B & C & _). destruct (IH C) as [I1 I2]. split; [now constructor|]. constructor; [|exact I2].
  pose proof (scanned_low m s Hm _ _ _ H C) as F. rewrite Forall_forall in *. intros b Hb [G1 G2]. destruct (F b Hb) as (F1 & F2 & F3).
  destruct (Nat.eqb_spec (m_to r) (m_from r)) as [Q|Q]; [specialize (F3 eq_refl); lia|lia].
Qed.
Lemma scanned_step m s l : scanned m s 0 false l -> match m s 0 false with Some _ => l <> [] | None => l = [] end.
Proof. intros H. inversion H as [f a E|f a r k E K]; subst; rewrite E; [reflexivity|discriminate]. Qed.
Lemma of_group_found s r t : of_group r t -> found_of s r = [t].
Proof. unfold found_of. intros [->|[-> ->]]; reflexivity. Qed.
Lemma all_found_texts xs : all_found (map (fun t => [t]) xs) = Some (map VStr xs).
Proof. induction xs as [|x xs IH]; [reflexivity|]. cbn [map all_found found_value]. now rewrite IH. Qed.
Lemma found_ungrouped s l xs : ungrouped l -> map (fun r => slice s (m_from r) (m_to r)) l = xs -> map (found_of s) l = map (fun t => [t]) xs.
Proof.
  intros U <-. induction U as [|r l U _ IH]; [reflexivity|]. cbn [map]. rewrite IH. unfold found_of at 1. now rewrite U.
Qed.
Lemma found_grouped s l xs : Forall2 of_group l xs -> map (found_of s) l = map (fun t => [t]) xs.
Proof. intros H. induction H as [|r t l xs H _ IH]; [reflexivity|]. cbn [map]. now rewrite IH, (of_group_found s r t H). Qed.
Lemma laid_one k t l ps xs ps' xs' : laid k t l ps xs -> laid k t l ps' xs' -> ps = ps' /\ xs = xs'.
Proof.
  intros H. revert ps' xs'. induction H as [k t|k p x t r l ps xs E1 E2 H IH]; intros ps' xs' H'.
  - inversion H'; subst. auto.
  - remember (p ++ x ++ t) as w eqn:W. inversion H' as [|k' p' x' t' r' l' qs ys F1 F2 K]; subst k' r' l' ps' xs'.
    match goal with Z : p' ++ x' ++ t' = w |- _ => rewrite W in Z; rename Z into T; symmetry in T end.
    assert (N1 : length p = length p') by lia. assert (N2 : length x = length x') by lia.
    assert (P : p = p' /\ x ++ t = x' ++ t').
    { clear -T N1. revert p' N1 T. induction p as [|c p IH]; intros [|d p'] N T; try discriminate; [split; [reflexivity|exact T]|].
      cbn [app] in T. injection T as -> T. injection N as N. destruct (IH p' N T) as [-> E]. auto. }
    destruct P as [<- P]. assert (Q : x = x' /\ t = t').
    { clear -P N2. revert x' N2 P. induction x as [|c x IH]; intros [|d x'] N T; try discriminate; [split; [reflexivity|exact T]|].
      cbn [app] in T. injection T as -> T. injection N as N. destruct (IH x' N T) as [-> E]. auto. }
    destruct Q as [<- <-]. destruct (IH _ _ K) as [<- <-]. auto.
Qed.
Lemma text_shows L x t : shown_as L x t -> e_tostr (std_env L) x = true.
Proof. intros (A & _ & B). cbn [e_tostr std_env]. destruct (rval x); try reflexivity; try discriminate. cbn [shows]. cbn [string_of] in B. now rewrite B. Qed.
Lemma engine_sound R p m : engine_ok R -> re_compile R p = Some m -> sound m.
Proof. intros [H _] E. exact (H p m E). Qed.
Lemma findall_eq R p s l st : engine_ok R -> matches R p s l -> findall R p s st = (OOk (map (found_of s) l), st).
Proof.
  intros HR (m & E & H). unfold findall, bind, pym. rewrite E. cbn. rewrite (scan_all_eq m s l st (engine_sound R p m HR E) H). reflexivity.
Qed.
Lemma resplit_eq R p s l st : engine_ok R -> matches R p s l -> resplit R p s st = (OOk (split_from s 0 l), st).
Proof.
  intros HR (m & E & H). unfold resplit, bind, pym. rewrite E. cbn. rewrite (scan_all_eq m s l st (engine_sound R p m HR E) H). reflexivity.
Qed.
Lemma resub_eq R p w s l f k st : engine_ok R -> matches R p s l -> re_template R p w = Some f -> (Z.abs k < 2 ^ 63)%Z ->
  resub R p w s k st = (OOk (sub_from (f s) s 0 (limit k l)), st).
Proof.
  intros HR (m & E & H) F K. unfold resub, bind, pym. rewrite E. cbn. 
  replace (Z.leb (-9223372036854775808) k && Z.ltb k 9223372036854775808)%bool with true.
  2:{ symmetry. apply andb_true_iff. rewrite Z.leb_le, Z.ltb_lt. change (2 ^ 63)%Z with 9223372036854775808%Z in K. lia. }
  rewrite F. cbn. rewrite (scan_all_eq m s l st (engine_sound R p m HR E) H). reflexivity.
Qed.
Lemma matches_laid R p s l ps xs : engine_ok R -> matches R p s l -> laid 0 s l ps xs ->
  map (fun r => slice s (m_from r) (m_to r)) l = xs /\ (forall f, sub_from f s 0 l = weave ps (map f l)) /\
  (forall n f, sub_from f s 0 (firstn n l) = weave ps (first_of n (map f l) xs)) /\ (ungrouped l -> split_from s 0 l = map Some ps).
Proof.
  intros HR (m & E & H) Hl. destruct (scanned_laid m s (engine_sound R p m HR E) 0 false l H) as (ps' & xs' & L' & X & S & T & P); [lia|].
  change (skipn 0 s) with s in L'. destruct (laid_one _ _ _ _ _ _ _ L' Hl) as [-> ->]. auto.
Qed.
