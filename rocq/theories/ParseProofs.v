(** Lemmas about parsing. *)
From Coq Require Import ZArith QArith Ascii String List Bool Lia.
From Verif Require Import Base Dec Num Bases Units Syntax Pos PosSpec Call Loop Parse ParseSpec BaseProofs PosProofs UnitsProofs5.
Import ListNotations.
Open Scope nat_scope.

(** * Invariants *)
Definition mark (A : asyms) (k : ekind) : str :=
  match k with
  | EParam => c_comma | EFunc => c_close | EInner => c_close | EInline => $"}"
  | ARange => as_range A | AStep => as_step A | AParam => as_param A | AEnd => as_close A
  end.
Definition extra (rf : option ekind) : str := match rf with Some EInner => c_close | Some EInline => $"}" | _ => [] end.
Definition allowed (fl : flags) (k : ekind) : bool :=
  match k with
  | EParam | EFunc => fl_func fl | EInner => fl_inner fl | EInline => fl_inline fl | _ => fl_arr fl
  end.
Definition sts_ok (fl : flags) (sts : list (list item)) : Prop :=
  Forall (Forall spelled) sts /\ sts <> [] /\ (fl_ign fl = true -> length sts = 1).
Definition pgood (C : pcfg) (k : nat) (fl : flags) (text : str) (o : pout) : Prop :=
  match o with
  | POk sts len rf =>
    exists body rest, text = body ++ rest /\ len = length body /\ statements_text sts = body ++ extra rf /\ sts_ok fl sts /\
      match rf with None => rest = [] | Some e => (exists r, rest = mark (pc_arr C) e ++ r) /\ allowed fl e = true end /\
      (first_st sts <> [] -> body <> [] \/ extra rf <> [])
  | PErr sts next => text = statements_text sts ++ next /\ sts_ok fl sts
  | PFuel => as_open (pc_arr C) <> [] -> k <= length text
  | PPy => ~ quiet C
  | PCalc => ~ quiet C
  end.
Definition rgood (C : pcfg) (k : nat) (fl : flags) (nxt : str) (r : pres) : Prop :=
  match r with
  | PRnone => True
  | PRitems items len endst =>
    exists rest, nxt = items_text items ++ rest /\ len = length (items_text items) /\ Forall spelled items /\ (endst = true -> fl_ign fl = false)
  | PRend items e =>
    items_text items = extra (Some e) /\ (exists r, nxt = mark (pc_arr C) e ++ r) /\ allowed fl e = true /\ Forall spelled items /\
    (items <> [] -> extra (Some e) <> [])
  | PRerr items next => nxt = items_text items ++ next /\ Forall spelled items
  | PRfuel => as_open (pc_arr C) <> [] -> S k <= length nxt
  | PRpy => ~ quiet C
  | PRcalc => ~ quiet C
  end.

Lemma items_text_app a b : items_text (a ++ b) = items_text a ++ items_text b.
Proof. unfold items_text. rewrite map_app, concat_app. reflexivity. Qed.
Lemma items_text_cons x a : items_text (x :: a) = itext x ++ items_text a.
Proof. reflexivity. Qed.
Lemma items_text_one x : items_text [x] = itext x.
Proof. unfold items_text. cbn. apply app_nil_r. Qed.
Lemma items_text_nil : items_text [] = []. Proof. reflexivity. Qed.
Lemma statements_text_app a b : statements_text (a ++ b) = statements_text a ++ statements_text b.
Proof. unfold statements_text. rewrite map_app, concat_app. reflexivity. Qed.
Lemma statements_text_one x : statements_text [x] = items_text x.
Proof. unfold statements_text. cbn. apply app_nil_r. Qed.
Lemma statements_text_concat sts : statements_text sts = items_text (concat sts).
Proof.
  unfold statements_text. induction sts as [|s sts IH]; [reflexivity|]. cbn [map concat]. rewrite IH, items_text_app. reflexivity.
Qed.
Lemma one_st fl sts : sts_ok fl sts -> fl_ign fl = true -> sts = [first_st sts] /\ Forall spelled (first_st sts).
Proof.
  intros [H1 [H2 H3]] Hi. specialize (H3 Hi). destruct sts as [|s [|? ?]]; try discriminate. inversion H1; subst. auto.
Qed.
Lemma spelled_leaf' i : isub i = None -> spelled i. Proof. apply spelled_leaf. Qed.

(** * Calls *)
Definition goodrec (C : pcfg) (k : nat) (rec : prec) : Prop := forall fl t l, pgood C k fl t (fst (rec fl t l)).

Definition agood (C : pcfg) (k : nat) (nxt : str) (a : ares) : Prop :=
  match a with
  | ADone i fitems args true => (exists rest, nxt = items_text fitems ++ rest) /\ i = length (items_text fitems) /\ Forall spelled fitems
  | ADone _ _ _ false => True
  | AErr items next => nxt = items_text items ++ next /\ Forall spelled items
  | AFuel => as_open (pc_arr C) <> [] -> S k <= length nxt
  | APy => ~ quiet C
  | ACalc => ~ quiet C
  end.
Lemma skipn_app_len (a b : str) n : n = length a -> skipn n (a ++ b) = b.
Proof. intros ->. apply skipn_len_app. Qed.

Lemma args_loop_good C k rec : goodrec C k rec -> forall fuel nxt i fitems args lft,
  1 <= i -> i <= S (length nxt) -> length nxt + 2 <= fuel + i ->
  (length nxt < i \/ ((exists rest, nxt = items_text fitems ++ rest) /\ i = length (items_text fitems))) ->
  Forall spelled fitems ->
  agood C k nxt (fst (args_loop rec fuel nxt i fitems args lft)).
Proof.
  intros Hrec. induction fuel as [|fuel IH]; intros nxt i fitems args lft Hi Hi2 Hfuel Hpos Hsp; [lia|].
  cbn [args_loop]. destruct (Nat.leb_spec (length nxt) i) as [Hl|Hl]; [exact I|].
  destruct Hpos as [H|[[rest E] Ei]]; [lia|].
  assert (Es : skipn i nxt = rest) by (rewrite E; apply skipn_app_len; exact Ei). rewrite Es.
  pose proof (Hrec func_flags rest lft) as Hg. destruct (rec func_flags rest lft) as [[sts len rf|sts next| | |] lft'];
    cbn [fst] in *; cbn [pgood] in Hg.
  - destruct Hg as [body [rest' [E1 [E2 [E3 [E4 [E5 E6]]]]]]]. destruct (one_st _ _ E4 eq_refl) as [F1 F2].
    assert (Ein : items_text (first_st sts) = body).
    { rewrite F1, statements_text_one in E3. rewrite E3. destruct rf as [[]|]; try apply app_nil_r.
      - destruct E5 as [_ E5]. discriminate.
      - destruct E5 as [_ E5]. discriminate. }
    assert (Hgen : forall kd t, itext (INon kd t) = t) by reflexivity.
    assert (Hcase : forall kd, rf <> Some EFunc ->
      agood C k nxt (fst (args_loop rec fuel nxt (i + len + 1) (fitems ++ first_st sts ++ [INon kd c_comma])
         (match first_st sts with [] => args | _ => args ++ [first_st sts] end) lft'))).
    { intros kd Hne. apply IH.
      - lia.
      - rewrite E, E1, !app_length, E2, Ei. lia.
      - rewrite E2. lia.
      - destruct rf as [e|].
        + right. destruct E5 as [[r Er] Hal]. assert (He : e = EParam) by (destruct e; try discriminate; congruence).
          subst e. cbn [mark] in Er. split.
          * exists r. rewrite E, E1, Er, !items_text_app, Ein, items_text_one, Hgen, <- !app_assoc. reflexivity.
          * rewrite !items_text_app, Ein, items_text_one, Hgen, !app_length, Ei, E2. cbn [length c_comma]. cbn. lia.
        + left. rewrite E, E1, E5, app_nil_r, app_length, Ei, E2. lia.
      - rewrite !Forall_app. repeat split; [exact Hsp|exact F2|]. constructor; [apply spelled_leaf; reflexivity|constructor]. }
    destruct rf as [e|]; [|apply Hcase; discriminate].
    destruct e; try (apply Hcase; discriminate).
    cbn [agood]. destruct E5 as [[r Er] Hal]. cbn [mark] in Er. split; [|split].
    + exists r. rewrite E, E1, Er, !items_text_app, Ein, items_text_one, Hgen, <- !app_assoc. reflexivity.
    + rewrite !items_text_app, Ein, items_text_one, Hgen, !app_length, Ei, E2. cbn. lia.
    + rewrite !Forall_app. repeat split; [exact Hsp|exact F2|]. constructor; [apply spelled_leaf; reflexivity|constructor].
  - destruct Hg as [E1 E4]. destruct (one_st _ _ E4 eq_refl) as [F1 F2]. cbn [agood]. split.
    + rewrite E, E1, F1, statements_text_one, items_text_app, app_assoc. reflexivity.
    + apply Forall_app. auto.
  - exact Hg.
  - exact Hg.
  - cbn [agood]. intros Ho. specialize (Hg Ho). rewrite E, app_length. lia.
Qed.

Lemma parse_call_good C k rec fl nxt head hlen name mk lft : goodrec C k rec ->
  (exists rest, nxt = items_text head ++ rest) -> hlen = length (items_text head) -> 1 <= hlen -> Forall spelled head ->
  (forall t its args, itext (mk t its args) = t /\ isub (mk t its args) = Some its) ->
  rgood C k fl nxt (fst (parse_call rec nxt head hlen name mk lft)).
Proof.
  intros Hrec [rest E] Eh Hh Hsp Hmk. unfold parse_call.
  assert (Hlen : hlen <= length nxt) by (rewrite E, app_length; lia).
  pose proof (args_loop_good C k rec Hrec (S (length nxt)) nxt hlen head [] lft Hh ltac:(lia) ltac:(lia)
                (or_intror (conj (ex_intro _ rest E) Eh)) Hsp) as Hg.
  destruct (args_loop rec (S (length nxt)) nxt hlen head [] lft) as [[i fitems args [|]|items next| | |] lft']; cbn [fst] in *; cbn [agood] in Hg.
  - destruct Hg as [[r Er] [Ei Hs]]. cbn [rgood]. destruct (Hmk (firstn i nxt) fitems args) as [M1 M2].
    assert (Ef : firstn i nxt = items_text fitems) by (rewrite Er, Ei; apply firstn_len_app).
    exists r. rewrite items_text_one, M1, Ef. split; [exact Er|]. split; [reflexivity|]. split; [|discriminate].
    constructor; [|constructor]. apply (spelled_rec _ fitems); [rewrite <- Ef; exact M2| |exact Hs]. destruct (Hmk (items_text fitems) fitems args) as [M3 _]. rewrite M3. reflexivity.
  - cbn [rgood]. split; [reflexivity|constructor].
  - destruct Hg as [E1 Hs].
    assert (Ht : truncate nxt [items] (Some next) = Some (items_text items)).
    { pose proof (truncate_exact [items] next (Some next)) as Hx. rewrite statements_text_one in Hx. rewrite E1. apply Hx.
      apply prefixb_iff. exists []. symmetry. apply app_nil_r. }
    rewrite Ht. cbn [rgood fst]. rewrite items_text_one. cbn [itext]. split; [exact E1|].
    constructor; [|constructor]. apply (spelled_rec _ items); [reflexivity|reflexivity|exact Hs].
  - exact Hg.
  - exact Hg.
  - exact Hg.
Qed.

(** * Arrays *)
Definition at_pos (nxt : str) (i : nat) (ai : list item) : Prop :=
  (exists rest, nxt = items_text ai ++ rest) /\ i = length (items_text ai) /\ Forall spelled ai.
Definition egood (C : pcfg) (k : nat) (nxt : str) (i0 : nat) (e : eres) : Prop :=
  match e with
  | EOk i items _ rf =>
    i0 < i /\ at_pos nxt i items /\
    match rf with None => nxt = items_text items | Some e => exists r, nxt = items_text items ++ mark (pc_arr C) e ++ r end
  | EErr items next _ => nxt = items_text items ++ next /\ Forall spelled items
  | EFuel => as_open (pc_arr C) <> [] -> S k <= length nxt
  | EPy => ~ quiet C
  | ECalc => ~ quiet C
  end.
(** One parse inside an array, at a position *)
Lemma arr_parse C k rec nxt i ai lft : goodrec C k rec -> at_pos nxt i ai ->
  match rec arr_flags (skipn i nxt) lft with
  | (POk sts len rf, _) =>
    at_pos nxt (i + len) (ai ++ first_st sts) /\ (first_st sts <> [] -> 0 < len) /\ (first_st sts = [] -> len = 0) /\
    match rf with None => nxt = items_text (ai ++ first_st sts) | Some e => exists r, nxt = items_text (ai ++ first_st sts) ++ mark (pc_arr C) e ++ r end
  | (PErr sts next, _) => nxt = items_text (ai ++ first_st sts) ++ next /\ Forall spelled (ai ++ first_st sts)
  | (PCalc, _) => ~ quiet C | (PPy, _) => ~ quiet C
  | (PFuel, _) => as_open (pc_arr C) <> [] -> k <= length nxt - i
  end.
Proof.
  intros Hrec [[rest E] [Ei Hs]].
  assert (Es : skipn i nxt = rest) by (rewrite E; apply skipn_app_len; exact Ei). rewrite Es.
  pose proof (Hrec arr_flags rest lft) as Hg. destruct (rec arr_flags rest lft) as [[sts len rf|sts next| | |] lft'];
    cbn [fst] in Hg; cbn [pgood] in Hg.
  - destruct Hg as [body [rest' [E1 [E2 [E3 [E4 [E5 E6]]]]]]]. destruct (one_st _ _ E4 eq_refl) as [F1 F2].
    assert (Ex : extra rf = []) by (destruct rf as [[]|]; try reflexivity; destruct E5 as [_ E5]; discriminate).
    assert (Ein : items_text (first_st sts) = body).
    { rewrite F1, statements_text_one, Ex, app_nil_r in E3. exact E3. }
    repeat split.
    + exists rest'. rewrite items_text_app, Ein, E, E1, app_assoc. reflexivity.
    + rewrite items_text_app, Ein, app_length. lia.
    + apply Forall_app. auto.
    + intros H. destruct (E6 H) as [H'|H']; [|congruence]. destruct body; [congruence|cbn in E2; lia].
    + intros H. rewrite H in Ein. cbn in Ein. subst body. exact E2.
    + destruct rf as [e|].
      * destruct E5 as [[r Er] _]. exists r. rewrite items_text_app, Ein, E, E1, Er, <- app_assoc. reflexivity.
      * subst rest'. rewrite items_text_app, Ein, E, E1, app_nil_r. reflexivity.
  - destruct Hg as [E1 E4]. destruct (one_st _ _ E4 eq_refl) as [F1 F2]. split.
    + rewrite items_text_app, E, E1, F1, statements_text_one, <- app_assoc. reflexivity.
    + apply Forall_app. auto.
  - exact Hg.
  - exact Hg.
  - intros Ho. specialize (Hg Ho). rewrite E, app_length. lia.
Qed.

Lemma at_pos_mark C nxt i ai e n kd : at_pos nxt i ai -> (exists r, nxt = items_text ai ++ mark (pc_arr C) e ++ r) ->
  n = mark (pc_arr C) e -> at_pos nxt (i + length n) (ai ++ [INon kd n]).
Proof.
  intros [_ [Ei Hs]] [r Er] ->. repeat split.
  - exists r. rewrite items_text_app, items_text_one, <- app_assoc. exact Er.
  - rewrite items_text_app, items_text_one, app_length. cbn [itext]. lia.
  - apply Forall_app. split; [exact Hs|]. constructor; [apply spelled_leaf; reflexivity|constructor].
Qed.
Lemma at_pos_err nxt i ai : at_pos nxt i ai -> nxt = items_text ai ++ skipn i nxt /\ Forall spelled ai.
Proof. intros [[rest E] [Ei Hs]]. split; [|exact Hs]. rewrite E at 2. rewrite (skipn_app_len _ _ _ Ei). exact E. Qed.

Lemma is_nil_true {A} (l : list A) : is_nil l = true -> l = []. Proof. destruct l; [reflexivity|discriminate]. Qed.
Lemma is_nil_false {A} (l : list A) : is_nil l = false -> l <> []. Proof. destruct l; [discriminate|congruence]. Qed.

Lemma arr_elem_good C k rec nxt i ai elems lft : goodrec C k rec -> at_pos nxt i ai -> (as_open (pc_arr C) <> [] -> 1 <= i) -> i < length nxt ->
  egood C k nxt i (fst (arr_elem rec (pc_arr C) nxt i ai elems lft)).
Proof.
  intros Hrec Hp Hi Hlen. unfold arr_elem.
  pose proof (arr_parse C k rec nxt i ai lft Hrec Hp) as H1.
  destruct (rec arr_flags (skipn i nxt) lft) as [[sts len rf|sts next| | |] lft1].
  2: exact H1. 2: exact H1. 2: exact H1. 2: { cbn [fst egood]. intros Ho. specialize (H1 Ho). specialize (Hi Ho). lia. }
  destruct H1 as [P1 [N1 [Z1 R1]]]. destruct (is_nil (first_st sts)) eqn:En.
  { rewrite (Z1 (is_nil_true _ En)) in *. cbn [Nat.eqb fst egood]. apply at_pos_err. exact P1. }
  specialize (N1 (is_nil_false _ En)).
  assert (Hdef : forall e elems', rf = e -> egood C k nxt i (EOk (i + len) (ai ++ first_st sts) elems' e)).
  { intros e elems' <-. cbn [egood]. split; [lia|]. split; [exact P1|exact R1]. }
  destruct rf as [e|]; [|apply Hdef; reflexivity]. destruct e; try (apply Hdef; reflexivity). clear Hdef.
  pose proof (at_pos_mark C nxt _ _ ARange (as_range (pc_arr C)) NArrRange P1 R1 eq_refl) as P2.
  pose proof (arr_parse C k rec nxt _ _ lft1 Hrec P2) as H2.
  destruct (rec arr_flags (skipn (i + len + length (as_range (pc_arr C))) nxt) lft1) as [[sts2 len2 rf2|sts2 next| | |] lft2].
  2: exact H2. 2: exact H2. 2: exact H2. 2: { cbn [fst egood]. intros Ho. specialize (H2 Ho). specialize (Hi Ho). lia. }
  destruct H2 as [P3 [N2 [Z2 R2]]]. destruct (is_nil (first_st sts2)) eqn:En2.
  { rewrite (Z2 (is_nil_true _ En2)) in *. cbn [Nat.eqb fst egood]. apply at_pos_err. exact P3. }
  specialize (N2 (is_nil_false _ En2)).
  assert (Hdef : forall e elems', rf2 = e -> egood C k nxt i (EOk (i + len + length (as_range (pc_arr C)) + len2)
            ((ai ++ first_st sts) ++ [INon NArrRange (as_range (pc_arr C))] ++ first_st sts2) elems' e)).
  { intros e elems' <-. rewrite app_assoc. cbn [egood]. split; [lia|]. split; [exact P3|exact R2]. }
  destruct rf2 as [e|]; [|cbn [fst]; rewrite <- app_assoc; apply Hdef; reflexivity].
  destruct e; try (cbn [fst]; rewrite <- app_assoc; apply Hdef; reflexivity). clear Hdef.
  pose proof (at_pos_mark C nxt _ _ AStep (as_step (pc_arr C)) NArrStep P3 R2 eq_refl) as P4.
  pose proof (arr_parse C k rec nxt _ _ lft2 Hrec P4) as H3.
  destruct (rec arr_flags (skipn (i + len + length (as_range (pc_arr C)) + len2 + length (as_step (pc_arr C))) nxt) lft2) as [[sts3 len3 rf3|sts3 next| | |] lft3].
  2: exact H3. 2: exact H3. 2: exact H3. 2: { cbn [fst egood]. intros Ho. specialize (H3 Ho). specialize (Hi Ho). lia. }
  destruct H3 as [P5 [N3 [Z3 R3]]]. destruct (is_nil (first_st sts3)) eqn:En3; cbn [fst egood].
  - rewrite (Z3 (is_nil_true _ En3)), Nat.add_0_r in P5. split; [lia|]. split; [exact P5|exact R3].
  - split; [lia|]. split; [exact P5|exact R3].
Qed.

Lemma arr_loop_good C k rec : goodrec C k rec -> forall fuel nxt i ai elems lft,
  (as_open (pc_arr C) <> [] -> 1 <= i) -> length nxt + 1 <= fuel + i -> 0 < fuel -> at_pos nxt i ai ->
  match fst (arr_loop rec fuel (pc_arr C) nxt i ai elems lft) with
  | EOk i' items _ (Some AEnd) => at_pos nxt i' items
  | EOk _ _ _ _ => True
  | EErr items next _ => nxt = items_text items ++ next /\ Forall spelled items
  | EFuel => as_open (pc_arr C) <> [] -> S k <= length nxt
  | EPy => ~ quiet C
  | ECalc => ~ quiet C
  end.
Proof.
  intros Hrec. induction fuel as [|fuel IH]; intros nxt i ai elems lft Hi Hf Hf0 Hp; [lia|].
  cbn [arr_loop]. destruct (Nat.leb_spec (length nxt) i) as [Hl|Hl]; [exact I|].
  pose proof (arr_elem_good C k rec nxt i ai elems lft Hrec Hp Hi Hl) as Hg.
  destruct (arr_elem rec (pc_arr C) nxt i ai elems lft) as [[i1 ai1 elems1 rf|items next el| | |] lft1]; cbn [fst] in *; cbn [egood] in Hg; try exact Hg.
  destruct Hg as [G1 [G2 G3]].
  assert (Hle : i1 <= length nxt) by (destruct G2 as [[r E] [Ei _]]; rewrite E, app_length; lia).
  assert (Hrest : match fst (arr_loop rec fuel (pc_arr C) nxt i1 ai1 elems1 lft1) with
    | EOk i' items _ (Some AEnd) => at_pos nxt i' items
    | EOk _ _ _ _ => True
    | EErr items next _ => nxt = items_text items ++ next /\ Forall spelled items
    | EFuel => as_open (pc_arr C) <> [] -> S k <= length nxt
    | EPy => ~ quiet C | ECalc => ~ quiet C end) by (apply IH; [intros Ho; specialize (Hi Ho); lia|lia|lia|exact G2]).
  destruct rf as [e|]; [|exact Hrest]. destruct e; try exact Hrest.
  - (* AParam *) pose proof (at_pos_mark C nxt _ _ AParam (as_param (pc_arr C)) NArrParam G2 G3 eq_refl) as P2. apply IH; [intros Ho; specialize (Hi Ho); lia|lia|lia|exact P2].
  - (* AEnd *) cbn [fst]. exact (at_pos_mark C nxt _ _ AEnd (as_close (pc_arr C)) NArrEnd G2 G3 eq_refl).
Qed.

Lemma truncate_here (nxt : str) (items : list item) (next : str) : nxt = items_text items ++ next -> truncate nxt [items] (Some next) = Some (items_text items).
Proof.
  intros E. pose proof (truncate_exact [items] next (Some next)) as Hx. rewrite statements_text_one in Hx. rewrite E. apply Hx.
  apply prefixb_iff. exists []. symmetry. apply app_nil_r.
Qed.
Lemma parse_array_good C k rec fl nxt lft : goodrec C k rec -> prefixb (as_open (pc_arr C)) nxt = true ->
  rgood C k fl nxt (fst (parse_array rec (pc_arr C) nxt lft)).
Proof.
  intros Hrec Hpre. apply prefixb_iff in Hpre. destruct Hpre as [r Er]. unfold parse_array.
  assert (Hp : at_pos nxt (length (as_open (pc_arr C))) [INon NArrStart (as_open (pc_arr C))]).
  { repeat split; [exists r; rewrite items_text_one; exact Er|rewrite items_text_one; reflexivity|].
    constructor; [apply spelled_leaf; reflexivity|constructor]. }
  pose proof (arr_loop_good C k rec Hrec (S (length nxt)) nxt (length (as_open (pc_arr C))) _ [] lft
                ltac:(intros Ho; destruct (as_open (pc_arr C)); [congruence|cbn; lia]) ltac:(lia) ltac:(lia) Hp) as Hg.
  destruct (arr_loop rec (S (length nxt)) (pc_arr C) nxt (length (as_open (pc_arr C))) [INon NArrStart (as_open (pc_arr C))] [] lft)
    as [[i items elems rf|items next elems| | |] l]; cbn [fst] in Hg; try exact Hg.
  - assert (Hd : rgood C k fl nxt (PRerr [] nxt)) by (split; [reflexivity|constructor]).
    destruct rf as [e|]; [|exact Hd]. destruct e; try exact Hd. clear Hd. destruct Hg as [[rest E] [Ei Hs]].
    cbn [fst rgood]. assert (Ef : firstn i nxt = items_text items) by (rewrite E, Ei; apply firstn_len_app).
    exists rest. rewrite items_text_one, Ef. cbn [itext]. split; [exact E|]. split; [reflexivity|]. split; [|discriminate].
    constructor; [|constructor]. apply (spelled_rec _ items); [reflexivity|reflexivity|exact Hs].
  - destruct Hg as [E1 Hs]. rewrite (truncate_here _ _ _ E1). cbn [rgood fst]. rewrite items_text_one. cbn [itext]. split; [exact E1|].
    constructor; [|constructor]. apply (spelled_rec _ items); [reflexivity|reflexivity|exact Hs].
Qed.

(** * Inner expressions and inline functions *)
Lemma insert_last_one x s : insert_last x [s] = [x :: s]. Proof. reflexivity. Qed.
Lemma parse_inner_good C k rec fl nxt lft : goodrec C k rec -> prefixb ($"(") nxt = true ->
  rgood C k fl nxt (fst (parse_inner rec fl nxt lft)).
Proof.
  intros Hrec Hpre. apply prefixb_iff in Hpre. destruct Hpre as [r Er]. unfold parse_inner. cbv zeta.
  assert (Es : skipn 1 nxt = r) by (rewrite Er; reflexivity). rewrite Es.
  pose proof (Hrec (inner_flags fl) r lft) as Hg. destruct (rec (inner_flags fl) r lft) as [[sts len rf|sts next| | |] l];
    cbn [fst] in *; cbn [pgood] in Hg.
  - assert (Hd : rgood C k fl nxt (PRerr [] nxt)) by (split; [reflexivity|constructor]).
    destruct rf as [e|]; [|exact Hd]. destruct e; try exact Hd. clear Hd.
    destruct Hg as [body [rest' [E1 [E2 [E3 [E4 [E5 E6]]]]]]]. destruct (one_st _ _ E4 eq_refl) as [F1 F2].
    rewrite F1, statements_text_one in E3. cbn [extra] in E3. destruct E5 as [[r' Er'] _]. cbn [mark] in Er'.
    cbn [fst rgood]. rewrite items_text_one. cbn [itext].
    assert (Ef : firstn (len + 2) nxt = $"(" ++ body ++ c_close).
    { rewrite Er, E1, Er'. replace (($"(") ++ body ++ c_close ++ r') with ((($"(") ++ body ++ c_close) ++ r') by (rewrite <- !app_assoc; reflexivity).
      replace (len + 2) with (length (($"(") ++ body ++ c_close)) by (rewrite !app_length, E2; cbn; lia). apply firstn_len_app. }
    exists r'. rewrite Ef. split; [rewrite Er, E1, Er', <- !app_assoc; reflexivity|].
    split; [rewrite !app_length, E2; cbn; lia|]. split; [|discriminate].
    constructor; [|constructor]. eapply spelled_rec; [reflexivity| |].
    + rewrite items_text_cons. cbn [itext]. rewrite E3. reflexivity.
    + constructor; [apply spelled_leaf; reflexivity|exact F2].
  - destruct Hg as [E1 E4]. destruct (one_st _ _ E4 eq_refl) as [F1 F2]. rewrite F1, insert_last_one in *. cbn [first_st] in *.
    assert (E : nxt = items_text (INon NInnerStart ($"(") :: first_st sts) ++ next).
    { rewrite items_text_cons. cbn [itext]. rewrite <- app_assoc, Er, E1. rewrite statements_text_one. reflexivity. }
    rewrite (truncate_here _ _ _ E). cbn [rgood fst]. rewrite items_text_one. cbn [itext]. split; [exact E|].
    constructor; [|constructor]. eapply spelled_rec; [reflexivity|reflexivity|]. constructor; [apply spelled_leaf; reflexivity|exact F2].
  - exact Hg.
  - exact Hg.
  - cbn [rgood]. intros Ho. specialize (Hg Ho). rewrite Er, app_length. cbn. lia.
Qed.

Lemma forall_concat {A} (P : A -> Prop) (l : list (list A)) : Forall (Forall P) l -> Forall P (concat l).
Proof. intros H. induction H; cbn [concat]; [constructor|]. apply Forall_app. auto. Qed.
Lemma parse_inline_good C k rec fl nxt lft : goodrec C k rec -> prefixb ($"{") nxt = true ->
  rgood C k fl nxt (fst (parse_inline rec fl nxt lft)).
Proof.
  intros Hrec Hpre. apply prefixb_iff in Hpre. destruct Hpre as [r Er]. unfold parse_inline. cbv zeta.
  assert (Es : skipn 1 nxt = r) by (rewrite Er; reflexivity). rewrite Es.
  pose proof (Hrec (inline_flags fl) r lft) as Hg. destruct (rec (inline_flags fl) r lft) as [[sts len rf|sts next| | |] l];
    cbn [fst] in *; cbn [pgood] in Hg.
  - assert (Hd : rgood C k fl nxt (PRerr [] nxt)) by (split; [reflexivity|constructor]).
    destruct rf as [e|]; [|exact Hd]. destruct e; try exact Hd. clear Hd.
    destruct Hg as [body [rest' [E1 [E2 [E3 [E4 [E5 E6]]]]]]]. destruct E4 as [E4 _].
    rewrite statements_text_concat in E3. cbn [extra] in E3. destruct E5 as [[r' Er'] _]. cbn [mark] in Er'.
    cbn [fst rgood]. rewrite items_text_one. cbn [itext].
    assert (Ef : firstn (len + 2) nxt = $"{" ++ body ++ $"}").
    { rewrite Er, E1, Er'. replace (($"{") ++ body ++ ($"}") ++ r') with ((($"{") ++ body ++ ($"}")) ++ r') by (rewrite <- !app_assoc; reflexivity).
      replace (len + 2) with (length (($"{") ++ body ++ ($"}"))) by (rewrite !app_length, E2; cbn; lia). apply firstn_len_app. }
    exists r'. rewrite Ef. split; [rewrite Er, E1, Er', <- !app_assoc; reflexivity|].
    split; [rewrite !app_length, E2; cbn; lia|]. split; [|discriminate].
    constructor; [|constructor]. eapply spelled_rec; [reflexivity| |].
    + rewrite items_text_cons. cbn [itext]. rewrite E3. reflexivity.
    + constructor; [apply spelled_leaf; reflexivity|apply forall_concat; exact E4].
  - destruct Hg as [E1 E4]. destruct E4 as [E4 [E5 _]]. destruct sts as [|s sts]; [congruence|]. cbn [insert_first].
    assert (E : nxt = statements_text ((INon NInlineStart ($"{") :: s) :: sts) ++ next).
    { unfold statements_text in *. cbn [map concat] in *. rewrite items_text_cons. cbn [itext]. rewrite Er, E1, <- !app_assoc. reflexivity. }
    pose proof (truncate_exact ((INon NInlineStart ($"{") :: s) :: sts) next (Some next)) as Hx. rewrite <- E in Hx.
    rewrite Hx by (apply prefixb_iff; exists []; symmetry; apply app_nil_r). cbn [rgood fst]. rewrite items_text_one. cbn [itext]. split; [exact E|].
    constructor; [|constructor]. eapply spelled_rec; [reflexivity| |].
    + cbn [itext]. rewrite statements_text_concat. reflexivity.
    + apply forall_concat. inversion E4; subst. constructor; [constructor; [apply spelled_leaf; reflexivity|assumption]|assumption].
  - exact Hg.
  - exact Hg.
  - cbn [rgood]. intros Ho. specialize (Hg Ho). rewrite Er, app_length. cbn. lia.
Qed.

(** * Single parsers *)
Lemma found_good C k fl f nxt n : (forall t, itext (f t) = t) -> (forall t, isub (f t) = None) -> rgood C k fl nxt (found f nxt n).
Proof.
  intros H1 H2. unfold found. cbv zeta. cbn [rgood]. exists (skipn n nxt). rewrite items_text_one, H1.
  split; [symmetry; apply firstn_skipn|]. split; [reflexivity|]. split; [|discriminate].
  constructor; [apply spelled_leaf; apply H2|constructor].
Qed.
Lemma leaf_good C k fl x nxt : isub x = None -> (exists r, nxt = itext x ++ r) -> rgood C k fl nxt (PRitems [x] (length (itext x)) false).
Proof.
  intros H1 [r Er]. cbn [rgood]. exists r. rewrite items_text_one. split; [exact Er|]. split; [reflexivity|]. split; [|discriminate].
  constructor; [apply spelled_leaf; exact H1|constructor].
Qed.
Lemma take_while_prefix p s : exists r, s = take_while p s ++ r.
Proof. induction s as [|c s [r IH]]; [exists []; reflexivity|]. cbn [take_while]. destruct (p c); [exists r; cbn; congruence|exists (c :: s); reflexivity]. Qed.
Lemma match_name_prefix s w : match_name s = Some w -> (exists r, s = w ++ r) /\ 1 <= length w.
Proof.
  destruct s as [|c s]; [discriminate|]. cbn [match_name]. destruct (is_word_start c); [|discriminate]. intros H. injection H as <-.
  destruct (take_while_prefix is_word s) as [r Er]. split; [exists r; cbn [app]; congruence|cbn; lia].
Qed.
Lemma match_alpha_prefix s w : match_alpha s = Some w -> exists r, s = w ++ r.
Proof.
  unfold match_alpha. destruct (take_while is_alpha s) as [|c l] eqn:E; [discriminate|]. intros H. injection H as <-.
  destruct (take_while_prefix is_alpha s) as [r Er]. rewrite E in Er. exists r. exact Er.
Qed.
Lemma insert_len_in x y l : In y (insert_len x l) <-> y = x \/ In y l.
Proof.
  induction l as [|z l IH]; cbn [insert_len]; [cbn; intuition|]. destruct (length x <=? length z); cbn [In]; [rewrite IH; tauto|cbn [In]; intuition].
Qed.
Lemma sort_len_in y l : In y (sort_len l) <-> In y l.
Proof. induction l as [|x l IH]; [reflexivity|]. cbn [sort_len]. rewrite insert_len_in, IH. cbn [In]. intuition. Qed.
Lemma match_op_in syms s op : match_op syms s = Some op -> In op syms /\ prefixb op s = true /\ op_ok s op = true.
Proof.
  unfold match_op. intros H. apply find_some in H. destruct H as [H1 H2]. rewrite ?sort_len_in in H1. apply filter_In in H1. tauto.
Qed.
Lemma match_word_in ws s w : match_word ws s = Some w -> In w ws /\ prefixb w s = true.
Proof. unfold match_word. intros H. apply find_some in H. destruct H as [H1 H2]. apply andb_prop in H2. tauto. Qed.

Lemma end_good C k fl nxt e : prefixb (mark (pc_arr C) e) nxt = true -> allowed fl e = true -> extra (Some e) = [] ->
  rgood C k fl nxt (PRend [] e).
Proof.
  intros H1 H2 H3. cbn [rgood]. rewrite H3. apply prefixb_iff in H1. repeat split; [exact H1|exact H2|constructor|congruence].
Qed.

Lemma run_parser_good C k rec p fl cur nxt lft : goodrec C k rec -> In p (pc_parsers C) ->
  rgood C k fl nxt (fst (run_parser C rec p fl cur nxt lft)).
Proof.
  intros Hrec Hin.
  assert (Hnq : ~ quiet_parser C p -> ~ quiet C).
  { intros H Q. apply H. unfold quiet in Q. rewrite Forall_forall in Q. exact (Q p Hin). }
  destruct p; cbn [run_parser]; cbv zeta; cbn [fst].
  - (* PSpace *) destruct nxt as [|c r]; [exact I|]. destruct (is_space c); [apply found_good; reflexivity|exact I].
  - (* PComment *) destruct (seq_eqb (firstn 1 nxt) sym); [apply found_good; reflexivity|exact I].
  - (* PTerm *) unfold parse_term. destruct (fl_ign fl) eqn:Ei; [exact I|]. destruct (prefixb sym nxt) eqn:Ep; [|exact I]. cbv zeta.
    match goal with |- context [if ?c then (PRnone, _) else _] => destruct c end; [exact I|].
    destruct (pc_vars C) eqn:Ev; cbn [negb]; [|cbn [fst rgood]; apply Hnq; cbn; congruence].
    destruct (incomplete _ _ _); [exact I|]. cbn [fst rgood]. apply prefixb_iff in Ep. destruct Ep as [r Er].
    exists r. rewrite items_text_one. cbn [itext]. repeat split; [exact Er| |intros _; exact Ei]. constructor; [apply spelled_leaf; reflexivity|constructor].
  - (* PLit *) match goal with |- context [if ?c then _ else PRnone] => destruct c end; [|exact I].
    destruct (f nxt) as [[[n v]|]| |] eqn:Ef; [apply found_good; reflexivity|exact I| |]; cbn [rgood]; apply Hnq; cbn [quiet_parser]; intros H; destruct (H nxt) as [x Hx]; congruence.
  - (* PString *) destruct nxt as [|c r]; [exact I|]. destruct (ceq c q); [|exact I].
    destruct (str_scan q e r false [] 1) as [[s n]|]; [apply found_good; reflexivity|]. split; [reflexivity|constructor].
  - (* POp *) destruct (match_op (op_symbols (pc_ops C)) nxt) as [op|] eqn:E; [|exact I]. apply match_op_in in E. destruct E as [_ [E _]].
    apply prefixb_iff in E. exact (leaf_good C k fl (IOp op) nxt eq_refl E).
  - (* PConst *) destruct (match_alpha nxt) as [w|] eqn:E; [|exact I]. destruct (assoc w consts) as [[v u]|]; [|exact I].
    exact (leaf_good C k fl (IConst w v u) nxt eq_refl (match_alpha_prefix _ _ E)).
  - (* PUnit *) destruct (f nxt) as [[[n v]|]| |] eqn:Ef; [apply found_good; reflexivity|exact I| |]; cbn [rgood]; apply Hnq; cbn [quiet_parser]; intros H; destruct (H nxt) as [x Hx]; congruence.
  - (* PWord *) destruct (match_word words nxt) as [w|] eqn:E; [|exact I]. apply match_word_in in E. destruct E as [_ E].
    apply prefixb_iff in E. exact (leaf_good C k fl (IWord sys w) nxt eq_refl E).
  - (* PVar *) destruct (match_name nxt) as [w|] eqn:E; [|exact I].
    exact (leaf_good C k fl (IVar w) nxt eq_refl (proj1 (match_name_prefix _ _ E))).
  - (* PFunc *) destruct (match_name nxt) as [w|] eqn:E; [|exact I]. destruct (prefixb ($"(") (skipn (length w) nxt)) eqn:Ep; [|exact I].
    destruct (mem_str w names); [|exact I]. cbn [andb]. destruct (match_name_prefix _ _ E) as [[r Er] Hw].
    rewrite Er, skipn_len_app in Ep. apply prefixb_iff in Ep. destruct Ep as [r' Er'].
    apply parse_call_good; [exact Hrec| | |lia| |].
    + exists r'. rewrite items_text_cons, items_text_one. cbn [itext]. rewrite Er, Er', <- app_assoc. reflexivity.
    + rewrite items_text_cons, items_text_one. cbn [itext]. rewrite app_length. reflexivity.
    + repeat (constructor; [apply spelled_leaf; reflexivity|]). constructor.
    + intros. split; reflexivity.
  - (* PFuncParam *) destruct (prefixb c_comma nxt) eqn:Ep; [|exact I]. destruct (fl_func fl) eqn:Ef; [|exact I]. apply end_good; [exact Ep|exact Ef|reflexivity].
  - (* PFuncEnd *) destruct (prefixb c_close nxt) eqn:Ep; [|exact I]. destruct (fl_func fl) eqn:Ef; [|exact I]. destruct (fl_inner fl); [exact I|].
    apply end_good; [exact Ep|exact Ef|reflexivity].
  - (* PPtr *) destruct (prefixb sym nxt) eqn:E0; [|exact I]. apply prefixb_iff in E0. destruct E0 as [r0 E0].
    assert (Esk : skipn (length sym) nxt = r0) by (rewrite E0; apply skipn_len_app). rewrite Esk. destruct (match_name r0) as [w|] eqn:E; [|exact I].
    destruct (prefixb ($"(") (skipn (length sym + length w) nxt)) eqn:Ep; [|exact I].
    destruct (match_name_prefix _ _ E) as [[r Er] Hw].
    assert (Ep' : prefixb ($"(") r = true).
    { rewrite E0, Er in Ep. rewrite app_assoc in Ep. rewrite <- app_length in Ep. rewrite skipn_len_app in Ep. exact Ep. }
    apply prefixb_iff in Ep'. destruct Ep' as [r' Er'].
    apply parse_call_good; [exact Hrec| | |lia| |].
    + exists r'. rewrite items_text_cons, items_text_one. cbn [itext]. rewrite E0, Er, Er', <- !app_assoc. reflexivity.
    + rewrite items_text_cons, items_text_one. cbn [itext]. rewrite !app_length. cbn. lia.
    + repeat (constructor; [apply spelled_leaf; reflexivity|]). constructor.
    + intros. split; reflexivity.
  - (* PInner *) destruct (prefixb ($"(") nxt) eqn:Ep; [|exact I]. apply parse_inner_good; assumption.
  - (* PInnerEnd *) destruct (prefixb c_close nxt) eqn:Ep; [|exact I]. apply prefixb_iff in Ep.
    destruct (fl_inner fl) eqn:Ef; [|split; [reflexivity|constructor]]. cbn [rgood]. repeat split; [exact Ep|exact Ef| |discriminate].
    constructor; [apply spelled_leaf; reflexivity|constructor].
  - (* PInline *) destruct (prefixb ($"{") nxt) eqn:Ep; [|exact I]. apply parse_inline_good; assumption.
  - (* PInlineEnd *) destruct (prefixb ($"}") nxt) eqn:Ep; [|exact I]. apply prefixb_iff in Ep.
    destruct (fl_inline fl) eqn:Ef; [|split; [reflexivity|constructor]]. cbn [rgood]. repeat split; [exact Ep|exact Ef| |discriminate].
    constructor; [apply spelled_leaf; reflexivity|constructor].
  - (* PArr *) destruct (prefixb (as_open (pc_arr C)) nxt) eqn:Ep; [|exact I]. apply parse_array_good; assumption.
  - destruct (fl_arr fl) eqn:Ef; [|exact I]. destruct (prefixb _ nxt) eqn:Ep; [|exact I]. apply end_good; [exact Ep|exact Ef|reflexivity].
  - destruct (fl_arr fl) eqn:Ef; [|exact I]. destruct (prefixb _ nxt) eqn:Ep; [|exact I]. apply end_good; [exact Ep|exact Ef|reflexivity].
  - destruct (fl_arr fl) eqn:Ef; [|exact I]. destruct (prefixb _ nxt) eqn:Ep; [|exact I]. apply end_good; [exact Ep|exact Ef|reflexivity].
  - destruct (fl_arr fl) eqn:Ef; [|exact I]. destruct (prefixb _ nxt) eqn:Ep; [|exact I]. apply end_good; [exact Ep|exact Ef|reflexivity].
Qed.
Lemma try_parsers_good C k rec fl cur nxt : goodrec C k rec -> forall ps lft, (forall p, In p ps -> In p (pc_parsers C)) ->
  rgood C k fl nxt (fst (try_parsers C rec ps fl cur nxt lft)).
Proof.
  intros Hrec. induction ps as [|p ps IH]; intros lft Hin; [exact I|]. cbn [try_parsers].
  pose proof (run_parser_good C k rec p fl cur nxt lft Hrec (Hin p (or_introl eq_refl))) as Hg.
  destruct (run_parser C rec p fl cur nxt lft) as [[] l]; try exact Hg. apply IH. intros q Hq. apply Hin. right. exact Hq.
Qed.

(** * The loop *)
Definition sofar (fl : flags) (done : list (list item)) (cur : list item) (n : nat) : Prop :=
  Forall (Forall spelled) done /\ Forall spelled cur /\ (fl_ign fl = true -> done = []) /\
  n = length (statements_text done ++ items_text cur) /\ (first_st (done ++ [cur]) <> [] -> 0 < n).
Lemma sofar_sts fl done cur n : sofar fl done cur n -> sts_ok fl (done ++ [cur]).
Proof.
  intros [H1 [H2 [H3 _]]]. split; [apply Forall_app; auto|]. split; [destruct done; discriminate|].
  intros Hi. rewrite (H3 Hi). reflexivity.
Qed.
Lemma first_st_app done cur items : first_st (done ++ [cur ++ items]) <> [] -> first_st (done ++ [cur]) <> [] \/ (done = [] /\ items <> []).
Proof. destruct done as [|s done]; cbn [app first_st]; [|auto]. destruct cur; cbn; [|left; discriminate]. intros H. right. auto. Qed.

Lemma parse_loop_good C k rec : goodrec C k rec -> forall fuel fl done cur n rest lft text,
  text = (statements_text done ++ items_text cur) ++ rest -> sofar fl done cur n -> length rest < fuel ->
  pgood C (S k) fl text (fst (parse_loop C rec fuel fl done cur n rest lft)).
Proof.
  intros Hrec. induction fuel as [|fuel IH]; intros fl done cur n rest lft text E Hs Hf; [lia|]. cbn [parse_loop].
  pose proof (sofar_sts _ _ _ _ Hs) as Hsts.
  destruct rest as [|c rest0] eqn:Er.
  - cbn [fst pgood]. exists text, []. rewrite app_nil_r. destruct Hs as [H1 [H2 [H3 [H4 H5]]]]. rewrite app_nil_r in E. split; [reflexivity|].
    split; [congruence|]. split; [rewrite statements_text_app, statements_text_one; cbn [extra]; rewrite app_nil_r; congruence|].
    split; [exact Hsts|]. split; [reflexivity|].
    intros Hne. left. specialize (H5 Hne). intros Ht. rewrite Ht in E. rewrite H4, <- E in H5. cbn in H5. lia.
  - rewrite <- Er in *. clear Er c rest0.
    pose proof (try_parsers_good C k rec fl cur rest Hrec (pc_parsers C) lft (fun p H => H)) as Hg.
    destruct (try_parsers C rec (pc_parsers C) fl cur rest lft) as [[|items len endst|items e|items next| | |] l]; cbn [fst] in *; cbn [rgood] in Hg.
    + cbn [pgood]. split; [|exact Hsts]. rewrite statements_text_app, statements_text_one. exact E.
    + destruct Hg as [rest' [E1 [E2 [E3 E4]]]].
      assert (Hs' : 0 < len -> sofar fl (if endst then done ++ [cur ++ items] else done) (if endst then [] else cur ++ items) (n + len)).
      { intros Hlen. destruct Hs as [H1 [H2 [H3 [H4 H5]]]]. destruct endst; repeat split.
        - apply Forall_app. split; [exact H1|]. constructor; [apply Forall_app; auto|constructor].
        - constructor.
        - rewrite (E4 eq_refl). discriminate.
        - rewrite statements_text_app, statements_text_one, items_text_app, items_text_nil, app_nil_r, !app_length in *. lia.
        - intros _. lia.
        - exact H1.
        - apply Forall_app. auto.
        - exact H3.
        - rewrite items_text_app, !app_length in *. lia.
        - intros _. lia. }
      assert (Etext : text = (statements_text (if endst then done ++ [cur ++ items] else done) ++ items_text (if endst then [] else cur ++ items)) ++ rest').
      { rewrite E, E1. destruct endst; [rewrite statements_text_app, statements_text_one, items_text_nil, app_nil_r|]; rewrite items_text_app, <- !app_assoc; reflexivity. }
      destruct (Nat.eqb_spec len 0) as [Hz|Hz].
      * cbn [fst pgood]. assert (Hnil : items_text items = []) by (destruct (items_text items); [reflexivity|cbn in E2; lia]).
        split.
        -- rewrite statements_text_app, statements_text_one, Etext. f_equal. rewrite E1, Hnil. reflexivity.
        -- destruct Hs as [H1 [H2 [H3 [H4 H5]]]]. split; [|split].
           ++ apply Forall_app. destruct endst.
              ** split; [apply Forall_app; split; [exact H1|constructor; [apply Forall_app; auto|constructor]]|repeat constructor].
              ** split; [exact H1|]. constructor; [apply Forall_app; auto|constructor].
           ++ destruct endst; [destruct (done ++ [cur ++ items])|destruct done]; discriminate.
           ++ intros Hi. destruct endst; [rewrite (E4 eq_refl) in Hi; discriminate|]. rewrite (H3 Hi). reflexivity.
      * apply IH.
        -- rewrite Etext. f_equal. rewrite E1. symmetry. apply skipn_app_len. exact E2.
        -- apply Hs'. lia.
        -- rewrite E1, (skipn_app_len _ _ _ E2). rewrite E1, app_length in Hf. lia.
    + destruct Hg as [G1 [[r Gr] [G3 [G4 G5]]]]. destruct Hs as [H1 [H2 [H3 [H4 H5]]]]. cbn [pgood].
      exists (statements_text done ++ items_text cur), rest. split; [exact E|]. split; [exact H4|]. split; [|split; [|split]].
      * rewrite statements_text_app, statements_text_one, items_text_app, G1, <- !app_assoc. reflexivity.
      * split; [apply Forall_app; split; [exact H1|]; constructor; [apply Forall_app; auto|constructor]|]. split; [destruct done; discriminate|].
        intros Hi. rewrite (H3 Hi). reflexivity.
      * split; [exists r; exact Gr|exact G3].
      * intros Hne. destruct (first_st_app _ _ _ Hne) as [H|[_ H]].
        -- left. specialize (H5 H). destruct (statements_text done ++ items_text cur); [cbn in H4; lia|discriminate].
        -- right. exact (G5 H).
    + destruct Hg as [G1 G2]. cbn [pgood]. destruct Hs as [H1 [H2 [H3 [H4 H5]]]]. split.
      * rewrite statements_text_app, statements_text_one, items_text_app, E, G1, <- !app_assoc. reflexivity.
      * split; [apply Forall_app; split; [exact H1|]; constructor; [apply Forall_app; auto|constructor]|]. split; [destruct done; discriminate|].
        intros Hi. rewrite (H3 Hi). reflexivity.
    + exact Hg.
    + exact Hg.
    + cbn [pgood]. intros Ho. specialize (Hg Ho). rewrite E, app_length. lia.
Qed.

Lemma parse_good C : forall k, goodrec C k (parse C k).
Proof.
  induction k as [|k IH]; intros fl t l; cbn [parse].
  - cbn [fst pgood]. lia.
  - apply parse_loop_good; [exact IH|reflexivity| |lia]. repeat split; try constructor. intros H. cbn in H. congruence.
Qed.

Lemma parse_text_good C text lft : pgood C (S (length text)) no_flags text (fst (parse_text C text lft)).
Proof. apply parse_good. Qed.
