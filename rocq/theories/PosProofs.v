(** Proofs about error positions and highlighting. *)
From Coq Require Import ZArith Ascii String List Bool Lia.
From Verif Require Import Base Bases Units Syntax Pos PosSpec BaseProofs.
Import ListNotations.
Open Scope nat_scope.

(** * Induction over the sub-items *)
Lemma item_sub_ind : forall P : item -> Prop,
  (forall i, (forall l, isub i = Some l -> Forall P l) -> P i) -> forall i, P i.
Proof.
  intros P H. fix IH 1. intros i. apply H. intros l Hl.
  destruct i; cbn [isub] in Hl; try discriminate;
    (assert (HF : Forall P items) by (clear -IH; induction items as [|x r IHr]; constructor; auto));
    injection Hl as <-; exact HF.
Qed.

(** * Searching *)
Lemma prefixb_iff : forall p s, prefixb p s = true <-> exists r, s = p ++ r.
Proof.
  induction p as [|a p IH]; intros [|b s]; cbn [prefixb app].
  - split; [eexists; reflexivity | reflexivity].
  - split; [eexists; reflexivity | reflexivity].
  - split; [discriminate | intros [r Hr]; discriminate].
  - split.
    + intros H. apply andb_prop in H. destruct H as [H1 H2]. unfold ceq in H1. apply Ascii.eqb_eq in H1. subst b.
      apply IH in H2. destruct H2 as [r Hr]. exists r. congruence.
    + intros [r Hr]. inversion Hr; subst. unfold ceq. rewrite Ascii.eqb_refl. cbn [andb]. apply IH. exists r. reflexivity.
Qed.
Lemma sfind_prefix : forall p s, prefixb p s = true -> sfind p s = Some 0.
Proof. intros p s H. destruct s; cbn [sfind]; rewrite H; reflexivity. Qed.
Lemma sfind_here : forall p r, sfind p (p ++ r) = Some 0.
Proof. intros. apply sfind_prefix. apply prefixb_iff. eexists. reflexivity. Qed.
Lemma sfind_sound : forall p s k, sfind p s = Some k -> exists gap r, s = gap ++ p ++ r /\ length gap = k.
Proof.
  intros p s. induction s as [|a s IH]; intros k H; cbn [sfind] in H.
  - destruct (prefixb p []) eqn:E; [|discriminate]. inversion H; subst. apply prefixb_iff in E. destruct E as [r Hr].
    exists [], r. split; auto.
  - destruct (prefixb p (a :: s)) eqn:E.
    + inversion H; subst. apply prefixb_iff in E. destruct E as [r Hr]. exists [], r. split; auto.
    + destruct (sfind p s) as [j|] eqn:Ej; cbn [option_map] in H; [|discriminate]. inversion H; subst.
      destruct (IH j eq_refl) as (gap & r & H1 & H2). exists (a :: gap), r. subst s. split; auto. cbn [length]. lia.
Qed.
Lemma sfind_complete : forall p gap r, exists k, sfind p (gap ++ p ++ r) = Some k /\ k <= length gap.
Proof.
  intros p gap r. induction gap as [|a g IH]; cbn [app].
  - exists 0. rewrite sfind_here. auto.
  - destruct IH as (k & H1 & H2). cbn [sfind]. destruct (prefixb p (a :: g ++ p ++ r)).
    + exists 0. cbn [length]. split; auto. lia.
    + rewrite H1. exists (S k). cbn [option_map length]. split; auto. lia.
Qed.
Lemma skipn_len_app : forall (a b : str), skipn (length a) (a ++ b) = b.
Proof. intros. induction a as [|x a IH]; [reflexivity | exact IH]. Qed.
Lemma firstn_len_app : forall (a b : str), firstn (length a) (a ++ b) = a.
Proof. intros. induction a as [|x a IH]; cbn [length firstn app]; [reflexivity | f_equal; exact IH]. Qed.
Lemma sfind_from_here : forall pre p r, sfind_from p (pre ++ p ++ r) (length pre) = Some (length pre).
Proof.
  intros. unfold sfind_from. destruct (Nat.ltb_spec (length (pre ++ p ++ r)) (length pre)).
  - rewrite app_length in H. lia.
  - rewrite skipn_len_app, sfind_here. cbn [option_map]. f_equal. lia.
Qed.
Lemma sfind_from_sound : forall p pre t i k, length pre = i -> sfind_from p (pre ++ t) i = Some k ->
  exists gap r, t = gap ++ p ++ r /\ k = i + length gap.
Proof.
  intros p pre t i k Hl H. unfold sfind_from in H. destruct (Nat.ltb (length (pre ++ t)) i); [discriminate|].
  subst i. rewrite skipn_len_app in H. destruct (sfind p t) as [j|] eqn:E; [|discriminate].
  cbn [option_map] in H. inversion H; subst. apply sfind_sound in E. destruct E as (g & r & H1 & H2).
  exists g, r. split; auto.
Qed.
Lemma sfind_from_complete : forall p pre gap r, exists k,
  sfind_from p (pre ++ gap ++ p ++ r) (length pre) = Some (length pre + k) /\ k <= length gap.
Proof.
  intros. unfold sfind_from. destruct (Nat.ltb_spec (length (pre ++ gap ++ p ++ r)) (length pre)).
  - rewrite app_length in H. lia.
  - rewrite skipn_len_app. destruct (sfind_complete p gap r) as (k & H1 & H2). rewrite H1. exists k. auto.
Qed.

(** * find_pos *)
Lemma find_items_exact : forall l pre rest,
  find_items (pre ++ items_text l ++ rest) l (length pre) = Some (length pre + length (items_text l)).
Proof.
  induction l as [|x r IH]; intros pre rest.
  - cbn [find_items items_text map concat length]. f_equal. lia.
  - change (items_text (x :: r)) with (itext x ++ items_text r). cbn [find_items]. rewrite <- !app_assoc, sfind_from_here.
    specialize (IH (pre ++ itext x) rest). rewrite <- !app_assoc, app_length in IH. rewrite IH. f_equal. rewrite app_length. lia.
Qed.
Lemma find_items_sound : forall l pre t i, find_items (pre ++ t) l (length pre) = Some i ->
  exists mid rest, t = mid ++ rest /\ i = length pre + length mid /\ parts_in (map itext l) t rest.
Proof.
  induction l as [|x r IH]; intros pre t i H; cbn [find_items] in H.
  - inversion H; subst. exists [], t. cbn [app map length]. repeat split; try lia. constructor.
  - destruct (sfind_from (itext x) (pre ++ t) (length pre)) as [k|] eqn:E; [|discriminate].
    destruct (sfind_from_sound _ _ _ _ _ eq_refl E) as (gap & u & H1 & H2). subst t k.
    specialize (IH (pre ++ gap ++ itext x) u i). rewrite <- !app_assoc in IH. rewrite !app_length in IH.
    replace (length pre + length gap + length (itext x)) with (length pre + (length gap + length (itext x))) in H by lia.
    destruct (IH H) as (mid & rest & H3 & H4 & H5). exists (gap ++ itext x ++ mid), rest. subst u.
    rewrite <- !app_assoc, !app_length. repeat split; try lia. cbn [map]. constructor. exact H5.
Qed.
(** Greedy search succeeds whenever some arrangement exists. *)
Lemma parts_extend : forall ps t rest g, parts_in ps t rest -> exists rest', parts_in ps (g ++ t) rest'.
Proof.
  intros ps t rest g H. destruct H as [t|gap p ps t rest H].
  - eexists. constructor.
  - exists rest. rewrite app_assoc. constructor. exact H.
Qed.
Lemma app_split : forall (a b c d : str), a ++ b = c ++ d -> length a <= length c -> exists e, c = a ++ e /\ b = e ++ d.
Proof.
  induction a as [|x a IH]; intros b c d H Hl; cbn [app length] in *.
  - exists c. auto.
  - destruct c as [|y c]; cbn [length] in Hl; [lia|]. inversion H; subst.
    destruct (IH b c d H2 ltac:(lia)) as (e & H3 & H4). exists e. subst. auto.
Qed.
Lemma greedy_step : forall p gap t pre, exists k u,
  sfind_from p (pre ++ gap ++ p ++ t) (length pre) = Some (length pre + k) /\
  (exists g', gap ++ p ++ t = g' ++ p ++ u /\ length g' = k) /\ exists e, u = e ++ t.
Proof.
  intros p gap t pre. destruct (sfind_from_complete p pre gap t) as (k & H1 & H2).
  destruct (sfind_from_sound _ _ _ _ _ eq_refl H1) as (g & u & H3 & H4). exists k, u. split; auto.
  assert (length g = k) by lia. split. { exists g. auto. }
  assert (H5 : (g ++ p) ++ u = (gap ++ p) ++ t) by (rewrite <- !app_assoc; auto).
  apply app_split in H5; [|rewrite !app_length; lia]. destruct H5 as (e & _ & H6). exists e. exact H6.
Qed.

(** * Highlighting *)
Lemma slice_mid : forall pre gap rest, slice (pre ++ gap ++ rest) (length pre) (length pre + length gap) = gap.
Proof.
  intros. unfold slice. rewrite skipn_len_app. replace (length pre + length gap - length pre) with (length gap) by lia.
  apply firstn_len_app.
Qed.
Definition frags (l : list (cat * str)) : str := concat (map snd l).
Lemma frags_app : forall a b, frags (a ++ b) = frags a ++ frags b.
Proof. intros. unfold frags. rewrite map_app, concat_app. reflexivity. Qed.
Lemma hl_loop_concat : forall one, forall l, Forall (fun x => forall h, one x = Some h -> frags h = itext x) l ->
  forall pre t h, hl_loop one (pre ++ t) l (length pre) = Some h -> frags h = t.
Proof.
  intros one l HF. induction HF as [|x r Hx HF IH]; intros pre t h H.
  - cbn [hl_loop] in H. inversion H; subst; clear H. rewrite skipn_len_app, app_length.
    destruct (Nat.ltb_spec (length pre) (length pre + length t)) as [L|L].
    + unfold frags. cbn [map concat snd]. apply app_nil_r.
    + destruct t; [reflexivity | cbn [length] in L; lia].
  - cbn [hl_loop] in H. fold (hl_loop one (pre ++ t)) in H.
    destruct (sfind_from (itext x) (pre ++ t) (length pre)) as [k|] eqn:E; [|discriminate].
    destruct (one x) as [a|] eqn:Ea; [|discriminate].
    destruct (hl_loop one (pre ++ t) r (k + length (itext x))) as [b|] eqn:Eb; [|discriminate].
    inversion H; subst; clear H. rewrite !frags_app, (Hx a eq_refl).
    destruct (sfind_from_sound _ _ _ _ _ eq_refl E) as (gap & u & H1 & H2). subst t k.
    assert (Hb : frags b = u).
    { apply (IH (pre ++ gap ++ itext x)). rewrite <- !app_assoc, !app_length.
      replace (length pre + (length gap + length (itext x))) with (length pre + length gap + length (itext x)) by lia. exact Eb. }
    rewrite Hb, slice_mid. destruct (Nat.eqb_spec (length pre) (length pre + length gap)) as [L|L].
    + destruct gap; [reflexivity | cbn [length] in L; lia].
    + unfold frags. cbn [map concat snd]. rewrite app_nil_r. reflexivity.
Qed.
Lemma hl_item_sub : forall x l, isub x = Some l -> hl_item x = hl_loop hl_item (itext x) l 0.
Proof. intros x l H. destruct x; cbn [isub] in H; try discriminate; inversion H; subst; reflexivity. Qed.
Lemma hl_item_leaf : forall x, isub x = None -> hl_item x = Some [(category x, itext x)].
Proof. intros x H. destruct x; cbn [isub] in H; try discriminate; reflexivity. Qed.
Lemma hl_item_concat : forall x h, hl_item x = Some h -> frags h = itext x.
Proof.
  intros x. induction x as [x IH] using item_sub_ind. intros h H. destruct (isub x) as [l|] eqn:E.
  - rewrite (hl_item_sub x l E) in H. apply (hl_loop_concat hl_item l (IH l eq_refl) [] (itext x) h H).
  - rewrite (hl_item_leaf x E) in H. inversion H; subst. unfold frags. cbn [map concat snd]. apply app_nil_r.
Qed.
Lemma highlight_concat : forall text l h, highlight text l = Some h -> concat (map snd h) = text.
Proof.
  intros text l h H. apply (hl_loop_concat hl_item l) with (pre := []) (t := text); auto.
  apply Forall_forall. intros x _. apply hl_item_concat.
Qed.

(** Highlighting succeeds on covered items. *)
Lemma parts_all_inv : forall p ps t rest, parts_in (p :: ps) t rest -> exists gap u, t = gap ++ p ++ u /\ parts_in ps u rest.
Proof. intros p ps t rest H. inversion H; subst. eauto. Qed.
Lemma hl_loop_total : forall one l, Forall (fun x => exists h, one x = Some h) l ->
  forall pre t rest, parts_in (map itext l) t rest -> exists h, hl_loop one (pre ++ t) l (length pre) = Some h.
Proof.
  intros one l HF. induction HF as [|x r [h Hx] HF IH]; intros pre t rest H.
  - cbn [hl_loop]. eexists. reflexivity.
  - cbn [map] in H. apply parts_all_inv in H. destruct H as (gap & u & Ht & H). subst t.
    destruct (greedy_step (itext x) gap u pre) as (k & v & H1 & (g & H2 & H3) & e & He).
    cbn [hl_loop]. fold (hl_loop one (pre ++ gap ++ itext x ++ u)). rewrite H1, Hx.
    destruct (parts_extend _ _ _ e H) as (rest' & H4). rewrite <- He in H4.
    destruct (IH (pre ++ g ++ itext x) v rest' H4) as (h2 & Hh).
    rewrite <- !app_assoc, !app_length in Hh. rewrite H2.
    replace (length pre + k + length (itext x)) with (length pre + (length g + length (itext x))) by lia.
    rewrite Hh. eexists. reflexivity.
Qed.
Lemma covered_inv : forall x l, covered x -> isub x = Some l ->
  exists rest, parts_in (map itext l) (itext x) rest /\ Forall covered l.
Proof. intros x l H E. inversion H; subst; rewrite E in *; [discriminate | inversion H0; subst; eauto]. Qed.
Lemma hl_item_total : forall x, covered x -> exists h, hl_item x = Some h.
Proof.
  intros x. induction x as [x IH] using item_sub_ind. intros C. destruct (isub x) as [l|] eqn:E.
  - rewrite (hl_item_sub x l E). destruct (covered_inv x l C E) as (rest & H1 & H2).
    apply (hl_loop_total hl_item l) with (pre := []) (rest := rest); auto.
    specialize (IH l eq_refl). rewrite Forall_forall in *. intros y Hy. apply IH; auto.
  - rewrite (hl_item_leaf x E). eexists. reflexivity.
Qed.
Lemma highlight_total : forall text l rest, Forall covered l -> parts_in (map itext l) text rest -> exists h, highlight text l = Some h.
Proof.
  intros text l rest HF H. apply (hl_loop_total hl_item l) with (pre := []) (rest := rest); auto.
  rewrite Forall_forall in *. intros y Hy. apply hl_item_total. auto.
Qed.
Lemma parts_concat : forall ps, parts_in ps (concat ps) [].
Proof. induction ps as [|p ps IH]; cbn [concat]; [constructor | apply (parts_cons [] p ps _ [] IH)]. Qed.

(** Highlighting of spelled items yields the leaves. *)
Definition leaf_frags (l : list item) : list (cat * str) := map (fun y => (category y, itext y)) l.
Lemma hl_loop_leaves : forall (one : item -> option (list (cat * str))) (f : item -> list item) l,
  Forall (fun x => one x = Some (leaf_frags (f x))) l ->
  forall pre, hl_loop one (pre ++ items_text l) l (length pre) = Some (leaf_frags (flat_map f l)).
Proof.
  intros one f l HF. induction HF as [|x r Hx HF IH]; intros pre.
  - cbn [hl_loop items_text map concat flat_map leaf_frags]. rewrite app_nil_r, Nat.ltb_irrefl. reflexivity.
  - change (items_text (x :: r)) with (itext x ++ items_text r). cbn [hl_loop]. fold (hl_loop one (pre ++ itext x ++ items_text r)).
    rewrite sfind_from_here, Hx. specialize (IH (pre ++ itext x)). rewrite <- app_assoc, app_length in IH. rewrite IH.
    rewrite Nat.eqb_refl. cbn [app flat_map]. unfold leaf_frags. rewrite map_app. reflexivity.
Qed.
Lemma spelled_inv : forall x l, spelled x -> isub x = Some l -> items_text l = itext x /\ Forall spelled l.
Proof. intros x l H E. inversion H; subst; rewrite E in *; [discriminate | inversion H0; subst; auto]. Qed.
Lemma hl_item_leaves : forall x, spelled x -> hl_item x = Some (leaf_frags (leaves x)).
Proof.
  intros x. induction x as [x IH] using item_sub_ind. intros C. destruct (isub x) as [l|] eqn:E.
  - rewrite (hl_item_sub x l E). destruct (spelled_inv x l C E) as (H1 & H2). rewrite <- H1.
    replace (leaves x) with (flat_map leaves l) by (destruct x; cbn [isub] in E; inversion E; reflexivity).
    apply (hl_loop_leaves hl_item leaves l) with (pre := []).
    specialize (IH l eq_refl). rewrite Forall_forall in *. intros y Hy. apply IH; auto.
  - rewrite (hl_item_leaf x E). destruct x; cbn [isub] in E; try discriminate; reflexivity.
Qed.
Lemma highlight_leaves : forall l, Forall spelled l -> highlight (items_text l) l = Some (leaf_frags (flat_map leaves l)).
Proof.
  intros l HF. apply (hl_loop_leaves hl_item leaves l) with (pre := []).
  rewrite Forall_forall in *. intros y Hy. apply hl_item_leaves. auto.
Qed.
Lemma spelled_covered : forall x, spelled x -> covered x.
Proof.
  intros x. induction x as [x IH] using item_sub_ind. intros C. destruct (isub x) as [l|] eqn:E.
  - destruct (spelled_inv x l C E) as (H1 & H2). apply covered_rec with (l := l) (rest := []); auto.
    + rewrite <- H1. apply parts_concat.
    + specialize (IH l eq_refl). rewrite Forall_forall in *. intros y Hy. apply IH; auto.
  - apply covered_leaf. exact E.
Qed.

(** * The position of an error *)
Definition statements_text (st : list (list item)) : str := concat (map items_text st).
Definition fold_pos (text : str) (st : list (list item)) (o : option nat) : option nat :=
  fold_left (fun i items => match i with None => None | Some i => find_items text items i end) st o.
Lemma fold_pos_exact : forall st pre rest,
  fold_pos (pre ++ statements_text st ++ rest) st (Some (length pre)) = Some (length pre + length (statements_text st)).
Proof.
  induction st as [|l st IH]; intros pre rest.
  - unfold fold_pos. cbn [fold_left statements_text map concat length]. f_equal. lia.
  - change (statements_text (l :: st)) with (items_text l ++ statements_text st). unfold fold_pos. cbn [fold_left].
    rewrite <- !app_assoc, find_items_exact. specialize (IH (pre ++ items_text l) rest). unfold fold_pos in IH.
    rewrite <- !app_assoc, app_length in IH. rewrite IH. f_equal. rewrite app_length. lia.
Qed.
Lemma find_pos_exact : forall st rest next, (match next with None => True | Some n => prefixb n rest = true end) ->
  find_pos (statements_text st ++ rest) st next = Some (length (statements_text st)).
Proof.
  intros st rest next H. unfold find_pos.
  change (fold_left _ st (Some 0)) with (fold_pos (statements_text st ++ rest) st (Some (length (@nil ascii)))).
  pose proof (fold_pos_exact st [] rest) as HE. cbn [app length] in HE. cbn [length]. rewrite HE.
  destruct next as [n|]; auto. cbn [plus]. apply prefixb_iff in H. destruct H as [r ->]. apply sfind_from_here.
Qed.
Lemma truncate_exact : forall st rest next, (match next with None => True | Some n => prefixb n rest = true end) ->
  truncate (statements_text st ++ rest) st next = Some (statements_text st).
Proof.
  intros st rest next H. unfold truncate. rewrite (find_pos_exact st rest next H). cbn [option_map]. f_equal. apply firstn_len_app.
Qed.
Lemma fold_pos_none : forall text st, fold_pos text st None = None.
Proof. intros. induction st as [|l st IH]; [reflexivity | exact IH]. Qed.
Lemma parts_app : forall a b t u v, parts_in a t u -> parts_in b u v -> parts_in (a ++ b) t v.
Proof. intros a b t u v H. induction H; intros Hb; cbn [app]; auto. constructor. auto. Qed.
Lemma fold_pos_sound : forall st pre t i, fold_pos (pre ++ t) st (Some (length pre)) = Some i ->
  exists mid rest, t = mid ++ rest /\ i = length pre + length mid /\ parts_in (map itext (concat st)) t rest.
Proof.
  induction st as [|l st IH]; intros pre t i H; unfold fold_pos in H; cbn [fold_left] in H.
  - inversion H; subst. exists [], t. cbn [app concat map length]. repeat split; try lia. constructor.
  - destruct (find_items (pre ++ t) l (length pre)) as [j|] eqn:E.
    2:{ change (fold_pos (pre ++ t) st None = Some i) in H. rewrite fold_pos_none in H. discriminate. }
    destruct (find_items_sound _ _ _ _ E) as (mid & rest & H1 & H2 & H3). subst t j.
    specialize (IH (pre ++ mid) rest i). rewrite <- app_assoc, app_length in IH.
    destruct (IH H) as (m2 & r2 & H4 & H5 & H6). exists (mid ++ m2), r2. subst rest. rewrite app_length, <- app_assoc.
    repeat split; try lia. cbn [concat]. rewrite map_app. eapply parts_app; eauto.
Qed.
Lemma find_pos_sound : forall text st next i, find_pos text st next = Some i ->
  exists before after, text = before ++ after /\ length before = i /\
    (exists rest, parts_in (map itext (concat st)) text rest /\ exists gap, rest = gap ++ after) /\
    (match next with None => True | Some n => prefixb n after = true end).
Proof.
  intros text st next i H. unfold find_pos in H.
  change (fold_left _ st (Some 0)) with (fold_pos text st (Some 0)) in H.
  destruct (fold_pos text st (Some 0)) as [j|] eqn:E; [|discriminate].
  destruct (fold_pos_sound st [] text j E) as (mid & rest & H1 & H2 & H3). cbn [length plus] in H2. subst j.
  destruct next as [n|].
  - rewrite H1 in H. destruct (sfind_from_sound _ _ _ _ _ eq_refl H) as (gap & r & H4 & H5).
    exists (mid ++ gap), (n ++ r). rewrite app_length. subst rest. rewrite H1, <- app_assoc. repeat split; auto.
    + exists (gap ++ n ++ r). rewrite H1 in H3. split; auto. exists gap. reflexivity.
    + apply prefixb_iff. eexists. reflexivity.
  - inversion H; subst. exists mid, rest. repeat split; auto. exists rest. split; auto. exists []. reflexivity.
Qed.
Lemma find_items_total : forall l pre t rest, parts_in (map itext l) t rest ->
  exists i, find_items (pre ++ t) l (length pre) = Some i.
Proof.
  induction l as [|x r IH]; intros pre t rest H; cbn [find_items].
  - eexists. reflexivity.
  - cbn [map] in H. apply parts_all_inv in H. destruct H as (gap & u & Ht & H). subst t.
    destruct (greedy_step (itext x) gap u pre) as (k & v & H1 & (g & H2 & H3) & e & He). rewrite H1, H2.
    destruct (parts_extend _ _ _ e H) as (rest' & H4). rewrite <- He in H4.
    destruct (IH (pre ++ g ++ itext x) v rest' H4) as (i & Hi). rewrite <- !app_assoc, !app_length in Hi.
    exists i. rewrite <- Hi. f_equal. lia.
Qed.
