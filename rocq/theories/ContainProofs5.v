(** Calling operations does not fail with a plain exception. *)
From Coq Require Import ZArith QArith Ascii String List Bool Lia.
From Verif Require Import Base Dec Num Bases Units Syntax Call Loop Parse Exec InstallProofs ErrorSpec ErrorProofs3 ContainSpec ContainProofs2.
Import ListNotations.
Open Scope nat_scope.

Definition mild (u : bool) (call : list result -> M result) : Prop := forall ins s o s',
  Forall (sane_res u) ins -> usable_vars u s -> call ins s = (o, s') ->
  usable_vars u s' /\
  match o with OOk r => sane_res u r /\ (is_exc (rval r) = true -> exists x, In x ins /\ rval x = rval r) | _ => True end.
Definition impl_ok (u excs : bool) (f : handle -> list value -> list (option eunit) -> list (option ref) -> bool -> M opres) : Prop :=
  forall h vs us rs stl s o s', (forall sym, mild u (h sym)) -> Forall (sane u) vs ->
  (excs = true \/ Forall (fun v => is_exc v = false) vs) -> usable_vars u s -> f h vs us rs stl s = (o, s') ->
  usable_vars u s' /\
  match o with OOk r => sane u (or_val r) /\ (is_exc (or_val r) = true -> In (or_val r) vs) | _ => True end.
Definition env_sane (u : bool) (E : env) : Prop :=
  (forall e n, e_parse E (VExc e) <> Ok n) /\ norm_honest E /\
  (forall f vs us m r vs' us' w, e_norm E = Some f -> f vs us m r = Ok (vs', us', w) -> Forall (sane u) vs -> Forall (sane u) vs') /\
  forall r, e_tostr E r = true.

Lemma Forall_list_set A (P : A -> Prop) l i x : Forall P l -> P x -> Forall P (list_set l i x).
Proof. intros H Hx. apply Forall_forall. intros y Hy. apply In_list_set in Hy. destruct Hy as [->|Hy]; [exact Hx|]. rewrite Forall_forall in H. auto. Qed.
Lemma convert_numbers_sane u E d vs : Forall (sane u) vs -> Forall (sane u) (fst (convert_numbers E d vs)).
Proof.
  intros H. unfold convert_numbers. set (P := fun acc : list value * option cast => Forall (sane u) (fst acc)).
  assert (S1 : forall acc i, P acc -> P (convert_one E vs acc i)).
  { unfold P, convert_one. intros acc i K. destruct (nth_error vs i) as [v|]; [|exact K]. destruct (to_number E v) as [n| |]; try exact K.
    cbn [fst]. apply Forall_list_set; [exact K|exact I]. }
  assert (S2 : forall l acc, P acc -> P (fold_left (convert_one E vs) l acc)) by (induction l; cbn [fold_left]; auto).
  assert (S3 : forall l acc, P acc -> P (fold_left (fun acc r => if existsb is_plain_number (rs_types r)
                          then fold_left (convert_one E vs) (convert_range r (length vs)) acc else acc) l acc)).
  { induction l as [|r l IH]; cbn [fold_left]; [auto|]. intros acc K. apply IH. destruct (existsb _ _); auto. }
  apply (S3 (o_vals d) (vs, None)). exact H.
Qed.
Lemma array_numbers_sane u E l : forall c q, (forall e n, e_parse E (VExc e) <> Ok n) -> array_numbers E l c = Ok q ->
  Forall (sane u) (fst q) /\ Forall (fun r => is_exc (rval r) = false) l.
Proof.
  induction l as [|x l IH]; intros c q HE H; cbn [array_numbers] in H; [injection H as <-; split; constructor|].
  destruct (to_number E (rval x)) as [n| |] eqn:En; try discriminate. cbn [obind] in H.
  destruct (array_numbers E l _) as [p| |] eqn:Ep; try discriminate. cbn [obind] in H. injection H as <-. cbn [fst].
  destruct (IH _ _ HE Ep) as [K1 K2]. split; constructor; auto; [exact I|]. destruct (rval x); try reflexivity. exfalso. eapply HE, En.
Qed.
Lemma put_back_sane u : forall l vs us l', put_back l vs us = Ok l' -> Forall (sane u) vs -> Forall (sane_res u) l ->
  Forall (fun r => is_exc (rval r) = false) l -> Forall (sane_res u) l'.
Proof.
  induction l as [|x l IH]; intros vs us l' H Hv Hl Hn.
  - destruct vs as [|v vs]; cbn [put_back] in H; [injection H as <-; constructor|discriminate].
  - destruct vs as [|v vs]; cbn [put_back] in H; [injection H as <-; exact Hl|]. destruct us as [|w us]; [discriminate|].
    destruct (put_back l vs us) as [r| |] eqn:Er; try discriminate. cbn [obind] in H. injection H as <-.
    apply Forall_cons_iff in Hv. apply Forall_cons_iff in Hl. apply Forall_cons_iff in Hn. destruct Hv as [V1 V2], Hl as [L1 L2], Hn as [N1 N2].
    constructor; [|eapply IH; eassumption]. destruct x as [xv xu xf xo]. cbn [rval] in *. split; [exact V1|]. split; [apply L1|exact N1].
Qed.
Lemma norm_arrays_sane u E d : env_sane u E -> forall vs i c ru t, norm_arrays E d i vs c ru = Ok t -> Forall (sane u) vs -> Forall (sane u) (fst (fst t)).
Proof.
  intros [HE [_ [Hn _]]]. induction vs as [|v vs IH]; intros i c ru t H Hv; cbn [norm_arrays] in H; [injection H as <-; constructor|].
  apply Forall_cons_iff in Hv. destruct Hv as [V1 V2].
  assert (G : forall p : value * option cast * option eunit,
    (do t <- norm_arrays E d (S i) vs (snd (fst p)) (snd p); Ok (fst (fst p) :: fst (fst t), snd (fst t), snd t)) = Ok t ->
    sane u (fst (fst p)) -> Forall (sane u) (fst (fst t))).
  { intros p Hp Hs. destruct (norm_arrays E d (S i) vs (snd (fst p)) (snd p)) as [t'| |] eqn:En; try discriminate. cbn [obind] in Hp.
    injection Hp as <-. cbn [fst]. constructor; [exact Hs|eapply IH; eassumption]. }
  destruct v; try (eapply G; [exact H|exact V1]).
  destruct (must_be d i s_array (Some s_number)); [|eapply G; [exact H|exact V1]].
  destruct (array_numbers E l c) as [q| |] eqn:Eq; try discriminate. cbn [obind] in H. destruct (array_numbers_sane u _ _ _ _ HE Eq) as [Q1 Q2].
  destruct (match e_norm E with Some f => if o_norm d then f (fst q) (map runit l) (o_multi d) (o_rel d) else Ok (fst q, map runit l, ru)
                          | None => Ok (fst q, map runit l, ru) end) as [n| |] eqn:En; try discriminate. cbn [obind] in H.
  destruct (put_back l (fst (fst n)) (snd (fst n))) as [l'| |] eqn:Ep; try discriminate. cbn [obind] in H.
  eapply G; [exact H|]. cbn [fst]. apply sane_list. eapply put_back_sane; [exact Ep| |apply sane_list; exact V1|exact Q2].
  destruct (e_norm E) as [f|] eqn:Ef; [|injection En as <-; exact Q1]. destruct (o_norm d); [|injection En as <-; exact Q1].
  destruct n as [[a b] w]. eapply Hn; [reflexivity|exact En|exact Q1].
Qed.
Lemma prepare_sane u E d vs us rs p : env_sane u E -> prepare E d vs us rs = Ok p -> Forall (sane u) vs -> Forall (sane u) (fst (fst (fst p))).
Proof.
  intros HE H Hv. unfold prepare in H. destruct (validate E d vs us rs); try discriminate. cbn [obind] in H.
  assert (C : Forall (sane u) (fst (if o_autoin d then convert_numbers E d vs else (vs, None)))).
  { destruct (o_autoin d); [apply convert_numbers_sane|]; exact Hv. }
  destruct (if o_autoin d then convert_numbers E d vs else (vs, None)) as [ws c]. cbn [fst snd] in *. cbv zeta in H.
  destruct (all_numbers E d 0 ws).
  - destruct (e_norm E) as [f|] eqn:Ef; [|injection H as <-; exact C]. destruct (o_norm d); [|injection H as <-; exact C].
    destruct (f ws us (o_multi d) (o_rel d)) as [[[a1 b1] u1]| |] eqn:E1; try discriminate. cbn [obind fst snd] in H. injection H as <-.
    cbn [fst]. destruct HE as [_ [_ [Hn _]]]. eapply Hn; eassumption.
  - destruct (norm_arrays E d 0 ws c None) as [t| |] eqn:E1; try discriminate. cbn [obind] in H. injection H as <-. cbn [fst].
    eapply norm_arrays_sane; eassumption.
Qed.
Lemma restore_sane u r : sane_res u r -> sane_res u (restore r).
Proof. destruct r as [v w f [[v0 w0]|]]; intros [H1 H2]; [split; [apply H2|exact I]|split; [exact H1|exact I]]. Qed.
Lemma finish_sane u d c ru o : sane u (or_val o) -> sane_res u (finish d c ru o) /\ is_exc (rval (finish d c ru o)) = is_exc (or_val o).
Proof.
  intros H. unfold finish. destruct o as [v w f]. cbn [or_val or_unit or_ref] in *. destruct v; try (split; [split; [exact H|exact I]|reflexivity]).
  - split; [|reflexivity]. split; [|exact I]. apply sane_list. apply sane_list in H. apply Forall_forall. intros r Hr. apply in_map_iff in Hr.
    destruct Hr as [x [<- Hx]]. apply restore_sane. rewrite Forall_forall in H. auto.
Qed.

Lemma sane_val u r : sane_res u r -> sane u (rval r).
Proof. destruct r. intros [H _]. exact H. Qed.
Lemma plain_contained u E h d stl : env_sane u E -> (forall sym, mild u (h sym)) -> impl_ok u (o_excs d) (o_impl d) -> contained_op u (call_plain E h d stl).
Proof.
  intros HE Hh Hd ins s o s' Hi Hs H. unfold call_plain in H.
  destruct (if o_excs d then None else find_exc ins) as [x|] eqn:Ex.
  - injection H as <- <-. split; [exact Hs|]. assert (Hx : In x ins).
    { destruct (o_excs d); [discriminate|]. unfold find_exc in Ex. apply find_some in Ex. apply Ex. }
    rewrite Forall_forall in Hi. split; [auto|]. intros _. exists x. auto.
  - assert (Hne : o_excs d = true \/ Forall (fun x => is_exc (rval x) = false) ins).
    { destruct (o_excs d); [left; reflexivity|right]. apply Forall_forall. intros x Hx. exact (find_none _ _ Ex x Hx). }
    assert (Ht : forallb (e_tostr E) ins = true) by (apply forallb_forall; intros x _; apply HE).
    cbv zeta in H. rewrite Ht in H. unfold bind, lift in H.
    assert (Hv : Forall (sane u) (map rval ins)).
    { apply Forall_forall. intros v K. apply in_map_iff in K. destruct K as [x [<- Hx]]. apply sane_val. rewrite Forall_forall in Hi. auto. }
    destruct (prepare E d (map rval ins) (map runit ins) (map rref ins)) as [p| |] eqn:Ep.
    + cbn beta iota in H. pose proof (prepare_sane _ _ _ _ _ _ _ HE Ep Hv) as Hp.
      assert (Hpin : forall e, In (VExc e) (fst (fst (fst p))) -> In (VExc e) (map rval ins)) by (intros e; apply (prepare_in _ _ _ _ _ _ e (proj1 (proj2 HE)) Ep)).
      assert (Hpe : o_excs d = true \/ Forall (fun v => is_exc v = false) (fst (fst (fst p)))).
      { destruct Hne as [K|K]; [left; exact K|right]. apply Forall_forall. intros v Hvi. destruct v; try reflexivity. exfalso.
        apply Hpin in Hvi. apply in_map_iff in Hvi. destruct Hvi as [x [E1 E2]]. rewrite Forall_forall in K. specialize (K x E2). rewrite E1 in K. discriminate. }
      destruct (o_impl d h _ _ _ stl s) as [oi s1] eqn:Ei. destruct (Hd _ _ _ _ _ _ _ _ Hh Hp Hpe Hs Ei) as [Hs1 Ho]. destruct oi as [r|e| |].
      * injection H as <- <-. split; [exact Hs1|]. destruct Ho as [Ho1 Ho2]. destruct (finish_sane u d (snd (fst p)) (snd p) r Ho1) as [F1 F2]. split; [exact F1|].
        rewrite F2. intros K. specialize (Ho2 K). unfold finish. cbn [rval mkRes]. destruct (or_val r); try discriminate K.
        apply Hpin, in_map_iff in Ho2. destruct Ho2 as [x [E1 E2]]. exists x. auto.
      * destruct (wrapped e); injection H as <- <-; split; auto.
      * injection H as <- <-. split; [exact Hs1|exact I].
      * injection H as <- <-. split; [exact Hs1|exact I].
    + cbn beta iota in H. destruct (wrapped _); injection H as <- <-; split; auto.
    + cbn beta iota in H. injection H as <- <-. split; auto.
Qed.
Lemma row_sane u fl ins i : Forall (sane_res u) ins -> Forall (sane_res u) (row fl ins i).
Proof.
  intros H. unfold row. apply Forall_forall. intros x Hx. apply in_map_iff in Hx. destruct Hx as [[b r] [<- Hr]]. apply in_combine_r in Hr. cbn [fst snd].
  rewrite Forall_forall in H. specialize (H r Hr). destruct b; [|exact H]. unfold elems. destruct r as [v w f o]. cbn [rval]. destruct v; try (destruct i; split; exact I).
  destruct H as [H _]. apply sane_list in H. destruct (nth_in_or_default i l (mkRes VNone None None)) as [K|K]; [rewrite Forall_forall in H; auto|rewrite K; split; exact I].
Qed.
Lemma each_row_contained u f : contained_op u f -> forall rows s o s', Forall (Forall (sane_res u)) rows -> usable_vars u s -> each_row f rows s = (o, s') ->
  usable_vars u s' /\ match o with OOk l => Forall (sane_res u) l | OPy => False | _ => True end.
Proof.
  intros Hf. induction rows as [|x rows IH]; intros s o s' Hr Hs H; cbn [each_row] in H; [injection H as <- <-; split; [exact Hs|constructor]|].
  apply Forall_cons_iff in Hr. destruct Hr as [R1 R2]. destruct (f x s) as [o1 s1] eqn:E1. destruct (Hf _ _ _ _ R1 Hs E1) as [Hs1 Ho]. unfold bind in H.
  assert (G : forall r, sane_res u r -> match each_row f rows s1 with
     | (OOk a, s2) => (OOk (r :: a), s2) | (OErr e, s2) => (OErr e, s2) | (OPy, s2) => (OPy, s2) | (OFuel, s2) => (OFuel, s2) end = (o, s') ->
     usable_vars u s' /\ match o with OOk l => Forall (sane_res u) l | OPy => False | _ => True end).
  { intros r Hsr K. destruct (each_row f rows s1) as [o2 s2] eqn:E2. destruct (IH _ _ _ R2 Hs1 E2) as [Hs2 Ho2].
    destruct o2; injection K as <- <-; (split; [exact Hs2|]); try exact Ho2. constructor; assumption. }
  destruct o1 as [r|e| |].
  - apply (G r); [apply Ho|exact H].
  - eapply (G (mkRes (VExc e) None None)); [split; exact I|exact H].
  - destruct Ho.
  - injection H as <- <-. split; [exact Hs1|exact I].
Qed.
Lemma each_pack_contained u f : contained_op u f -> forall rows s o s', Forall (Forall (sane_res u)) rows -> usable_vars u s -> each_pack f rows s = (o, s') ->
  usable_vars u s' /\ match o with OOk l => Forall (sane_res u) l | OPy => False | _ => True end.
Proof.
  intros Hf. induction rows as [|x rows IH]; intros s o s' Hr Hs H; cbn [each_pack] in H; [injection H as <- <-; split; [exact Hs|constructor]|].
  apply Forall_cons_iff in Hr. destruct Hr as [R1 R2]. unfold bind at 1 in H. destruct (f [mkRes (VList x) None None] s) as [o1 s1] eqn:E1.
  assert (Hx : Forall (sane_res u) [mkRes (VList x) None None]).
  { constructor; [|constructor]. split; [apply sane_list; exact R1|exact I]. }
  destruct (Hf _ _ _ _ Hx Hs E1) as [Hs1 Ho]. destruct o1 as [r|e| |].
  - destruct (is_list (rval r)); [injection H as <- <-; split; [exact Hs1|exact I]|]. unfold bind in H.
    destruct (each_pack f rows s1) as [o2 s2] eqn:E2. destruct (IH _ _ _ R2 Hs1 E2) as [Hs2 Ho2].
    destruct o2; injection H as <- <-; (split; [exact Hs2|]); try exact Ho2. constructor; [apply Ho|assumption].
  - injection H as <- <-. split; [exact Hs1|exact I].
  - destruct Ho.
  - injection H as <- <-. split; [exact Hs1|exact I].
Qed.
Lemma call_fuel_contained u E h d stl : env_sane u E -> (forall sym, mild u (h sym)) -> impl_ok u (o_excs d) (o_impl d) ->
  forall n, contained_op u (call_fuel n E h d stl).
Proof.
  intros HE Hh Hd. induction n as [|n IH]; intros ins s o s' Hi Hs H; cbn [call_fuel] in H; [injection H as <- <-; split; [exact Hs|exact I]|].
  assert (Hrows : forall fl k, Forall (Forall (sane_res u)) (map (row fl ins) (seq 0 k))).
  { intros fl k. apply Forall_forall. intros x Hx. apply in_map_iff in Hx. destruct Hx as [i [<- _]]. apply row_sane, Hi. }
  unfold call_step in H. destruct (existsb _ _).
  - destruct (same_length _) as [[k|]|]; try (injection H as <- <-; split; [exact Hs|exact I]). unfold bind in H.
    destruct (each_row _ _ s) as [o1 s1] eqn:E1. destruct (each_row_contained _ _ IH _ _ _ _ (Hrows _ _) Hs E1) as [Hs1 Ho].
    destruct o1; injection H as <- <-; (split; [exact Hs1|]); try exact Ho. split; [|discriminate]. split; [apply sane_list; exact Ho|exact I].
  - destruct (is_packed d ins).
    + destruct (same_length _) as [[k|]|].
      * unfold bind in H.
        destruct (each_pack _ _ s) as [o1 s1] eqn:E1. destruct (each_pack_contained _ _ IH _ _ _ _ (Hrows _ _) Hs E1) as [Hs1 Ho].
        destruct o1; injection H as <- <-; (split; [exact Hs1|]); try exact Ho. split; [|discriminate]. split; [apply sane_list; exact Ho|exact I].
      * assert (Hx : Forall (sane_res u) [mkRes (VList ins) None None]).
        { constructor; [|constructor]. split; [apply sane_list; exact Hi|exact I]. }
        destruct (IH _ _ _ _ Hx Hs H) as [Hs1 Ho]. split; [exact Hs1|]. destruct o as [r| | |]; try exact Ho. split; [apply Ho|]. intros K.
        destruct Ho as [_ Ho]. destruct (Ho K) as [x [[<-|[]] Ex]]. rewrite <- Ex in K. discriminate.
      * injection H as <- <-. split; [exact Hs|exact I].
    + eapply plain_contained; eassumption.
Qed.
Lemma call_contained u E h d stl : env_sane u E -> (forall sym, mild u (h sym)) -> impl_ok u (o_excs d) (o_impl d) -> contained_op u (call E h d stl).
Proof. intros HE Hh Hd ins. apply (call_fuel_contained u E h d stl HE Hh Hd (3 + depths ins) ins). Qed.
Lemma contained_mild u f : contained_op u f -> mild u f.
Proof. intros H ins s o s' Hi Hs K. destruct (H _ _ _ _ Hi Hs K) as [H1 H2]. split; [exact H1|]. destruct o; try exact I. exact H2. Qed.

(** The operators and functions of a calculator whose implementations are such *)
Definition table_ok (u : bool) (T : optable) : Prop := forall sym o, find_op T sym = Some o -> impl_ok u (o_excs (op_def o)) (o_impl (op_def o)).
Lemma handle_mild G u stl : env_sane u (g_env G) -> table_ok u (g_ops G) -> forall n sym, mild u (op_handle G n stl sym).
Proof.
  intros HE HT. induction n as [|n IH]; intros sym ins s o s' Hi Hs H; cbn [op_handle] in H; [injection H as <- <-; split; [exact Hs|exact I]|].
  destruct (find_op (g_ops G) sym) as [d|] eqn:Ed; [|injection H as <- <-; split; [exact Hs|exact I]].
  eapply contained_mild; [|exact Hi|exact Hs|exact H]. apply call_contained; [exact HE|exact IH|eapply HT, Ed].
Qed.
Lemma callop_contained G u stl sym o : env_sane u (g_env G) -> table_ok u (g_ops G) -> find_op (g_ops G) sym = Some o -> contained_op u (callop G stl sym).
Proof.
  intros HE HT Ho ins s oc s' Hi Hs H.
  change ((match find_op (g_ops G) sym with Some d => call (g_env G) (op_handle G 4 stl) (op_def d) stl ins | None => pyerr end) s = (oc, s')) in H. rewrite Ho in H.
  eapply call_contained; [exact HE|apply (handle_mild G u stl HE HT)|eapply HT, Ho|exact Hi|exact Hs|exact H].
Qed.
Lemma func_contained G u stl d : env_sane u (g_env G) -> table_ok u (g_ops G) -> o_excs d = false -> impl_ok u false (o_impl d) ->
  contained_fn u (o_excs d) (call (g_env G) (callop G stl) d stl).
Proof.
  intros HE HT Hx Hd ins s o s' Hi Hne Hs H. rewrite Hx in Hne. destruct Hne as [Hne|Hne]; [discriminate|].
  assert (K : contained_op u (call (g_env G) (callop G stl) d stl)).
  { apply call_contained; [exact HE|apply (handle_mild G u stl HE HT)|rewrite Hx; exact Hd]. }
  destruct (K _ _ _ _ Hi Hs H) as [H1 H2]. split; [exact H1|]. destruct o as [r| | |]; try exact H2. destruct H2 as [H2 H3]. split; [exact H2|].
  destruct (is_exc (rval r)) eqn:Er; [|reflexivity]. destruct (H3 eq_refl) as [x [E1 E2]]. rewrite Forall_forall in Hne. specialize (Hne x E1). congruence.
Qed.
