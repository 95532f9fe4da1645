(** Proofs about shared numbers. *)
From Coq Require Import ZArith QArith Ascii String List Bool Lia.
From Verif Require Import Base Dec Num Bases Formats Units Install Syntax Call Loop Exec Std Heap HeapSpec.
Import ListNotations.
Open Scope nat_scope.

(** * Induction over programs *)
Definition hexpr_rect2 (P : hexpr -> Prop)
  (F1 : forall a, P (HLit a)) (F2 : forall n, P (HVar n)) (F3 : forall l, Forall P l -> P (HArray l))
  (F4 : forall f l, Forall P l -> P (HMake f l)) (F5 : forall f e, P e -> P (HGather f e)) (F6 : forall b e, P e -> P (HPick b e))
  (F7 : forall e i, P e -> P i -> P (HElement e i)) (F8 : forall n e, P e -> P (HSet n e))
  (F9 : forall a b, P a -> P b -> P (HSeq a b)) (F10 : forall l b, Forall P l -> P b -> P (HCall l b)) : forall e, P e :=
  fix go (e : hexpr) : P e :=
    let all := fix all (l : list hexpr) : Forall P l :=
      match l with [] => Forall_nil P | x :: r => Forall_cons x (go x) (all r) end in
    match e with
    | HLit a => F1 a
    | HVar n => F2 n
    | HArray l => F3 l (all l)
    | HMake f l => F4 f l (all l)
    | HGather f x => F5 f x (go x)
    | HPick b x => F6 b x (go x)
    | HElement x i => F7 x i (go x) (go i)
    | HSet n x => F8 n x (go x)
    | HSeq a b => F9 a b (go a) (go b)
    | HCall l b => F10 l b (all l) (go b)
    end.
Definition h_list (p : Z) := fix h_list (l : list hexpr) (s : hst) {struct l} : option (list hv * hst) :=
  match l with
  | [] => Some ([], s)
  | x :: r => match h_eval p x s with
              | Some (v, s1) => match h_list r s1 with Some (t, s2) => Some (v :: t, s2) | None => None end
              | None => None
              end
  end.
Definition n_list (lits : list number) := fix n_list (l : list hexpr) (V : list (str * nval)) {struct l} : option (list nval * list (str * nval)) :=
  match l with
  | [] => Some ([], V)
  | x :: r => match n_eval lits x V with
              | Some (v, V1) => match n_list r V1 with Some (t, V2) => Some (v :: t, V2) | None => None end
              | None => None
              end
  end.
Definition every (P : hexpr -> Prop) := fix every (l : list hexpr) : Prop := match l with [] => True | x :: r => P x /\ every r end.
Definition some_of (P : hexpr -> Prop) := fix some_of (l : list hexpr) : Prop := match l with [] => False | x :: r => P x \/ some_of r end.

Lemma h_list_cons p x r s : h_list p (x :: r) s =
  match h_eval p x s with
  | Some (v, s1) => match h_list p r s1 with Some (t, s2) => Some (v :: t, s2) | None => None end
  | None => None
  end.
Proof. reflexivity. Qed.
Lemma n_list_cons lits x r V : n_list lits (x :: r) V =
  match n_eval lits x V with
  | Some (v, V1) => match n_list lits r V1 with Some (t, V2) => Some (v :: t, V2) | None => None end
  | None => None
  end.
Proof. reflexivity. Qed.
Lemma eval_array p l s : h_eval p (HArray l) s =
  match h_list p l s with
  | Some (vs, s1) => match addresses vs with Some t => Some (HArr t, s1) | None => None end
  | None => None
  end.
Proof. reflexivity. Qed.
Lemma eval_make p f l s : h_eval p (HMake f l) s =
  match h_list p l s with
  | Some (vs, s1) =>
    match addresses vs with
    | Some t => match h_read (h_cells s1) t with
                | Some ns => match f ns with Some n => Some (h_new (first_cast ns) n s1) | None => None end
                | None => None
                end
    | None => None
    end
  | None => None
  end.
Proof. reflexivity. Qed.
Lemma eval_call p l b s : h_eval p (HCall l b) s =
  match h_list p l s with
  | Some (vs, s1) => match h_eval p b (mkH (h_cells s1) (h_params 1 vs (h_vars s1))) with
                     | Some (v, s2) => Some (v, mkH (h_cells s2) (h_vars s1))
                     | None => None
                     end
  | None => None
  end.
Proof. reflexivity. Qed.
Lemma n_eval_array lits l V : n_eval lits (HArray l) V =
  match n_list lits l V with
  | Some (vs, V1) => match numbers_in vs with Some t => Some (NArr t, V1) | None => None end
  | None => None
  end.
Proof. reflexivity. Qed.
Lemma n_eval_make lits f l V : n_eval lits (HMake f l) V =
  match n_list lits l V with
  | Some (vs, V1) => match numbers_in vs with
                     | Some ns => match f ns with Some n => Some (n_cast (first_cast ns) n, V1) | None => None end
                     | None => None
                     end
  | None => None
  end.
Proof. reflexivity. Qed.
Lemma n_eval_call lits l b V : n_eval lits (HCall l b) V =
  match n_list lits l V with
  | Some (vs, V1) => match n_eval lits b (n_params 1 vs V1) with Some (v, _) => Some (v, V1) | None => None end
  | None => None
  end.
Proof. reflexivity. Qed.
Lemma makes_list l : (makes (HArray l) : Prop) = every makes l. Proof. reflexivity. Qed.
Lemma plain_list l : (plain_ops (HArray l) : Prop) = every plain_ops l. Proof. reflexivity. Qed.
Lemma below_list k l : (literals_below k (HArray l) : Prop) = every (literals_below k) l. Proof. reflexivity. Qed.

(** * Cells *)
Lemma write_length h : forall a n, length (h_write h a n) = length h.
Proof. induction h as [|x h IH]; intros [|a] n; cbn [h_write length]; try reflexivity. now rewrite IH. Qed.
Lemma write_nth h : forall a n b, nth_error (h_write h a n) b = if (b =? a) && (a <? length h) then Some n else nth_error h b.
Proof.
  induction h as [|x h IH]; intros [|a] n [|b]; cbn [h_write nth_error Nat.eqb andb length]; try reflexivity.
  - destruct (b =? a); reflexivity.
  - rewrite IH. reflexivity.
Qed.
Definition same_amount (m n : number) : Prop := nnum m = nnum n /\ nden m = nden n /\ nwidth m = nwidth n.
Definition amounts_kept (h h' : list number) : Prop :=
  forall a n, nth_error h a = Some n -> exists m, nth_error h' a = Some m /\ same_amount m n.
Lemma amounts_refl h : amounts_kept h h.
Proof. intros a n H. exists n. repeat split. exact H. Qed.
Lemma amounts_trans h1 h2 h3 : amounts_kept h1 h2 -> amounts_kept h2 h3 -> amounts_kept h1 h3.
Proof.
  intros A B a n H. destruct (A a n H) as (m & Hm & X1 & X2 & X3). destruct (B a m Hm) as (k & Hk & Y1 & Y2 & Y3).
  exists k. split; [exact Hk|]. repeat split; congruence.
Qed.
Lemma amounts_app h k : amounts_kept h (h ++ k).
Proof. intros a n H. exists n. split; [|repeat split]. rewrite nth_error_app1; [exact H|]. apply nth_error_Some. congruence. Qed.
Lemma amounts_cast h a c : amounts_kept h (h_cast h a c).
Proof.
  unfold h_cast. destruct c as [k|]; [|apply amounts_refl]. destruct (nth_error h a) as [n|] eqn:E; [|apply amounts_refl].
  intros b m Hb. rewrite write_nth. destruct ((b =? a) && (a <? length h)) eqn:T.
  - apply andb_true_iff in T as [T _]. apply Nat.eqb_eq in T as ->. rewrite Hb in E. assert (X : m = n) by congruence. subst m.
    eexists. split; [reflexivity|]. repeat split.
  - exists m. split; [exact Hb|]. repeat split.
Qed.
Lemma list_amounts p l (IH : Forall (fun e => forall s v s', h_eval p e s = Some (v, s') -> amounts_kept (h_cells s) (h_cells s')) l) :
  forall s vs s', h_list p l s = Some (vs, s') -> amounts_kept (h_cells s) (h_cells s').
Proof.
  induction IH as [|x r Hx Hr IHr]; intros s vs s' H.
  - unfold h_list in H. injection H as <- <-. apply amounts_refl.
  - rewrite h_list_cons in H. destruct (h_eval p x s) as [[v s1]|] eqn:E; [|discriminate]. destruct (h_list p r s1) as [[t s2]|] eqn:E2; [|discriminate].
    injection H as <- <-. eapply amounts_trans; [eapply Hx, E|eapply IHr, E2].
Qed.
Lemma eval_amounts p e : forall s v s', h_eval p e s = Some (v, s') -> amounts_kept (h_cells s) (h_cells s').
Proof.
  induction e using hexpr_rect2; intros s v s' H'.
  - cbn [h_eval] in H'. destruct (a <? _); [|discriminate]. injection H' as <- <-. apply amounts_refl.
  - cbn [h_eval] in H'. destruct (assoc n _); [|discriminate]. injection H' as <- <-. apply amounts_refl.
  - rewrite eval_array in H'. destruct (h_list p l s) as [[vs s1]|] eqn:E; [|discriminate].
    destruct (addresses vs); [|discriminate]. injection H' as <- <-. eapply list_amounts; eassumption.
  - rewrite eval_make in H'. destruct (h_list p l s) as [[vs s1]|] eqn:E; [|discriminate].
    destruct (addresses vs); [|discriminate]. destruct (h_read _ _); [|discriminate]. destruct (f _); [|discriminate].
    injection H' as <- <-. eapply amounts_trans; [eapply list_amounts; eassumption|apply amounts_app].
  - cbn [h_eval] in H'. destruct (h_eval p e s) as [[[|t] s1]|] eqn:E; try discriminate. destruct (h_read _ _); [|discriminate].
    destruct (f _); [|discriminate]. injection H' as <- <-. eapply amounts_trans; [eapply IHe, E|apply amounts_app].
  - cbn [h_eval] in H'. destruct (h_eval p e s) as [[[|[|a t]] s1]|] eqn:E; try discriminate. destruct (h_read _ _) as [[|n ns]|]; try discriminate.
    injection H' as <- <-. eapply amounts_trans; [eapply IHe, E|apply amounts_cast].
  - cbn [h_eval] in H'. destruct (h_eval p e1 s) as [[[|t] s1]|] eqn:E; try discriminate.
    destruct (h_eval p e2 s1) as [[[b|] s2]|] eqn:E2; try discriminate. destruct (nth_error _ b); [|discriminate].
    destruct (py_index _ _); [|discriminate]. injection H' as <- <-.
    eapply amounts_trans; [eapply IHe1, E|]. eapply amounts_trans; [eapply IHe2, E2|apply amounts_cast].
  - cbn [h_eval] in H'. destruct (h_eval p e s) as [[w s1]|] eqn:E; [|discriminate]. injection H' as <- <-. apply IHe in E. exact E.
  - cbn [h_eval] in H'. destruct (h_eval p e1 s) as [[w s1]|] eqn:E; [|discriminate].
    eapply amounts_trans; [eapply IHe1, E|eapply IHe2, H'].
  - rewrite eval_call in H'. destruct (h_list p l s) as [[vs s1]|] eqn:E; [|discriminate].
    destruct (h_eval p e _) as [[w s2]|] eqn:E2; [|discriminate]. injection H' as <- <-.
    eapply amounts_trans; [eapply list_amounts; eassumption|]. apply IHe in E2. exact E2.
Qed.

(** * Nothing is changed when no number has a format *)
Definition grows (h h' : list number) : Prop := exists k, h' = h ++ k.
Lemma grows_refl h : grows h h. Proof. exists []. symmetry. apply app_nil_r. Qed.
Lemma grows_trans h1 h2 h3 : grows h1 h2 -> grows h2 h3 -> grows h1 h3.
Proof. intros [a ->] [b ->]. exists (a ++ b). symmetry. apply app_assoc. Qed.
Lemma grows_nth h h' a n : grows h h' -> nth_error h a = Some n -> nth_error h' a = Some n.
Proof. intros [k ->] H. rewrite nth_error_app1; [exact H|]. apply nth_error_Some. congruence. Qed.
Lemma read_spec h : forall l ns, h_read h l = Some ns <-> Forall2 (fun a n => nth_error h a = Some n) l ns.
Proof.
  induction l as [|a l IH]; intros ns; cbn [h_read].
  - split; intros H; [injection H as <-; constructor|]. inversion H. reflexivity.
  - split; intros H.
    + destruct (nth_error h a) as [n|] eqn:E; [|discriminate]. destruct (h_read h l) as [t|] eqn:E2; [|discriminate].
      injection H as <-. constructor; [exact E|]. apply IH. reflexivity.
    + inversion H as [|x y l1 l2 Hx Hr]; subst. rewrite Hx. apply IH in Hr. rewrite Hr. reflexivity.
Qed.
Lemma read_plain h l ns : Forall formatless h -> h_read h l = Some ns -> Forall formatless ns.
Proof.
  intros Hh H. apply read_spec in H. induction H as [|a n l ns Ha H IH]; constructor; [|exact IH].
  rewrite Forall_forall in Hh. apply Hh. eapply nth_error_In, Ha.
Qed.
Lemma first_cast_plain ns : Forall formatless ns -> first_cast ns = None.
Proof.
  unfold first_cast. intros H. induction H as [|n ns Hn H IH]; [reflexivity|]. cbn [fold_left first_some]. rewrite Hn. exact IH.
Qed.
Definition plain_step (s s' : hst) : Prop := grows (h_cells s) (h_cells s') /\ Forall formatless (h_cells s').
Lemma plain_step_trans s1 s2 s3 : plain_step s1 s2 -> plain_step s2 s3 -> plain_step s1 s3.
Proof. intros [A B] [C D]. split; [eapply grows_trans; eassumption|exact D]. Qed.
Lemma list_plain p l : Forall (fun e => forall s v s', plain_ops e -> Forall formatless (h_cells s) -> h_eval p e s = Some (v, s') -> plain_step s s') l ->
  forall s vs s', every plain_ops l -> Forall formatless (h_cells s) -> h_list p l s = Some (vs, s') -> plain_step s s'.
Proof.
  intros IH. induction IH as [|x r Hx Hr IHr]; intros s vs s' O F H.
  - unfold h_list in H. injection H as <- <-. split; [apply grows_refl|exact F].
  - rewrite h_list_cons in H. destruct O as [O1 O2]. destruct (h_eval p x s) as [[v s1]|] eqn:E; [|discriminate].
    destruct (h_list p r s1) as [[t s2]|] eqn:E2; [|discriminate]. injection H as <- <-.
    pose proof (Hx _ _ _ O1 F E) as A. eapply plain_step_trans; [exact A|]. eapply IHr; [exact O2|apply A|exact E2].
Qed.
Lemma new_plain s c n f ns (N : c = None) : keeps_plain f -> Forall formatless ns -> Forall formatless (h_cells s) -> f ns = Some n ->
  plain_step s (snd (h_new c n s)).
Proof.
  intros K Hn Hs E. subst c. unfold h_new. cbn [snd h_cells]. split; [eexists; reflexivity|]. cbn [h_cells]. apply Forall_app. split; [exact Hs|].
  constructor; [exact (K ns n Hn E)|constructor].
Qed.
Lemma eval_plain p e : forall s v s', plain_ops e -> Forall formatless (h_cells s) -> h_eval p e s = Some (v, s') -> plain_step s s'.
Proof.
  induction e using hexpr_rect2; intros s v s' O F H'.
  - cbn [h_eval] in H'. destruct (a <? _); [|discriminate]. injection H' as <- <-. split; [apply grows_refl|exact F].
  - cbn [h_eval] in H'. destruct (assoc n _); [|discriminate]. injection H' as <- <-. split; [apply grows_refl|exact F].
  - rewrite eval_array in H'. destruct (h_list p l s) as [[vs s1]|] eqn:E; [|discriminate].
    destruct (addresses vs); [|discriminate]. injection H' as <- <-. eapply list_plain; eassumption.
  - rewrite eval_make in H'. destruct (h_list p l s) as [[vs s1]|] eqn:E; [|discriminate]. destruct O as [O1 O2].
    destruct (addresses vs) as [t|]; [|discriminate]. destruct (h_read _ _) as [ns|] eqn:R; [|discriminate]. destruct (f ns) as [n|] eqn:N; [|discriminate].
    assert (A : plain_step s s1) by (eapply list_plain; eassumption). injection H' as <- <-. eapply plain_step_trans; [exact A|].
    assert (P : Forall formatless ns) by (eapply read_plain; [apply A|exact R]).
    exact (new_plain s1 (first_cast ns) n f ns (first_cast_plain ns P) O1 P (proj2 A) N).
  - cbn [h_eval] in H'. destruct O as [O1 O2]. destruct (h_eval p e s) as [[[|t] s1]|] eqn:E; try discriminate. destruct (h_read _ _) as [ns|] eqn:R; [|discriminate].
    destruct (f ns) as [n|] eqn:N; [|discriminate]. pose proof (IHe _ _ _ O2 F E) as A. injection H' as <- <-. eapply plain_step_trans; [exact A|].
    assert (P : Forall formatless ns) by (eapply read_plain; [apply A|exact R]).
    exact (new_plain s1 (first_cast ns) n f ns (first_cast_plain ns P) O1 P (proj2 A) N).
  - cbn [h_eval] in H'. destruct (h_eval p e s) as [[[|[|a t]] s1]|] eqn:E; try discriminate.
    destruct (h_read _ _) as [[|n ns]|] eqn:R; try discriminate. pose proof (IHe _ _ _ O F E) as A.
    assert (P : Forall formatless (n :: ns)) by (eapply read_plain; [apply A|exact R]).
    unfold h_same in H'. rewrite (first_cast_plain _ P) in H'. injection H' as <- <-. exact A.
  - cbn [h_eval] in H'. destruct O as [O1 O2]. destruct (h_eval p e1 s) as [[[|t] s1]|] eqn:E; try discriminate.
    pose proof (IHe1 _ _ _ O1 F E) as A.
    destruct (h_eval p e2 s1) as [[[b|] s2]|] eqn:E2; try discriminate. pose proof (IHe2 _ _ _ O2 (proj2 A) E2) as B.
    destruct (nth_error _ b) as [n|] eqn:N; [|discriminate].
    destruct (py_index _ _); [|discriminate]. assert (C : ncast n = None).
    { apply nth_error_In in N. destruct B as [_ B]. rewrite Forall_forall in B. apply B, N. }
    unfold h_same in H'. rewrite C in H'. injection H' as <- <-. eapply plain_step_trans; [exact A|exact B].
  - cbn [h_eval] in H'. destruct (h_eval p e s) as [[w s1]|] eqn:E; [|discriminate]. injection H' as <- <-. exact (IHe _ _ _ O F E).
  - cbn [h_eval] in H'. destruct O as [O1 O2]. destruct (h_eval p e1 s) as [[w s1]|] eqn:E; [|discriminate].
    pose proof (IHe1 _ _ _ O1 F E) as A. eapply plain_step_trans; [exact A|]. eapply IHe2; [exact O2|apply A|exact H'].
  - rewrite eval_call in H'. destruct O as [O1 O2]. destruct (h_list p l s) as [[vs s1]|] eqn:E; [|discriminate].
    assert (A : plain_step s s1) by (eapply list_plain; eassumption).
    destruct (h_eval p e _) as [[w s2]|] eqn:E2; [|discriminate]. injection H' as <- <-.
    apply IHe in E2; [|exact O2|exact (proj2 A)]. eapply plain_step_trans; [exact A|exact E2].
Qed.

(** * Variables *)
Lemma list_vars p l : Forall (fun e => forall s v s', ~ assigns e -> h_eval p e s = Some (v, s') -> h_vars s' = h_vars s) l ->
  forall s vs s', ~ some_of assigns l -> h_list p l s = Some (vs, s') -> h_vars s' = h_vars s.
Proof.
  intros IH. induction IH as [|x r Hx Hr IHr]; intros s vs s' O H.
  - unfold h_list in H. injection H as <- <-. reflexivity.
  - rewrite h_list_cons in H. destruct (h_eval p x s) as [[v s1]|] eqn:E; [|discriminate].
    destruct (h_list p r s1) as [[t s2]|] eqn:E2; [|discriminate]. injection H as <- <-.
    transitivity (h_vars s1); [eapply IHr; [|exact E2]|eapply Hx; [|exact E]]; intros X; apply O; [right|left]; exact X.
Qed.
Lemma eval_vars p e : forall s v s', ~ assigns e -> h_eval p e s = Some (v, s') -> h_vars s' = h_vars s.
Proof.
  induction e using hexpr_rect2; intros s v s' O H'.
  - cbn [h_eval] in H'. destruct (a <? _); [|discriminate]. injection H' as <- <-. reflexivity.
  - cbn [h_eval] in H'. destruct (assoc n _); [|discriminate]. injection H' as <- <-. reflexivity.
  - rewrite eval_array in H'. destruct (h_list p l s) as [[vs s1]|] eqn:E; [|discriminate].
    destruct (addresses vs); [|discriminate]. injection H' as <- <-. eapply list_vars; eassumption.
  - rewrite eval_make in H'. destruct (h_list p l s) as [[vs s1]|] eqn:E; [|discriminate].
    destruct (addresses vs); [|discriminate]. destruct (h_read _ _); [|discriminate]. destruct (f _); [|discriminate].
    injection H' as <- <-. cbn [h_vars]. eapply list_vars; eassumption.
  - cbn [h_eval] in H'. destruct (h_eval p e s) as [[[|t] s1]|] eqn:E; try discriminate. destruct (h_read _ _); [|discriminate].
    destruct (f _); [|discriminate]. injection H' as <- <-. exact (IHe _ _ _ O E).
  - cbn [h_eval] in H'. destruct (h_eval p e s) as [[[|[|a t]] s1]|] eqn:E; try discriminate. destruct (h_read _ _) as [[|n ns]|]; try discriminate.
    injection H' as <- <-. exact (IHe _ _ _ O E).
  - cbn [h_eval] in H'. destruct (h_eval p e1 s) as [[[|t] s1]|] eqn:E; try discriminate.
    destruct (h_eval p e2 s1) as [[[b|] s2]|] eqn:E2; try discriminate. destruct (nth_error _ b); [|discriminate].
    destruct (py_index _ _); [|discriminate]. injection H' as <- <-. cbn [h_vars].
    transitivity (h_vars s1); [eapply IHe2; [|exact E2]|eapply IHe1; [|exact E]]; intros X; apply O; [right|left]; exact X.
  - exfalso. apply O. exact I.
  - cbn [h_eval] in H'. destruct (h_eval p e1 s) as [[w s1]|] eqn:E; [|discriminate].
    transitivity (h_vars s1); [eapply IHe2; [|exact H']|eapply IHe1; [|exact E]]; intros X; apply O; [right|left]; exact X.
  - rewrite eval_call in H'. destruct (h_list p l s) as [[vs s1]|] eqn:E; [|discriminate].
    destruct (h_eval p e _) as [[w s2]|] eqn:E2; [|discriminate]. injection H' as <- <-. cbn [h_vars].
    eapply list_vars; eassumption.
Qed.

(** * Programs that make their results *)
Lemma shows_grows h h' v w : grows h h' -> cell_shows h v w -> cell_shows h' v w.
Proof.
  intros G. destruct v as [a|l], w as [n|ns]; cbn [cell_shows]; try tauto.
  - apply grows_nth, G.
  - intros H. induction H; constructor; [eapply grows_nth; eassumption|assumption].
Qed.
Lemma vars_grow h h' V W : grows h h' -> vars_show h V W -> vars_show h' V W.
Proof.
  intros G H. induction H as [|a b V W [E S1] H IH]; constructor; [|exact IH]. split; [exact E|]. eapply shows_grows; eassumption.
Qed.
Lemma vars_assoc h n V W : vars_show h V W ->
  match assoc n V, assoc n W with Some v, Some w => cell_shows h v w | None, None => True | _, _ => False end.
Proof.
  intros H. induction H as [|[a v] [b w] V W [E S1] H IH]; cbn [assoc fst snd] in *; [exact I|]. subst b.
  destruct (seq_eqb a n); [exact S1|exact IH].
Qed.
Lemma vars_dset h n v w V W : cell_shows h v w -> vars_show h V W -> vars_show h (dset n v V) (dset n w W).
Proof.
  intros S0 H. induction H as [|[a x] [b y] V W [E S1] H IH]; cbn [dset].
  - constructor; [|constructor]. split; [reflexivity|exact S0].
  - cbn [fst snd] in E, S1. subst b. destruct (seq_eqb a n).
    + constructor; [split; [reflexivity|exact S0]|exact H].
    + constructor; [split; [reflexivity|exact S1]|exact IH].
Qed.
Lemma params_show h vs ws : Forall2 (cell_shows h) vs ws -> forall i V W, vars_show h V W -> vars_show h (h_params i vs V) (n_params i ws W).
Proof.
  intros H. induction H as [|v w vs ws Hv H IH]; intros i V W HV; cbn [h_params n_params]; [exact HV|]. apply IH, vars_dset; assumption.
Qed.
Lemma addresses_show h vs ws : Forall2 (cell_shows h) vs ws ->
  match addresses vs, numbers_in ws with
  | Some l, Some ns => Forall2 (fun a n => nth_error h a = Some n) l ns
  | None, None => True
  | _, _ => False
  end.
Proof.
  intros H. induction H as [|v w vs ws Hv H IH]; cbn [addresses numbers_in]; [constructor|].
  destruct v as [a|l], w as [n|ns]; cbn [cell_shows] in Hv; try tauto.
  destruct (addresses vs), (numbers_in ws); cbn [option_map]; try tauto. constructor; assumption.
Qed.
Definition copies (p : Z) (lits : list number) (e : hexpr) : Prop :=
  forall s W, makes e -> literals_below (length lits) e -> grows lits (h_cells s) -> vars_show (h_cells s) (h_vars s) W ->
  match n_eval lits e W with
  | Some (w, W') => exists v s', h_eval p e s = Some (v, s') /\ cell_shows (h_cells s') v w /\ vars_show (h_cells s') (h_vars s') W' /\
                                 grows (h_cells s) (h_cells s')
  | None => h_eval p e s = None
  end.
Lemma list_copies p lits l : Forall (copies p lits) l ->
  forall s W, every makes l -> every (literals_below (length lits)) l -> grows lits (h_cells s) -> vars_show (h_cells s) (h_vars s) W ->
  match n_list lits l W with
  | Some (ws, W') => exists vs s', h_list p l s = Some (vs, s') /\ Forall2 (cell_shows (h_cells s')) vs ws /\ vars_show (h_cells s') (h_vars s') W' /\
                                 grows (h_cells s) (h_cells s')
  | None => h_list p l s = None
  end.
Proof.
  intros IH. induction IH as [|x r Hx Hr IHr]; intros s W M B G HV.
  - exists [], s. repeat split; [constructor|exact HV|apply grows_refl].
  - rewrite n_list_cons, h_list_cons. destruct M as [M1 M2], B as [B1 B2]. specialize (Hx s W M1 B1 G HV).
    destruct (n_eval lits x W) as [[w W1]|]; [|now rewrite Hx].
    destruct Hx as (v & s1 & E & S1 & V1 & G1). rewrite E. specialize (IHr s1 W1 M2 B2 (grows_trans _ _ _ G G1) V1).
    destruct (n_list lits r W1) as [[ws W2]|]; [|now rewrite IHr].
    destruct IHr as (vs & s2 & E2 & S2 & V2 & G2). rewrite E2. exists (v :: vs), s2. repeat split; try assumption.
    + constructor; [eapply shows_grows; eassumption|exact S2].
    + eapply grows_trans; eassumption.
Qed.
Lemma new_shows c n s W : vars_show (h_cells s) (h_vars s) W ->
  exists v s', Some (h_new c n s) = Some (v, s') /\ cell_shows (h_cells s') v (n_cast c n) /\ vars_show (h_cells s') (h_vars s') W /\ grows (h_cells s) (h_cells s').
Proof.
  intros HV. unfold h_new. eexists _, _. split; [reflexivity|]. cbn [h_cells h_vars]. split; [|split].
  - unfold n_cast. cbn [cell_shows]. rewrite nth_error_app2, Nat.sub_diag; [|apply le_n]. reflexivity.
  - eapply vars_grow; [|exact HV]. eexists. reflexivity.
  - eexists. reflexivity.
Qed.
Lemma widen p e s s1 W' w : grows (h_cells s) (h_cells s1) ->
  (exists v s', h_eval p e s = Some (v, s') /\ cell_shows (h_cells s') v w /\ vars_show (h_cells s') (h_vars s') W' /\ grows (h_cells s1) (h_cells s')) ->
  exists v s', h_eval p e s = Some (v, s') /\ cell_shows (h_cells s') v w /\ vars_show (h_cells s') (h_vars s') W' /\ grows (h_cells s) (h_cells s').
Proof.
  intros G (v & s' & A & B & C & D). exists v, s'. repeat split; try assumption. eapply grows_trans; eassumption.
Qed.
Lemma eval_copies p lits e : copies p lits e.
Proof.
  induction e using hexpr_rect2; intros s W M B G HV.
  - cbn [n_eval h_eval]. cbn [literals_below] in B. destruct (nth_error lits a) as [n|] eqn:E; [|apply nth_error_None in E; lia].
    pose proof (grows_nth _ _ _ _ G E) as E2. exists (HNum a), s.
    assert (T : (a <? length (h_cells s)) = true) by (apply Nat.ltb_lt, nth_error_Some; congruence).
    rewrite T. repeat split; [exact E2|exact HV|apply grows_refl].
  - cbn [n_eval h_eval]. pose proof (vars_assoc _ n _ _ HV) as A. destruct (assoc n W) as [w|], (assoc n (h_vars s)) as [v|]; try tauto.
    exists v, s. repeat split; [exact A|exact HV|apply grows_refl].
  - rewrite n_eval_array, eval_array. pose proof (list_copies p lits l H s W M B G HV) as A.
    destruct (n_list lits l W) as [[ws W1]|]; [|now rewrite A]. destruct A as (vs & s1 & E & S1 & V1 & G1). rewrite E.
    pose proof (addresses_show _ _ _ S1) as A. destruct (addresses vs) as [t|], (numbers_in ws) as [ns|]; try tauto.
    exists (HArr t), s1. repeat split; assumption.
  - rewrite n_eval_make. pose proof (list_copies p lits l H s W M B G HV) as A.
    destruct (n_list lits l W) as [[ws W1]|]; [|rewrite eval_make; now rewrite A]. destruct A as (vs & s1 & E & S1 & V1 & G1).
    pose proof (addresses_show _ _ _ S1) as A. destruct (addresses vs) as [t|] eqn:T, (numbers_in ws) as [ns|]; try tauto.
    + apply read_spec in A. destruct (f ns) as [n|] eqn:N.
      * eapply widen; [exact G1|]. rewrite eval_make, E, T, A, N. apply new_shows, V1.
      * rewrite eval_make, E, T, A, N. reflexivity.
    + rewrite eval_make, E, T. reflexivity.
  - cbn [n_eval h_eval]. specialize (IHe s W M B G HV). destruct (n_eval lits e W) as [[w W1]|]; [|now rewrite IHe].
    destruct IHe as (v & s1 & E & S1 & V1 & G1). rewrite E. destruct v as [a|t], w as [n|ns]; cbn [cell_shows] in S1; try tauto.
    apply read_spec in S1. rewrite S1. destruct (f ns) as [n|] eqn:N; [|reflexivity].
    destruct (new_shows (first_cast ns) n s1 W1 V1) as (v & s2 & X1 & X2 & X3 & X4). exists v, s2. repeat split; try assumption.
    eapply grows_trans; eassumption.
  - destruct M.
  - destruct M.
  - cbn [n_eval h_eval]. specialize (IHe s W M B G HV). destruct (n_eval lits e W) as [[w W1]|]; [|now rewrite IHe].
    destruct IHe as (v & s1 & E & S1 & V1 & G1). rewrite E. eexists _, _. split; [reflexivity|]. cbn [h_cells h_vars].
    split; [exact S1|]. split; [|exact G1]. apply vars_dset; assumption.
  - cbn [n_eval h_eval]. destruct M as [M1 M2], B as [B1 B2]. specialize (IHe1 s W M1 B1 G HV).
    destruct (n_eval lits e1 W) as [[w W1]|]; [|now rewrite IHe1].
    destruct IHe1 as (v & s1 & E & S1 & V1 & G1). rewrite E. specialize (IHe2 s1 W1 M2 B2 (grows_trans _ _ _ G G1) V1).
    destruct (n_eval lits e2 W1) as [[w2 W2]|]; [|exact IHe2]. destruct IHe2 as (v2 & s2 & E2 & S2 & V2 & G2). exists v2, s2.
    repeat split; try assumption. eapply grows_trans; eassumption.
  - rewrite n_eval_call, eval_call. destruct M as [M1 M2], B as [B1 B2]. pose proof (list_copies p lits l H s W M1 B1 G HV) as A.
    destruct (n_list lits l W) as [[ws W1]|]; [|now rewrite A]. destruct A as (vs & s1 & E & S1 & V1 & G1). rewrite E.
    specialize (IHe (mkH (h_cells s1) (h_params 1 vs (h_vars s1))) (n_params 1 ws W1) M2 B2 (grows_trans _ _ _ G G1) (params_show _ _ _ S1 1 _ _ V1)).
    destruct (n_eval lits e (n_params 1 ws W1)) as [[w W2]|]; [|now rewrite IHe]. destruct IHe as (v & s2 & E2 & S2 & V2 & G2). rewrite E2.
    eexists _, _. split; [reflexivity|]. cbn [h_cells h_vars] in *. split; [exact S2|]. split; [|eapply grows_trans; eassumption].
    eapply vars_grow; [exact G2|exact V1].
Qed.
