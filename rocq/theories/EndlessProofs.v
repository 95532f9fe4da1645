(** Steps of the simplification that do not depend on the value, to show that it need not end. *)
From Coq Require Import ZArith QArith Qpower Ascii String List Bool Lia.
From Verif Require Import Base BaseProofs Dec Num Bases Units UnitsSpec UnitsProofs UnitsProofs2 UnitReg Install Syntax Parse UnitCalc SimplifyProofs.
Import ListNotations.
Open Scope Z_scope.

Definition plain_b (u : unit) : bool := match ukind_of u with UScale => negb (Qeq_bool (uscale u) 0) | _ => false end.
Definition plains (l : upl) : bool := forallb (fun e => plain_b (fst e)) l.
Lemma plain_convert u v p : plain_b u = true -> exists w, uconvert u v p false = Ok w.
Proof.
  unfold plain_b, uconvert. destruct (ukind_of u); try discriminate. destruct (Qeq_bool (uscale u) 0); [discriminate|]. intros _. eexists. reflexivity.
Qed.
Lemma plains_lconvert l : forall v p, plains l = true -> exists w, lconvert l v p false = Ok w.
Proof.
  induction l as [|[u q] l IH]; intros v p; cbn [plains forallb lconvert]; [intros _; eauto|]. rewrite andb_true_iff. cbn [fst]. intros [A B].
  destruct (plain_convert u v (q * p) A) as [w ->]. cbn [obind]. apply IH, B.
Qed.
Lemma plains_found f : forall v m, plains f = true -> exists w, convert_found f v m = Ok w.
Proof.
  induction f as [|[u q] f IH]; intros v m; cbn [plains forallb convert_found]; [intros _; eauto|]. rewrite andb_true_iff. cbn [fst]. intros [A B].
  destruct (plain_convert u v (- (q * m)) A) as [w ->]. cbn [obind]. apply IH, B.
Qed.
Definition without (f : upl) (m : Z) (l : upl) : upl := fold_left (fun l e => pl_add ueqb (fst e) (- (snd e * m)) l) f l.
Lemma plains_remove f m : forall v l, plains f = true -> exists w, remove_found f m v l = Ok (w, without f m l).
Proof.
  unfold without. induction f as [|[u q] f IH]; intros v l; cbn [plains forallb remove_found fold_left]; [intros _; eauto|]. rewrite andb_true_iff. cbn [fst snd]. intros [A B].
  unfold removeandconvert. destruct (plain_convert u v (- (q * m)) A) as [w ->]. cbn [obind fst snd].
  unfold removeall, addall, ulist. cbn [fold_left fst snd]. rewrite Z.mul_1_l. apply IH, B.
Qed.
Lemma choose_only U v f m p t : plains f = true -> plains (tlist t) = true -> exists x, choose U v f m p [t] None = Ok (Some (t, x)).
Proof.
  intros F T. cbn [choose]. destruct (Qeq_bool v 0); cbn [obind]; [eauto|]. destruct (plains_found f v m F) as [w ->]. cbn [obind].
  rewrite tconvert_list. destruct (plains_lconvert (tlist t) w (p * m) T) as [x ->]. cbn [obind]. eauto.
Qed.
(** The unit after the step: [None] if it may depend on the value or fail *)
Fixpoint found_blind (U : ucfg) (systems : list str) (ts : list target) (power : Z) (founds : list upl) (l : upl) : option (option upl) :=
  match founds with
  | [] => Some None
  | f :: r =>
    match mult_power l f with
    | Ok m =>
      let single := match l with [(_, q)] => (q <? 0) && Qeq_bool (inject_Z q) (- (inject_Z power * m)) | _ => false end in
      let ts' := filter (usable (u_rels U) systems (dim_count (u_rels U) f)) ts in
      if ((1 <? length f)%nat || single) && negb (is_nil ts') then
        match whole m, ts' with
        | Ok k, [t] => if plains f && plains (tlist t) then Some (Some (addall (without f k l) (tlist t) (power * k))) else None
        | _, _ => None
        end
      else found_blind U systems ts power r l
    | _ => None
    end
  end.
Lemma found_blind_ok U systems ts power v l : forall fs r, found_blind U systems ts power fs l = Some r ->
  match r with
  | None => try_found U systems ts power fs v l = Ok None
  | Some l' => exists w, try_found U systems ts power fs v l = Ok (Some (w, l'))
  end.
Proof.
  induction fs as [|f fs IH]; intros r; cbn [found_blind try_found]; [intros H; injection H as <-; reflexivity|].
  destruct (mult_power l f) as [m| |]; try discriminate. cbn [obind]. cbv zeta.
  destruct (((1 <? length f)%nat || _) && _); [|apply IH].
  destruct (whole m) as [k| |]; try discriminate. cbn [obind].
  destruct (filter _ ts) as [|t [|t2 ts2]]; try discriminate.
  destruct (plains f && plains (tlist t)) eqn:P; [|discriminate]. apply andb_true_iff in P as [P1 P2]. intros H. injection H as <-.
  destruct (choose_only U v f k power t P1 P2) as [x ->]. cbn [obind]. destruct (plains_remove f k v l P1) as [w ->]. cbn [obind fst snd].
  unfold add_target. rewrite tconvert_list. destruct (plains_lconvert (tlist t) w (power * k) P2) as [y ->]. cbn [obind]. eauto.
Qed.
Fixpoint goals_blind (U : ucfg) (systems : list str) (gs : list (str * Z * list upl)) (l : upl) : option (option upl) :=
  match gs with
  | [] => Some None
  | (dim, power, founds) :: r =>
    match found_blind U systems (targets (u_norm U) dim) power founds l with
    | Some (Some y) => Some (Some y)
    | Some None => goals_blind U systems r l
    | None => None
    end
  end.
Lemma goals_blind_ok U systems v l : forall gs l', goals_blind U systems gs l = Some (Some l') -> exists w, try_goals U systems gs v l = Ok (Some (w, l')).
Proof.
  induction gs as [|[[d p] fs] gs IH]; intros l'; cbn [goals_blind try_goals]; [discriminate|].
  destruct (found_blind U systems (targets (u_norm U) d) p fs l) as [r|] eqn:E; [|discriminate].
  pose proof (found_blind_ok U systems (targets (u_norm U) d) p v l fs r E) as F. destruct r as [y|].
  - intros H. injection H as <-. destruct F as [w ->]. cbn [obind]. eauto.
  - rewrite F. cbn [obind]. apply IH.
Qed.
Definition step_blind (U : ucfg) (l : upl) : option (option upl) :=
  let N := u_norm U in
  match find_units (map (fun g => pl_multiply (snd g) (norm_dim (n_rels N) (fst g))) (goal_dims N)) (subunits (n_rels N) l) with
  | Ok found => goals_blind U (flat_map (fun e => usystems (fst e)) l) (combine (goal_dims N) found) l
  | _ => None
  end.
Lemma step_blind_ok U v l l' k : step_blind U l = Some (Some l') -> exists w, simplify_loop (S k) U v l = simplify_loop k U w l'.
Proof.
  unfold step_blind. cbn [simplify_loop]. cbv zeta. destruct (find_units _ _) as [found| |]; try discriminate. cbn [obind]. intros H.
  destruct (goals_blind_ok U _ v l _ _ H) as [w ->]. cbn [obind fst snd]. eauto.
Qed.
(** Two units that are replaced by each other *)
Lemma goes_round U a b : step_blind U a = Some (Some b) -> step_blind U b = Some (Some a) -> forall n v, simplify_loop n U v a = Py /\ simplify_loop n U v b = Py.
Proof.
  intros A B. induction n as [|n IH]; intros v; [split; reflexivity|].
  destruct (step_blind_ok U v a b n A) as [w ->]. destruct (step_blind_ok U v b a n B) as [x ->]. split; apply IH.
Qed.
Definition next (U : ucfg) (l : upl) : upl := match step_blind U l with Some (Some y) => y | _ => [] end.
Definition goes_on (U : ucfg) (l : upl) : bool := match step_blind U l with Some (Some _) => true | _ => false end.
Lemma next_ok U v l k : goes_on U l = true -> exists w, simplify_loop (S k) U v l = simplify_loop k U w (next U l).
Proof.
  unfold goes_on, next. destruct (step_blind U l) as [[y|]|] eqn:E; try discriminate. intros _. now apply step_blind_ok.
Qed.
Lemma rounds U a b : goes_on U a = true -> goes_on U b = true -> next U a = b -> next U b = a -> forall n k v,
  (exists w, simplify_loop (n + k) U v a = simplify_loop k U w a \/ simplify_loop (n + k) U v a = simplify_loop k U w b) /\
  (exists w, simplify_loop (n + k) U v b = simplify_loop k U w a \/ simplify_loop (n + k) U v b = simplify_loop k U w b).
Proof.
  intros GA GB A B. induction n as [|n IH]; intros k v; [cbn [Nat.add]; split; exists v; auto|].
  destruct (next_ok U v a (n + k) GA) as [w E]. destruct (next_ok U v b (n + k) GB) as [x F]. rewrite A in E. rewrite B in F. cbn [Nat.add]. rewrite E, F.
  split; apply IH.
Qed.
