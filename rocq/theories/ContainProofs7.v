(** Checking that items are tame. *)
From Coq Require Import ZArith QArith Ascii String List Bool Lia.
From Verif Require Import Base Dec Num Bases Units Syntax Call Loop Parse Exec Formats Std ErrorSpec ContainSpec UnitsProofs5 BaseProofs.
Import ListNotations.
Open Scope nat_scope.

Fixpoint tameb (u : bool) (okop okfn : str -> bool) (i : item) : bool :=
  match i with
  | IOp s => okop s
  | ILit _ _ | IVar _ | IConst _ _ _ | IWord _ _ | INon _ _ | IInline _ _ _ => true
  | IUnit _ _ => u
  | IInner _ _ l => forallb (tameb u okop okfn) l
  | IFunc _ _ l name _ => forallb (tameb u okop okfn) l && okfn name
  | IArr _ _ l es => forallb (tameb u okop okfn) l && forallb (fun e => match e_end e with None => true | Some _ => false end) es
  | IPtr _ _ _ _ _ => false
  end.
Lemma tameb_tame u okop okfn (P Q : str -> Prop) : (forall s, okop s = true -> P s) -> (forall s, okfn s = true -> Q s) ->
  forall i, tameb u okop okfn i = true -> tame u P Q i.
Proof.
  intros HP HQ. fix IH 1. intros i.
  assert (G : forall l, (fix all (l : list item) : bool := match l with [] => true | x :: r => tameb u okop okfn x && all r end) l = true -> Forall (tame u P Q) l).
  { fix IHl 1. intros [|x l] H; constructor; apply andb_true_iff in H; [apply IH, H|apply IHl, H]. }
  destruct i; cbn [tameb]; intros H; try (constructor; fail).
  - constructor. auto.
  - constructor. exact H.
  - constructor. apply G. exact H.
  - apply andb_true_iff in H. destruct H as [H1 H2]. constructor; [apply G, H1|auto].
  - discriminate.
  - apply andb_true_iff in H. destruct H as [H1 H2]. constructor; [apply G, H1|]. apply Forall_forall. intros e He. rewrite forallb_forall in H2. specialize (H2 e He).
    destruct (e_end e); [discriminate|reflexivity].
Qed.
Definition std_tameb (L : lib) (i : item) : bool :=
  tameb false (fun t => match find_op (std_table L) t with Some _ => true | None => false end)
              (fun f => mem_str f (map fst (std_funcs L)) && negb (seq_eqb f ($"element"))) i.
Lemma std_tameb_tame L sts : forallb (forallb (std_tameb L)) sts = true ->
  Forall (Forall (tame false (fun t => find_op (std_table L) t <> None) (fun f => In f (map fst (std_funcs L)) /\ f <> $"element"))) sts.
Proof.
  intros H. apply Forall_forall. intros st Hst. rewrite forallb_forall in H. specialize (H st Hst). rewrite forallb_forall in H.
  apply Forall_forall. intros i Hi. specialize (H i Hi). unfold std_tameb in H. revert H. apply tameb_tame.
  - intros s K. destruct (find_op (std_table L) s); [discriminate|discriminate K].
  - intros s K. apply andb_true_iff in K. destruct K as [K1 K2]. split; [apply mem_str_iff, K1|]. intros ->. rewrite seq_eqb_refl in K2. discriminate.
Qed.
