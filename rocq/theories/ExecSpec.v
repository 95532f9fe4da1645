(** What the theorems about running statements are stated with. *)
From Coq Require Import ZArith QArith Ascii String List Bool Lia.
From Verif Require Import Base Dec Num Bases Units Syntax Call Loop.
Import ListNotations.
Open Scope nat_scope.

(** A computation whatever the outcome leaves the variables related to what they were. *)
Definition keeps {A} (P : varstore -> varstore -> Prop) (m : M A) : Prop := forall s, P (s_vars s) (s_vars (snd (m s))).
Definition preorder (P : varstore -> varstore -> Prop) : Prop :=
  (forall v, P v v) /\ (forall a b c, P a b -> P b c -> P a c).
(** The code of an operation keeps the variables so, if the operators it calls do. *)
Definition impl_keeps (P : varstore -> varstore -> Prop) (stl : bool) (d : opdef) : Prop :=
  forall h, (forall sym ins, keeps P (h sym ins)) -> forall vs us rs, keeps P (o_impl d h vs us rs stl).

(** The names a call of an inline function uses for its parameters *)
Definition is_param (n : str) : Prop := exists d, n = $"PARAM" ++ d.
(** Two stores agree on all other variables *)
Definition same_but_params (a b : varstore) : Prop := forall n, ~ is_param n -> assoc n a = assoc n b.

(** An exception the calculator does not know about, or no answer in the given depth *)
Definition stops {A} (o : oc A) : bool := match o with OPy | OFuel => true | _ => false end.

(** Running the operands of a list, one after the other, once each *)
Inductive in_order (ev : item -> M result) : list item -> st -> list (oc result) -> st -> Prop :=
| io_nil s : in_order ev [] s [] s
| io_cons i r s o s1 os s2 :
    ev i s = (o, s1) -> stops o = false -> in_order ev r s1 os s2 -> in_order ev (i :: r) s (o :: os) s2.

(** A list of results stands for the outcomes: errors have become values *)
Definition stands_for (o : oc result) (r : result) : Prop :=
  match o with OOk x => r = x | OErr _ => exists e, r = mkRes (VExc e) None None | _ => False end.

(** Operators used one after the other: each takes some neighbouring results and puts its result in their place *)
Inductive reduces (call : str -> list result -> M result) : list result -> st -> list result -> st -> Prop :=
| rd_none l s : reduces call l s l s
| rd_call a ins b sym o r s s1 l s2 :
    call sym ins s = (o, s1) -> stands_for o r -> reduces call (a ++ [r] ++ b) s1 l s2 ->
    reduces call (a ++ ins ++ b) s l s2.

(** The last use of an operator may be one that stops *)
Definition last_call (call : str -> list result -> M result) (l : list result) (s s' : st) : Prop :=
  s = s' \/ exists a ins b sym o, l = a ++ ins ++ b /\ call sym ins s = (o, s') /\ stops o = true.
(** Up to an error having its non-functional items put back *)
Definition same_result (a b : result) : Prop := runit a = runit b /\ rref a = rref b /\
  (rval a = rval b \/ (exists m i1 i2 nx tr, rval a = VExc (XExec m i1 nx tr) /\ rval b = VExc (XExec m i2 nx tr))).

(** Items that are no operators and count *)
Definition is_operand (i : item) : bool := ifunc i && negb (iisop i).

(** A computation that gives an answer in the given depth; and one that gives the same answer as another that does *)
Definition answers_always {A} (m : M A) : Prop := forall s, fst (m s) <> OFuel.
Definition agrees {A} (m m' : M A) : Prop := forall s, fst (m s) = OFuel \/ m' s = m s.

(** How deeply items are nested, as far as they are run: the body of an inline function is not *)
Fixpoint nesting (i : item) : nat :=
  let items := fold_right (fun j d => Nat.max (nesting j) d) 0 in
  match i with
  | IInner _ _ l => S (items l)
  | IFunc _ _ _ _ args | IPtr _ _ _ _ args => S (fold_right (fun l d => Nat.max (items l) d) 0 args)
  | IArr _ _ _ es => S (fold_right (fun e d => Nat.max (Nat.max (items (e_start e))
      (match e_end e with Some l => items l | None => 0 end)) (Nat.max (match e_step e with Some l => items l | None => 0 end) d)) 0 es)
  | _ => 0
  end.
Definition nestings (l : list item) : nat := fold_right (fun j d => Nat.max (nesting j) d) 0 l.
(** No function pointers and no ranges, as far as items are run *)
Fixpoint plain_item (i : item) : bool :=
  match i with
  | IInner _ _ l => forallb plain_item l
  | IFunc _ _ _ _ args => forallb (forallb plain_item) args
  | IPtr _ _ _ _ _ => false
  | IArr _ _ _ es => forallb (fun e => forallb plain_item (e_start e) && match e_end e with Some _ => false | None => true end) es
  | _ => true
  end.

(** Statements run one after the other, each from the state the one before left: [run] runs a statement, [final] is what
    is done to its result, [state] is whether the variables are reported. *)
Inductive runs (run : list item -> M result) (final : result -> out result) (state : bool)
  : list (list item) -> st -> list (list item * option (value * option eunit) * option varstore) -> st -> Prop :=
| runs_none s : runs run final state [] s [] s
| runs_blank x l s outs s' : Forall (fun i => ifunc i = false) x -> runs run final state l s outs s' ->
    runs run final state (x :: l) s ((x, None, if state then Some (s_vars s) else None) :: outs) s'
| runs_one x l s r f s1 outs s' : ~ Forall (fun i => ifunc i = false) x -> run x s = (OOk r, s1) -> is_exc (rval r) = false ->
    final r = Ok f -> runs run final state l s1 outs s' ->
    runs run final state (x :: l) s ((x, Some (rval f, runit f), if state then Some (s_vars s1) else None) :: outs) s'.
(** A statement fails *)
Definition fails_at (run : list item -> M result) (final : result -> out result) (x : list item) (s s' : st) : Prop :=
  ~ Forall (fun i => ifunc i = false) x /\
  ((exists e, run x s = (OErr e, s')) \/ (exists r, run x s = (OOk r, s') /\ (is_exc (rval r) = true \/ final r = Calc))).
