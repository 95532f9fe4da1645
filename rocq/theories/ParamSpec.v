(** What a call of an inline function means, said without the model of it. *)
From Coq Require Import Arith Ascii String List Bool.
From Verif Require Import Base Units Install Syntax Call Loop Exec.
Import ListNotations.
Open Scope nat_scope.

(** The digits of [k] as one writes them *)
Definition ten_digit (c : ascii) : Prop := 48 <= nat_of_ascii c <= 57.
Definition digits_value (ds : str) : nat := fold_left (fun a c => 10 * a + (nat_of_ascii c - 48)) ds 0.
Definition writes (ds : str) (k : nat) : Prop :=
  ds <> [] /\ Forall ten_digit ds /\ digits_value ds = k /\ hd_error ds <> Some "0"%char.
(** The name of parameter [k], counted from 1 *)
Definition names_param (k : nat) (n : str) : Prop := exists ds, n = $"PARAM" ++ ds /\ writes ds k.
(** [V'] is [V] with the inputs as the parameters: everything else is as it was, also parameters with higher numbers. *)
Definition entered (ins : list result) (V V' : varstore) : Prop :=
  (forall k r n, nth_error ins k = Some r -> names_param (S k) n -> assoc n V' = Some (rval r, runit r)) /\
  (forall n, (forall k, k < length ins -> ~ names_param (S k) n) -> assoc n V' = assoc n V).

(** The parts of a body between its terminators *)
Definition ends_part (i : item) : Prop := exists t, i = INon NTerm t.
Inductive body_parts : list item -> list (list item) -> Prop :=
| body_parts_one : forall p, Forall (fun i => ~ ends_part i) p -> body_parts p [p]
| body_parts_more : forall p t q ps, Forall (fun i => ~ ends_part i) p -> ends_part t -> body_parts q ps -> body_parts (p ++ t :: q) (p :: ps).
(** The statements: the parts with something to run *)
Inductive worth_running : list (list item) -> list (list item) -> Prop :=
| worth_nil : worth_running [] []
| worth_take : forall p ps sts, (exists i, In i p /\ ifunc i = true) -> worth_running ps sts -> worth_running (p :: ps) (p :: sts)
| worth_drop : forall p ps sts, (forall i, In i p -> ifunc i = false) -> worth_running ps sts -> worth_running (p :: ps) sts.
Definition body_of (items : list item) (sts : list (list item)) : Prop := exists ps, body_parts items ps /\ worth_running ps sts.

(** Running statements one after the other; the result is that of the last. *)
Inductive done (f : list item -> M result) : list (list item) -> st -> result -> st -> Prop :=
| done_last : forall x s r s', f x s = (OOk r, s') -> done f [x] s r s'
| done_more : forall x l s r0 s1 r s', f x s = (OOk r0, s1) -> done f l s1 r s' -> done f (x :: l) s r s'.
(** The inputs of a call, run from left to right: numbers, texts, booleans, functions; no arrays and no errors. *)
Definition simple (v : value) : Prop := (forall l, v <> VList l) /\ (forall e, v <> VExc e).
Inductive inputs (f : list item -> M result) : list (list item) -> st -> list result -> st -> Prop :=
| inputs_nil : forall s, inputs f [] s [] s
| inputs_cons : forall a l s r s1 rs s', f a s = (OOk r, s1) -> simple (rval r) -> inputs f l s1 rs s' ->
    inputs f (a :: l) s (r :: rs) s'.
(** A value that is no error; the elements of an array get back what they were before they were given to a function. *)
Definition handed_back (v w : value) : Prop :=
  (forall e, v <> VExc e) /\ match v with VList l => w = VList (map restore l) | _ => w = v end.
(** Calls of several functions one after the other, each with the same parameters; the variables are put back after each. *)
Inductive called (f : list item -> M result) (enter : varstore -> varstore) : list (list item) -> st -> list result -> st -> Prop :=
| called_nil : forall s, called f enter [] s [] s
| called_cons : forall items sts bodies s r s1 w rs s', body_of items sts -> done f sts (set_vars s (enter (s_vars s))) r s1 ->
    handed_back (rval r) w -> called f enter bodies (set_vars s1 (s_vars s)) rs s' ->
    called f enter (items :: bodies) s (mkRes w (runit r) None :: rs) s'.
(** The value is the function with this body. *)
Definition is_function (items : list item) (v : value) : Prop := exists t tr, v = VFun (IInline t tr items).

(** A call of [name] without inputs; and items whose running does nothing else that could stop such calls *)
Definition self_call (name : str) (i : item) : Prop := exists t tr its, i = IPtr t tr its name [].
Definition harmless (name : str) (i : item) : Prop :=
  (exists y, i = IOp y) \/ (exists t v, i = ILit t v) \/ (exists x, i = IVar x) \/ (exists k t, i = INon k t /\ k <> NTerm) \/ self_call name i.
(** Spaces, comments and brackets, but no end of a statement *)
Definition filling (w : list item) : Prop := Forall (fun i => ifunc i = false /\ ~ ends_part i) w.
