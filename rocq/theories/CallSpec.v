(** Independent statements about operations: which inputs are spread over their elements, what running an operation
    element by element means, when inputs are acceptable, and which number format a result gets. *)
From Coq Require Import ZArith QArith Ascii String List Bool Lia.
From Verif Require Import Base Dec Num Bases Units Syntax Call.
Import ListNotations.
Open Scope nat_scope.

(** The declaration allows type [t] for parameter [k]. *)
Definition allows (d : opdef) (k : nat) (t : str) : Prop :=
  exists x sub, In x (o_vals d) /\ rs_from x <= k /\ (forall m, rs_to x = Some m -> k <= m) /\ In (Some (t, sub)) (rs_types x).
(** Input [r] at position [k] is an array where the operation wants something else. *)
Definition spreads (d : opdef) (k : nat) (r : result) : Prop :=
  (exists l, rval r = VList l) /\ ~ allows d k $"array" /\ ~ (rref r <> None /\ allows d k $"variable").
(** [x] are the inputs for element [i]. *)
Definition row_at (d : opdef) (ins : list result) (i : nat) (x : list result) : Prop :=
  length x = length ins /\
  forall k r, nth_error ins k = Some r ->
    (spreads d k r -> forall l, rval r = VList l -> nth_error x k = nth_error l i) /\
    (~ spreads d k r -> nth_error x k = Some r).
(** Running an operation on one row after the other: an error of a row becomes its element. *)
Inductive ran (f : list result -> M result) : list (list result) -> st -> oc (list result) -> st -> Prop :=
| ran_nil : forall s, ran f [] s (OOk []) s
| ran_ok : forall x t s r s1 o s2, f x s = (OOk r, s1) -> ran f t s1 o s2 ->
    ran f (x :: t) s (match o with OOk l => OOk (r :: l) | e => e end) s2
| ran_err : forall x t s e s1 o s2, f x s = (OErr e, s1) -> ran f t s1 o s2 ->
    ran f (x :: t) s (match o with OOk l => OOk (Res (VExc e) None None None :: l) | e => e end) s2
| ran_py : forall x t s s1, f x s = (OPy, s1) -> ran f (x :: t) s OPy s1
| ran_fuel : forall x t s s1, f x s = (OFuel, s1) -> ran f (x :: t) s OFuel s1.

(** No input is spread, and they are not to be packed into one array. *)
Definition packs (d : opdef) (ins : list result) : Prop :=
  o_max d = Some 1 /\ must_be d 0 $"array" None = true /\ 1 < length ins.
Definition direct (d : opdef) (ins : list result) : Prop :=
  (forall k r, nth_error ins k = Some r -> ~ spreads d k r) /\ ~ packs d ins.

(** A declared type accepts an input. *)
Definition accepts (E : env) (t : typ) (r : result) : Prop :=
  match t with
  | None => True
  | Some (n, sub) => exists f, e_valid E n = Some f /\ f (rval r) (runit r) (rref r) sub = Ok true
  end.
(** The inputs respect the declared bounds, types and dimensions. *)
Definition acceptable (E : env) (d : opdef) (ins : list result) : Prop :=
  (forall m, o_min d = Some m -> m <= length ins) /\ (forall m, o_max d = Some m -> length ins <= m) /\
  (forall x i r, In x (o_vals d) -> rs_from x <= i -> (forall m, rs_to x = Some m -> i <= m) -> nth_error ins i = Some r ->
     exists t, In t (rs_types x) /\ accepts E t r) /\
  (forall x i r, In x (o_units d) -> ur_from x <= i -> (forall m, ur_to x = Some m -> i <= m) -> nth_error ins i = Some r ->
     e_dims E (runit r) (ur_dims x) = Ok true).
(** Validators always answer. *)
Definition answers (E : env) (d : opdef) : Prop :=
  (forall n f v u r sub, e_valid E n = Some f -> exists b, f v u r sub = Ok b) /\
  (forall x n sub, In x (o_vals d) -> In (Some (n, Some sub)) (rs_types x) -> e_valid E n <> None) /\
  (forall u l, exists b, e_dims E u l = Ok b).
(** The same operation with another implementation. *)
Definition with_impl (d : opdef) (f : handle -> list value -> list (option eunit) -> list (option ref) -> bool -> M opres) : opdef :=
  mkOp (o_name d) (o_min d) (o_max d) (o_vals d) (o_units d) (o_rel d) (o_multi d) (o_norm d) (o_excs d) (o_autoin d) (o_autores d) f.

(** Each restriction is for parameters after those of the one before it (as all operators and most functions have it). *)
Fixpoint ordered (l : list restr) : Prop :=
  match l with
  | r1 :: (r2 :: _) as t => (exists m, rs_to r1 = Some m /\ m < rs_from r2) /\ ordered t
  | _ => True
  end.
(** Parameter [i] may be a number. *)
Definition may_number (d : opdef) (i : nat) : Prop :=
  exists x, In x (o_vals d) /\ rs_from x <= i /\ (forall m, rs_to x = Some m -> i <= m) /\ In (Some ($"number", None)) (rs_types x).
(** Operand [i] counts as a number with format [c]. *)
Definition format_at (E : env) (d : opdef) (vs : list value) (i : nat) (c : option cast) : Prop :=
  may_number d i /\ exists v n, nth_error vs i = Some v /\ to_number E v = Ok n /\ ncast n = c.
(** [c] is the format of the first operand that has one; [None] if none has. *)
Definition first_format (E : env) (d : opdef) (vs : list value) (c : option cast) : Prop :=
  match c with
  | Some k => exists i, format_at E d vs i (Some k) /\ forall j c', j < i -> format_at E d vs j c' -> c' = None
  | None => forall i c', format_at E d vs i c' -> c' = None
  end.
(** Restrictions are in order and none is empty. *)
Definition in_order (d : opdef) : Prop :=
  ordered (o_vals d) /\ Forall (fun x => rs_from x <= match rs_to x with Some t => t | None => rs_from x end) (o_vals d).
