(** The same programs with numbers as values, as the rest of the model has them; and what it means that numbers are kept. *)
From Coq Require Import ZArith QArith Ascii String List Bool.
From Verif Require Import Base Dec Num Bases Formats Units Install Syntax Call Loop Exec Std Heap.
Import ListNotations.
Open Scope nat_scope.

(** Operations that make their result *)
Fixpoint makes (e : hexpr) : Prop :=
  let all := fix all (l : list hexpr) : Prop := match l with [] => True | x :: r => makes x /\ all r end in
  match e with
  | HLit _ | HVar _ => True
  | HArray l | HMake _ l => all l
  | HGather _ x | HSet _ x => makes x
  | HPick _ _ | HElement _ _ => False
  | HSeq a b => makes a /\ makes b
  | HCall l b => all l /\ makes b
  end.
(** No assignment outside functions *)
Fixpoint assigns (e : hexpr) : Prop :=
  let some := fix some (l : list hexpr) : Prop := match l with [] => False | x :: r => assigns x \/ some r end in
  match e with
  | HLit _ | HVar _ => False
  | HArray l | HMake _ l => some l
  | HGather _ x | HPick _ x => assigns x
  | HSet _ _ => True
  | HElement a b | HSeq a b => assigns a \/ assigns b
  | HCall l b => some l
  end.

(** What a value is, with its numbers *)
Inductive nval := NNum (n : number) | NArr (l : list number).
Definition cell_shows (h : list number) (v : hv) (w : nval) : Prop :=
  match v, w with
  | HNum a, NNum n => nth_error h a = Some n
  | HArr l, NArr ns => Forall2 (fun a n => nth_error h a = Some n) l ns
  | _, _ => False
  end.
Definition vars_show (h : list number) (V : list (str * hv)) (W : list (str * nval)) : Prop :=
  Forall2 (fun a b => fst a = fst b /\ cell_shows h (snd a) (snd b)) V W.

(** Running with values *)
Definition n_cast (c : option cast) (n : number) : nval := NNum (match c with Some k => with_cast n (Some k) | None => n end).
Fixpoint numbers_in (l : list nval) : option (list number) :=
  match l with
  | [] => Some []
  | NNum a :: r => option_map (cons a) (numbers_in r)
  | NArr _ :: _ => None
  end.
Fixpoint n_params (i : nat) (l : list nval) (vars : list (str * nval)) : list (str * nval) :=
  match l with [] => vars | v :: r => n_params (S i) r (dset (param_name i) v vars) end.
Fixpoint n_eval (lits : list number) (e : hexpr) (V : list (str * nval)) {struct e} : option (nval * list (str * nval)) :=
  let list_of := fix list_of (l : list hexpr) (V : list (str * nval)) {struct l} : option (list nval * list (str * nval)) :=
    match l with
    | [] => Some ([], V)
    | x :: r => match n_eval lits x V with
                | Some (v, V1) => match list_of r V1 with Some (t, V2) => Some (v :: t, V2) | None => None end
                | None => None
                end
    end in
  match e with
  | HLit a => match nth_error lits a with Some n => Some (NNum n, V) | None => None end
  | HVar n => match assoc n V with Some v => Some (v, V) | None => None end
  | HArray l => match list_of l V with
                | Some (vs, V1) => match numbers_in vs with Some t => Some (NArr t, V1) | None => None end
                | None => None
                end
  | HMake f l => match list_of l V with
                 | Some (vs, V1) => match numbers_in vs with
                                    | Some ns => match f ns with Some n => Some (n_cast (first_cast ns) n, V1) | None => None end
                                    | None => None
                                    end
                 | None => None
                 end
  | HGather f x => match n_eval lits x V with
                   | Some (NArr ns, V1) => match f ns with Some n => Some (n_cast (first_cast ns) n, V1) | None => None end
                   | _ => None
                   end
  | HPick _ _ | HElement _ _ => None
  | HSet n x => match n_eval lits x V with Some (v, V1) => Some (v, dset n v V1) | None => None end
  | HSeq a b => match n_eval lits a V with Some (_, V1) => n_eval lits b V1 | None => None end
  | HCall l b => match list_of l V with
                 | Some (vs, V1) => match n_eval lits b (n_params 1 vs V1) with Some (v, _) => Some (v, V1) | None => None end
                 | None => None
                 end
  end.

(** The literals of a program are among the first [k] objects *)
Fixpoint literals_below (k : nat) (e : hexpr) : Prop :=
  let all := fix all (l : list hexpr) : Prop := match l with [] => True | x :: r => literals_below k x /\ all r end in
  match e with
  | HLit a => a < k
  | HVar _ => True
  | HArray l | HMake _ l => all l
  | HGather _ x | HSet _ x | HPick _ x => literals_below k x
  | HElement a b | HSeq a b => literals_below k a /\ literals_below k b
  | HCall l b => all l /\ literals_below k b
  end.
(** The operations give numbers without a format for numbers without a format *)
Definition formatless (n : number) : Prop := ncast n = None.
Definition keeps_plain (f : list number -> option number) : Prop :=
  forall l n, Forall formatless l -> f l = Some n -> formatless n.
Fixpoint plain_ops (e : hexpr) : Prop :=
  let all := fix all (l : list hexpr) : Prop := match l with [] => True | x :: r => plain_ops x /\ all r end in
  match e with
  | HLit _ | HVar _ => True
  | HArray l => all l
  | HMake f l => keeps_plain f /\ all l
  | HGather f x => keeps_plain f /\ plain_ops x
  | HSet _ x | HPick _ x => plain_ops x
  | HElement a b | HSeq a b => plain_ops a /\ plain_ops b
  | HCall l b => all l /\ plain_ops b
  end.

(** The elements of an array of the calculator, and an operation on two numbers *)
Definition holds_numbers (l : list result) (ns : list number) : Prop := Forall2 (fun r n => rval r = VNum n) l ns.
Definition on_two (f : number -> number -> option number) (l : list number) : option number :=
  match l with [a; b] => f a b | _ => None end.
