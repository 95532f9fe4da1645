(** Numbers as python objects.  The other files copy numbers; here a number is a cell that variables, arrays and the items
    of a text share, so that what the code changes in place can be seen.  Only numbers and arrays of numbers, without units. *)
From Coq Require Import ZArith QArith Ascii String List Bool.
From Verif Require Import Base Dec Num Bases Formats Units Install Syntax Call Loop Exec Std.
Import ListNotations.
Open Scope nat_scope.

(** A value: the address of a [Number], or a python list of them (the elements are never replaced in place:
    operators.py:200 copies the list first) *)
Inductive hv := HNum (a : nat) | HArr (l : list nat).
Record hst := mkH { h_cells : list number; h_vars : list (str * hv) }.

(** Expressions.  [HLit a]: a LiteralItem (items.py:70-90) holds the Number made when the text was read, and gives that
    object each time it is run.  [HMake f l]: an operation on numbers whose implementation makes a new Number from them:
    all of basicarithmetic.py, bitwiseoperators.py, numericalfunctions.py (a method of Number that returns a Number
    constructs it, number.py:99-177; none of them uses [+x], 139-140).  [HGather f e]: one that makes a new Number from the
    numbers of an array (sum, mean, ... statisticalfunctions.py:99-137).  [HPick]: min and max (105-118).  [HElement]:
    element (arrayfunctions.py:96-103).  [HSet]: assignment (assignment.py:66-73).  [HSeq]: statements one after the other.
    [HCall l b]: a call of an inline function with body [b] (inlinefunctions.py:140-172); the items of the body are the
    same objects at each call, so the same literals. *)
Inductive hexpr :=
| HLit (a : nat)
| HVar (n : str)
| HArray (l : list hexpr)
| HMake (f : list number -> option number) (l : list hexpr)
| HGather (f : list number -> option number) (e : hexpr)
| HPick (better : number -> number -> bool) (e : hexpr)
| HElement (e i : hexpr)
| HSet (n : str) (e : hexpr)
| HSeq (a b : hexpr)
| HCall (l : list hexpr) (b : hexpr).

(** Reading and writing *)
Fixpoint h_read (h : list number) (l : list nat) : option (list number) :=
  match l with
  | [] => Some []
  | a :: r => match nth_error h a, h_read h r with Some n, Some t => Some (n :: t) | _, _ => None end
  end.
Fixpoint h_write (h : list number) (a : nat) (n : number) : list number :=
  match h, a with
  | [], _ => []
  | _ :: r, O => n :: r
  | x :: r, S b => x :: h_write r b n
  end.
(** [if number_cast: result_value.number_cast = number_cast] (operators.py:213-214), in place *)
Definition h_cast (h : list number) (a : nat) (c : option cast) : list number :=
  match c, nth_error h a with Some k, Some n => h_write h a (with_cast n (Some k)) | _, _ => h end.
(** The format for the result: the first that a number among the inputs has (operators.py:188-193, 345-350) *)
Definition first_cast (l : list number) : option cast := fold_left (fun c n => first_some c (ncast n)) l None.
(** A new object, with the format for the result *)
Definition h_new (c : option cast) (n : number) (s : hst) : hv * hst :=
  (HNum (length (h_cells s)), mkH (h_cells s ++ [match c with Some k => with_cast n (Some k) | None => n end]) (h_vars s)).
(** The object itself, changed *)
Definition h_same (c : option cast) (a : nat) (s : hst) : hv * hst := (HNum a, mkH (h_cast (h_cells s) a c) (h_vars s)).

(** The place of the first best *)
Fixpoint pick_at (better : number -> number -> bool) (best : nat) (n : number) (l : list nat) (ns : list number) : nat :=
  match l, ns with
  | a :: l', m :: ns' => if better m n then pick_at better a m l' ns' else pick_at better best n l' ns'
  | _, _ => best
  end.
Fixpoint addresses (l : list hv) : option (list nat) :=
  match l with
  | [] => Some []
  | HNum a :: r => option_map (cons a) (addresses r)
  | HArr _ :: _ => None
  end.
Fixpoint h_params (i : nat) (l : list hv) (vars : list (str * hv)) : list (str * hv) :=
  match l with [] => vars | v :: r => h_params (S i) r (dset (param_name i) v vars) end.

(** Running; [None] is any error *)
Fixpoint h_eval (p : Z) (e : hexpr) (s : hst) {struct e} : option (hv * hst) :=
  let list_of := fix list_of (l : list hexpr) (s : hst) {struct l} : option (list hv * hst) :=
    match l with
    | [] => Some ([], s)
    | x :: r => match h_eval p x s with
                | Some (v, s1) => match list_of r s1 with Some (t, s2) => Some (v :: t, s2) | None => None end
                | None => None
                end
    end in
  match e with
  | HLit a => if a <? length (h_cells s) then Some (HNum a, s) else None
  | HVar n => match assoc n (h_vars s) with Some v => Some (v, s) | None => None end
  | HArray l => match list_of l s with
                | Some (vs, s1) => match addresses vs with Some t => Some (HArr t, s1) | None => None end
                | None => None
                end
  | HMake f l => match list_of l s with
                 | Some (vs, s1) =>
                   match addresses vs with
                   | Some t => match h_read (h_cells s1) t with
                               | Some ns => match f ns with Some n => Some (h_new (first_cast ns) n s1) | None => None end
                               | None => None
                               end
                   | None => None
                   end
                 | None => None
                 end
  | HGather f x => match h_eval p x s with
                   | Some (HArr t, s1) =>
                     match h_read (h_cells s1) t with
                     | Some ns => match f ns with Some n => Some (h_new (first_cast ns) n s1) | None => None end
                     | None => None
                     end
                   | _ => None
                   end
  | HPick better x => match h_eval p x s with
                      | Some (HArr (a :: t), s1) =>
                        match h_read (h_cells s1) (a :: t) with
                        | Some (n :: ns) => Some (h_same (first_cast (n :: ns)) (pick_at better a n t ns) s1)
                        | _ => None
                        end
                      | _ => None
                      end
  | HElement x i => match h_eval p x s with
                    | Some (HArr t, s1) =>
                      match h_eval p i s1 with
                      | Some (HNum b, s2) =>
                        match nth_error (h_cells s2) b with
                        | Some n => match py_index t (num_int p n - 1) with Some a => Some (h_same (ncast n) a s2) | None => None end
                        | None => None
                        end
                      | _ => None
                      end
                    | _ => None
                    end
  | HSet n x => match h_eval p x s with
                | Some (v, s1) => Some (v, mkH (h_cells s1) (dset n v (h_vars s1)))
                | None => None
                end
  | HSeq a b => match h_eval p a s with Some (_, s1) => h_eval p b s1 | None => None end
  | HCall l b => match list_of l s with
                 | Some (vs, s1) =>
                   match h_eval p b (mkH (h_cells s1) (h_params 1 vs (h_vars s1))) with
                   | Some (v, s2) => Some (v, mkH (h_cells s2) (h_vars s1))
                   | None => None
                   end
                 | None => None
                 end
  end.
