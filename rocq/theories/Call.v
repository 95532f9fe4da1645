(** Model of [Operation.call] and what it uses ([objects/operators.py]): validation of the inputs, number and unit
    conversion, element by element application to arrays, and how errors are handled. *)
From Coq Require Import ZArith QArith Ascii String List Bool Lia.
From Verif Require Import Base Dec Num Bases Units Syntax.
Import ListNotations.
Open Scope nat_scope.

(** * State and outcomes *)
(** The state of the calculator that running statements can change: the variables [calculator.vars] (assignment.py:53)
    and [last_failed_terminator] (terminator.py:36). *)
Definition varstore := list (str * (value * option eunit)).
Record st := mkSt { s_vars : varstore; s_lft : option str }.
(** [OErr] a CalculatorException, [OPy] any other python exception, [OFuel] the bound on recursion was reached. *)
Inductive oc (A : Type) := OOk (a : A) | OErr (e : exc) | OPy | OFuel.
Arguments OOk {A}. Arguments OErr {A}. Arguments OPy {A}. Arguments OFuel {A}.
Definition M (A : Type) := st -> oc A * st.
Definition ret {A} (a : A) : M A := fun s => (OOk a, s).
Definition raise {A} (e : exc) : M A := fun s => (OErr e, s).
Definition pyerr {A} : M A := fun s => (OPy, s).
Definition bind {A B} (m : M A) (f : A -> M B) : M B := fun s =>
  match m s with
  | (OOk a, s') => f a s' | (OErr e, s') => (OErr e, s') | (OPy, s') => (OPy, s') | (OFuel, s') => (OFuel, s')
  end.
(** A computation that does not touch the state; [Calc] is a CalculatorException with some message. *)
Definition lift {A} (x : out A) : M A := fun s =>
  match x with Ok a => (OOk a, s) | Calc => (OErr (XCalc false MOther), s) | Py => (OPy, s) end.
Notation "'let*' x ':=' a 'in' b" := (bind a (fun x => b)) (at level 200, x pattern, a at level 100, b at level 200).

(** * Definitions of operations *)
(** A value restriction (operators.py:58-62).  A type is [None], a name, or a name with a sub-type [name[sub]]
    (parse_sub_type, 294-302, is applied to the declaration). *)
Definition typ := option (str * option str).
Record restr := mkRestr { rs_from : nat; rs_to : option nat; rs_types : list typ }.
(** A unit restriction (64-65) *)
Record urestr := mkURestr { ur_from : nat; ur_to : option nat; ur_dims : list (str * Z) }.

(** [OperationResult] (11-31): the value, and the overriding unit and reference if set. *)
Record opres := mkOR { or_val : value; or_unit : option (option eunit); or_ref : option (option ref) }.

(** What an implementation can do with the calculator, beyond the state: call an operator, [calculator.ops_list[sym].call]. *)
Definition handle := str -> list result -> M result.

(** [Operation] (34-57).  [o_impl] is [ref]; the last argument but one is whether the flag [stateless] is set, the only
    flag an implementation looks at. *)
Record opdef := mkOp {
  o_name : str; o_min : option nat; o_max : option nat; o_vals : list restr; o_units : list urestr;
  o_rel : bool; o_multi : bool; o_norm : bool; o_excs : bool; o_autoin : bool; o_autores : bool;
  o_impl : handle -> list value -> list (option eunit) -> list (option ref) -> bool -> M opres }.

(** The parts of the calculator that validation and conversion use. *)
Record env := mkEnv {
  (* calculator.validators *)
  e_valid : str -> option (value -> option eunit -> option ref -> option str -> out bool);
  (* calculator.number on anything but a Number (numericalengine.py:45-53) *)
  e_parse : value -> out number;
  (* unit_normaliser.normalise_inputs (unitnormaliser.py:135-158) if there is a normaliser *)
  e_norm : option (list value -> list (option eunit) -> bool -> bool -> out (list value * list (option eunit) * option eunit));
  (* unit_normaliser.check_unit_dimensions *)
  e_dims : option eunit -> list (str * Z) -> out bool;
  (* whether to_string of an input returns (items.py:158-175) *)
  e_tostr : result -> bool }.

(** [number] (numericalengine.py:45-53) and [validate_number] (55-60) *)
Definition to_number (E : env) (v : value) : out number := match v with VNum n => Ok n | _ => e_parse E v end.
Definition is_number (E : env) (v : value) : bool := match to_number E v with Ok _ => true | _ => false end.

Definition s_array : str := $"array".
Definition s_variable : str := $"variable".
Definition s_number : str := $"number".
Definition typ_is (t : str) (x : typ) : bool := match x with Some (n, _) => seq_eqb n t | None => false end.
Definition sub_is (t : str) (x : typ) : bool := match x with Some (_, Some u) => seq_eqb u t | _ => false end.
Definition covers (r : restr) (i : nat) : bool :=
  (rs_from r <=? i) && match rs_to r with None => true | Some t => i <=? t end.
(** [input_can_be_type] (304-314); [sub] is [None] when no sub-type is asked for. *)
Definition can_be (d : opdef) (i : nat) (t : str) (sub : option str) : bool :=
  existsb (fun r => covers r i && existsb (typ_is t) (rs_types r) &&
                    match sub with None => true | Some u => existsb (sub_is u) (rs_types r) end) (o_vals d).
(** [input_must_be_type] (316-330) *)
Fixpoint must_be_loop (rs : list restr) (i : nat) (t : str) (sub : option str) (found : bool) : bool :=
  match rs with
  | [] => found
  | r :: rest =>
    if covers r i then
      if existsb (typ_is t) (rs_types r) && (length (rs_types r) =? 1) &&
         match sub with None => true | Some u => existsb (sub_is u) (rs_types r) && (length (rs_types r) =? 1) end
      then must_be_loop rest i t sub true else false
    else must_be_loop rest i t sub found
  end.
Definition must_be (d : opdef) (i : nat) (t : str) (sub : option str) : bool := must_be_loop (o_vals d) i t sub false.

(** * Validation (242-292) *)
(** [validate_input] (284-292) *)
Definition validate_input (E : env) (t : typ) (v : value) (u : option eunit) (r : option ref) : out bool :=
  match t with
  | None => Ok true
  | Some (n, Some sub) => match e_valid E n with None => Py | Some f => f v u r (Some sub) end
  | Some (n, None) => match e_valid E n with None => Ok false | Some f => f v u r None end
  end.
(** The inner loop (259-263): the first type that accepts *)
Fixpoint validate_types (E : env) (ts : list typ) (v : value) (u : option eunit) (r : option ref) : out Datatypes.unit :=
  match ts with
  | [] => Calc
  | t :: rest => do b <- validate_input E t v u r; if b : bool then Ok tt else validate_types E rest v u r
  end.
(** The indices a restriction applies to: [range(fromparam, min(len, toparam + 1))] (252-258) *)
Definition indices (from : nat) (to : option nat) (len : nat) : list nat :=
  let stop := match to with None => len | Some t => Nat.min len (t + 1) end in seq from (stop - from).
Fixpoint out_each {A} (f : A -> out Datatypes.unit) (l : list A) : out Datatypes.unit :=
  match l with [] => Ok tt | x :: r => do _ <- f x; out_each f r end.
Definition validate (E : env) (d : opdef) (vs : list value) (us : list (option eunit)) (rs : list (option ref)) : out Datatypes.unit :=
  do _ <- (match o_min d with Some m => if length vs <? m then Calc else Ok tt | None => Ok tt end);
  do _ <- (match o_max d with Some m => if m <? length vs then Calc else Ok tt | None => Ok tt end);
  do _ <- out_each (fun x => out_each (fun i =>
            match nth_error vs i, nth_error us i, nth_error rs i with
            | Some v, Some u, Some r => validate_types E (rs_types x) v u r
            | _, _, _ => Py
            end) (indices (rs_from x) (rs_to x) (length vs))) (o_vals d);
  out_each (fun x => out_each (fun i =>
            match nth_error us i with
            | Some u => do b <- e_dims E u (ur_dims x); if b : bool then Ok tt else Calc
            | None => Py
            end) (indices (ur_from x) (ur_to x) (length us))) (o_units d).

(** * Conversion *)
Definition first_some {A} (a b : option A) : option A := match a with Some _ => a | None => b end.
Fixpoint list_set {A} (l : list A) (i : nat) (x : A) : list A :=
  match l, i with [], _ => [] | _ :: r, O => x :: r | y :: r, S k => y :: list_set r k x end.
(** [convert_numbers] (332-353) *)
Definition convert_one (E : env) (vs : list value) (acc : list value * option cast) (i : nat) : list value * option cast :=
  match nth_error vs i with
  | Some v => match to_number E v with
              | Ok n => (list_set (fst acc) i (VNum n), first_some (snd acc) (ncast n))
              | _ => acc
              end
  | None => acc
  end.
Definition convert_range (r : restr) (len : nat) : list nat :=
  seq (rs_from r) (match rs_to r with None => len | Some t => t + 1 end - rs_from r).
Definition is_plain_number (t : typ) : bool := match t with Some (n, None) => seq_eqb n s_number | _ => false end.
Definition convert_numbers (E : env) (d : opdef) (vs : list value) : list value * option cast :=
  fold_left (fun acc r => if existsb is_plain_number (rs_types r)
                          then fold_left (convert_one E vs) (convert_range r (length vs)) acc else acc)
            (o_vals d) (vs, None).

(** The numbers of an array, and the first number format seen (186-193) *)
Fixpoint array_numbers (E : env) (l : list result) (c : option cast) : out (list value * option cast) :=
  match l with
  | [] => Ok ([], c)
  | x :: r => do n <- to_number E (rval x);
              do p <- array_numbers E r (first_some c (ncast n)); Ok (VNum n :: fst p, snd p)
  end.
(** Replacing the elements by the normalised ones, keeping the originals (201-207).  If the normaliser returned fewer
    values than there are elements the others stay; more would be an IndexError. *)
Fixpoint put_back (l : list result) (vs : list value) (us : list (option eunit)) : out (list result) :=
  match vs, l, us with
  | [], _, _ => Ok l
  | v :: vs', x :: l', u :: us' =>
    do r <- put_back l' vs' us'; Ok (Res v u (rref x) (Some (rval x, runit x)) :: r)
  | _, _, _ => Py
  end.
(** The branch for arrays of numbers (178-207) *)
Fixpoint norm_arrays (E : env) (d : opdef) (i : nat) (vs : list value) (c : option cast) (ru : option eunit)
  : out (list value * option cast * option eunit) :=
  match vs with
  | [] => Ok ([], c, ru)
  | v :: rest =>
    do p <- (match v with
             | VList l =>
               if must_be d i s_array (Some s_number) then
                 do q <- array_numbers E l c;
                 do n <- (match e_norm E with
                          | Some f => if o_norm d then f (fst q) (map runit l) (o_multi d) (o_rel d)
                                      else Ok (fst q, map runit l, ru)
                          | None => Ok (fst q, map runit l, ru)
                          end);
                 do l' <- put_back l (fst (fst n)) (snd (fst n));
                 Ok (VList l', snd q, snd n)
               else Ok (v, c, ru)
             | _ => Ok (v, c, ru)
             end);
    do t <- norm_arrays E d (S i) rest (snd (fst p)) (snd p);
    Ok (fst (fst p) :: fst (fst t), snd (fst t), snd t)
  end.
Fixpoint all_numbers (E : env) (d : opdef) (i : nat) (vs : list value) : bool :=
  match vs with [] => true | v :: r => can_be d i s_number None && is_number E v && all_numbers E d (S i) r end.
(** Validation and conversion of the inputs (157-207): the values and units for the implementation, the number format and
    the unit for the result. *)
Definition prepare (E : env) (d : opdef) (vs : list value) (us : list (option eunit)) (rs : list (option ref))
  : out (list value * list (option eunit) * option cast * option eunit) :=
  do _ <- validate E d vs us rs;
  let p := if o_autoin d then convert_numbers E d vs else (vs, None) in
  if all_numbers E d 0 (fst p) then
    match e_norm E with
    | Some f => if o_norm d then do n <- f (fst p) us (o_multi d) (o_rel d); Ok (fst (fst n), snd (fst n), snd p, snd n)
                else Ok (fst p, us, snd p, None)
    | None => Ok (fst p, us, snd p, None)
    end
  else
    do t <- norm_arrays E d 0 (fst p) (snd p) None;
    Ok (fst (fst t), us, snd (fst t), snd t).

(** Restoring the elements of a result that is an array (217-222).  The attributes stay in the code, with the values the
    element then has; here they are dropped. *)
Definition restore (r : result) : result :=
  match r with Res _ _ f (Some (v, u)) => Res v u f None | _ => r end.
(** The result of the operation (212-229) *)
Definition finish (d : opdef) (c : option cast) (ru : option eunit) (o : opres) : result :=
  let v := match or_val o with
           | VNum n => VNum (match c with Some k => if o_autores d then with_cast n (Some k) else n | None => n end)
           | VList l => VList (map restore l)
           | v => v
           end in
  mkRes v (match or_unit o with Some u => u | None => ru end) (match or_ref o with Some f => f | None => None end).

(** * The call *)
Definition is_list (v : value) : bool := match v with VList _ => true | _ => false end.
Definition elems (r : result) : list result := match rval r with VList l => l | _ => [] end.
Definition find_exc (ins : list result) : option result := find (fun r => is_exc (rval r)) ins.
Definition wrapped (e : exc) : bool := match e with XCalc w _ => w | XExec _ _ _ _ => false end.
(** The last branch (143-240) *)
Definition call_plain (E : env) (h : handle) (d : opdef) (stl : bool) (ins : list result) : M result :=
  match (if o_excs d then None else find_exc ins) with
  | Some r => ret r
  | None => fun s =>
    let rs := map rref ins in
    match (let* p := lift (prepare E d (map rval ins) (map runit ins) rs) in
           let* o := o_impl d h (fst (fst (fst p))) (snd (fst (fst p))) rs stl in
           ret (finish d (snd (fst p)) (snd p) o)) s with
    | (OErr e, s') => if wrapped e then (OErr e, s')
                      else if forallb (e_tostr E) ins then (OErr (XCalc true (MOp (o_name d))), s') else (OPy, s')
    | (OPy, s') => if forallb (e_tostr E) ins then (OErr (XCalc false (MOp (o_name d))), s') else (OPy, s')
    | x => x
    end
  end.

(** An input that is an array although neither arrays nor (if it came from a variable) variables are allowed (68-72) *)
Definition flagged (d : opdef) (i : nat) (r : result) : bool :=
  is_list (rval r) && negb (can_be d i s_array None) &&
  negb (match rref r with Some _ => can_be d i s_variable None | None => false end).
Fixpoint flags_of (d : opdef) (i : nat) (ins : list result) : list bool :=
  match ins with [] => [] | r :: t => flagged d i r :: flags_of d (S i) t end.
(** The lengths of the arrays among the inputs, and whether they agree (80-87, 119-129) *)
Definition lengths (fl : list bool) (ins : list result) : list nat :=
  map (fun p => length (elems (snd p))) (filter fst (combine fl ins)).
Definition same_length (ls : list nat) : option (option nat) :=
  match ls with [] => Some None | n :: t => if forallb (Nat.eqb n) t then Some (Some n) else None end.
(** The inputs for one element (92-99, 135-142) *)
Definition row (fl : list bool) (ins : list result) (i : nat) : list result :=
  map (fun p => if fst p : bool then nth i (elems (snd p)) (mkRes VNone None None) else snd p) (combine fl ins).
(** One call after the other, errors staying in their element (90-104) *)
Fixpoint each_row (f : list result -> M result) (rows : list (list result)) : M (list result) :=
  match rows with
  | [] => ret []
  | x :: t => fun s => match f x s with
                       | (OOk r, s') => (let* l := each_row f t in ret (r :: l)) s'
                       | (OErr e, s') => (let* l := each_row f t in ret (mkRes (VExc e) None None :: l)) s'
                       | (OPy, s') => (OPy, s') | (OFuel, s') => (OFuel, s')
                       end
  end.
(** One call after the other for the arrays made from the inputs (132-154) *)
Fixpoint each_pack (f : list result -> M result) (rows : list (list result)) : M (list result) :=
  match rows with
  | [] => ret []
  | x :: t => let* r := f [mkRes (VList x) None None] in
              if is_list (rval r) then raise (XCalc false MOther) else
              let* l := each_pack f t in ret (r :: l)
  end.
Definition is_packed (d : opdef) (ins : list result) : bool :=
  match o_max d with Some 1 => true | _ => false end && must_be d 0 s_array None && (1 <? length ins).
(** [call] (67-240), with the recursive calls given *)
Definition call_step (E : env) (h : handle) (d : opdef) (stl : bool) (rec : list result -> M result) (ins : list result) : M result :=
  let fl := flags_of d 0 ins in
  if existsb (fun b => b) fl then
    match same_length (lengths fl ins) with
    | Some (Some n) => let* l := each_row rec (map (row fl ins) (seq 0 n)) in ret (mkRes (VList l) None None)
    | _ => raise (XCalc false MLength)
    end
  else if is_packed d ins then
    let fa := map (fun r => is_list (rval r)) ins in
    match same_length (lengths fa ins) with
    | Some (Some n) => let* l := each_pack rec (map (row fa ins) (seq 0 n)) in ret (mkRes (VList l) None None)
    | Some None => rec [mkRes (VList ins) None None]
    | None => raise (XCalc false MLength)
    end
  else call_plain E h d stl ins.
(** The recursion is bounded by how deeply arrays are nested. *)
Fixpoint vdepth (v : value) : nat :=
  match v with VList l => S (fold_right (fun r m => Nat.max (rdepth r) m) 0 l) | _ => 0 end
with rdepth (r : result) : nat := match r with Res v _ _ _ => vdepth v end.
Definition depths (ins : list result) : nat := fold_right (fun r n => rdepth r + n) 0 ins.
Fixpoint call_fuel (n : nat) (E : env) (h : handle) (d : opdef) (stl : bool) (ins : list result) : M result :=
  match n with O => fun s => (OFuel, s) | S k => call_step E h d stl (call_fuel k E h d stl) ins end.
Definition call (E : env) (h : handle) (d : opdef) (stl : bool) (ins : list result) : M result :=
  call_fuel (3 + depths ins) E h d stl ins.
