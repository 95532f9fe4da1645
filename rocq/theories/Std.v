(** The operators and functions of the features, as [install] defines them, and a calculator that has them.  Each
    implementation gets the values, units and references of its inputs after validation and conversion (Call.v). *)
From Coq Require Import ZArith QArith Qabs Qround Ascii String List Bool Lia.
From Verif Require Import Base Dec Num Lex Bases Formats Units Syntax Pos Call Loop Parse Exec.
Import ListNotations.
Open Scope nat_scope.

(** * Values *)
(** [l_str] is python's [str()] of what is neither a Number, text, truth value nor None: arrays, units, errors, functions
    (it contains addresses of objects). *)
Record lib := mkLib { l_fmt : fmt; l_str : value -> str }.
Definition l_prec (L : lib) : Z := f_prec (l_fmt L).

(** StringsFeature.string (strings/strings.py:88-91) *)
Definition string_of (L : lib) (v : value) : out str :=
  match v with
  | VNum n => num_to_string (l_fmt L) n
  | VStr s => Ok s
  | VBool b => Ok (if b then $"True" else $"False")
  | VNone => Ok ($"None")
  | _ => Ok (l_str L v)
  end.
(** The [parse] methods of the number types (numericalengine.py:45-49; booleans.py:216-222, decimalnumbers.py:60-66,
    binarynumbers.py:75-82, …): no text is read by two of them, so the order does not matter.  The decimal one accepts a
    newline at the end ([$]); Decimal() ignores it. *)
Definition text_number (F : fmt) (s : str) : out number :=
  let p := f_prec F in
  match match_number s with
  | Some (l, r) =>
    if is_nil r || seq_eqb r [newline] then do n <- py_opt (number_of_lit p l); Ok (with_cast n (Some CDec))
    else match match_exp (f_sym F) s with
         | Some (l, e, []) => exp_value F l e
         | _ => match match_pct s with
                | Some (l, []) => pct_value F l
                | _ => match match_bin s, match_oct s, match_hex s, match_arb s with
                       | Some (t, []), _, _, _ => parse_bin p (f_pow F) t
                       | _, Some (t, []), _, _ => parse_oct p (f_pow F) t
                       | _, _, Some (t, []), _ => parse_hex p (f_pow F) t
                       | _, _, _, Some (t, []) => do r <- parse_arb p (f_pow F) t; match r with Some n => Ok n | None => Calc end
                       | _, _, _, _ => Calc
                       end
                end
         end
  | None => Calc
  end.
Definition any_number (F : fmt) (v : value) : out number :=
  match v with
  | VNum n => Ok n
  | VBool b => Ok (num_of_Z (f_prec F) (if b then 1 else 0)%Z)
  | VStr s => text_number F s
  | _ => Calc
  end.

(** The keys of calculator.number_types *)
Definition number_types : list str :=
  [$"decimal"; $"binary"; $"octal"; $"hexadecimal"; $"arbitrarybase"; $"scientific"; $"percentage"; $"boolean"].

(** The validators without a sub-type (engine.py:336, numericalengine.py:51-56, booleans.py:197-202, strings.py:93-101,
    assignment.py:85-89) *)
Definition valid1 (L : lib) (t : str) (v : value) (r : option ref) : option bool :=
  if seq_eqb t ($"number") then Some (match any_number (l_fmt L) v with Ok _ => true | _ => false end)
  else if seq_eqb t ($"boolean") then Some (match v with VBool _ => true | _ => false end)
  else if seq_eqb t ($"string") then Some (match string_of L v with Ok _ => true | _ => false end)
  else if seq_eqb t ($"numericalrepresentation") then Some (match v with VStr s => mem_str s number_types | _ => false end)
  else if seq_eqb t ($"variable") then Some (match r with Some (RVar _) => true | _ => false end)
  else if seq_eqb t ($"exception") then Some (is_exc v)
  else None.
(** and arrays (arrays.py:156-163); [array] itself as a sub-type *)
Definition std_valid (L : lib) (t : str) : option (value -> option eunit -> option ref -> option str -> out bool) :=
  if seq_eqb t ($"array") then
    Some (fun v _ _ sub =>
      match v, sub with
      | VList l, Some sb =>
        if seq_eqb sb ($"array") then Ok (forallb (fun x => is_list (rval x)) l)
        else Ok (forallb (fun x => match valid1 L sb (rval x) (rref x) with Some b => b | None => false end) l)
      | VList _, None => Ok true
      | _, _ => Ok false
      end)
  else if existsb (seq_eqb t) [$"number"; $"boolean"; $"string"; $"numericalrepresentation"; $"variable"; $"exception"] then
    Some (fun v _ r _ => Ok (match valid1 L t v r with Some b => b | None => false end))
  else None.
(** Whether [OperandResult.to_string] returns (items.py:164-175) *)
Fixpoint shows (L : lib) (v : value) : bool :=
  match v with
  | VNum n => match num_to_string (l_fmt L) n with Ok _ => true | _ => false end
  | VList l => forallb (fun r => match r with Res x _ _ _ => shows L x end) l
  | _ => true
  end.
(** A calculator without a unit normaliser *)
Definition std_env (L : lib) : env :=
  mkEnv (std_valid L) (any_number (l_fmt L)) None (fun _ _ => Py) (fun r => shows L (rval r)).

(** * Declarations *)
Definition impl := handle -> list value -> list (option eunit) -> list (option ref) -> bool -> M opres.
Definition ty (s : str) : typ := Some (s, None).
Definition tynum : typ := ty ($"number").
Definition tystr : typ := ty ($"string").
Definition tybool : typ := ty ($"boolean").
Definition tyvar : typ := ty ($"variable").
Definition tyarr : typ := ty ($"array").
Definition arr_of (s : str) : typ := Some ($"array", Some s).
(** A type for all the inputs; a list of types for each; no types for an input *)
Definition all_are (t : typ) : list restr := [mkRestr 0 None [t]].
Fixpoint each_is (i : nat) (ts : list (list typ)) : list restr :=
  match ts with
  | [] => []
  | [] :: r => each_is (S i) r
  | t :: r => mkRestr i (Some i) t :: each_is (S i) r
  end.
(** OperatorDefinition (operators.py:356-394) with the defaults of Operation (34-56): relative and multi false, normalise
    true, errors not allowed, conversion of inputs and result *)
Definition odef (sym : str) (n : nat) (ts : list restr) (rel multi norm excs : bool) (f : impl) : opdef :=
  mkOp ($"operator " ++ sym) (Some n) (Some n) ts [] rel multi norm excs true true f.
Definition infix (sym : str) (d : opdef) : str * operator := (sym, mkOper [None] [None] false d).
Definition fdef (name : str) (mn mx : nat) (ts : list restr) (f : impl) : str * opdef :=
  (name, mkOp name (Some mn) (Some mx) ts [] false false true false true true f).
Definition no_norm (d : opdef) : opdef :=
  mkOp (o_name d) (o_min d) (o_max d) (o_vals d) (o_units d) (o_rel d) (o_multi d) false (o_excs d) (o_autoin d) (o_autores d) (o_impl d).
Definition no_result (d : opdef) : opdef :=
  mkOp (o_name d) (o_min d) (o_max d) (o_vals d) (o_units d) (o_rel d) (o_multi d) (o_norm d) (o_excs d) (o_autoin d) false (o_impl d).

(** OperationResult(v), and with [set_unit(None)] *)
Definition just (v : value) : M opres := ret (mkOR v None None).
Definition unitless (v : value) : M opres := ret (mkOR v (Some None) None).
Definition with_unit (u : option eunit) (v : value) : M opres := ret (mkOR v (Some u) None).
Definition pym {A} (x : option A) : M A := match x with Some a => ret a | None => pyerr end.
Definition calc_err {A} : M A := raise (XCalc false MOther).

(** * Arithmetic (numerical/basicarithmetic.py:91-152) *)
(** Powers of units are integers in this model (Units.v); another power of a unit is [Py]. *)
Definition int_power (p : Z) (n : number) : M Z := if (nden n =? 1)%Z then ret (nnum n) else pyerr.
Definition op_power (L : lib) : impl := fun _ vs us _ _ =>
  let p := l_prec L in
  match vs, us with
  | [VUnit u; VNum n], _ => let* k := int_power p n in
                            match upower (eu_list u) k with Some l => just (VUnit (mkEU l false)) | None => just VNone end
  | [VNum a; VNum n], [ua; un] =>
    let* r := pym (num_pow p (f_pow (l_fmt L)) a n) in
    match un, ua with
    | Some _, _ => calc_err
    | None, None => just (VNum r)
    | None, Some u => let* k := int_power p n in with_unit (option_map (fun l => mkEU l false) (upower (eu_list u) k)) (VNum r)
    end
  | _, _ => pyerr
  end.
(** [vals[i]] is a unit: it becomes 1 with that unit *)
Definition unit_value (p : Z) (v : value) (u : option eunit) : value * option eunit :=
  match v with VUnit x => (VNum (num_of_Z p 1), Some x) | _ => (v, u) end.
Definition join_units (sign : Z) (a b : option eunit) : option (option eunit) :=
  match a, b with
  | Some x, Some y => Some (option_map (fun l => mkEU l false) (upl_new [(eu_list x, 1%Z); (eu_list y, sign)]))
  | Some x, None => Some (Some x)
  | None, Some y => if (sign =? 1)%Z then Some (Some y)
                    else Some (option_map (fun l => mkEU l (eu_nosimp y)) (upower (eu_list y) (-1)))
  | None, None => None
  end.
Definition op_scale (L : lib) (sign : Z) (f : Z -> number -> number -> option number) : impl := fun _ vs us _ _ =>
  let p := l_prec L in
  match vs, us with
  | [VUnit x; VUnit y], _ => match upl_new [(eu_list x, 1%Z); (eu_list y, sign)] with
                             | Some l => just (VUnit (mkEU l true))
                             | None => pyerr
                             end
  | [v; w], [a; b] =>
    match unit_value p v a, unit_value p w b with
    | (VNum x, a'), (VNum y, b') => let* r := pym (f p x y) in ret (mkOR (VNum r) (join_units sign a' b') None)
    | _, _ => pyerr
    end
  | _, _ => pyerr
  end.
Definition op_multiply (L : lib) : impl := op_scale L 1 num_mul.
Definition op_divide (L : lib) : impl := op_scale L (-1) num_div.
Definition op_num2 (L : lib) (f : Z -> number -> number -> option number) : impl := fun _ vs _ _ _ =>
  match vs with [VNum a; VNum b] => let* r := pym (f (l_prec L) a b) in just (VNum r) | _ => pyerr end.
(** [\\]: the floor of what [/] gives (numerical/advancedarithmetic.py:50-55) *)
Definition op_int_divide (L : lib) : impl := fun h vs us _ _ =>
  match vs, us with
  | [v; w], [a; b] =>
    let* r := h ($"/") [mkRes v a None; mkRes w b None] in
    match rval r with VNum n => with_unit (runit r) (VNum (num_floor (l_prec L) n)) | _ => pyerr end
  | _, _ => pyerr
  end.

(** * Truth values (boolean/booleans.py:151-195) *)
Definition boolean (v : value) : M bool := match v with VBool b => ret b | _ => calc_err end.
Definition op_not : impl := fun _ vs _ _ _ =>
  match vs with [v] => let* b := boolean v in unitless (VBool (negb b)) | _ => pyerr end.
Definition op_compare (L : lib) (f : Z -> number -> number -> bool) : impl := fun _ vs _ _ _ =>
  match vs with [VNum a; VNum b] => unitless (VBool (f (l_prec L) a b)) | _ => pyerr end.
Definition op_and : impl := fun _ vs _ _ _ =>
  match vs with
  | [v; w] => let* a := boolean v in if a : bool then let* b := boolean w in just (VBool b) else just (VBool false)
  | _ => pyerr
  end.
Definition op_or : impl := fun _ vs _ _ _ =>
  match vs with
  | [v; w] => let* a := boolean v in if a : bool then just (VBool true) else let* b := boolean w in just (VBool b)
  | _ => pyerr
  end.
Definition op_xor : impl := fun _ vs _ _ _ =>
  match vs with
  | [v; w] => let* a := boolean v in let* b := boolean w in just (VBool (xorb a b))
  | _ => pyerr
  end.
Definition op_then : impl := fun _ vs us rs _ =>
  match vs, us, rs with
  | [v; x; y], [_; ux; uy], [_; rx; ry] =>
    let* b := boolean v in
    if b : bool then ret (mkOR x (Some ux) (Some rx)) else ret (mkOR y (Some uy) (Some ry))
  | _, _, _ => pyerr
  end.

(** * Variables (state/assignment.py:61-82, assignmentoperators.py:110-149, assignmentfunctions.py:47-57) *)
Definition store (n : str) (v : value) (u : option eunit) : M Datatypes.unit := fun s =>
  (OOk tt, mkSt (dset n (v, u) (s_vars s)) (s_lft s)).
Definition lookup (n : str) : M (value * option eunit) := fun s =>
  match assoc n (s_vars s) with Some x => (OOk x, s) | None => (OPy, s) end.
Definition the_var (rs : list (option ref)) : M str :=
  match rs with
  | Some (RVar n) :: _ => ret n
  | Some ROther :: _ => raise (XExec MOther [] None false)
  | _ => pyerr                      (* None has no desc() *)
  end.
Definition op_assign : impl := fun _ vs us rs stl =>
  match vs, us with
  | [_; v], [_; u] =>
    let* n := the_var rs in
    let* _ := if stl : bool then ret tt else store n v u in
    with_unit u v
  | _, _ => pyerr
  end.
Definition op_assign_if_empty : impl := fun _ vs us rs stl =>
  match vs, us with
  | [_; v], [_; u] =>
    let* n := the_var rs in
    let* _ := if stl : bool then ret tt
              else fun s => match assoc n (s_vars s) with Some _ => (OOk tt, s) | None => store n v u s end in
    with_unit u v
  | _, _ => pyerr
  end.
(** [assignment_operator] (138-149).  Stateless, the name of the variable is not even set when it is used.  The number that is
    stored is the very object that is returned, so it gets the format [c] that the call gives its result (operators.py:212-214). *)
Definition recast (c : option cast) (v : value) : value :=
  match c, v with Some k, VNum n => VNum (with_cast n (Some k)) | _, _ => v end.
Definition assign_with (sym : str) (c : option cast) (v : value) (u : option eunit) (r : option ref) (rs : list (option ref)) (h : handle) (stl : bool) : M opres :=
  let* n := the_var rs in
  if stl then pyerr
  else
    let* x := lookup n in
    let* y := h sym [mkRes (fst x) (snd x) None; mkRes v u r] in
    let* _ := store n (recast c (rval y)) (runit y) in
    with_unit (runit y) (recast c (rval y)).
Definition op_assign_op (sym : str) : impl := fun h vs us rs stl =>
  match vs, us, rs with
  | [_; v], [_; u], [_; r] => assign_with sym (match v with VNum b => ncast b | _ => None end) v u r rs h stl
  | _, _, _ => pyerr
  end.
Definition op_increment (L : lib) (sym : str) : impl := fun h vs us rs stl =>
  assign_with sym None (VNum (num_of_Z (l_prec L) 1)) None None rs h stl.
Definition fn_reset : impl := fun _ _ _ _ _ s => (OOk (mkOR VNone None None), mkSt [] (s_lft s)).
Definition fn_delete : impl := fun _ vs us rs _ =>
  let* n := the_var rs in
  fun s => match assoc n (s_vars s) with
           | Some _ => (OOk (mkOR VNone None None), mkSt (filter (fun e => negb (seq_eqb (fst e) n)) (s_vars s)) (s_lft s))
           | None => (OPy, s)
           end.

(** * Bitwise operators (numerical/bitwiseoperators.py:88-142) *)
(** [get_biggest_width] (135-142) *)
Definition width_of (L : lib) (n : number) : out Z :=
  match nwidth n with
  | Some w => Ok w
  | None => do t <- num_to_string (l_fmt L) n; Ok (get_width t bin_pre)
  end.
Definition biggest_width (L : lib) (a b : number) : out Z :=
  do x <- width_of L a; do y <- width_of L b; Ok (Z.max (Z.max 0 x) y).
Definition op_bits (L : lib) (f : Z -> Z -> Z) : impl := fun _ vs _ _ _ =>
  let p := l_prec L in
  match vs with
  | [VNum a; VNum b] =>
    let* w := lift (biggest_width L a b) in
    just (VNum (set_width (num_of_Z p (f (num_int p a) (num_int p b))) (Some w)))
  | _ => pyerr
  end.
(** [n.to_decimal() < 0 or (n % Number(1)).to_decimal() != 0] *)
Definition integer (L : lib) (n : number) : M bool :=
  let* r := pym (num_mod (l_prec L) n (num_of_Z (l_prec L) 1)) in ret (Qeq_bool (to_decimal (l_prec L) r) 0).
Definition natural (L : lib) (n : number) : M bool :=
  if negb (Qle_bool 0 (to_decimal (l_prec L) n)) then ret false else integer L n.
Definition op_shift (L : lib) (f : Z -> Z -> Z) : impl := fun h vs us rs stl =>
  match vs with
  | [VNum a; VNum b] =>
    let* ok := natural L b in
    if ok : bool then op_bits L f h vs us rs stl else calc_err
  | _ => pyerr
  end.
(** [~] (103-119).  [math.ceil(math.log(v, 2))] is a float computation; taken exact here (log2_up), an error for 0. *)
Definition op_bit_not (L : lib) : impl := fun _ vs _ _ _ =>
  let p := l_prec L in
  match vs with
  | [v] =>
    let* n := lift (any_number (l_fmt L) v) in
    let* ok := natural L n in
    if ok : bool then
      let i := num_int p n in
      let* mask := match nwidth n with
                   | Some w => ret (2 ^ w - 1)%Z
                   | None => if (i =? 0)%Z then pyerr else ret (2 ^ Z.log2_up i - 1)%Z
                   end in
      match v with
      | VNum _ =>
        let m := with_cast (num_of_Z p (Z.land (Z.lnot i) mask)) (ncast n) in
        let* w := lift (biggest_width L n m) in
        just (VNum (set_width m (Some w)))
      | _ => pyerr                  (* vals[0].number_cast of a text *)
      end
    else calc_err
  | _ => pyerr
  end.

(** * Functions of numbers (numerical/numericalfunctions.py:127-192) *)
Definition fn_abs (L : lib) : impl := fun _ vs us _ _ =>
  match vs, us with [VNum a], u :: _ => with_unit u (VNum (num_abs (l_prec L) a)) | _, _ => pyerr end.
(** [apply_rounding_function] (132-148): a negative number of places makes [base ** places] a float, which is no
    Number *)
Definition cast_base (c : option cast) : Z :=
  match c with Some CBin => 2 | Some COct => 8 | Some CHex => 16 | Some (CArb b) => b | _ => 10 end.
Definition cast_offset (c : option cast) : Z := match c with Some CPct => 2 | _ => 0 end.
(** [round(Number)] (number.py:167-168) *)
Definition num_round (p : Z) (a : number) : option number :=
  match quantize p 0 (to_decimal p a) with Some m => num_make p (ncast a) (inject_Z m) 1 | None => None end.
Definition fn_rounding (L : lib) (f : Z -> number -> option number) : impl := fun _ vs us _ _ =>
  let p := l_prec L in
  match vs, us with
  | VNum a :: more, u :: _ =>
    let* places := match more with [] => ret 0%Z | VNum n :: _ => ret (num_int p n) | _ => pyerr end in
    let k := (places + cast_offset (ncast a))%Z in
    if (k <? 0)%Z then pyerr
    else
      let m := num_of_Z p (cast_base (ncast a) ^ k) in
      let* x := pym (num_mul p a m) in
      let* y := pym (f p x) in
      let* z := pym (num_div p y m) in
      with_unit u (VNum z)
  | _, _ => pyerr
  end.
(** [math.factorial] *)
Fixpoint factorial (n : nat) : Z := match n with O => 1 | S k => Z.of_nat n * factorial k end.
Definition fn_fact (L : lib) : impl := fun _ vs us _ _ =>
  match vs, us with
  | [VNum a], u :: _ =>
    let* ok := natural L a in
    if ok : bool then with_unit u (VNum (num_of_Z (l_prec L) (factorial (Z.to_nat (num_int (l_prec L) a))))) else calc_err
  | _, _ => pyerr
  end.
Definition fn_ints (L : lib) (f : Z -> Z -> Z) : impl := fun _ vs us _ _ =>
  let p := l_prec L in
  match vs, us with
  | [VNum a; VNum b], u :: _ =>
    let* x := integer L a in
    let* y := if x : bool then integer L b else ret false in
    if y : bool then with_unit u (VNum (num_of_Z p (f (num_int p a) (num_int p b)))) else calc_err
  | _, _ => pyerr
  end.
(** Conversions: dec, bin, oct, hex (decimalfunction.py:39-41, binarynumbers.py:60-61, …) and scientific *)
Definition fn_convert (c : option cast) : impl := fun _ vs _ _ _ =>
  match vs with [VNum a] => just (VNum (convert_to c a)) | _ => pyerr end.
Definition fn_scientific (L : lib) : impl := fun _ vs us _ _ =>
  match vs, us with
  | [VNum a], u :: _ => let* n := lift (scientific (l_fmt L) a None) in with_unit u (VNum n)
  | [VNum a; VNum b], u :: _ => let* n := lift (scientific (l_fmt L) a (Some b)) in with_unit u (VNum n)
  | _, _ => pyerr
  end.

(** * Arrays (arrays/arrayfunctions.py:92-127) *)
Definition fn_concat : impl := fun _ vs _ _ _ =>
  match vs with [VList a; VList b] => just (VList (a ++ b)) | _ => pyerr end.
(** python's indexing: a negative index counts from the end *)
Definition py_index {A} (l : list A) (i : Z) : option A :=
  if (0 <=? i)%Z then nth_error l (Z.to_nat i)
  else if (- i <=? Z.of_nat (length l))%Z then nth_error l (Z.to_nat (Z.of_nat (length l) + i)) else None.
Definition fn_element (L : lib) : impl := fun _ vs _ _ _ =>
  match vs with
  | [VList l; VNum n] => let* e := pym (py_index l (num_int (l_prec L) n - 1)) in ret (mkOR (rval e) (Some (runit e)) (Some (rref e)))
  | _ => pyerr
  end.
(** [for i, truth in enumerate(vals[1])]: an index beyond the first array matters only where the truth value is true *)
Fixpoint filter_by (ts l : list result) : option (list result) :=
  match ts with
  | [] => Some []
  | t :: ts' =>
    let keep := match rval t with VBool b => b | _ => true end in
    match l with
    | x :: l' => option_map (fun r => if keep then x :: r else r) (filter_by ts' l')
    | [] => if keep then None else filter_by ts' []
    end
  end.
Definition fn_filter : impl := fun _ vs _ _ _ =>
  match vs with [VList l; VList t] => let* r := pym (filter_by t l) in just (VList r) | _ => pyerr end.
Definition fn_count (L : lib) : impl := fun _ vs _ _ _ =>
  match vs with [VList l] => just (VNum (num_of_Z (l_prec L) (Z.of_nat (length l)))) | _ => pyerr end.
(** [sorted(l, key = value)]: stable, by insertion of each element before the first greater one.  Numbers compare with
    [<]; anything else is a TypeError here. *)
Definition num_of (r : result) : option number := match rval r with VNum n => Some n | _ => None end.
Fixpoint insert_by {A} (lt : A -> A -> bool) (x : A) (l : list A) : list A :=
  match l with [] => [x] | y :: r => if lt x y then x :: l else y :: insert_by lt x r end.
Definition sort_by {A} (lt : A -> A -> bool) (l : list A) : list A := fold_left (fun acc x => insert_by lt x acc) l [].
Definition value_lt (p : Z) (a b : result) : bool :=
  match num_of a, num_of b with Some x, Some y => num_ltb p x y | _, _ => false end.
Definition all_nums (l : list result) : bool := forallb (fun r => match num_of r with Some _ => true | None => false end) l.
Definition fn_sort (L : lib) : impl := fun _ vs _ _ _ =>
  match vs with
  | [VList l] => if all_nums l then unitless (VList (sort_by (value_lt (l_prec L)) l)) else pyerr
  | _ => pyerr
  end.
Definition fn_reverse : impl := fun _ vs _ _ _ => match vs with [VList l] => just (VList (rev l)) | _ => pyerr end.

(** * Statistics (numerical/statisticalfunctions.py:97-119): sum, min and max *)
Fixpoint sum_from (p : Z) (acc : number) (l : list result) : option number :=
  match l with
  | [] => Some acc
  | r :: t => match num_of r with Some n => match num_add p acc n with Some a => sum_from p a t | None => None end | None => None end
  end.
Definition fn_sum (L : lib) : impl := fun _ vs _ _ _ =>
  match vs with [VList l] => let* r := pym (sum_from (l_prec L) (num_of_Z (l_prec L) 0) l) in just (VNum r) | _ => pyerr end.
(** [min]/[max] keep the first of equal ones; the original value and unit are those before conversion *)
Fixpoint pick_from (better : result -> result -> bool) (best : result) (l : list result) : result :=
  match l with [] => best | x :: r => pick_from better (if better x best then x else best) r end.
Definition fn_pick (L : lib) (better : result -> result -> bool) : impl := fun _ vs _ _ _ =>
  match vs with
  | [VList (x :: l)] =>
    if all_nums (x :: l) then
      match pick_from better x l with
      | Res _ _ f (Some (v, u)) => ret (mkOR v (Some u) (Some f))
      | _ => pyerr                  (* no attribute original_value *)
      end
    else pyerr
  | _ => pyerr
  end.

(** The decimals of the elements *)
Fixpoint decimals (p : Z) (l : list result) : option (list Q) :=
  match l with
  | [] => Some []
  | r :: t => match num_of r, decimals p t with Some n, Some d => Some (to_decimal p n :: d) | _, _ => None end
  end.
(** [statistics.mean] of decimals: the exact sum and quotient, rounded once *)
Definition stat_mean (p : Z) (d : list Q) : option Q :=
  match d with [] => None | _ => Some (ddiv p (fold_right Qplus 0%Q d) (inject_Z (Z.of_nat (length d)))) end.
(** [statistics.median]: of an even number of them half the sum of the middle two *)
Definition qltb (a b : Q) : bool := negb (Qle_bool b a).
Definition stat_median (p : Z) (d : list Q) : option Q :=
  let s := sort_by qltb d in
  let n := length d in
  let at_ i := nth i s 0%Q in
  if n =? 0 then None
  else if Nat.odd n then Some (at_ (n / 2)) else Some (ddiv p (dadd p (at_ (n / 2 - 1)) (at_ (n / 2))) 2%Q).
(** [statistics.mode]: the first of those that occur most often *)
Definition occurs (x : Q) (d : list Q) : nat := length (filter (Qeq_bool x) d).
Definition stat_mode (p : Z) (d : list Q) : option Q :=
  match d with
  | [] => None
  | x :: r => Some (fold_left (fun best y => if occurs best d <? occurs y d then y else best) r x)
  end.
Definition fn_stat (L : lib) (f : Z -> list Q -> option Q) : impl := fun _ vs _ _ _ =>
  let p := l_prec L in
  match vs with
  | [VList l] => let* d := pym (decimals p l) in let* x := pym (f p d) in
                 let* n := pym (num_make p None x 1%Q) in just (VNum n)
  | _ => pyerr
  end.

(** * Representations (numericalrepresentation.py:52-62; arbitrarybasenumbers.py:58-59; booleans.py:205-222) *)
Definition s_repr : str := $"numericalrepresentation".
(** What [convert_to] of the number types does; an arbitrary base and the booleans have no such method *)
Definition representations : list (str * option (option cast)) :=
  [($"decimal", Some None); ($"binary", Some (Some CBin)); ($"octal", Some (Some COct)); ($"hexadecimal", Some (Some CHex));
   ($"arbitrarybase", None); ($"scientific", Some (Some CExp)); ($"percentage", Some (Some CPct)); ($"boolean", None)].
Definition op_as : impl := fun _ vs us _ _ =>
  match vs, us with
  | [VNum a; VStr t], [u; _] =>
    match assoc t representations with
    | None => calc_err
    | Some None => pyerr
    | Some (Some c) => match u with Some _ => with_unit u (VNum (convert_to c a)) | None => just (VNum (convert_to c a)) end
    end
  | _, _ => pyerr
  end.
(** [base]: a text *)
Definition fn_base (L : lib) : impl := fun _ vs _ _ _ =>
  let F := l_fmt L in
  match vs with
  | [VNum a; VNum b] =>
    let* t := lift (arb_to_string (f_prec F) (f_places F) (f_pow F) (num_to_string F) a (num_int (f_prec F) b)) in just (VStr t)
  | _ => pyerr
  end.

(** * Texts (strings/strings.py:82-86, stringcomparison.py, stringfunctions.py, stringarrayfunctions.py) *)
Definition fn_text1 (L : lib) (f : str -> M opres) : impl := fun _ vs _ _ _ =>
  match vs with [v] => let* s := lift (string_of L v) in f s | _ => pyerr end.
Definition fn_text2 (L : lib) (f : str -> str -> M opres) : impl := fun _ vs _ _ _ =>
  match vs with [v; w] => let* s := lift (string_of L v) in let* t := lift (string_of L w) in f s t | _ => pyerr end.
(** python compares texts by code points *)
Fixpoint str_ltb (a b : str) : bool :=
  match a, b with
  | _, [] => false
  | [], _ => true
  | c :: a', d :: b' => (code c <? code d)%Z || ((code c =? code d)%Z && str_ltb a' b')
  end.
Definition op_text_cmp (L : lib) (prep : str -> str) (f : str -> str -> bool) : impl :=
  fn_text2 L (fun s t => just (VBool (f (prep s) (prep t)))).
Fixpoint times {A} (n : nat) (l : list A) : list A := match n with O => [] | S k => l ++ times k l end.
Definition op_text_mult (L : lib) : impl := fun _ vs _ _ _ =>
  match vs with
  | [v; VNum n] => let* s := lift (string_of L v) in just (VStr (times (Z.to_nat (num_int (l_prec L) n)) s))
  | _ => pyerr
  end.
(** [str.split(d)] for a non-empty [d]: the parts between the occurrences found from left to right.  [skip] counts down the
    rest of an occurrence. *)
Fixpoint split_at (d s cur : str) (skip : nat) : list str :=
  match s with
  | [] => [cur]
  | c :: r =>
    match skip with
    | S k => split_at d r cur k
    | O => if prefixb d s then cur :: split_at d r [] (length d - 1) else split_at d r (cur ++ [c]) 0
    end
  end.
Definition py_split (s d : str) : option (list str) := match d with [] => None | _ => Some (split_at d s [] 0) end.
Definition fn_split (L : lib) : impl :=
  fn_text2 L (fun s d => let* l := pym (py_split s d) in just (VList (map (fun t => mkRes (VStr t) None None) l))).
Fixpoint texts (L : lib) (l : list result) : out (list str) :=
  match l with [] => Ok [] | r :: t => do s <- string_of L (rval r); do l' <- texts L t; Ok (s :: l') end.
(** [delimiter.join(values)]: the delimiter must be a text itself (vals[1] is not converted) *)
Definition fn_join (L : lib) : impl := fun _ vs _ _ _ =>
  match vs with
  | [VList l] => let* ts := lift (texts L l) in just (VStr (sjoin [] ts))
  | [VList l; d] => let* ts := lift (texts L l) in
                    match d with VStr d' => just (VStr (sjoin d' ts)) | _ => pyerr end
  | _ => pyerr
  end.
(** lstrip, rstrip and strip take a set of characters *)
Fixpoint lstrip_set (cs s : str) : str :=
  match s with c :: r => if existsb (ceq c) cs then lstrip_set cs r else s | [] => [] end.
Definition rstrip_set (cs s : str) : str := rev (lstrip_set cs (rev s)).
(** [str.replace], also of an empty text: then between all the characters *)
Definition py_replace (s a b : str) : str :=
  match a with
  | [] => b ++ concat (map (fun c => c :: b) s)
  | _ => sjoin b (split_at a s [] 0)
  end.
Definition fn_replace (L : lib) : impl := fun _ vs _ _ _ =>
  match vs with
  | [u; v; w] => let* s := lift (string_of L u) in let* a := lift (string_of L v) in let* b := lift (string_of L w) in
                 just (VStr (py_replace s a b))
  | _ => pyerr
  end.
(** python's slices [s[i:j]] *)
Definition slice_pos (len : nat) (i : Z) : nat :=
  if (0 <=? i)%Z then Nat.min len (Z.to_nat i) else Z.to_nat (Z.of_nat len + i).
Definition py_slice (s : str) (i : Z) (j : option Z) : str :=
  let a := slice_pos (length s) i in
  let b := match j with Some j => slice_pos (length s) j | None => length s end in
  firstn (b - a) (skipn a s).
(** [substr] (118-128); with an end [len(vals[0])] is a TypeError unless the first input is a text or array *)
Definition fn_substr (L : lib) : impl := fun _ vs _ _ _ =>
  let p := l_prec L in
  match vs with
  | [v; VNum a] => let* s := lift (string_of L v) in just (VStr (py_slice s (num_int p a) None))
  | [v; VNum a; VNum b] =>
    let e := (num_int p b + 1)%Z in
    let* e := if (e <=? 0)%Z then match v with
                                  | VStr t => ret (e + Z.of_nat (length t))%Z
                                  | VList l => ret (e + Z.of_nat (length l))%Z
                                  | _ => pyerr
                                  end else ret e in
    let* s := lift (string_of L v) in
    just (VStr (py_slice s (num_int p a) (Some e)))
  | _ => pyerr
  end.
Definition zofind (s t : str) : Z := match sfind t s with Some i => Z.of_nat i | None => (-1)%Z end.

(** * The operators by precedence (layout.py:38-55), without those for units, dates, lists of texts and regular expressions *)
Definition op2 (L : lib) (sym : str) (t : typ) (f : impl) : str * operator := infix sym (odef sym 2 (all_are t) false false true false f).
Definition std_levels (L : lib) : list level :=
  let cmp sym f := op2 L sym tynum (op_compare L f) in
  let txt sym prep f := op2 L sym tystr (op_text_cmp L prep f) in
  let same (s : str) := s in
  let bits sym f := op2 L sym tynum (op_bits L f) in
  let bool2 sym f := infix sym (odef sym 2 (each_is 0 [[tybool]; [tybool; ty ($"exception")]]) false false true true f) in
  let assign sym f := infix sym (odef sym 2 (each_is 0 [[tyvar]; [None; tyarr]]) false false false false f) in
  let assign_op sym op := infix sym (odef sym 2 (each_is 0 [[tyvar]; [tynum]]) false false false false (op_assign_op op)) in
  let incr sym op := (sym, mkOper [None] [] false (odef sym 1 (each_is 0 [[tyvar]]) false false true false (op_increment L op))) in
  let prefix sym t f := (sym, mkOper [] [None] true (odef sym 1 (all_are t) false false true false f)) in
  let scale sym f := infix sym (odef sym 2 (each_is 0 [[tynum; ty ($"unit")]; [tynum; ty ($"unit")]]) true true true false f) in
  let add sym f := infix sym (odef sym 2 (all_are tynum) true false true false f) in
  [ [infix ($"^") (odef ($"^") 2 (each_is 0 [[tynum; ty ($"unit")]; [tynum]]) false false false false (op_power L))];
    [prefix ($"not") tybool op_not;
     ($"~", mkOper [] [None] true (mkOp ($"operator ~") (Some 1) (Some 1) (all_are tynum) [] false false true false false true (op_bit_not L)))];
    [infix ($"IMPLICIT_MULTIPLY") (odef ($"IMPLICIT_MULTIPLY") 2 (all_are tynum) true true true false (op_multiply L))];
    [scale ($"*") (op_multiply L); scale ($"/") (op_divide L); op2 L ($"%") tynum (op_num2 L num_mod);
     infix ($"*$") (odef ($"*$") 2 (each_is 0 [[tystr]; [tynum]]) false false true false (op_text_mult L));
     op2 L ($"\") tynum (op_int_divide L)];
    [add ($"+") (op_num2 L num_add); add ($"-") (op_num2 L num_sub); op2 L ($"+$") tystr (fn_text2 L (fun s t => just (VStr (s ++ t))))];
    [op2 L ($"<<") tynum (op_shift L Z.shiftl); op2 L ($">>") tynum (op_shift L Z.shiftr)];
    [cmp ($"<") num_ltb; cmp ($">") (fun p a b => num_ltb p b a); cmp ($"<=") num_leb; cmp ($">=") (fun p a b => num_leb p b a);
     txt ($"<$") same str_ltb; txt ($">$") same (fun s t => str_ltb t s);
     txt ($"<=$") same (fun s t => negb (str_ltb t s)); txt ($">=$") same (fun s t => negb (str_ltb s t));
     txt ($"<~") lower str_ltb; txt ($">~") lower (fun s t => str_ltb t s);
     txt ($"<=~") lower (fun s t => negb (str_ltb t s)); txt ($">=~") lower (fun s t => negb (str_ltb s t))];
    [cmp ($"==") num_eqb; cmp ($"!=") (fun p a b => negb (num_eqb p a b));
     txt ($"==$") same seq_eqb; txt ($"!=$") same (fun s t => negb (seq_eqb s t));
     txt ($"==~") lower seq_eqb; txt ($"!=~") lower (fun s t => negb (seq_eqb s t))];
    [bits ($"&") Z.land];
    [bits ($"|") Z.lor; bits ($"^^") Z.lxor];
    [bool2 ($"and") op_and; bool2 ($"or") op_or; bool2 ($"xor") op_xor];
    [($"then", mkOper [None] [None; Some ($"else"); None] false
        (odef ($"then") 3 (each_is 0 [[tybool]; []; []]) false false false true op_then))];
    [infix ($"as") (no_result (odef ($"as") 2 (each_is 0 [[tynum]; [ty s_repr]]) false false true false op_as))];
    [assign ($"=") op_assign; incr ($"++") ($"+"); incr ($"--") ($"-");
     assign_op ($"+=") ($"+"); assign_op ($"-=") ($"-"); assign_op ($"*=") ($"*"); assign_op ($"/=") ($"/");
     assign_op ($"^=") ($"^"); assign_op ($"%=") ($"%"); assign_op ($"\=") ($"\"); assign ($"||=") op_assign_if_empty] ].
Definition std_table (L : lib) : optable := mkTab (std_levels L) None None None (Some ($"/")) (Some ($"IMPLICIT_MULTIPLY")).

(** * The functions *)
Definition std_funcs (L : lib) : list (str * opdef) :=
  let num1 := all_are tynum in
  let nr (x : str * opdef) := (fst x, no_result (snd x)) in
  let nn (x : str * opdef) := (fst x, no_norm (snd x)) in
  [ fdef ($"abs") 1 1 num1 (fn_abs L);
    nn (fdef ($"floor") 1 2 num1 (fn_rounding L (fun p x => Some (num_floor p x))));
    nn (fdef ($"ceil") 1 2 num1 (fn_rounding L (fun p x => Some (num_ceil p x))));
    nn (fdef ($"round") 1 2 num1 (fn_rounding L num_round));
    fdef ($"fact") 1 1 num1 (fn_fact L);
    fdef ($"lcm") 2 2 num1 (fn_ints L Z.lcm);
    fdef ($"gcd") 2 2 num1 (fn_ints L Z.gcd);
    nr (fdef ($"dec") 1 1 num1 (fn_convert None));
    nr (fdef ($"bin") 1 1 num1 (fn_convert (Some CBin)));
    nr (fdef ($"oct") 1 1 num1 (fn_convert (Some COct)));
    nr (fdef ($"hex") 1 1 num1 (fn_convert (Some CHex)));
    nn (nr (fdef ($"scientific") 1 2 num1 (fn_scientific L)));
    fdef ($"concat") 2 2 (all_are tyarr) fn_concat;
    fdef ($"element") 2 2 (each_is 0 [[tyarr]; [tynum]]) (fn_element L);
    fdef ($"filter") 2 2 (each_is 0 [[tyarr]; [arr_of ($"boolean")]]) fn_filter;
    fdef ($"count") 1 1 (all_are tyarr) (fn_count L);
    fdef ($"sort") 1 1 (all_are (arr_of ($"number"))) (fn_sort L);
    fdef ($"reverse") 1 1 (all_are tyarr) fn_reverse;
    fdef ($"sum") 1 1 (all_are (arr_of ($"number"))) (fn_sum L);
    fdef ($"mean") 1 1 (all_are (arr_of ($"number"))) (fn_stat L stat_mean);
    fdef ($"median") 1 1 (all_are (arr_of ($"number"))) (fn_stat L stat_median);
    fdef ($"mode") 1 1 (all_are (arr_of ($"number"))) (fn_stat L stat_mode);
    nr (fdef ($"base") 2 2 num1 (fn_base L));
    fdef ($"min") 1 1 (all_are (arr_of ($"number"))) (fn_pick L (value_lt (l_prec L)));
    fdef ($"max") 1 1 (all_are (arr_of ($"number"))) (fn_pick L (fun a b => value_lt (l_prec L) b a));
    fdef ($"length") 1 1 (all_are tystr) (fn_text1 L (fun s => just (VNum (num_of_Z (l_prec L) (Z.of_nat (length s))))));
    fdef ($"lower") 1 1 (all_are tystr) (fn_text1 L (fun s => just (VStr (lower s))));
    fdef ($"upper") 1 1 (all_are tystr) (fn_text1 L (fun s => just (VStr (upper s))));
    fdef ($"lstrip") 2 2 (all_are tystr) (fun h vs us rs stl =>
      match vs with [_; VStr _] => fn_text2 L (fun s c => just (VStr (lstrip_set c s))) h vs us rs stl | _ => pyerr end);
    fdef ($"rstrip") 2 2 (all_are tystr) (fn_text2 L (fun s c => just (VStr (rstrip_set c s))));
    fdef ($"strip") 2 2 (all_are tystr) (fn_text2 L (fun s c => just (VStr (rstrip_set c (lstrip_set c s)))));
    fdef ($"find") 2 2 (all_are tystr) (fn_text2 L (fun s t => just (VNum (num_of_Z (l_prec L) (zofind s t)))));
    fdef ($"replace") 3 3 (all_are tystr) (fn_replace L);
    fdef ($"substr") 2 3 [mkRestr 0 (Some 0) [tystr]; mkRestr 1 (Some 2) [tynum]] (fn_substr L);
    fdef ($"split") 2 2 (all_are tystr) (fn_split L);
    fdef ($"join") 1 2 (each_is 0 [[arr_of ($"string")]; [tystr]]) (fn_join L);
    fdef ($"reset") 0 0 [] fn_reset;
    fdef ($"delete") 1 1 [] fn_delete ].

(** * The literals, in the order of layout.py:4-15 *)
Definition lex_with (s : str) (m : option (str * str)) (f : str -> out number) : out (option (nat * lit)) :=
  match m with Some (t, _) => do n <- f t; Ok (Some (length t, LNum n)) | None => Ok None end.
(** [(true|false)(\W|$)], ignoring case (booleans.py:141-149) *)
Definition lex_bool (s : str) : out (option (nat * lit)) :=
  let word w := prefixb w (lower s) && match skipn (length w) s with [] => true | c :: _ => negb (is_word c) end in
  Ok (if word ($"true") then Some (4, LBool true) else if word ($"false") then Some (5, LBool false) else None).
(** An arbitrary base literal that is none (arbitrarybasenumbers.py:55-66): [parse_arb] gives None *)
Definition lex_arb (F : fmt) (s : str) : out (option (nat * lit)) :=
  match match_arb s with
  | Some (t, _) => do r <- parse_arb (f_prec F) (f_pow F) t;
                   Ok (match r with Some n => Some (length t, LNum n) | None => None end)
  | None => Ok None
  end.
Definition lex_exp (F : fmt) (s : str) : out (option (nat * lit)) :=
  match match_exp (f_sym F) s with
  | Some (l, e, r) => do n <- exp_value F l e; Ok (Some (length s - length r, LNum n))
  | None => Ok None
  end.
Definition lex_pct (F : fmt) (s : str) : out (option (nat * lit)) :=
  match match_pct s with Some (l, r) => do n <- pct_value F l; Ok (Some (length s - length r, LNum n)) | None => Ok None end.
Definition lex_dec (F : fmt) (s : str) : out (option (nat * lit)) :=
  match match_number s with
  | Some (l, r) => do n <- py_opt (number_of_lit (f_prec F) l); Ok (Some (length s - length r, LNum n))
  | None => Ok None
  end.
(** numericalconstants.py:9-11, 30-32: [Number(t)], so without a [number_cast], unlike [text_number] *)
Definition the_number (L : lib) (t : str) : lit * option eunit :=
  (match match_number t with
   | Some (l, []) => match number_of_lit (l_prec L) l with Some n => LNum n | None => LBool false end
   | _ => LBool false
   end, None).
Definition std_consts (L : lib) : list (str * (lit * option eunit)) :=
  [($"e", the_number L ($"2.71828182845904523536028747135266249775724709369995"));
   ($"pi", the_number L ($"3.14159265358979323846264338327950288419716939937511"));
   ($"tau", the_number L ($"6.28318530717958647692528676655900576839433879875022"))].
Definition std_parsers (L : lib) : list parser :=
  let F := l_fmt L in
  [PTerm [newline]; PSpace; PComment ($"#"); PLit false lex_bool;
   PLit true (fun s => lex_with s (match_bin s) (parse_bin (f_prec F) (f_pow F)));
   PLit true (fun s => lex_with s (match_oct s) (parse_oct (f_prec F) (f_pow F)));
   PLit true (fun s => lex_with s (match_hex s) (parse_hex (f_prec F) (f_pow F)));
   PLit true (lex_arb F); PLit true (lex_exp F); PLit true (lex_pct F); PLit true (lex_dec F);
   POp; PString "'"%char "\"%char; PPtr ($"@"); PFunc (map fst (std_funcs L)); PFuncParam; PFuncEnd;
   PInner; PInnerEnd; PInline; PInlineEnd; PConst (std_consts L); PWord false number_types; PArr; PArrRange; PArrStep; PArrParam; PArrEnd; PVar].
Definition std_arr : asyms := mkAS ($"[") ($"..") ($"step") ($",") ($"]").
Definition std_pcfg (L : lib) : pcfg := mkPC (std_parsers L) (std_table L) std_arr true.
(** Without files *)
Definition std (L : lib) : ecfg :=
  mkG (l_prec L) (std_env L) (std_pcfg L) (std_funcs L) true false (fun _ => None) (fun _ => Calc) Ok.
