(** The calculator with units: [UnitNormaliser.normalise_inputs], [check_unit_dimensions], [simplify_units]
    (services/unitnormaliser.py), the operators, validators and parser of features/units/units.py, the functions of
    features/units/unitfunctions.py, features/units/systems.py, [finalize] (engine.py:324-337).

    Simplifications, for this file:
    - the value of a Number is its exact rational for conversions (Units.v); the result of a conversion is the rational in
      lowest terms with the number format of the input.  The code computes with decimals of a given precision;
    - that unit objects are shared is not modelled: [to] sets the attribute no_simplify on the object it returns, which may
      be that of a variable or unit item;
    - [finalize] changes the elements of an array in place, so simplifying the answer also simplifies an array that a variable
      holds; here the variable keeps its elements as they were;
    - a power that is no integer is [Py] (see Units.v). *)
From Coq Require Import ZArith QArith Qabs Qpower Qround Ascii String List Bool Lia.
From Verif Require Import Base Dec Num Lex Bases Formats Units UnitReg Syntax Pos Call Loop Parse Exec Std.
Import ListNotations.
Open Scope nat_scope.

(** [u_closer a b]: [get_closeness(a) < get_closeness(b)] (298-302), computed with floats in the code. *)
Record ucfg := mkU { u_lib : lib; u_norm : normaliser; u_syms : bool; u_simplify : bool; u_closer : Q -> Q -> bool }.
Definition u_rels (U : ucfg) : rels := n_rels (u_norm U).

(** * Numbers and rationals *)
Definition num_q (n : number) : Q := (inject_Z (nnum n) / inject_Z (nden n))%Q.
Definition of_q (n : number) (q : Q) : number :=
  if Qeq_bool q (num_q n) then n else mkNum (Qnum (Qred q)) (Zpos (Qden (Qred q))) (ncast n) None.

(** * [normalise_inputs] (141-158) *)
(** [unit_conversion] with values and units of the calculator: the unit returned is the one given, or the target *)
Definition ulist_of (u : option eunit) : option upl := option_map eu_list u.
Definition same_unit (a b : option eunit) : bool :=
  match a, b with None, None => true | Some x, Some y => upl_eqb (eu_list x) (eu_list y) | _, _ => false end.
Definition convert_value (rel : rels) (v : value) (from to : option eunit) (relative : bool) : out (value * option eunit) :=
  if same_unit from to then Ok (v, from)
  else match v with
       | VNum n => do r <- unit_conversion rel (num_q n) (ulist_of from) (ulist_of to) relative; Ok (VNum (of_q n (fst r)), to)
       | _ => do _ <- unit_conversion rel 0%Q (ulist_of from) (ulist_of to) relative; Py
       end.
Fixpoint convert_rest (rel : rels) (vs : list value) (us : list (option eunit)) (to : option eunit) (relative : bool)
  : out (list value * list (option eunit)) :=
  match vs, us with
  | v :: vs', u :: us' =>
    do x <- convert_value rel v u to relative;
    do r <- convert_rest rel vs' us' to relative;
    Ok (fst x :: fst r, snd x :: snd r)
  | _, [] => Ok (vs, [])
  | [], _ => Py
  end.
(** One step of the loop for several units (150-153): the first operand keeps value and unit.  [check_empty] may leave no
    unit, then [copy()] fails. *)
Definition normalise_pair (rel : rels) (u1 : upl) (v2 : value) (u2 : eunit) (relative : bool) : out (value * option eunit) :=
  match v2 with
  | VNum n =>
    do x <- normalise_from_left rel u1 (num_q n) (eu_list u2) relative;
    if is_nil (snd x) then Py
    else
      do y <- normalise_from_right rel u1 (fst x) (snd x) relative;
      Ok (VNum (of_q n (fst y)), if is_nil (snd y) then None else Some (mkEU (snd y) (eu_nosimp u2)))
  | _ => Py
  end.
(** The inner loop, for one operand and those after it *)
Fixpoint normalise_after (rel : rels) (u1 : option eunit) (vs : list value) (us : list (option eunit)) (relative : bool)
  : out (list value * list (option eunit)) :=
  match vs, us with
  | v :: vs', u :: us' =>
    do x <- (match u1, u with
             | Some a, Some b => if is_nil (eu_list a) then Py else normalise_pair rel (eu_list a) v b relative
             | _, _ => Ok (v, u)
             end);
    do r <- normalise_after rel u1 vs' us' relative;
    Ok (fst x :: fst r, snd x :: snd r)
  | [], _ => Ok ([], us)
  | _, [] => Py
  end.
(** The outer loop goes from the last but one operand to the first *)
Fixpoint normalise_all (rel : rels) (vs : list value) (us : list (option eunit)) (relative : bool)
  : out (list value * list (option eunit)) :=
  match vs, us with
  | v :: vs', u :: us' =>
    do r <- normalise_all rel vs' us' relative;
    do r <- normalise_after rel u (fst r) (snd r) relative;
    Ok (v :: fst r, u :: snd r)
  | [], _ => Ok ([], us)
  | _, [] => Py
  end.
Fixpoint first_unit (us : list (option eunit)) : option eunit :=
  match us with [] => None | Some u :: _ => Some u | None :: r => first_unit r end.
Definition normalise_inputs (rel : rels) (vs : list value) (us : list (option eunit)) (multi relative : bool)
  : out (list value * list (option eunit) * option eunit) :=
  match first_unit us with
  | None => Ok (vs, us, None)
  | Some f =>
    let ru := if multi then None else Some f in
    if 1 <? length vs then
      if multi then do r <- normalise_all rel vs us relative; Ok (r, ru)
      else match vs, us with
           | v :: vs', u :: us' => do r <- convert_rest rel vs' us' u relative; Ok (v :: fst r, u :: snd r, ru)
           | _, _ => Py
           end
    else Ok (vs, us, ru)
  end.

(** [check_unit_dimensions] (404-407): the dimensions in the order they come up, against those declared, in their order *)
Fixpoint dims_eqb (a b : dlist) : bool :=
  match a, b with
  | [], [] => true
  | (d, p) :: a', (e, q) :: b' => seq_eqb d e && (p =? q)%Z && dims_eqb a' b'
  | _, _ => false
  end.
Definition check_dims (N : normaliser) (u : option eunit) (ds : list (str * Z)) : out bool :=
  if forallb (fun e => mem_str (fst e) (n_dims N)) ds
  then Ok (match u with None => false | Some x => dims_eqb (unit_dims (n_rels N) (eu_list x)) ds end)
  else Py.

(** * [simplify_units] (194-263) *)
Inductive target := TUnit (c : cand) | TMulti (m : upl).
Definition target_systems (t : target) : list str :=
  match t with TUnit c => usystems (c_unit c) ++ c_relevant c | TMulti m => flat_map (fun e => usystems (fst e)) m end.
(** The candidates for a dimension (208-213) *)
Definition targets (N : normaliser) (dim : str) : list target :=
  match assoc dim (n_units N) with Some l => map TUnit l | None => [] end ++
  match assoc dim (n_multis N) with Some l => map TMulti l | None => [] end.
(** The number of dimensions in a list of units (221, 234) *)
Definition dim_count (rel : rels) (l : upl) : nat := length (flat_map (fun e => norm_dim rel (udim (fst e))) l).
(** Whether a candidate is passed over (223-235).  simplify_allow_prefixed_units is true. *)
Definition usable (rel : rels) (systems : list str) (count : nat) (t : target) : bool :=
  match t with TUnit c => c_condense c | TMulti _ => true end &&
  existsb (fun s => mem_str s systems) (target_systems t) &&
  match t with TUnit _ => true | TMulti m => dim_count rel m <? count end.
Definition tconvert (t : target) (v : Q) (power : Z) : out Q :=
  match t with TUnit c => uconvert (c_unit c) v power false | TMulti m => lconvert m v power false end.
Fixpoint convert_found (found : upl) (v : Q) (m : Z) : out Q :=
  match found with [] => Ok v | (u, q) :: r => do x <- uconvert u v (- (q * m))%Z false; convert_found r x m end.
(** [abs(log10 a) < abs(log10 b)] for positive scales, exact *)
Definition away (a : Q) : Q := if Qle_bool 1 a then a else Qinv a.
Definition nearer_one (a b : Q) : bool := negb (Qle_bool (away b) (away a)).
(** The choice among the candidates (218-252): the unit and the value it would give.  [Py]: a multiunit has no unitscale. *)
Fixpoint choose (U : ucfg) (v : Q) (found : upl) (m power : Z) (ts : list target) (best : option (target * Q)) : out (option (target * Q)) :=
  match ts with
  | [] => Ok best
  | t :: r =>
    do best' <- (if Qeq_bool v 0 then
                   match best, t with
                   | None, _ => Ok (Some (t, v))
                   | Some (TUnit b, _), TUnit c =>
                     Ok (if nearer_one (uscale (c_unit c)) (uscale (c_unit b)) then Some (t, v) else best)
                   | Some _, _ => Py
                   end
                 else
                   do x <- convert_found found v m;
                   do x <- tconvert t x (power * m)%Z;
                   match best with
                   | None => Ok (Some (t, x))
                   | Some (_, y) => Ok (if u_closer U x y then Some (t, x) else best)
                   end);
    choose U v found m power r best'
  end.
(** [min] of the powers in the unit over those found (219) *)
Fixpoint power_ratio (l found : upl) : out (option Q) :=
  match found with
  | [] => Ok None
  | (u, q) :: r =>
    match pl_find ueqb u l with
    | None => Py
    | Some p => do m <- power_ratio l r;
                let x := (inject_Z p / inject_Z q)%Q in
                Ok (match m with None => Some x | Some y => Some (if Qle_bool x y then x else y) end)
    end
  end.
Definition mult_power (l found : upl) : out Q :=
  do m <- power_ratio l found; match m with None => Py | Some x => Ok x end.
(** Powers are integers here: [Py] stands for the others when they are needed *)
Definition whole (x : Q) : out Z := if (Qnum x mod Zpos (Qden x) =? 0)%Z then Ok (Qfloor x) else Py.
Fixpoint remove_found (found : upl) (m : Z) (v : Q) (l : upl) : out (Q * upl) :=
  match found with
  | [] => Ok (v, l)
  | (u, q) :: r => do x <- removeandconvert l v u (q * m)%Z false; remove_found r m (fst x) (snd x)
  end.
Definition tlist (t : target) : upl := match t with TUnit c => ulist (c_unit c) | TMulti m => m end.
Definition add_target (t : target) (power : Z) (v : Q) (l : upl) : out (Q * upl) :=
  do x <- tconvert t v power; Ok (x, addall l (tlist t) power).
(** The combinations found for one goal (216-257): the first that can be replaced *)
Fixpoint try_found (U : ucfg) (systems : list str) (ts : list target) (power : Z) (founds : list upl) (v : Q) (l : upl) : out (option (Q * upl)) :=
  match founds with
  | [] => Ok None
  | f :: r =>
    do m <- mult_power l f;
    let single := match l with [(_, q)] => (q <? 0)%Z && Qeq_bool (inject_Z q) (- (inject_Z power * m)) | _ => false end in
    let ts' := filter (usable (u_rels U) systems (dim_count (u_rels U) f)) ts in
    if ((1 <? length f) || single) && negb (is_nil ts') then
      do m <- whole m;
      do b <- choose U v f m power ts' None;
      match b with
      | Some (t, _) => do x <- remove_found f m v l; do y <- add_target t (power * m)%Z (fst x) (snd x); Ok (Some y)
      | None => try_found U systems ts power r v l
      end
    else try_found U systems ts power r v l
  end.
(** The goals with what was found for them (205-259) *)
Fixpoint try_goals (U : ucfg) (systems : list str) (gs : list (str * Z * list upl)) (v : Q) (l : upl) : out (option (Q * upl)) :=
  match gs with
  | [] => Ok None
  | (dim, power, founds) :: r =>
    do x <- try_found U systems (targets (u_norm U) dim) power founds v l;
    match x with Some y => Ok (Some y) | None => try_goals U systems r v l end
  end.
(** The [while] loop (201-261); [Py] also for running out of fuel *)
Definition goal_dims (N : normaliser) : list (str * Z) := flat_map (fun e => [(fst e, 1%Z); (fst e, (-1)%Z)]) (n_units N).
Fixpoint simplify_loop (fuel : nat) (U : ucfg) (v : Q) (l : upl) : out (Q * upl) :=
  match fuel with
  | O => Py
  | S k =>
    let N := u_norm U in
    let gs := goal_dims N in
    let us := subunits (n_rels N) l in
    do found <- find_units (map (fun g => pl_multiply (snd g) (norm_dim (n_rels N) (fst g))) gs) us;
    do x <- try_goals U (flat_map (fun e => usystems (fst e)) l) (combine gs found) v l;
    match x with Some y => simplify_loop k U (fst y) (snd y) | None => Ok (v, l) end
  end.
Definition simplify_fuel : nat := 100.
Definition simplify (U : ucfg) (v : Q) (l : upl) : out (Q * upl) :=
  let go := match l with [] => false | [(_, q)] => (q <? 0)%Z | _ => true end in
  do x <- (if go then simplify_loop simplify_fuel U v l else Ok (v, l));
  dedupe (fst x) (snd x).
(** On a value with a unit; [simplify_units] returns [check_empty()] and the copy keeps no_simplify *)
Definition simplify_value (U : ucfg) (v : value) (u : eunit) : out (value * option eunit) :=
  match v with
  | VNum n => do x <- simplify U (num_q n) (eu_list u);
              Ok (VNum (of_q n (fst x)), if is_nil (snd x) then None else Some (mkEU (snd x) (eu_nosimp u)))
  | _ => Py
  end.

(** [finalize] (engine.py:324-337), without finalizers *)
Fixpoint finalize (U : ucfg) (r : result) : out result :=
  match r with
  | Res v u f o =>
    match v with
    | VList l =>
      do l' <- (fix all (l : list result) : out (list result) :=
                  match l with [] => Ok [] | x :: t => do y <- finalize U x; do z <- all t; Ok (y :: z) end) l;
      Ok (Res (VList l') u f o)
    | _ =>
      match u with
      | Some x => if u_simplify U && negb (eu_nosimp x) then do y <- simplify_value U v x; Ok (Res (fst y) (snd y) f o) else Ok r
      | None => Ok r
      end
    end
  end.

(** * units.py: validators, operators, parser *)
Definition unit_types : list str := [$"unit"; $"number with unit"; $"unitsystem"].
Definition unit_valid (U : ucfg) (t : str) : option (value -> option eunit -> option ref -> option str -> out bool) :=
  if seq_eqb t ($"unit") then Some (fun v _ _ _ => Ok (match v with VUnit _ => true | _ => false end))
  else if seq_eqb t ($"number with unit") then
    Some (fun v u _ _ => Ok (match any_number (l_fmt (u_lib U)) v, u with Ok _, Some _ => true | _, _ => false end))
  else if seq_eqb t ($"unitsystem") then
    Some (fun v _ _ _ => Ok (match v with VStr s => mem_str s (n_systems (u_norm U)) | _ => false end))
  else std_valid (u_lib U) t.
Definition unit_env (U : ucfg) : env :=
  mkEnv (unit_valid U) (any_number (l_fmt (u_lib U))) (Some (normalise_inputs (u_rels U))) (check_dims (u_norm U))
        (fun r => shows (u_lib U) (rval r)).

(** [op_unit_conversion] (115-137) *)
Definition flag_simple (u : option eunit) : option eunit := option_map (fun x => mkEU (eu_list x) true) u.
Definition op_to (U : ucfg) : impl := fun _ vs us _ _ =>
  match vs, us with
  | [v; VUnit y], [a; _] =>
    let '(v, a) := unit_value (l_prec (u_lib U)) v a in
    let* r := lift (convert_value (u_rels U) v a (Some y) false) in
    with_unit (flag_simple (snd r)) (fst r)
  | _, _ => pyerr
  end.
Definition ty_unit : typ := ty ($"unit").
Definition unit_op (U : ucfg) (sym : str) (ts : list restr) (f : impl) : str * operator := infix sym (odef sym 2 ts false false false false f).
Definition unit_levels (U : ucfg) : list level :=
  let L := u_lib U in
  match std_levels L with
  | power :: nots :: rest =>
    power :: nots ::
    [unit_op U ($"UNIT_MULTIPLY") (all_are ty_unit) (op_multiply L); unit_op U ($"UNIT_DIVIDE") (all_are ty_unit) (op_divide L)] ::
    [unit_op U ($"UNIT_ASSIGNMENT") (each_is 0 [[tynum]; [ty_unit]]) (op_multiply L)] ::
    map (fun l => match l with
                  | (s, o) :: more => if seq_eqb s ($"as")
                                      then unit_op U ($"to") (each_is 0 [[ty ($"number with unit"); ty_unit]; [ty_unit]]) (op_to U) :: l else l
                  | [] => []
                  end) rest
  | l => l
  end.
Definition unit_table (U : ucfg) : optable :=
  mkTab (unit_levels U) (Some ($"UNIT_ASSIGNMENT")) (Some ($"UNIT_MULTIPLY")) (Some ($"UNIT_DIVIDE")) (Some ($"/")) (Some ($"IMPLICIT_MULTIPLY")).

(** [unit_char] (112-113): a letter of Latin-1 or an underscore *)
Definition is_letter (c : ascii) : bool :=
  let n := code c in
  is_alpha c || existsb (Z.eqb n) [170; 181; 186]%Z || ((192 <=? n) && (n <=? 255) && negb (n =? 215) && negb (n =? 247))%Z.
Definition unit_char (c : ascii) : bool := is_letter c || ceq c "_"%char.
Definition unit_end (s : str) (n : nat) : bool := match nth_error s n with None => true | Some c => negb (unit_char c) end.
(** [parse_units] (85-110), for the lengths from [n] down *)
Definition the_unit (N : normaliser) (t : str) : out (option (nat * eunit)) :=
  do d <- get_unit (n_prefs N) (n_reg N) t;
  match d with Some (UDef u) => Ok (Some (length t, mkEU (ulist u) false)) | _ => Py end.
Definition bound_in {A} (k : str) (l : list (str * A)) : bool := match assoc k l with Some _ => true | None => false end.
Fixpoint lex_unit (N : normaliser) (syms : bool) (s : str) (n : nat) : out (option (nat * eunit)) :=
  match n with
  | O => Ok None
  | S k =>
    let t := firstn n s in
    if bound_in (lower t) (rnames (n_reg N)) && unit_end s n then the_unit N t
    else if syms && bound_in t (rsyms (n_reg N)) && unit_end s n then the_unit N t
    else lex_unit N syms s k
  end.
Definition parse_units (U : ucfg) (s : str) : out (option (nat * eunit)) :=
  lex_unit (u_norm U) (u_syms U) s (Nat.min (n_maxlen (u_norm U)) (length s)).

(** * unitfunctions.py *)
(** [compact] (97-101) *)
Definition fn_compact (U : ucfg) : impl := fun _ vs us _ _ =>
  match vs, us with
  | [v], [Some u] => let* r := lift (simplify_value U v u) in with_unit (snd r) (fst r)
  | _, _ => pyerr
  end.
(** [get_system] (100-107): the units of a system that are in use, largest first; equal ones keep their order *)
Fixpoint insert_cand (x : cand * Q) (l : list (cand * Q)) : list (cand * Q) :=
  match l with [] => [x] | y :: r => if negb (Qle_bool (snd x) (snd y)) then x :: l else y :: insert_cand x r end.
Fixpoint sized (l : list cand) : out (list (cand * Q)) :=
  match l with [] => Ok [] | c :: r => do x <- uconvert (c_unit c) 1%Q (-1) false; do t <- sized r; Ok ((c, x) :: t) end.
Definition get_system (N : normaliser) (system dim : str) : out (list cand) :=
  let l := match assoc dim (n_units N) with Some l => l | None => [] end in
  do t <- sized (filter (fun c => mem_str system (usystems (c_unit c)) && c_use c) l);
  Ok (map fst (fold_left (fun acc x => insert_cand x acc) t [])).
(** [find_first_unit_prefix_at_least_one] (89-95); [Py]: None cannot be unpacked *)
Definition base_name (c : cand) : str := match c_base c with [] => [] | n :: _ => n end.
Definition same_cand (a b : cand) : bool := ueqb (c_unit a) (c_unit b).
Definition last_cand (l : list cand) : option cand := hd_error (rev l).
Fixpoint first_at_least (base : Q) (all l : list cand) : out (Q * cand) :=
  match l with
  | [] => Py
  | c :: r =>
    do x <- uconvert (c_unit c) base 1 false;
    if Qle_bool 1 x || match last_cand all with Some z => same_cand c z | None => false end then Ok (x, c) else first_at_least base all r
  end.
Definition prefix_at_least_one (num : Q) (c : cand) (all : list cand) : out (Q * cand) :=
  do b <- uconvert (c_unit c) num (-1) false;
  first_at_least b all (filter (fun x => seq_eqb (base_name x) (base_name c)) all).
(** The loop (62-85): the parts, as number and unit.  [num] is in the unit [from]. *)
Fixpoint format_loop (all : list cand) (todo : list cand) (num : Q) (from : upl) : out (list (Q * cand)) :=
  match todo with
  | [] => Ok []
  | c :: r =>
    do x <- lconvert from num (-1) false;
    do x <- uconvert (c_unit c) x 1 false;
    if is_nil r then
      do p <- prefix_at_least_one x c all;
      Ok (if Qeq_bool (fst p) 0 then [] else [p])
    else if Qle_bool 1 x then
      do p <- prefix_at_least_one (inject_Z (Qfloor x)) c all;
      do y <- (if same_cand (snd p) c then Ok (x - fst p)%Q
               else do y <- uconvert (c_unit c) x (-1) false; do y <- uconvert (c_unit (snd p)) y 1 false; Ok (y - fst p)%Q);
      do ps <- format_loop all r y (ulist (c_unit (snd p)));
      Ok (if Qeq_bool (fst p) 0 then ps else p :: ps)
    else format_loop all r x (ulist (c_unit c))
  end.
(** [func_format] (45-60): the parts *)
Definition format_parts (U : ucfg) (v : Q) (u : upl) (system : option str) : out (list (Q * cand)) :=
  let N := u_norm U in
  do x <- simplify U v u;
  match snd x with
  | [(s, q)] =>
    if (q =? 1)%Z then
      do sys <- (match system with
                 | Some y => Ok y
                 | None => if is_nil (usystems s) then Calc
                           else match preferred_system (n_prefs N) (usystems s) with Some y => Ok y | None => Calc end
                 end);
      do all <- get_system N sys (udim s);
      if is_nil all then Calc
      else format_loop all (filter (fun c => match c_prefix c with None => true | Some _ => false end) all) (fst x) (snd x)
    else Calc
  | _ => Calc
  end.
(** [get_name] (units.py:26-37) and the text (86-87, 83) *)
Definition name_for (one : bool) (u : unit) : out str :=
  match unames u with
  | p :: s :: _ => Ok (if one then s else p)
  | [p] => if one then Py else Ok p
  | [] => Py
  end.
Fixpoint part_texts (L : lib) (c : option cast) (ps : list (Q * cand)) : out (list str) :=
  match ps with
  | [] => Ok []
  | (x, u) :: r =>
    do t <- num_to_string (l_fmt L) (mkNum (Qnum (Qred x)) (Zpos (Qden (Qred x))) c None);
    do n <- name_for (Qeq_bool x 1) (c_unit u);
    do ts <- part_texts L c r;
    Ok ((t ++ " "%char :: n) :: ts)
  end.
Definition fn_format (U : ucfg) : impl := fun _ vs us _ _ =>
  match vs, us with
  | VNum n :: more, Some u :: _ =>
    let* sys := match more with [] => ret None | [VStr s] => ret (Some s) | _ => pyerr end in
    let* ps := lift (format_parts U (num_q n) (eu_list u) sys) in
    let* ts := lift (part_texts (u_lib U) (ncast n) ps) in
    unitless (VStr (sjoin ($", ") ts))
  | _, _ => pyerr
  end.
Definition unit_funcs (U : ucfg) : list (str * opdef) :=
  std_funcs (u_lib U) ++
  [ (fst (fdef ($"format") 1 2 [mkRestr 0 (Some 0) [ty ($"number with unit")]; mkRestr 1 (Some 1) [ty ($"unitsystem")]] (fn_format U)),
     no_norm (snd (fdef ($"format") 1 2 [mkRestr 0 (Some 0) [ty ($"number with unit")]; mkRestr 1 (Some 1) [ty ($"unitsystem")]] (fn_format U))));
    fdef ($"compact") 1 1 [mkRestr 0 (Some 0) [ty ($"number with unit")]] (fn_compact U) ].

(** * unitconstants.py *)
Definition unit_const (U : ucfg) (n t : str) (l : list (str * Z)) : list (str * (lit * option eunit)) :=
  match make_multiunit (u_norm U) l with
  | Ok m => [(n, (fst (the_number (u_lib U) t), Some (mkEU m false)))]
  | _ => []
  end.
Definition unit_consts (U : ucfg) : list (str * (lit * option eunit)) :=
  std_consts (u_lib U) ++
  unit_const U ($"G") ($"0.0000000000667408") [($"meter", 3%Z); ($"kilogram", (-1)%Z); ($"second", (-2)%Z)] ++
  unit_const U ($"earthgravity") ($"9.80665") [($"meter", 1%Z); ($"second", (-2)%Z)] ++
  unit_const U ($"speedoflight") ($"299792458") [($"meter", 1%Z); ($"second", (-1)%Z)] ++
  unit_const U ($"Planck") ($"0.000000000000000000000000000000000662607015") [($"joule", 1%Z); ($"second", 1%Z)].

(** * The calculator *)
Definition unit_parsers (U : ucfg) : list parser :=
  flat_map (fun p => match p with
                     | PFunc _ => [PFunc (map fst (unit_funcs U))]
                     | PConst _ => [PConst (unit_consts U); PUnit (parse_units U); PWord true (n_systems (u_norm U))]
                     | p => [p]
                     end) (std_parsers (u_lib U)).
Definition with_units (U : ucfg) : ecfg :=
  mkG (l_prec (u_lib U)) (unit_env U) (mkPC (unit_parsers U) (unit_table U) std_arr true) (unit_funcs U)
      true false (fun _ => None) (fun _ => Calc) (finalize U).
