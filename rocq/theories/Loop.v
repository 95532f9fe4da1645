(** Model of the operator loop of [Engine.execute] ([engine.py]): finding the next operator to run, taking its inputs,
    and putting non-functional items back into errors. *)
From Coq Require Import ZArith QArith Ascii String List Bool Lia.
From Verif Require Import Base Dec Num Bases Units Syntax Call.
Import ListNotations.
Open Scope nat_scope.

(** * Operators *)
(** [OperatorDefinition] (operators.py:356-394): [linputs] and [rinputs] are lists of expected things, [None] for an
    operand and [Some s] for the further symbol [s]; [rtl] is the direction of its level. *)
Record operator := mkOper { op_l : list (option str); op_r : list (option str); op_rtl : bool; op_def : opdef }.
(** One precedence level: a dict from symbol to operator, in insertion order. *)
Definition level := list (str * operator).
(** The operators and the names of the special ones (engine.py:15-28). *)
Record optable := mkTab {
  t_levels : list level; t_uassign : option str; t_umul : option str; t_udiv : option str;
  t_div : option str; t_imul : option str }.

(** [ops_list] (31): a dict over all the levels, so that the last definition of a symbol counts *)
Definition find_op (T : optable) (s : str) : option operator := assoc s (rev (concat (t_levels T))).
(** [ops_symbols] (32) *)
Definition op_symbols (T : optable) : list str :=
  map fst (concat (t_levels T)) ++
  concat (map (fun p => concat (map (fun x => match x with Some s => [s] | None => [] end) (op_l (snd p) ++ op_r (snd p))))
              (concat (t_levels T))).

(** * Slots *)
(** The list [items] of [execute] once the operands are evaluated: operator items and results, with [_INDEX]. *)
Inductive slot := SOp (sym : str) (idx : nat) | SRes (r : result) (idx : nat).
Definition slot_idx (s : slot) : nat := match s with SOp _ i => i | SRes _ i => i end.
(** [is_unit] (232), [is_op] (235) *)
Definition slot_unit (s : slot) : bool := match s with SRes r _ => match rval r with VUnit _ => true | _ => false end | _ => false end.
Definition slot_op (s : slot) : bool := match s with SOp _ _ => true | _ => false end.

(** [x is not None and x in prec] *)
Definition in_level (x : option str) (l : level) : bool := match x with Some s => mem_str s (map fst l) | None => false end.
Definition opt_is (x : option str) (s : str) : bool := match x with Some t => seq_eqb t s | None => false end.
Definition opt_get (x : option str) : str := match x with Some t => t | None => [] end.
Definition at_slot (f : slot -> bool) (sl : list slot) (i : nat) : bool := match nth_error sl i with Some x => f x | None => false end.

(** The body of the scan (177-206): what, if anything, is to be run at position [i]; with its symbol, and the width 1
    of a visible operator or 0 of an invisible one. *)
Definition action (T : optable) (l : level) (sl : list slot) (i : nat) : option (str * nat) :=
  match nth_error sl i with
  | None => None
  | Some x =>
    let prev f := match i with O => false | S j => at_slot f sl j end in
    let next f := at_slot f sl (S i) in
    if in_level (t_uassign T) l && slot_unit x && (0 <? i) && negb (prev slot_op) && negb (prev slot_unit)
    then Some (opt_get (t_uassign T), 0)
    else if in_level (t_umul T) l && slot_unit x && prev slot_unit
    then Some (opt_get (t_umul T), 0)
    else if in_level (t_udiv T) l && match x with SOp s _ => opt_is (t_div T) s | _ => false end && prev slot_unit && next slot_unit
    then Some (opt_get (t_udiv T), 1)
    else if in_level (t_imul T) l && negb (slot_op x) && negb (slot_unit x) && (0 <? i) && negb (prev slot_op)
    then Some (opt_get (t_imul T), 0)
    else match x with
         | SOp s _ =>
           if mem_str s (map fst l) && negb (opt_is (t_umul T) s || opt_is (t_udiv T) s || opt_is (t_imul T) s) &&
              (negb (prev slot_unit) || negb (opt_is (t_div T) s) || negb (next slot_unit))
           then Some (s, 1) else None
         | SRes _ _ => None
         end
  end.

(** The inner [for] (177-206): the first position, in the direction of the level, where something is to be run *)
Fixpoint scan (T : optable) (l : level) (sl : list slot) (is : list nat) : option (nat * str * nat) :=
  match is with
  | [] => None
  | i :: r => match action T l sl i with Some (s, w) => Some (i, s, w) | None => scan T l sl r end
  end.
Definition level_rtl (T : optable) (l : level) : out bool :=
  match l with [] => Py | (s, _) :: _ => match find_op T s with Some o => Ok (op_rtl o) | None => Py end end.
(** The outer [for] (169-216) *)
Fixpoint scan_levels (T : optable) (ls : list level) (sl : list slot) : out (option (nat * str * nat)) :=
  match ls with
  | [] => Ok None
  | l :: r =>
    do rtl <- level_rtl T l;
    let is := seq 0 (length sl) in
    match scan T l sl (if rtl : bool then rev is else is) with
    | Some x => Ok (Some x)
    | None => scan_levels T r sl
    end
  end.

(** * Running one operator: [execute_operator] (253-303) *)
Definition exc_msg (e : exc) : msg := match e with XCalc _ m => m | XExec m _ _ _ => m end.
(** Comparing expected and actual inputs (274-284).  [str()] of an OperandResult raises a plain exception
    (items.py:160). *)
Fixpoint take_inputs (orig : list item) (sym : str) (prev : list item) (want : list (option str)) (have : list slot) : M (list result) :=
  match want, have with
  | Some s :: w, SOp t i :: h =>
    if seq_eqb t s then take_inputs orig sym prev w h else raise (XExec MSymbol (firstn i orig) (Some t) false)
  | Some s :: w, SRes _ _ :: h => pyerr
  | None :: w, SOp _ _ :: h => raise (XExec MInput prev (Some sym) false)
  | None :: w, SRes r _ :: h => let* rs := take_inputs orig sym prev w h in ret (r :: rs)
  | _, _ => ret []
  end.
(** [callop sym inputs] is [op.call(self, inputs, flags)]; see [fake_call] for the other branch. *)
Definition run_op (T : optable) (orig : list item) (callop : str -> list result -> M result)
                  (sl : list slot) (i : nat) (sym : str) (w : nat) : M (list slot) :=
  match find_op T sym, nth_error sl i with
  | Some o, Some x =>
    let prev := firstn (slot_idx x) orig in
    if i <? length (op_l o) then raise (XExec (MMissLeft sym) prev (Some sym) false)
    else if length sl <? i + length (op_r o) + w then raise (XExec (MMissRight sym) prev (Some sym) false)
    else
      let first := i - length (op_l o) in
      let have := firstn (length (op_l o)) (skipn first sl) ++ firstn (length (op_r o)) (skipn (i + w) sl) in
      let* ins := take_inputs orig sym prev (op_l o ++ op_r o) have in
      let* r := (fun s => match callop sym ins s with
                          | (OErr e, s') =>
                            let text := match x with SOp t _ => if w =? 1 then Some t else None | _ => None end in
                            (OOk (mkRes (VExc (XExec (exc_msg e) prev text false)) None None), s')
                          | y => y
                          end) in
      ret (firstn first sl ++ [SRes r (slot_idx x)] ++ skipn (i + w + length (op_r o)) sl)
  | _, _ => pyerr
  end.

(** * The loop (167-217) *)
Fixpoint op_loop (fuel : nat) (T : optable) (orig : list item) (callop : str -> list result -> M result) (sl : list slot) : M (list slot) :=
  match fuel with
  | O => fun s => (OFuel, s)
  | S k =>
    match scan_levels T (t_levels T) sl with
    | Ok None => ret sl
    | Ok (Some (i, sym, w)) => let* sl' := run_op T orig callop sl i sym w in op_loop k T orig callop sl'
    | _ => pyerr
    end
  end.
Definition loop_fuel (sl : list slot) : nat := S (2 * length sl).

(** * Putting the non-functional items back (305-322) *)
(** [very] are the items as given, [orig] the same items after evaluation (which truncates a failing recursive item). *)
Fixpoint restore_loop (n : nat) (trunc : bool) (f : nat) (orig very : list item) : list item :=
  match orig, very with
  | o :: os, v :: vs =>
    if n <? f then [] else
    let before := if trunc && (f <? n) then [if f <? n - 1 then v else o] else [] in
    let f' := if ifunc o then S f else f in
    let after := if negb trunc && (f' <=? n) then [v] else [] in
    before ++ after ++ restore_loop n trunc f' os vs
  | _, _ => []
  end.
Definition restore_items (e : exc) (orig very : list item) : exc :=
  match e with
  | XExec m items next tr => XExec m (restore_loop (length items) tr 0 orig very) next tr
  | XCalc _ _ => e
  end.

(** * After the loop (219-231).  With several results left and no operator, building the message calls [str()] of an
      OperandResult, which raises a plain exception. *)
Definition ends (orig : list item) (sl : list slot) : M result :=
  match sl with
  | [] => pyerr
  | [SRes r _] => ret r
  | [SOp _ i] => raise (XExec MNotValue (firstn i orig) None false)
  | _ => match filter slot_op sl with
         | x :: _ => raise (XExec MStuck (firstn (slot_idx x) orig) None false)
         | [] => pyerr
         end
  end.
Definition run_slots (T : optable) (orig : list item) (callop : str -> list result -> M result) (sl : list slot) : M result :=
  let* sl' := op_loop (loop_fuel sl) T orig callop sl in ends orig sl'.

(** * Fake execution, used to see whether a statement is complete (243-246, 286-288) *)
Definition fake_call (_ : str) (ins : list result) : M result := match ins with r :: _ => ret r | [] => pyerr end.
Fixpoint fake_slots (i : nat) (items : list item) : list slot :=
  match items with
  | [] => []
  | IOp s :: r => SOp s i :: fake_slots (S i) r
  | _ :: r => SRes (mkRes VNone None None) i :: fake_slots (S i) r
  end.
(** Whether the outcome of [execute(func_items, {'fake_execution': True})] (terminator.py:51-56) is the error
    'Missing right operands'. *)
Definition incomplete (T : optable) (func : list item) (s : st) : bool :=
  match func with
  | [] => false
  | _ => match fst (run_slots T func fake_call (fake_slots 0 func) s) with
         | OErr (XExec (MMissRight _) _ _ _) => true
         | _ => false
         end
  end.
