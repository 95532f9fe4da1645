(** Model of running statements: [Engine.execute] and [calculate] (engine.py), and the [value]/[result] methods of the
    items.  Values are values here: that python objects (numbers, arrays, error objects) are shared and some are changed
    in place is not modelled, except for the items an error refers to. *)
From Coq Require Import ZArith QArith Ascii String List Bool Lia.
From Verif Require Import Base Dec Num Bases Units Syntax Pos Call Loop Parse.
Import ListNotations.
Open Scope nat_scope.

(** * Configuration *)
Record ecfg := mkG {
  g_prec : Z;                       (* the precision of the decimal context *)
  g_env : env;
  g_parse : pcfg;                   (* parsers and operators *)
  g_funcs : list (str * opdef);     (* calculator.funcs *)
  g_inline : bool; g_external : bool;   (* which function pointer handlers are installed *)
  g_read : str -> option str;       (* reading a file, None if that fails *)
  g_input : str -> out (list restr * list urestr);   (* the restrictions declared in the first line of a file *)
  g_final : result -> out result }. (* finalize (engine.py:324-337) *)
Definition g_ops (G : ecfg) : optable := pc_ops (g_parse G).

(** * Operators *)
(** [calculator.ops_list[sym].call(calculator, inputs, flags)].  An implementation may call an operator in turn (only
    the assignment operators do, one level deep); [n] bounds that. *)
Fixpoint op_handle (G : ecfg) (n : nat) (stl : bool) (sym : str) (ins : list result) : M result :=
  match n with
  | O => fun s => (OFuel, s)
  | S k => match find_op (g_ops G) sym with
           | Some o => call (g_env G) (op_handle G k stl) (op_def o) stl ins
           | None => pyerr
           end
  end.
Definition op_depth : nat := 5.
Definition callop (G : ecfg) (stl : bool) : str -> list result -> M result := op_handle G op_depth stl.

(** * The operands *)
(** [rec stl items] is [calculator.execute(items, flags)]; a statement is run with the flag [stateless] or not. *)
Definition exec := bool -> list item -> M result.

(** [self.text = err.truncate(self.text)] and the new ExecuteException: [mk] rebuilds the item *)
Definition reraise {A} (text : str) (mk : str -> item) (m : msg) (items : list item) (next : option str) : M A :=
  match truncate text [items] next with
  | Some t => raise (XExec m [mk t] next true)
  | None => pyerr
  end.

(** InnerExpressionItem.value (innerexpressions.py:67-77) *)
Definition eval_inner (rec : exec) (stl : bool) (text : str) (items : list item) : M result := fun s =>
  let fail m its nx s' := reraise text (fun t => IInner t true its) m its nx s' in
  match rec stl items s with
  | (OOk r, s') => match rval r with
                   | VExc (XExec m its nx _) => fail m its nx s'
                   | VExc e => (OErr e, s')
                   | v => (OOk (mkRes v (runit r) (rref r)), s')
                   end
  | (OErr (XExec m its nx _), s') => fail m its nx s'
  | x => x
  end.

(** The arguments of a function (functions.py:102-125) or function pointer (functionpointers.py:95-121): [itemsi] is the
    index in [items]; [allow] is [inputs_can_be_exceptions]. *)
Fixpoint eval_args (rec : exec) (stl : bool) (allow : bool) (text : str) (items : list item) (mk : str -> list item -> item)
                   (args : list (list item)) (itemsi : nat) (acc : list result) : M (list result) :=
  match args with
  | [] => ret acc
  | arg :: rest => fun s =>
    let fail m its nx s' := let items' := firstn itemsi items ++ its in reraise text (fun t => mk t items') m items' nx s' in
    match rec stl arg s with
    | (OErr (XExec m its nx _), s') => fail m its nx s'
    | (OErr e, s') => (OErr e, s')
    | (OPy, s') => (OPy, s') | (OFuel, s') => (OFuel, s')
    | (OOk r, s') =>
      let next := eval_args rec stl allow text items mk rest (itemsi + length arg + 1) (acc ++ [r]) in
      match rval r with
      | VExc (XExec m its nx _) => if allow then next s' else fail m its nx s'
      | VExc (XCalc _ _) => if allow then next s' else (OPy, s')
      | _ => next s'
      end
    end
  end.

(** FunctionItem.value (functions.py:99-125) *)
Definition eval_func (G : ecfg) (rec : exec) (stl : bool) (text : str) (items : list item) (name : str) (args : list (list item)) : M result :=
  match assoc name (g_funcs G) with
  | None => pyerr
  | Some d =>
    let* ins := eval_args rec stl (o_excs d) text items (fun t its => IFunc t true its name args) args 2 [] in
    call (g_env G) (callop G stl) d stl ins
  end.

(** ** Inline functions (inlinefunctions.py:119-172) *)
Definition param_name (i : nat) : str := $"PARAM" ++ dec_str (Z.of_nat i).
(** [calculator.vars["PARAM" + n] = (vals[i], units[i])] for all the inputs, starting with number [i] *)
Fixpoint set_params (i : nat) (vs : list value) (us : list (option eunit)) (vars : varstore) : varstore :=
  match vs, us with
  | v :: vs', u :: us' => set_params (S i) vs' us' (dset (param_name i) (v, u) vars)
  | _, _ => vars
  end.
(** The items between terminators; a statement without functional items is skipped (155-165) *)
Fixpoint split_terms (items : list item) (cur : list item) : list (list item) :=
  match items with
  | [] => [cur]
  | INon NTerm _ :: r => cur :: split_terms r []
  | i :: r => split_terms r (cur ++ [i])
  end.
Definition statements_of (items : list item) : list (list item) :=
  filter (fun l => negb (is_nil (functional_items l))) (split_terms items []).
Fixpoint run_all (f : list item -> M result) (sts : list (list item)) (last : option result) : M (option result) :=
  match sts with [] => ret last | x :: r => let* v := f x in run_all f r (Some v) end.
Definition set_vars (s : st) (vars : varstore) : st := mkSt vars (s_lft s).
(** [do_function] (145-177).  The variables are restored when the value is an error or an ExecuteException comes out, not
    if anything else is raised. *)
Definition inline_impl (rec : exec) (items : list item) (stl : bool) (vs : list value) (us : list (option eunit)) : M opres := fun s =>
  let backup := s_vars s in
  match run_all (rec stl) (statements_of items) None (set_vars s (set_params 1 vs us backup)) with
  | (OOk (Some r), s') =>
    match rval r with
    | VExc e => (OErr e, set_vars s' backup)
    | v => (OOk (mkOR v (Some (runit r)) None), set_vars s' backup)
    end
  | (OOk None, s') => (OPy, s')
  | (OErr (XExec m its nx tr), s') => (OErr (XExec m its nx tr), set_vars s' backup)
  | (OErr e, s') => (OErr e, s') | (OPy, s') => (OPy, s') | (OFuel, s') => (OFuel, s')
  end.
Definition inline_def (rec : exec) (items : list item) : opdef :=
  mkOp ($"inline function") None None [] [] false false false false false false
       (fun _ vs us _ stl => inline_impl rec items stl vs us).

(** ** Calculating (engine.py:43-89) *)
Record cflags := mkCF { cf_stl : bool; cf_parse_only : bool; cf_state : bool }.
(** [CalculatorResult]: the items (their text is the expression), the answer, the state *)
Record cresult := mkCR { cr_items : list item; cr_answer : option (value * option eunit); cr_state : option varstore }.
(** [CFail]: a CalculatingException (a ParsingException if [parsing]) with the results so far; [CRaw] another
    CalculatorException (without a response), [CPy] another exception. *)
Inductive cout :=
| CDone (rs : list cresult)
| CFail (parsing : bool) (rs : list cresult) (statements : list (list item)) (next : option str) (trunc : bool)
| CRaw | CPy | CFuel.
(** The statements from number [i] = [length before] on *)
Fixpoint run_statements (G : ecfg) (run : list item -> M result) (fl : cflags) (before sts : list (list item)) (rs : list cresult) (s : st) : cout * st :=
  match sts with
  | [] => (CDone rs, s)
  | items :: rest =>
    let done ans s' :=
      run_statements G run fl (before ++ [items]) rest
        (rs ++ [mkCR items ans (if cf_state fl then Some (s_vars s') else None)]) s' in
    let fail e s' := match e with
                     | XExec _ its nx tr => (CFail false rs (before ++ [its]) nx tr, s')
                     | XCalc _ _ => (CFail false rs (before ++ [[]]) None false, s')
                     end in
    if is_nil (functional_items items) || cf_parse_only fl then done None s
    else match run items s with
         | (OOk r, s') =>
           match rval r with
           | VExc e => fail e s'
           | _ => match g_final G r with
                  | Ok f => done (Some (rval f, runit f)) s'
                  | Calc => fail (XCalc false MOther) s'
                  | Py => (CPy, s')
                  end
           end
         | (OErr e, s') => fail e s'
         | (OPy, s') => (CPy, s') | (OFuel, s') => (CFuel, s')
         end
  end.
Definition calculate_with (G : ecfg) (rec : exec) (fl : cflags) (text : str) (s : st) : cout * st :=
  match text with
  | [] => (CDone [], s)
  | _ =>
    match parse_text (g_parse G) text (s_lft s) with
    | (r, lft) =>
      let s' := mkSt (s_vars s) lft in
      match r with
      | POk sts _ _ => run_statements G (rec (cf_stl fl)) fl [] sts [] s'
      | PErr sts next => (CFail true [] sts (Some next) false, s')
      | PCalc => (CRaw, s') | PPy => (CPy, s') | PFuel => (CFuel, s')
      end
    end
  end.

(** ** External functions (externalfunctions.py:104-127) *)
(** [get_last_result(result.results)] (api.py:4-5) *)
Definition last_answer (rs : list cresult) : option (value * option eunit) :=
  fold_left (fun a r => match cr_answer r with Some x => Some x | None => a end) rs None.
Definition external_impl (G : ecfg) (rec : exec) (content : str) (vs : list value) (us : list (option eunit)) : M opres := fun s =>
  let backup := s_vars s in
  match calculate_with G rec (mkCF false false false) content (set_vars s (set_params 1 vs us [])) with
  | (CDone rs, s') => match last_answer rs with
                      | Some (v, u) => (OOk (mkOR v (Some u) None), set_vars s' backup)
                      | None => (OPy, set_vars s' backup)
                      end
  | (CFail _ _ _ _ _, s') => (OErr (XCalc false MOther), set_vars s' backup)
  | (CRaw, s') => (OErr (XCalc false MOther), set_vars s' backup)
  | (CPy, s') => (OPy, set_vars s' backup)
  | (CFuel, s') => (OFuel, set_vars s' backup)
  end.
Definition external_def (G : ecfg) (rec : exec) (content : str) (rs : list restr) (us : list urestr) : opdef :=
  mkOp ($"external function") None None rs us false false false false false false
       (fun _ vs us' _ _ => external_impl G rec content vs us').

(** ** Function pointers (functionpointers.py:90-145) *)
(** The handler for a value, [None] if there is none (132-142); an ExecuteException from reading the file is [Calc] *)
Definition pointer_def (G : ecfg) (rec : exec) (v : value) : option (out opdef) :=
  match v with
  | VFun (IInline _ _ items) => if g_inline G then Some (Ok (inline_def rec items)) else None
  | VStr path =>
    if g_external G then
      match g_read G path with
      | None => Some Calc
      | Some content => match g_input G content with
                        | Ok (rs, us) => Some (Ok (external_def G rec content rs us))
                        | Calc => Some Py | Py => Some Py
                        end
      end
    else None
  | _ => None
  end.
Definition call_pointer (G : ecfg) (rec : exec) (stl : bool) (self : item) (ins : list result) (v : value) : M result :=
  match pointer_def G rec v with
  | None => raise (XExec MOther [self] (Some []) true)
  | Some Calc => raise (XExec MOther [self] (Some []) true)
  | Some Py => pyerr
  | Some (Ok d) => call (g_env G) (callop G stl) d stl ins
  end.
Fixpoint call_pointers (f : value -> M result) (vs : list value) : M (list result) :=
  match vs with [] => ret [] | v :: r => let* x := f v in let* l := call_pointers f r in ret (x :: l) end.
Definition eval_ptr (G : ecfg) (rec : exec) (stl : bool) (text : str) (tr : bool) (items : list item) (name : str) (args : list (list item)) : M result :=
  fun s =>
  match assoc name (s_vars s) with
  | None => (OErr (XExec MOther [IPtr text tr items name args] (Some []) true), s)
  | Some (v, _) =>
    (let* ins := eval_args rec stl false text items (fun t its => IPtr t true its name args) args 2 [] in
     let f := call_pointer G rec stl (IPtr [] tr [] name args) ins in
     match v with
     | VList l => let* rs := call_pointers f (map rval l) in ret (mkRes (VList rs) None None)
     | _ => f v
     end) s
  end.

(** ** Arrays (arrays.py:150-262) *)
(** One part of an element: run it; an ExecuteException as its value is raised; with [num] it must be a number. *)
Definition range_error {A} : M A := raise (XExec MOther [] None false).
Definition eval_part (G : ecfg) (rec : exec) (stl : bool) (num : bool) (items : list item) : M result :=
  let* r := rec stl items in
  match rval r with
  | VExc (XExec m its nx tr) => raise (XExec m its nx tr)
  | v => if num && negb (is_number (g_env G) v) then range_error else ret r
  end.
(** [end < start] (232): numbers compare; other values of the same type compare too but fail below *)
Definition range_down (p : Z) (a b : value) : out bool :=
  match a, b with
  | VNum x, VNum y => Ok (num_ltb p y x)
  | VStr _, VStr _ => Ok false
  | VBool _, VBool _ => Ok false
  | _, _ => Py
  end.
(** Bringing an end or step to the unit of the start (243-251) *)
Definition range_unit (E : env) (start right : result) : M (value * option eunit) :=
  match runit right with
  | None => range_error
  | Some _ =>
    match e_norm E with
    | None => pyerr
    | Some f => let* n := lift (f [rval start; rval right] [runit start; runit right] true false) in
                match nth_error (fst (fst n)) 1, nth_error (snd (fst n)) 1 with
                | Some v, Some u => ret (v, u)
                | _, _ => pyerr
                end
    end
  end.
(** The loop (256-261); a python loop has no bound, [fuel] is given below *)
Fixpoint range_loop (fuel : nat) (p : Z) (n stop step : number) : out (option (list number)) :=
  match fuel with
  | O => Ok None
  | S k =>
    let d := to_decimal p step in
    if negb (Qle_bool d 0) && num_leb p n stop || (negb (Qle_bool 0 d) && num_leb p stop n) then
      match num_add p n step with
      | None => Py
      | Some n' => match range_loop k p n' stop step with Ok (Some l) => Ok (Some (n :: l)) | x => x end
      end
    else Ok (Some [])
  end.
(** As many steps as fit between the ends, and two more *)
Definition range_fuel (a b c : number) : nat :=
  Z.to_nat (Z.abs ((nnum b * nden a - nnum a * nden b) * nden c / (nden a * nden b * nnum c)) + 3).
Definition range_values (p : Z) (a b c : value) : M (list number) :=
  match a, b, c with
  | VNum x, VNum y, VNum z =>
    match num_sub p y x with
    | None => pyerr
    | Some d => match num_mul p d z with
                | None => pyerr
                | Some m => if negb (Qle_bool 0 (to_decimal p m)) then range_error
                            else match range_loop (range_fuel x y z) p x y z with
                                 | Ok (Some l) => ret l
                                 | Ok None => fun s => (OFuel, s)
                                 | _ => pyerr
                                 end
                end
    end
  | _, _, _ => pyerr
  end.
(** ArrayElement.value (211-262).  The counter [state['items']] is in the state of the computation: a result carries the
    new count, an error the count when it was raised. *)
Definition counted (A : Type) := st -> (oc A * nat) * st.
Definition count_bind {A B} (m : M A) (n : nat) (f : A -> counted B) : counted B := fun s =>
  match m s with
  | (OOk a, s') => f a s' | (OErr e, s') => (OErr e, n, s') | (OPy, s') => (OPy, n, s') | (OFuel, s') => (OFuel, n, s')
  end.
Definition eval_element (G : ecfg) (rec : exec) (stl : bool) (e : elem item) (n : nat) : counted (list result) :=
  let p := g_prec G in
  match e_end e with
  | None => count_bind (eval_part G rec stl false (e_start e)) n (fun a s => ((OOk [a], n + length (e_start e)), s))
  | Some e2 =>
    count_bind (eval_part G rec stl true (e_start e)) n (fun a =>
    let n1 := n + length (e_start e) + 1 in
    count_bind (eval_part G rec stl true e2) n1 (fun b =>
    let n2 := n1 + length e2 in
    count_bind (lift (range_down p (rval a) (rval b))) n2 (fun down =>
    let default := mkRes (VNum (num_of_Z p (if down : bool then -1 else 1)%Z)) (runit a) None in
    let n3 := match e_step e with Some e3 => n2 + 1 | None => n2 end in
    let n4 := match e_step e with Some e3 => n3 + length e3 | None => n3 end in
    count_bind (match e_step e with Some e3 => eval_part G rec stl true e3 | None => ret default end) n3 (fun c =>
    count_bind (match runit a, runit b, runit c with
                | None, None, None => ret (rval b, rval c)
                | None, _, _ => range_error
                | Some _, _, _ =>
                  let* b' := range_unit (g_env G) a b in
                  let* c' := range_unit (g_env G) a c in ret (fst b', fst c')
                end) n4 (fun bc =>
    count_bind (range_values p (rval a) (fst bc) (snd bc)) n4 (fun l s =>
      ((OOk (map (fun x => mkRes (VNum x) (runit a) None) l), n4), s)))))))
  end.
(** ArrayItem.value (159-176) *)
Fixpoint eval_elements (G : ecfg) (rec : exec) (stl : bool) (es : list (elem item)) (n : nat) (acc : list result) : counted (list result) :=
  match es with
  | [] => fun s => ((OOk acc, n), s)
  | e :: r => fun s => match eval_element G rec stl e (n + 1) s with
                       | (OOk l, n', s') => eval_elements G rec stl r n' (acc ++ l) s'
                       | x => x
                       end
  end.
Definition eval_arr (G : ecfg) (rec : exec) (stl : bool) (text : str) (items : list item) (es : list (elem item)) : M result := fun s =>
  match eval_elements G rec stl es 0 [] s with
  | (OOk l, _, s') => (OOk (mkRes (VList l) None (Some ROther)), s')
  | (OErr (XExec m its nx _), n, s') =>
    let items' := firstn n items ++ its in reraise text (fun t => IArr t true items' es) m items' nx s'
  | (OErr e, _, s') => (OErr e, s')
  | (OPy, _, s') => (OPy, s')
  | (OFuel, _, s') => (OFuel, s')
  end.

(** ** Any operand: [item.result(flags)] *)
Definition eval_item (G : ecfg) (rec : exec) (stl : bool) (i : item) : M result :=
  match i with
  | IOp _ => pyerr
  | INon _ _ => pyerr
  | ILit _ v => ret (mkRes (vlit v) None (Some ROther))
  | IVar n => fun s => match assoc n (s_vars s) with
                       | None => (OOk (mkRes VNone None (Some (RVar n))), s)
                       | Some (v, u) => (OOk (mkRes v u (Some (RVar n))), s)
                       end
  | IConst _ v u => ret (mkRes (vlit v) u (Some ROther))
  | IUnit _ u => ret (mkRes (VUnit u) None (Some ROther))
  | IWord _ t => ret (mkRes (VStr t) None (Some ROther))
  | IInline _ _ _ => ret (mkRes (VFun i) None None)
  | IInner t _ items => eval_inner rec stl t items
  | IFunc t _ items name args => eval_func G rec stl t items name args
  | IPtr t tr items name args => eval_ptr G rec stl t tr items name args
  | IArr t _ items es => eval_arr G rec stl t items es
  end.

(** * Statements: [execute] (engine.py:148-230) *)
(** [execute_operand] (238-251): an error becomes a value.  [prev] is [original_items[0:i]].  The second component is the
    item afterwards: a failing recursive item was changed and is in the error. *)
Definition eval_operand (G : ecfg) (rec : exec) (stl : bool) (prev : list item) (i : item) : M (result * item) := fun s =>
  match eval_item G rec stl i s with
  | (OOk r, s') => (OOk (r, i), s')
  | (OErr (XExec m its nx tr), s') =>
    (OOk (mkRes (VExc (XExec m (prev ++ its) nx tr)) None None, match its with [x] => x | _ => i end), s')
  | (OErr (XCalc _ m), s') => (OOk (mkRes (VExc (XExec m prev (Some (itext i)) false)) None None, i), s')
  | (OPy, s') => (OPy, s')
  | (OFuel, s') => (OFuel, s')
  end.
(** All of them, left to right (161-163): the slots, and the items afterwards *)
Fixpoint eval_operands (G : ecfg) (rec : exec) (stl : bool) (items : list item) (k : nat) (sl : list slot) (orig : list item)
  : M (list slot * list item) :=
  match items with
  | [] => ret (sl, orig)
  | IOp sym :: r => eval_operands G rec stl r (S k) (sl ++ [SOp sym k]) (orig ++ [IOp sym])
  | i :: r =>
    if ifunc i then
      let* p := eval_operand G rec stl (firstn k orig) i in
      eval_operands G rec stl r (S k) (sl ++ [SRes (fst p) k]) (orig ++ [snd p])
    else eval_operands G rec stl r k sl (orig ++ [i])
  end.
Definition with_value (r : result) (v : value) : result := match r with Res _ u f o => Res v u f o end.
Definition execute_body (G : ecfg) (rec : exec) (stl : bool) (items : list item) : M result :=
  if is_nil (functional_items items) then raise (restore_items (XExec MEmpty [] None false) items items)
  else
    let* p := eval_operands G rec stl items 0 [] [] in
    let '(sl, orig) := p in
    fun s => match run_slots (g_ops G) orig (callop G stl) sl s with
             | (OOk r, s') => match rval r with
                              | VExc (XExec m its nx tr) =>
                                (OOk (with_value r (VExc (restore_items (XExec m its nx tr) orig items))), s')
                              | _ => (OOk r, s')
                              end
             | (OErr e, s') => (OErr (restore_items e orig items), s')
             | x => x
             end.
(** [n] bounds the depth of nested expressions and calls; python's own limit is not modelled. *)
Fixpoint execute (G : ecfg) (n : nat) : exec :=
  match n with
  | O => fun _ _ s => (OFuel, s)
  | S k => execute_body G (execute G k)
  end.
Definition calculate (G : ecfg) (n : nat) : cflags -> str -> st -> cout * st := calculate_with G (execute G n).
