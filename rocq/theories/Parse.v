(** Model of parsing: [Engine.parse] (engine.py:91-141) and the parsers the features install. *)
From Coq Require Import ZArith QArith Ascii String List Bool Lia.
From Verif Require Import Base Dec Num Bases Units Syntax Pos Call Loop.
Import ListNotations.
Open Scope nat_scope.

(** * Flags and outcomes *)
(** The flags a parser looks at: 'func', 'inner_expr', 'inline_function', 'array', 'ignore_terminators'. *)
Record flags := mkFl { fl_func : bool; fl_inner : bool; fl_inline : bool; fl_arr : bool; fl_ign : bool }.
Definition no_flags : flags := mkFl false false false false false.
Definition func_flags : flags := mkFl true false false false true.
Definition arr_flags : flags := mkFl false false false true true.
Definition inner_flags (f : flags) : flags := mkFl (fl_func f) true (fl_inline f) (fl_arr f) true.
Definition inline_flags (f : flags) : flags := mkFl (fl_func f) (fl_inner f) true (fl_arr f) (fl_ign f).

(** Why parsing ended before the end of the text: the return flag beside 'end'. *)
Inductive ekind := EParam | EFunc | EInner | EInline | ARange | AStep | AParam | AEnd.

(** The outcome of [parse]: [POk statements length end] or a ParsingException [PErr statements next]; [PCalc] another
    CalculatorException (raised by looking up a unit), [PPy] another python exception, [PFuel] the bound was reached. *)
Inductive pout :=
| POk (sts : list (list item)) (len : nat) (rf : option ekind)
| PErr (sts : list (list item)) (next : str)
| PCalc | PPy | PFuel.
(** The outcome of one parser: nothing; items, a length, and whether the statement ends; items and the end of parsing;
    a ParseException with items and next. *)
Inductive pres :=
| PRnone
| PRitems (items : list item) (len : nat) (end_stmt : bool)
| PRend (items : list item) (k : ekind)
| PRerr (items : list item) (next : str)
| PRcalc | PRpy | PRfuel.

(** * The parsers *)
Inductive parser :=
| PSpace | PComment (sym : str) | PTerm (sym : str)
| PLit (need_op : bool) (f : str -> out (option (nat * lit)))
| PString (q e : ascii)
| POp | PConst (consts : list (str * (lit * option eunit)))
| PUnit (f : str -> out (option (nat * eunit))) | PWord (sys : bool) (words : list str) | PVar
| PFunc (names : list str) | PFuncParam | PFuncEnd | PPtr (sym : str)
| PInner | PInnerEnd | PInline | PInlineEnd
| PArr | PArrRange | PArrStep | PArrParam | PArrEnd.

(** The options of the feature 'arrays.arrays' (arrays.py:26-33) *)
Record asyms := mkAS { as_open : str; as_range : str; as_step : str; as_param : str; as_close : str }.
(** What parsing uses of the calculator: the parsers in order, the operators, the array symbols, and whether
    [calculator.vars] exists. *)
Record pcfg := mkPC { pc_parsers : list parser; pc_ops : optable; pc_arr : asyms; pc_vars : bool }.

(** ** Characters and words *)
Definition is_word_start (c : ascii) : bool := is_alpha c || ceq c "_"%char.
Fixpoint take_while (p : ascii -> bool) (s : str) : str :=
  match s with [] => [] | c :: r => if p c then c :: take_while p r else [] end.
(** [[a-zA-Z_][a-zA-Z0-9_]*] (assignment.py:56, functions.py:36) *)
Definition match_name (s : str) : option str :=
  match s with c :: r => if is_word_start c then Some (c :: take_while is_word r) else None | [] => None end.
(** [[a-zA-Z]+] (constants.py:33) *)
Definition match_alpha (s : str) : option str := match take_while is_alpha s with [] => None | w => Some w end.
(** [(\W|$)] after a word of length [n] *)
Definition word_end (s : str) (n : nat) : bool := match nth_error s n with Some c => negb (is_word c) | None => true end.
(** the next character is no letter (numericalrepresentation.py:44, systems.py:44) *)
Definition letter_end (s : str) (n : nat) : bool := match nth_error s n with Some c => negb (is_alpha c) | None => true end.

(** ** Single parsers *)
(** [parse_comment] (comments.py:35-42): up to the end of the line *)
Definition newline : ascii := chr 10.
Definition comment_len (s : str) : nat := length (take_while (fun c => negb (ceq c newline)) s).

(** The loop of [parse_string] (strings.py:68-78), after the first quote: the string and the position of the closing
    quote; [None] when it is missing. *)
Fixpoint str_scan (q e : ascii) (s : str) (escape : bool) (acc : str) (n : nat) : option (str * nat) :=
  match s with
  | [] => None
  | c :: r =>
    if ceq c q && negb escape then Some (acc, n)
    else
      let escape' := if ceq c e then negb escape else false in
      str_scan q e r escape' (if escape' then acc else acc ++ [c]) (S n)
  end.

(** [parse_operator] (operators.py:31-41).  The candidates sorted by length, longest first; an alphabetic operator
    must end at a word end. *)
Fixpoint insert_len (x : str) (l : list str) : list str :=
  match l with [] => [x] | y :: r => if length x <=? length y then y :: insert_len x r else x :: l end.
Fixpoint sort_len (l : list str) : list str := match l with [] => [] | x :: r => insert_len x (sort_len r) end.
Definition is_alpha_str (s : str) : bool := match s with [] => false | _ => forallb is_alpha s end.
Definition op_ok (s op : str) : bool := if is_alpha_str op then word_end s (length op) else true.
Definition match_op (syms : list str) (s : str) : option str :=
  find (op_ok s) (sort_len (filter (fun op => prefixb op s) syms)).

(** [parse_numericalrepresentation], [parse_unitsystems]: the first word, in the order they were added *)
Definition match_word (words : list str) (s : str) : option str :=
  find (fun w => prefixb w s && letter_end s (length w)) words.

(** ** Functions (functions.py:38-71) and function pointers (functionpointers.py:44-74) *)
Definition first_st (sts : list (list item)) : list item := match sts with [] => [] | s :: _ => s end.
Definition c_comma : str := $",".
Definition c_close : str := $")".
(** The [while] loop; [nxt] is [next], [i] the position in it.  The state [lft] is [last_failed_terminator]. *)
Inductive ares := ADone (i : nat) (fitems : list item) (args : list (list item)) (ended : bool)
                | AErr (items : list item) (next : str) | ACalc | APy | AFuel.
Definition prec := flags -> str -> option str -> pout * option str.
Fixpoint args_loop (rec : prec) (fuel : nat) (nxt : str) (i : nat) (fitems : list item) (args : list (list item)) (lft : option str)
  : ares * option str :=
  match fuel with
  | O => (AFuel, lft)
  | S k =>
    if length nxt <=? i then (ADone i fitems args false, lft)
    else match rec func_flags (skipn i nxt) lft with
         | (POk sts len rf, lft') =>
           let inner := first_st sts in
           let args' := match inner with [] => args | _ => args ++ [inner] end in
           match rf with
           | Some EFunc => (ADone (i + len + 1) (fitems ++ inner ++ [INon NFuncEnd c_close]) args' true, lft')
           | _ => args_loop rec k nxt (i + len + 1) (fitems ++ inner ++ [INon NFuncParam c_comma]) args' lft'
           end
         | (PErr sts next, lft') => (AErr (fitems ++ first_st sts) next, lft')
         | (PCalc, lft') => (ACalc, lft') | (PPy, lft') => (APy, lft') | (PFuel, lft') => (AFuel, lft')
         end
  end.
(** An error inside becomes a FunctionItem truncated to what was parsed, also for a function pointer. *)
Definition parse_call (rec : prec) (nxt : str) (head : list item) (hlen : nat) (name : str)
                      (mk : str -> list item -> list (list item) -> item) (lft : option str) : pres * option str :=
  match args_loop rec (S (length nxt)) nxt hlen head [] lft with
  | (ADone i fitems args true, lft') => (PRitems [mk (firstn i nxt) fitems args] (length (firstn i nxt)) false, lft')
  | (ADone _ _ _ false, lft') => (PRerr [] nxt, lft')
  | (AErr items next, lft') =>
    match truncate nxt [items] (Some next) with
    | Some t => (PRerr [IFunc t false items name []] next, lft')
    | None => (PRpy, lft')
    end
  | (ACalc, lft') => (PRcalc, lft') | (APy, lft') => (PRpy, lft') | (AFuel, lft') => (PRfuel, lft')
  end.

(** ** Arrays (arrays.py:47-114) *)
Inductive eres := EOk (i : nat) (items : list item) (elems : list (elem item)) (rf : option ekind)
                | EErr (items : list item) (next : str) (elems : list (elem item)) | ECalc | EPy | EFuel.
Definition is_nil {A} (l : list A) : bool := match l with [] => true | _ => false end.
(** The body of the [try] (61-95): one element *)
Definition arr_elem (rec : prec) (A : asyms) (nxt : str) (i : nat) (ai : list item) (elems : list (elem item)) (lft : option str)
  : eres * option str :=
  match rec arr_flags (skipn i nxt) lft with
  | (POk sts len rf, lft1) =>
    let items := first_st sts in
    let ai1 := ai ++ items in
    let i1 := i + len in
    if is_nil items then
      if len =? 0 then (EErr ai1 (skipn i1 nxt) elems, lft1) else (EOk i1 ai1 elems rf, lft1)
    else match rf with
         | Some ARange =>
           let i2 := i1 + length (as_range A) in
           let ai2 := ai1 ++ [INon NArrRange (as_range A)] in
           match rec arr_flags (skipn i2 nxt) lft1 with
           | (POk sts2 len2 rf2, lft2) =>
             let items2 := first_st sts2 in
             let ai3 := ai2 ++ items2 in
             let i3 := i2 + len2 in
             if is_nil items2 then
               if len2 =? 0 then (EErr ai3 (skipn i3 nxt) elems, lft2)
               else (EOk i3 ai3 (elems ++ [mkElem items None None]) rf2, lft2)
             else match rf2 with
                  | Some AStep =>
                    let i4 := i3 + length (as_step A) in
                    let ai4 := ai3 ++ [INon NArrStep (as_step A)] in
                    match rec arr_flags (skipn i4 nxt) lft2 with
                    | (POk sts3 len3 rf3, lft3) =>
                      let items3 := first_st sts3 in
                      if is_nil items3
                      then (EOk i4 (ai4 ++ items3) (elems ++ [mkElem items (Some items2) None]) rf3, lft3)
                      else (EOk (i4 + len3) (ai4 ++ items3) (elems ++ [mkElem items (Some items2) (Some items3)]) rf3, lft3)
                    | (PErr sts3 next, lft3) => (EErr (ai4 ++ first_st sts3) next elems, lft3)
                    | (PCalc, l) => (ECalc, l) | (PPy, l) => (EPy, l) | (PFuel, l) => (EFuel, l)
                    end
                  | _ => (EOk i3 ai3 (elems ++ [mkElem items (Some items2) None]) rf2, lft2)
                  end
           | (PErr sts2 next, lft2) => (EErr (ai2 ++ first_st sts2) next elems, lft2)
           | (PCalc, l) => (ECalc, l) | (PPy, l) => (EPy, l) | (PFuel, l) => (EFuel, l)
           end
         | _ => (EOk i1 ai1 (elems ++ [mkElem items None None]) rf, lft1)
         end
  | (PErr sts next, lft1) => (EErr (ai ++ first_st sts) next elems, lft1)
  | (PCalc, l) => (ECalc, l) | (PPy, l) => (EPy, l) | (PFuel, l) => (EFuel, l)
  end.
(** The [while] loop (60-105); [EOk] with the end flag, or without it when the text ran out *)
Fixpoint arr_loop (rec : prec) (fuel : nat) (A : asyms) (nxt : str) (i : nat) (ai : list item)
                  (elems : list (elem item)) (lft : option str) : eres * option str :=
  match fuel with
  | O => (EFuel, lft)
  | S k =>
    if length nxt <=? i then (EOk i ai elems None, lft)
    else match arr_elem rec A nxt i ai elems lft with
         | (EOk i1 ai1 elems1 (Some AParam), lft1) =>
           arr_loop rec k A nxt (i1 + length (as_param A)) (ai1 ++ [INon NArrParam (as_param A)]) elems1 lft1
         | (EOk i1 ai1 elems1 (Some AEnd), lft1) => (EOk (i1 + length (as_close A)) (ai1 ++ [INon NArrEnd (as_close A)]) elems1 (Some AEnd), lft1)
         | (EOk i1 ai1 elems1 _, lft1) => arr_loop rec k A nxt i1 ai1 elems1 lft1
         | x => x
         end
  end.
Definition parse_array (rec : prec) (A : asyms) (nxt : str) (lft : option str) : pres * option str :=
  match arr_loop rec (S (length nxt)) A nxt (length (as_open A)) [INon NArrStart (as_open A)] [] lft with
  | (EOk i items elems (Some AEnd), l) => (PRitems [IArr (firstn i nxt) false items elems] (length (firstn i nxt)) false, l)
  | (EOk _ _ _ _, l) => (PRerr [] nxt, l)
  | (EErr items next elems, l) =>
    match truncate nxt [items] (Some next) with
    | Some t => (PRerr [IArr t false items elems] next, l)
    | None => (PRpy, l)
    end
  | (ECalc, l) => (PRcalc, l) | (EPy, l) => (PRpy, l) | (EFuel, l) => (PRfuel, l)
  end.

(** ** Inner expressions (innerexpressions.py:30-53) and inline functions (inlinefunctions.py:34-60) *)
Fixpoint insert_last (x : item) (sts : list (list item)) : list (list item) :=
  match sts with [] => [] | [s] => [x :: s] | s :: r => s :: insert_last x r end.
Definition insert_first (x : item) (sts : list (list item)) : list (list item) :=
  match sts with [] => [] | s :: r => (x :: s) :: r end.
Definition parse_inner (rec : prec) (fl : flags) (nxt : str) (lft : option str) : pres * option str :=
  let start := INon NInnerStart ($"(") in
  match rec (inner_flags fl) (skipn 1 nxt) lft with
  | (POk sts len rf, l) =>
    match rf with
    | Some EInner => (PRitems [IInner (firstn (len + 2) nxt) false (start :: first_st sts)] (len + 2) false, l)
    | _ => (PRerr [] nxt, l)
    end
  | (PErr sts next, l) =>
    let sts' := insert_last start sts in
    match truncate nxt sts' (Some next) with
    | Some t => (PRerr [IInner t false (first_st sts')] next, l)
    | None => (PRpy, l)
    end
  | (PCalc, l) => (PRcalc, l) | (PPy, l) => (PRpy, l) | (PFuel, l) => (PRfuel, l)
  end.
Definition parse_inline (rec : prec) (fl : flags) (nxt : str) (lft : option str) : pres * option str :=
  let start := INon NInlineStart ($"{") in
  match rec (inline_flags fl) (skipn 1 nxt) lft with
  | (POk sts len rf, l) =>
    match rf with
    | Some EInline => (PRitems [IInline (firstn (len + 2) nxt) false (start :: concat sts)] (len + 2) false, l)
    | _ => (PRerr [] nxt, l)
    end
  | (PErr sts next, l) =>
    let sts' := insert_first start sts in
    match truncate nxt sts' (Some next) with
    | Some t => (PRerr [IInline t false (concat sts')] next, l)
    | None => (PRpy, l)
    end
  | (PCalc, l) => (PRcalc, l) | (PPy, l) => (PRpy, l) | (PFuel, l) => (PRfuel, l)
  end.

(** ** Terminators (terminator.py:38-66) *)
Definition parse_term (C : pcfg) (sym : str) (fl : flags) (cur : list item) (nxt : str) (lft : option str) : pres * option str :=
  if fl_ign fl then (PRnone, lft)
  else if prefixb sym nxt then
    let func := functional_items cur in
    let text := items_text func in
    if match lft with Some t => seq_eqb text t | None => false end then (PRnone, lft)
    else if negb (pc_vars C) then (PRpy, lft)
    else if incomplete (pc_ops C) func (mkSt [] None) then (PRnone, Some text)
    else (PRitems [INon NTerm sym] (length sym) true, lft)
  else (PRnone, lft).

(** ** One parser *)
Definition found (i : str -> item) (nxt : str) (n : nat) : pres := let t := firstn n nxt in PRitems [i t] (length t) false.
Definition run_parser (C : pcfg) (rec : prec) (p : parser) (fl : flags) (cur : list item) (nxt : str) (lft : option str) : pres * option str :=
  let pure x := (x, lft) in
  match p with
  | PSpace => pure (match nxt with c :: _ => if is_space c then found (INon NSpace) nxt 1 else PRnone | [] => PRnone end)
  | PComment sym => pure (if seq_eqb (firstn 1 nxt) sym then found (INon NComment) nxt (comment_len nxt) else PRnone)
  | PTerm sym => parse_term C sym fl cur nxt lft
  | PLit need f =>
    pure (if negb need || match previous_functional_item cur with None => true | Some i => iisop i end
          then match f nxt with
               | Ok (Some (n, v)) => found (fun t => ILit t v) nxt n
               | Ok None => PRnone | Calc => PRcalc | Py => PRpy
               end
          else PRnone)
  | PString q e =>
    pure (match nxt with
          | c :: r => if ceq c q then match str_scan q e r false [] 1 with
                                      | Some (s, n) => found (fun t => ILit t (LStr s)) nxt (n + 1)
                                      | None => PRerr [] nxt
                                      end
                      else PRnone
          | [] => PRnone
          end)
  | POp => pure (match match_op (op_symbols (pc_ops C)) nxt with Some op => PRitems [IOp op] (length op) false | None => PRnone end)
  | PConst cs =>
    pure (match match_alpha nxt with
          | Some w => match assoc w cs with Some (v, u) => PRitems [IConst w v u] (length w) false | None => PRnone end
          | None => PRnone
          end)
  | PUnit f =>
    pure (match f nxt with Ok (Some (n, u)) => found (fun t => IUnit t u) nxt n | Ok None => PRnone | Calc => PRcalc | Py => PRpy end)
  | PWord sys ws => pure (match match_word ws nxt with Some w => PRitems [IWord sys w] (length w) false | None => PRnone end)
  | PVar => pure (match match_name nxt with Some w => PRitems [IVar w] (length w) false | None => PRnone end)
  | PFunc names =>
    match match_name nxt with
    | Some w => if prefixb ($"(") (skipn (length w) nxt) && mem_str w names
                then parse_call rec nxt [INon NFuncName w; INon NFuncStart ($"(")] (length w + 1) w (fun t its args => IFunc t false its w args) lft
                else pure PRnone
    | None => pure PRnone
    end
  | PFuncParam => pure (if prefixb c_comma nxt && fl_func fl then PRend [] EParam else PRnone)
  | PFuncEnd => pure (if prefixb c_close nxt && fl_func fl && negb (fl_inner fl) then PRend [] EFunc else PRnone)
  | PPtr sym =>
    if prefixb sym nxt then
      match match_name (skipn (length sym) nxt) with
      | Some w => if prefixb ($"(") (skipn (length sym + length w) nxt)
                  then parse_call rec nxt [INon NPtrName (sym ++ w); INon NFuncStart ($"(")] (length w + 1 + length sym) w
                                  (fun t its args => IPtr t false its w args) lft
                  else pure PRnone
      | None => pure PRnone
      end
    else pure PRnone
  | PInner => if prefixb ($"(") nxt then parse_inner rec fl nxt lft else pure PRnone
  | PInnerEnd => pure (if prefixb c_close nxt then if fl_inner fl then PRend [INon NInnerEnd c_close] EInner else PRerr [] nxt else PRnone)
  | PInline => if prefixb ($"{") nxt then parse_inline rec fl nxt lft else pure PRnone
  | PInlineEnd => pure (if prefixb ($"}") nxt then if fl_inline fl then PRend [INon NInlineEnd ($"}")] EInline else PRerr [] nxt else PRnone)
  | PArr => if prefixb (as_open (pc_arr C)) nxt then parse_array rec (pc_arr C) nxt lft else pure PRnone
  | PArrRange => pure (if fl_arr fl && prefixb (as_range (pc_arr C)) nxt then PRend [] ARange else PRnone)
  | PArrStep => pure (if fl_arr fl && prefixb (as_step (pc_arr C)) nxt then PRend [] AStep else PRnone)
  | PArrParam => pure (if fl_arr fl && prefixb (as_param (pc_arr C)) nxt then PRend [] AParam else PRnone)
  | PArrEnd => pure (if fl_arr fl && prefixb (as_close (pc_arr C)) nxt then PRend [] AEnd else PRnone)
  end.

(** The [for] over the parsers (103-130): the first that finds something, ends, or raises *)
Fixpoint try_parsers (C : pcfg) (rec : prec) (ps : list parser) (fl : flags) (cur : list item) (nxt : str) (lft : option str) : pres * option str :=
  match ps with
  | [] => (PRnone, lft)
  | p :: r => match run_parser C rec p fl cur nxt lft with
              | (PRnone, lft') => try_parsers C rec r fl cur nxt lft'
              | x => x
              end
  end.

(** The [while] (98-135).  [n] is the position [i], [rest] is [expr[i:]], [done] and [cur] are [statements]. *)
Fixpoint parse_loop (C : pcfg) (rec : prec) (fuel : nat) (fl : flags) (done : list (list item)) (cur : list item) (n : nat)
                    (rest : str) (lft : option str) : pout * option str :=
  match fuel with
  | O => (PFuel, lft)
  | S k =>
    match rest with
    | [] => (POk (done ++ [cur]) n None, lft)
    | _ =>
      match try_parsers C rec (pc_parsers C) fl cur rest lft with
      | (PRnone, l) => (PErr (done ++ [cur]) rest, l)
      | (PRitems items len endst, l) =>
        let cur' := cur ++ items in
        let done' := if endst : bool then done ++ [cur'] else done in
        let cur'' := if endst : bool then [] else cur' in
        if len =? 0 then (PErr (done' ++ [cur'']) rest, l)
        else parse_loop C rec k fl done' cur'' (n + len) (skipn len rest) l
      | (PRend items e, l) => (POk (done ++ [cur ++ items]) n (Some e), l)
      | (PRerr items next, l) => (PErr (done ++ [cur ++ items]) next, l)
      | (PRcalc, l) => (PCalc, l) | (PRpy, l) => (PPy, l) | (PRfuel, l) => (PFuel, l)
      end
    end
  end.

(** [parse] (91-141), nested [n] deep at most *)
Fixpoint parse (C : pcfg) (n : nat) (fl : flags) (text : str) (lft : option str) : pout * option str :=
  match n with
  | O => (PFuel, lft)
  | S k => parse_loop C (parse C k) (S (length text)) fl [] [] 0 text lft
  end.
Definition parse_text (C : pcfg) (text : str) (lft : option str) : pout * option str := parse C (S (length text)) no_flags text lft.
