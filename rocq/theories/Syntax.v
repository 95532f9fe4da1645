(** Items, values and errors: [objects/items.py], [objects/exceptions.py] and the item classes of the features. *)
From Coq Require Import ZArith QArith Ascii String List Bool Lia.
From Verif Require Import Base Dec Num Bases Units.
Import ListNotations.
Open Scope nat_scope.

(** A unit attached to a value: a [UnitPowerList] and its [no_simplify] attribute (objects/units.py:66). *)
Record eunit := mkEU { eu_list : upl; eu_nosimp : bool }.

(** The values a literal can have. *)
Inductive lit := LNum (n : number) | LStr (s : str) | LBool (b : bool).

(** The subclasses of [NonFunctionalItem] (items.py:138-151), named by their [desc()]. *)
Inductive nkind :=
| NSpace | NComment | NTerm
| NFuncName | NPtrName | NFuncStart | NFuncParam | NFuncEnd
| NInnerStart | NInnerEnd | NInlineStart | NInlineEnd
| NArrStart | NArrRange | NArrStep | NArrParam | NArrEnd.

(** [ArrayElement] (arrays.py:204-209) *)
Record elem (I : Type) := mkElem { e_start : list I; e_end : option (list I); e_step : option (list I) }.
Arguments mkElem {I}. Arguments e_start {I}. Arguments e_end {I}. Arguments e_step {I}.

(** The items.  [tr] is the attribute [truncated] (items.py:31), which only the recursive items ever set.
    [IWord] stands for NumericalRepresentationItem ([false]) and UnitSystemItem ([true]). *)
Inductive item :=
| IOp (sym : str)
| ILit (text : str) (v : lit)
| IVar (name : str)
| IConst (name : str) (v : lit) (u : option eunit)
| IUnit (text : str) (u : eunit)
| IWord (sys : bool) (text : str)
| INon (k : nkind) (text : str)
| IInner (text : str) (tr : bool) (items : list item)
| IInline (text : str) (tr : bool) (items : list item)
| IFunc (text : str) (tr : bool) (items : list item) (name : str) (args : list (list item))
| IPtr (text : str) (tr : bool) (items : list item) (name : str) (args : list (list item))
| IArr (text : str) (tr : bool) (items : list item) (elements : list (elem item)).

(** [item.text] *)
Definition itext (i : item) : str :=
  match i with
  | IOp s => s | ILit t _ => t | IVar n => n | IConst n _ _ => n | IUnit t _ => t | IWord _ t => t | INon _ t => t
  | IInner t _ _ => t | IInline t _ _ => t | IFunc t _ _ _ _ => t | IPtr t _ _ _ _ => t | IArr t _ _ _ => t
  end.
(** [functional()] (items.py:49, 143) and [isop()] (items.py:65, 87, 140) *)
Definition ifunc (i : item) : bool := match i with INon _ _ => false | _ => true end.
Definition iisop (i : item) : bool := match i with IOp _ => true | _ => false end.
(** The sub-items of a [RecursiveOperandItem]. *)
Definition isub (i : item) : option (list item) :=
  match i with IInner _ _ l | IInline _ _ l | IFunc _ _ l _ _ | IPtr _ _ l _ _ | IArr _ _ l _ => Some l | _ => None end.

(** [functional_items] (17), [items_text] (23) and [previous_functional_item] on a whole list (7-15). *)
Definition functional_items (l : list item) : list item := filter ifunc l.
Definition items_text (l : list item) : str := concat (map itext l).
Definition previous_functional_item (l : list item) : option item := hd_error (rev (functional_items l)).

(** The reference an [OperandResult] carries: which variable it came from, if it did. *)
Inductive ref := RVar (name : str) | ROther.

(** Messages, as far as the code looks at them (terminator.py:54 looks for MMissRight; operators.py:237-240 puts the
    name of the operation in). *)
Inductive msg :=
| MEmpty | MMissLeft (sym : str) | MMissRight (sym : str) | MSymbol | MInput | MStuck | MNotOne | MNotValue
| MLength | MOp (name : str) | MOther.

(** Values, results and errors.  [XExec] is an ExecuteException (exceptions.py:75-94), [XCalc] any other
    CalculatorException with its attribute [wrapped].  [orig] is the pair of attributes [original_value],
    [original_unit] (operators.py:206-207). *)
Inductive value :=
| VNone | VNum (n : number) | VStr (s : str) | VBool (b : bool) | VUnit (u : eunit)
| VList (l : list result) | VExc (e : exc) | VFun (i : item)
with result := Res (v : value) (u : option eunit) (r : option ref) (orig : option (value * option eunit))
with exc :=
| XCalc (wrapped : bool) (m : msg)
| XExec (m : msg) (items : list item) (next : option str) (trunc : bool).

Definition rval (r : result) : value := match r with Res v _ _ _ => v end.
Definition runit (r : result) : option eunit := match r with Res _ u _ _ => u end.
Definition rref (r : result) : option ref := match r with Res _ _ f _ => f end.
Definition rorig (r : result) : option (value * option eunit) := match r with Res _ _ _ o => o end.
Definition mkRes (v : value) (u : option eunit) (r : option ref) : result := Res v u r None.
Definition is_exc (v : value) : bool := match v with VExc _ => true | _ => false end.
Definition vlit (l : lit) : value := match l with LNum n => VNum n | LStr s => VStr s | LBool b => VBool b end.
