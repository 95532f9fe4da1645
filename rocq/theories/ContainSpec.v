(** What the theorem that failures only reach the caller as calculator exceptions is stated with. *)
From Coq Require Import ZArith QArith Ascii String List Bool.
From Verif Require Import Base Dec Num Bases Units Syntax Call Loop Parse Exec ErrorSpec.
Import ListNotations.
Open Scope nat_scope.

(** Units only if there are units ([u]); the same holds of the elements of arrays, and of the values they had before they were
    converted for an operation, which are no errors *)
Fixpoint sane (u : bool) (v : value) : Prop :=
  match v with VUnit _ => u = true | VList l => fold_right (fun r P => sane_res u r /\ P) True l | _ => True end
with sane_res (u : bool) (r : result) : Prop :=
  match r with Res v _ _ o => sane u v /\ match o with Some (w, _) => sane u w /\ is_exc w = false | None => True end end.
(** The variables hold no errors *)
Definition usable (u : bool) (v : value) : Prop := sane u v /\ is_exc v = false.
Definition usable_vars (u : bool) (s : st) : Prop := forall n v w, In (n, (v, w)) (s_vars s) -> usable u v.
(** An operator, given such values and errors, gives such a value or one of the errors it was given, or fails with a
    calculator exception; and leaves such values in the variables *)
Definition contained_op (u : bool) (call : list result -> M result) : Prop := forall ins s o s',
  Forall (sane_res u) ins -> usable_vars u s -> call ins s = (o, s') ->
  usable_vars u s' /\
  match o with
  | OOk r => sane_res u r /\ (is_exc (rval r) = true -> exists x, In x ins /\ rval x = rval r)
  | OPy => False
  | _ => True
  end.
(** A function gives a value that is no error; it is given errors only if it takes them *)
Definition contained_fn (u excs : bool) (call : list result -> M result) : Prop := forall ins s o s',
  Forall (sane_res u) ins -> (excs = true \/ Forall (fun x => is_exc (rval x) = false) ins) -> usable_vars u s -> call ins s = (o, s') ->
  usable_vars u s' /\ match o with OOk r => sane_res u r /\ is_exc (rval r) = false | OPy => False | _ => True end.

(** Items without function pointers and ranges, that use the operators [okop] and functions [okfn] *)
Inductive tame (u : bool) (okop okfn : str -> Prop) : item -> Prop :=
| tm_op s : okop s -> tame u okop okfn (IOp s)
| tm_lit t v : tame u okop okfn (ILit t v)
| tm_var n : tame u okop okfn (IVar n)
| tm_const n v w : tame u okop okfn (IConst n v w)
| tm_unit t x : u = true -> tame u okop okfn (IUnit t x)
| tm_word b t : tame u okop okfn (IWord b t)
| tm_non k t : tame u okop okfn (INon k t)
| tm_inner t b l : Forall (tame u okop okfn) l -> tame u okop okfn (IInner t b l)
| tm_inline t b l : tame u okop okfn (IInline t b l)
| tm_func t b l name args : Forall (tame u okop okfn) l -> okfn name -> tame u okop okfn (IFunc t b l name args)
| tm_arr t b l es : Forall (tame u okop okfn) l -> Forall (fun e => e_end e = None) es -> tame u okop okfn (IArr t b l es).

(** The inputs of an operator: a further symbol only right after an operand *)
Fixpoint after_operands (operand : bool) (l : list (option str)) : Prop :=
  match l with
  | [] => True
  | None :: r => after_operands true r
  | Some _ :: r => operand = true /\ after_operands false r
  end.
Definition no_symbols (l : list (option str)) : Prop := forall x, In x l -> x = None.
(** The operators of a calculator: those not written take one operand on each side; no level is empty; further symbols
    come on the right, after an operand; and values that stand next to each other are joined (multiplied, or with units,
    given the unit) before the operators with further symbols are run. *)
Definition joining (u : bool) (T : optable) : Prop := exists before after, t_levels T = before ++ after /\
  (forall l s o, In l before -> In s (map fst l) -> find_op T s = Some o -> no_symbols (op_r o)) /\
  (exists l, In l before /\ in_level (t_imul T) l = true) /\
  (u = true -> (exists l, In l before /\ in_level (t_uassign T) l = true) /\ (exists l, In l before /\ in_level (t_umul T) l = true)).
Definition proper_table (u : bool) (T : optable) : Prop :=
  unwritten_infix T /\ (forall l, In l (t_levels T) -> l <> []) /\
  (forall s o, find_op T s = Some o -> no_symbols (op_l o) /\ after_operands false (op_r o)) /\ joining u T.

(** The groups of items occur within the items, the first at position [k] or later, each following one as much later as
    the one before is long, and one more *)
Inductive placed (items : list item) : nat -> list (list item) -> Prop :=
| pl_nil k : placed items k []
| pl_cons k g gs a b : items = a ++ g ++ b -> k <= length a -> placed items (k + length g + 1) gs -> placed items k (g :: gs).
Definition elem_parts (e : elem item) : list (list item) :=
  e_start e :: match e_end e with Some x => x :: match e_step e with Some y => [y] | None => [] end | None => [] end.
(** The arguments of a call and the elements of an array are within its items *)
Inductive laid_out : item -> Prop :=
| lo_leaf i : isub i = None -> laid_out i
| lo_inner t b l : Forall laid_out l -> laid_out (IInner t b l)
| lo_inline t b l : Forall laid_out l -> laid_out (IInline t b l)
| lo_func t b l name args : Forall laid_out l -> placed l 2 args -> laid_out (IFunc t b l name args)
| lo_ptr t b l name args : Forall laid_out l -> placed l 2 args -> laid_out (IPtr t b l name args)
| lo_arr t b l es : Forall laid_out l -> placed l 1 (flat_map elem_parts es) -> laid_out (IArr t b l es).
(** The range and step symbols are not the beginning of anything else, at the beginning of an element of an array *)
Definition array_symbols (C : pcfg) : Prop := forall m rec r lft, m = as_range (pc_arr C) \/ m = as_step (pc_arr C) ->
  m <> [] /\
  match fst (try_parsers C rec (pc_parsers C) arr_flags [] (m ++ r) lft) with
  | PRitems _ _ _ => False
  | PRend items _ => items = []
  | _ => True
  end.

(** The same calculator if every value can be displayed (numbers of 10^70 and more cannot, which is used when an operation
    fails, to name its inputs) *)
Definition displayed (G : ecfg) : ecfg :=
  mkG (g_prec G) (mkEnv (e_valid (g_env G)) (e_parse (g_env G)) (e_norm (g_env G)) (e_dims (g_env G)) (fun _ => true))
      (g_parse G) (g_funcs G) (g_inline G) (g_external G) (g_read G) (g_input G) (g_final G).
(** A failure is a calculator exception, and names a place in the text: its items are the beginning of the text, and its
    next text follows them *)
Definition shown_at (text : str) (o : cout) : Prop :=
  match o with
  | CFail _ _ its nx _ => exists rest, text = concat (map items_text its) ++ rest /\ forall t, nx = Some t -> exists more, rest = t ++ more
  | CPy | CRaw => False
  | _ => True
  end.
(** The operators that may be used, among them those not written; and the functions *)
Definition ops_contained (G : ecfg) (u stl : bool) (okop : str -> Prop) : Prop :=
  (forall t, unwritten (g_ops G) t -> okop t) /\ forall t, okop t -> contained_op u (callop G stl t).
Definition fns_contained (G : ecfg) (u stl : bool) (okfn : str -> Prop) : Prop := forall name, okfn name ->
  exists d, assoc name (g_funcs G) = Some d /\ contained_fn u (o_excs d) (call (g_env G) (callop G stl) d stl).
