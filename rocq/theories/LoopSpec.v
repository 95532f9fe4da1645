(** What the operator loop is expected to do, said without it: expression trees, how precedence levels group a flat
    sequence, and the value of a tree. *)
From Coq Require Import ZArith QArith Ascii String List Bool Lia.
From Verif Require Import Base Dec Num Bases Units Syntax Call Loop.
Import ListNotations.
Open Scope nat_scope.

(** An operand: its result and its place among the items. *)
Definition leaf := (result * nat)%type.
(** What stands between two operands: an operator at a place, or nothing (implicit multiplication). *)
Inductive gap := GOp (sym : str) (idx : nat) | GImp.
(** A flat sequence: operand, gap, operand, ..., gap, operand. *)
Definition chain := (leaf * list (gap * leaf))%type.
Definition slots_of (c : chain) : list slot :=
  SRes (fst (fst c)) (snd (fst c)) ::
  concat (map (fun gb : gap * leaf => let (g, b) := gb in
               match g with GOp s i => [SOp s i; SRes (fst b) (snd b)] | GImp => [SRes (fst b) (snd b)] end) (snd c)).

(** Expression trees, and the sequence a tree is written as. *)
Inductive tree := Leaf (x : leaf) | Node (g : gap) (l r : tree).
Fixpoint chain_of (t : tree) : chain :=
  match t with
  | Leaf x => (x, [])
  | Node g l r => (fst (chain_of l), snd (chain_of l) ++ (g, fst (chain_of r)) :: snd (chain_of r))
  end.

(** The operator a gap stands for. *)
Definition gap_sym (T : optable) (g : gap) : str :=
  match g with GOp s _ => s | GImp => match t_imul T with Some s => s | None => [] end end.

(** The precedence of a symbol: the number of the first level it is in (0 is tightest). *)
Fixpoint level_no (ls : list level) (s : str) : nat :=
  match ls with [] => 0 | l :: r => if mem_str s (map fst l) then 0 else S (level_no r s) end.
Definition rank (T : optable) (g : gap) : nat := level_no (t_levels T) (gap_sym T g).
(** Whether a level is declared right to left: its first operator is. *)
Definition right_to_left (T : optable) (n : nat) : bool :=
  match nth_error (t_levels T) n with
  | Some ((s, _) :: _) => match find_op T s with Some o => op_rtl o | None => false end
  | _ => false
  end.

(** A tree is grouped by precedence: below each operator stand only tighter ones, or on its left ones of the same
    level if the level goes left to right, and on its right if it goes right to left. *)
Fixpoint grouped (T : optable) (t : tree) : Prop :=
  match t with
  | Leaf _ => True
  | Node g l r =>
    grouped T l /\ grouped T r /\
    match l with Leaf _ => True | Node h _ _ => rank T h < rank T g \/ (rank T h = rank T g /\ right_to_left T (rank T g) = false) end /\
    match r with Leaf _ => True | Node h _ _ => rank T h < rank T g \/ (rank T h = rank T g /\ right_to_left T (rank T g) = true) end
  end.

(** The interpretation of the operators: a result or a calculator exception. *)
Definition interp := str -> list result -> result + exc.
Definition interp_call (f : interp) : str -> list result -> M result :=
  fun s ins => match f s ins with inl r => ret r | inr e => raise e end.
(** The place an error of a subtree is reported at: its operator. *)
Fixpoint place (t : tree) : nat :=
  match t with Leaf x => snd x | Node (GOp _ i) _ _ => i | Node GImp _ r => place r end.
(** The value of a tree.  An error becomes a value that points at the operator. *)
Fixpoint tree_value (T : optable) (orig : list item) (f : interp) (t : tree) : result :=
  match t with
  | Leaf x => fst x
  | Node g l r =>
    match f (gap_sym T g) [tree_value T orig f l; tree_value T orig f r] with
    | inl v => v
    | inr e => mkRes (VExc (XExec (exc_msg e) (firstn (place t) orig) (match g with GOp s _ => Some s | GImp => None end) false)) None None
    end
  end.

(** The sequences considered: every operator is in the table, binary, and none of the operators that cannot be
    written; no level is empty; no value is a unit. *)
Definition is_unit_val (r : result) : bool := match rval r with VUnit _ => true | _ => false end.
Definition binary (T : optable) (s : str) : Prop := exists o, find_op T s = Some o /\ op_l o = [None] /\ op_r o = [None].
Definition good_gap (T : optable) (g : gap) : Prop :=
  match g with
  | GOp s _ => In s (map fst (concat (t_levels T))) /\ binary T s /\ t_umul T <> Some s /\ t_udiv T <> Some s /\ t_imul T <> Some s
  | GImp => exists s, t_imul T = Some s /\ In s (map fst (concat (t_levels T))) /\ binary T s
  end.
Definition good_chain (T : optable) (c : chain) : Prop :=
  is_unit_val (fst (fst c)) = false /\
  Forall (fun gb => good_gap T (fst gb) /\ is_unit_val (fst (snd gb)) = false) (snd c).
Definition good_table (T : optable) : Prop := Forall (fun l => l <> []) (t_levels T).
Definition no_units (f : interp) : Prop := forall s ins r, f s ins = inl r -> is_unit_val r = false.

(** Every operator run uses up at least one item: the invisible operators take two inputs. *)
Definition shrinks (T : optable) : Prop :=
  forall s o, t_uassign T = Some s \/ t_umul T = Some s \/ t_imul T = Some s -> find_op T s = Some o -> 2 <= length (op_l o) + length (op_r o).
