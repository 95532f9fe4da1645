(** What the theorems about the operators and functions are stated with. *)
From Coq Require Import ZArith QArith Ascii String List Bool Lia.
From Verif Require Import Base Dec Num Bases Formats Units Syntax Call Loop Exec Std.
Import ListNotations.
Open Scope nat_scope.

(** * Variables *)
(** A store as a map from names; commands on it and what they mean. *)
Definition vmap := str -> option (value * option eunit).
Inductive vcmd := VSet (n : str) (v : value) (u : option eunit) | VSetNew (n : str) (v : value) (u : option eunit)
                | VDelete (n : str) | VReset.
Definition set_at (n : str) (x : option (value * option eunit)) (m : vmap) : vmap := fun k => if seq_eqb n k then x else m k.
Definition meaning (c : vcmd) (m : vmap) : vmap :=
  match c with
  | VSet n v u => set_at n (Some (v, u)) m
  | VSetNew n v u => match m n with Some _ => m | None => set_at n (Some (v, u)) m end
  | VDelete n => set_at n None m
  | VReset => fun _ => None
  end.
Definition vars_of (s : st) : vmap := fun n => assoc n (s_vars s).
Definition same_vars (a b : vmap) : Prop := forall n, a n = b n.

(** A reference to variable [n], as evaluating it gives (or any other result that refers to it) *)
Definition refers (x : result) (n : str) : Prop := rref x = Some (RVar n) /\ is_exc (rval x) = false.
Definition usable (y : result) : Prop := is_exc (rval y) = false.

(** Calls of the calculator that do a command *)
Inductive does (L : lib) : vcmd -> st -> st -> Prop :=
| does_set n x y s o s' : refers x n -> usable y -> callop (std L) false ($"=") [x; y] s = (o, s') ->
    does L (VSet n (rval y) (runit y)) s s'
| does_new n x y s o s' : refers x n -> usable y -> callop (std L) false ($"||=") [x; y] s = (o, s') ->
    does L (VSetNew n (rval y) (runit y)) s s'
| does_delete n x d s o s' : refers x n -> is_list (rval x) = false -> assoc ($"delete") (g_funcs (std L)) = Some d ->
    call (g_env (std L)) (callop (std L) false) d false [x] s = (o, s') -> does L (VDelete n) s s'
| does_reset d s o s' : assoc ($"reset") (g_funcs (std L)) = Some d ->
    call (g_env (std L)) (callop (std L) false) d false [] s = (o, s') -> does L VReset s s'.
(** One after the other; a deleted variable must be set. *)
Inductive history (L : lib) : list vcmd -> st -> st -> Prop :=
| history_none s : history L [] s s
| history_one c cs s s1 s2 : does L c s s1 -> (match c with VDelete n => vars_of s n <> None | _ => True end) ->
    history L cs s1 s2 -> history L (c :: cs) s s2.

(** A calculator with the operators of [std] and some of its functions *)
Definition built_from (L : lib) (G : ecfg) : Prop :=
  g_ops G = std_table L /\ (forall f d, assoc f (g_funcs G) = Some d -> In (f, d) (std_funcs L)).
(** The functions that change variables *)
Definition state_funcs : list str := [$"reset"; $"delete"].

(** The updating operators and the operator each uses *)
Definition updates : list (str * str) :=
  [($"+=", $"+"); ($"-=", $"-"); ($"*=", $"*"); ($"/=", $"/"); ($"^=", $"^"); ($"%=", $"%"); ($"\=", $"\")].
Definition steps : list (str * str) := [($"++", $"+"); ($"--", $"-")].

(** * Truth values *)
(** What the operators mean, and the operand on the left that decides alone *)
Definition truth (sym : str) (a b : bool) : bool :=
  if seq_eqb sym ($"and") then a && b else if seq_eqb sym ($"or") then a || b else xorb a b.
Definition decided (sym : str) (a : bool) : option bool :=
  if seq_eqb sym ($"and") && negb a then Some false else if seq_eqb sym ($"or") && a then Some true else None.
Definition bool_syms : list str := [$"and"; $"or"; $"xor"].

(** * Arrays *)
(** An element counts as the number [n]; the decimal it is compared by. *)
Definition number_at (L : lib) (r : result) (n : number) : Prop := any_number (l_fmt L) (rval r) = Ok n.
Definition numeric (L : lib) (l : list result) : Prop := forall r, In r l -> exists n, number_at L r n.
Definition key (L : lib) (r : result) : Q :=
  match any_number (l_fmt L) (rval r) with Ok n => rnd (l_prec L) (inject_Z (nnum n) / inject_Z (nden n)) | _ => 0%Q end.
(** An element without the attributes that sorting and the like leave on it *)
Definition plain (r : result) : result := Res (rval r) (runit r) (rref r) None.
(** The same value, up to how a number is shown *)
Definition same_value (v w : value) : Prop :=
  match v, w with VNum a, VNum b => nnum a = nnum b /\ nden a = nden b | _, _ => v = w end.

(** * Texts *)
(** [d] stands in [s] at place [i]; a part whose first delimiter, once one follows it, is the one that follows *)
Definition found (d s : str) (i : nat) : Prop := exists a b, s = a ++ d ++ b /\ length a = i.
Definition ends_part (d t : str) : Prop := forall i, i < length t -> ~ found d (t ++ d) i.
Definition text (t : str) : result := mkRes (VStr t) None None.

(** * Integers *)
(** The number is the integer [i], of no more digits than the precision. *)
Definition whole (p : Z) (n : number) (i : Z) : Prop := nnum n = i /\ nden n = 1%Z /\ (Z.abs i < 10 ^ p)%Z.
(** The format of the result of an operation on two numbers *)
Definition format_of (a b : number) : option cast := match ncast a with Some c => Some c | None => ncast b end.
(** A value in the format of [b], if that has one *)
Definition in_format (b : number) (v : value) : value := match v with VNum m => VNum (with_cast m (format_of b m)) | _ => v end.
