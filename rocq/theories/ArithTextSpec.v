(** Arithmetic as it is written in books: expressions, their texts, and their values.  What the theorems about the answers to
    such texts are stated with; nothing here is defined with the calculator. *)
From Coq Require Import ZArith QArith Qabs Qround Qpower Ascii String List Bool.
From Verif Require Import Base Num Bases Lex LexSpec VarNameSpec.
Import ListNotations.
Open Scope nat_scope.

(** * Expressions *)
Inductive aop := Plus | Minus | Times | Over | Power | Beside.
(** Functions of one number and of two *)
Inductive afun := Abs | Floor | Ceil | Round | Fact.
Inductive afun2 := Gcd | Lcm.
Inductive aexp := ANum (l : declit) | AVar (n : str) | ABin (o : aop) (a b : aexp) | ACall (f : afun) (a : aexp) | ACall2 (f : afun2) (a b : aexp).

(** * Texts *)
Definition osym (o : aop) : str :=
  match o with Plus => $"+" | Minus => $"-" | Times => $"*" | Over => $"/" | Power => $"^" | Beside => [] end.
(** The smaller, the tighter: powers, then two operands beside each other, then [*] and [/], then [+] and [-] *)
Definition olevel (o : aop) : nat := match o with Power => 1 | Beside => 2 | Times | Over => 3 | Plus | Minus => 4 end.
(** Blanks: spaces, tabs and the like, but no new line *)
Definition blank_text (b : str) : Prop := Forall (fun c => is_space c = true /\ code c <> 10%Z) b.
(** The texts of the expressions in which only operators of levels up to [k] stand outside parentheses.  Operators of the same
    level group to the left.  Operands beside each other are kept apart by a blank, and the second is no numeral; [--] is not
    written. *)
Definition opens_operand (t : str) : Prop := match t with [] => False | c :: _ => c = "("%char \/ letter c \/ c = "_"%char end.
Definition joint (o : aop) (b1 b2 t2 : str) : Prop :=
  match o with
  | Beside => b1 <> [] /\ b2 = [] /\ opens_operand t2
  | Minus => starts ($"-") t2 -> b2 <> []
  | _ => True
  end.
Definition fname (f : afun) : str := match f with Abs => $"abs" | Floor => $"floor" | Ceil => $"ceil" | Round => $"round" | Fact => $"fact" end.
Definition fname2 (f : afun2) : str := match f with Gcd => $"gcd" | Lcm => $"lcm" end.
Inductive reads : nat -> str -> aexp -> Prop :=
| reads_num l : lit_ok l -> reads 0 (lit_text l) (ANum l)
| reads_var n : is_name n -> ~ taken n -> reads 0 n (AVar n)
| reads_paren b1 t b2 e : blank_text b1 -> blank_text b2 -> reads 4 t e -> reads 0 ($"(" ++ b1 ++ t ++ b2 ++ $")") e
| reads_call f b1 t b2 e : blank_text b1 -> blank_text b2 -> reads 4 t e -> reads 0 (fname f ++ $"(" ++ b1 ++ t ++ b2 ++ $")") (ACall f e)
| reads_call2 f b1 t1 b2 b3 t2 b4 a b : blank_text b1 -> blank_text b2 -> blank_text b3 -> blank_text b4 -> reads 4 t1 a -> reads 4 t2 b ->
    reads 0 (fname2 f ++ $"(" ++ b1 ++ t1 ++ b2 ++ $"," ++ b3 ++ t2 ++ b4 ++ $")") (ACall2 f a b)
| reads_looser k t e : reads k t e -> reads (S k) t e
| reads_bin o t1 b1 b2 t2 a b : blank_text b1 -> blank_text b2 -> joint o b1 b2 t2 ->
    reads (olevel o) t1 a -> reads (pred (olevel o)) t2 b -> reads (olevel o) (t1 ++ b1 ++ osym o ++ b2 ++ t2) (ABin o a b).
Definition arithmetic_text (text : str) (e : aexp) : Prop :=
  exists b1 t b2, text = b1 ++ t ++ b2 /\ blank_text b1 /\ blank_text b2 /\ reads 4 t e.

(** * Values *)
Definition whole (q : Q) : option Z := if (Qden (Qred q) =? 1)%positive then Some (Qnum (Qred q)) else None.
(** Nothing is divided by zero; powers have whole exponents, and zero only positive ones. *)
Definition apply_op (o : aop) (x y : Q) : option Q :=
  match o with
  | Plus => Some (x + y)%Q
  | Minus => Some (x - y)%Q
  | Times | Beside => Some (x * y)%Q
  | Over => if Qeq_bool y 0 then None else Some (x / y)%Q
  | Power => match whole y with
             | Some z => if Qeq_bool x 0 && (z <=? 0)%Z then None else Some (Qpower x z)
             | None => None
             end
  end.
(** Rounding is to the nearest whole number, away from zero from the middle; factorials are of natural numbers, divisors and
    multiples of whole numbers. *)
Definition apply_fun (f : afun) (x : Q) : option Q :=
  match f with
  | Abs => Some (Qabs x)
  | Floor => Some (inject_Z (Qfloor x))
  | Ceil => Some (inject_Z (Qceiling x))
  | Round => Some (inject_Z (if Qle_bool 0 x then Qfloor (x + (1#2)) else Qceiling (x - (1#2))))
  | Fact => match whole x with
            | Some z => if (z <? 0)%Z then None else Some (inject_Z (fold_right Z.mul 1%Z (map Z.of_nat (seq 1 (Z.to_nat z)))))
            | None => None
            end
  end.
Definition apply_fun2 (f : afun2) (x y : Q) : option Q :=
  match whole x, whole y with
  | Some i, Some j => Some (inject_Z (match f with Gcd => Z.gcd i j | Lcm => Z.lcm i j end))
  | _, _ => None
  end.
Fixpoint avalue (vars : str -> option Q) (e : aexp) : option Q :=
  match e with
  | ANum l => Some (spec_val l)
  | AVar n => vars n
  | ABin o a b => match avalue vars a, avalue vars b with Some x, Some y => apply_op o x y | _, _ => None end
  | ACall f a => match avalue vars a with Some x => apply_fun f x | None => None end
  | ACall2 f a b => match avalue vars a, avalue vars b with Some x, Some y => apply_fun2 f x y | _, _ => None end
  end.

(** * Formats *)
(** Numbers are shown in hexadecimal and so on if they came that way: the first operand that has a format gives it to the result.
    Numerals have none. *)
Definition first_format (a b : option cast) : option cast := match a with Some c => Some c | None => b end.
Fixpoint aformat (fmts : str -> option cast) (e : aexp) : option cast :=
  match e with
  | ANum _ => None
  | AVar n => fmts n
  | ABin _ a b | ACall2 _ a b => first_format (aformat fmts a) (aformat fmts b)
  | ACall _ a => aformat fmts a
  end.

(** * Sizes *)
(** In lowest terms, at most [k] digits above and below the line *)
Definition digits_le (k : Z) (q : Q) : Prop := (Z.abs (Qnum (Qred q)) < 10 ^ k /\ Z.pos (Qden (Qred q)) < 10 ^ k)%Z.
(** Rounding takes more digits on the way. *)
Definition room (p k : Z) (f : afun) : Prop := match f with Floor | Ceil | Round => (4 * k + 3 <= p)%Z | Abs | Fact => True end.
(** The value and all values on the way to it are defined and that small; numerals have at most [p] digits after the point. *)
Fixpoint stays (vars : str -> option Q) (p k : Z) (e : aexp) : Prop :=
  match avalue vars e with Some q => digits_le k q | None => False end /\
  match e with
  | ANum l => match l_frac l with Some f => (Z.of_nat (length f) <= p)%Z | None => True end
  | AVar _ => True
  | ABin _ a b | ACall2 _ a b => stays vars p k a /\ stays vars p k b
  | ACall f a => room p k f /\ stays vars p k a
  end.

(** * Programs: lines of such texts *)
Inductive aline := LBlank | LExp (e : aexp) | LSet (n : str) (e : aexp).
Inductive line_reads : str -> aline -> Prop :=
| line_blank b : blank_text b -> line_reads b LBlank
| line_exp t e : arithmetic_text t e -> line_reads t (LExp e)
| line_set b1 n b2 t e : blank_text b1 -> is_name n -> ~ taken n -> blank_text b2 -> arithmetic_text t e ->
    line_reads (b1 ++ n ++ b2 ++ $"=" ++ t) (LSet n e).
Definition line_end : ascii := "010"%char.
Fixpoint lines_text (ls : list str) : str := match ls with [] => [] | [l] => l | l :: r => l ++ [line_end] ++ lines_text r end.
(** What is known after a line, what the lines answer, and that nothing on the way is too big *)
Definition vars_then (vars : str -> option Q) (l : aline) : str -> option Q :=
  match l with LSet n e => fun m => if seq_eqb n m then avalue vars e else vars m | _ => vars end.
Definition line_value (vars : str -> option Q) (l : aline) : option Q := match l with LBlank => None | LExp e | LSet _ e => avalue vars e end.
Fixpoint answers (vars : str -> option Q) (ls : list aline) : list (option Q) :=
  match ls with [] => [] | l :: r => line_value vars l :: answers (vars_then vars l) r end.
(** The formats of the answers *)
Definition fmts_then (fmts : str -> option cast) (l : aline) : str -> option cast :=
  match l with LSet n e => fun m => if seq_eqb n m then aformat fmts e else fmts m | _ => fmts end.
Definition line_format (fmts : str -> option cast) (l : aline) : option cast := match l with LBlank => None | LExp e | LSet _ e => aformat fmts e end.
Fixpoint formats_along (fmts : str -> option cast) (ls : list aline) : list (option cast) :=
  match ls with [] => [] | l :: r => line_format fmts l :: formats_along (fmts_then fmts l) r end.
Definition vars_end (vars : str -> option Q) (ls : list aline) : str -> option Q := fold_left vars_then ls vars.
Fixpoint all_stay (vars : str -> option Q) (p k : Z) (ls : list aline) : Prop :=
  match ls with
  | [] => True
  | l :: r => match l with LBlank => True | LExp e | LSet _ e => stays vars p k e end /\ all_stay (vars_then vars l) p k r
  end.
