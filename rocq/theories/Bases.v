(** Model of features/numerical/bases.py and of the binary, octal, hexadecimal and arbitrary-base literals. *)
From Coq Require Import ZArith QArith Qround Ascii String List Bool Lia.
From Verif Require Import Base Dec Num Lex.
Import ListNotations.
Open Scope Z_scope.

(** Outcome of a python call: a value, a CalculatorException, or any other python exception. *)
Inductive out (A : Type) := Ok (a : A) | Calc | Py.
Arguments Ok {A} a.
Arguments Calc {A}.
Arguments Py {A}.
Definition obind {A B} (x : out A) (f : A -> out B) : out B :=
  match x with Ok a => f a | Calc => Calc | Py => Py end.
Notation "'do' x <- a ; b" := (obind a (fun x => b)) (at level 200, x pattern, a at level 100, b at level 200, right associativity).
(** A decimal or Number exception is a python exception. *)
Definition py_opt {A} (x : option A) : out A := match x with Some a => Ok a | None => Py end.

(** [s.replace(pre, '')] for a non-empty [pre]: every non-overlapping occurrence, left to right. *)
Fixpoint remove_all (pre s : str) (skip : nat) : str :=
  match s with
  | [] => []
  | c :: s' =>
    match skip with
    | S k => remove_all pre s' k
    | O => if prefixb pre s then remove_all pre s' (length pre - 1) else c :: remove_all pre s' O
    end
  end.

(** [number_remove_prefix] (bases.py:32-33) *)
Definition remove_prefix (v pre : str) : str := remove_all pre (lower v) O.

(** [number_add_prefix] (bases.py:35-39) *)
Definition add_prefix (v pre : str) : str :=
  match v with
  | c :: v' => if ceq c "-"%char then c :: pre ++ v' else pre ++ v
  | [] => pre
  end.

(** [split_number] (bases.py:41-51): sign, integer part, point and fractional part. *)
Definition split_number (v : str) : str * str * str :=
  let '(sg, v) := opt_minus v in
  match sfind ["."%char] v with
  | Some i => (sg, firstn i v, skipn i v)
  | None => (sg, v, [])
  end.

(** [get_number_width], [force_number_width] (bases.py:53-61) *)
Definition get_width (v pre : str) : Z :=
  let '(_, ip, _) := split_number (remove_prefix v pre) in Z.of_nat (length ip).
Definition force_width (v : str) (w : Z) : str :=
  let '(sg, ip, fp) := split_number v in sg ++ zfill (Z.to_nat w) ip ++ fp.

(** Loop of [base_to_dec] (bases.py:85-92).  [dpow] is [Decimal.__pow__]. *)
Fixpoint b2d_loop (p : Z) (dpow : Q -> Q -> option Q) (base : Z) (v : str) (power : Z) (dec : number) : out number :=
  match v with
  | [] => Ok dec
  | c :: v' =>
    if ceq c "."%char then b2d_loop p dpow base v' power dec
    else
      let d := digit_val c in
      if (d =? -1) || (base - 1 <? d) then Calc
      else
        do bp <- py_opt (num_pow p dpow (num_of_Z p base) (num_of_Z p power));
        do t <- py_opt (num_mul p (num_of_Z p d) bp);
        do dec <- py_opt (num_add p dec t);
        b2d_loop p dpow base v' (power - 1) dec
  end.

(** [Number(val)] of a text (number.py:15-55) for base 10: [Decimal(val)] reads an exponent too.  (A text that gets here has
    no other sign than the first; [inf] and [nan] are an error in [math.floor].) *)
Definition number_of_text (p : Z) (v : str) : out number :=
  match match_number v with
  | Some (l, []) => py_opt (number_of_lit p l)
  | Some (l, c :: r) =>
    if ceq (lower_c c) "e"%char && (0 <? length r)%nat && forallb is_digit r
    then py_opt (num_make p None (decimal_of_lit l * inject_Z (10 ^ digits_val 10 (map digit_val r)))%Q 1)
    else Py
  | None => Py
  end.

(** [base_to_dec] (bases.py:63-96). An empty [val] raises IndexError. *)
Definition base_to_dec (p : Z) (dpow : Q -> Q -> option Q) (v : str) (base : Z) : out number :=
  if seq_eqb v $"0" then Ok (num_of_Z p 0)
  else if base =? 10 then number_of_text p v
  else if (base <? 2) || (36 <? base) then Calc
  else
    match v with
    | [] => Py
    | c :: v' =>
      let '(neg, v) := if ceq c "-"%char then (true, v') else (false, v) in
      let power := match sfind ["."%char] v with Some i => Z.of_nat i - 1 | None => Z.of_nat (length v) - 1 end in
      do dec <- b2d_loop p dpow base (upper v) power (num_of_Z p 0);
      Ok (if neg then num_neg p dec else dec)
    end.

(** [string[c]] with python's negative indices. *)
Definition py_digit (c : Z) : out ascii :=
  if (0 <=? c) && (c <? 36) then Ok (digit_char c)
  else if (-36 <=? c) && (c <? 0) then Ok (digit_char (c + 36))
  else Py.

(** Search for the top power (bases.py:111-113): smallest [power] from [k] on with base^(power+1) > val. *)
Fixpoint top_power (p base : Z) (v : number) (fuel : nat) (k : Z) : Z :=
  match fuel with
  | O => k
  | S f => if num_leb p (num_of_Z p (base ^ (k + 1))) v then top_power p base v f (k + 1) else k
  end.

(** One round of the digit loop (bases.py:119-123): the digit and what is left of the value. *)
Definition d2b_step (p : Z) (dpow : Q -> Q -> option Q) (base : Z) (v : number) (power : Z) : out (ascii * number) :=
  do bp <- py_opt (num_pow p dpow (num_of_Z p base) (num_of_Z p power));
  do q <- py_opt (num_div p v bp);
  let c := num_int p q in
  do t <- py_opt (num_mul p (num_of_Z p c) bp);
  do v' <- py_opt (num_sub p v t);
  do ch <- py_digit c;
  Ok (ch, v').

(** The loop while power >= 0 (bases.py:117-126): [k] is power + 1. *)
Fixpoint d2b_int (p : Z) (dpow : Q -> Q -> option Q) (base : Z) (v : number) (k : nat) : out (str * number) :=
  match k with
  | O => Ok ([], v)
  | S k' =>
    do r <- d2b_step p dpow base v (Z.of_nat k');
    do r2 <- d2b_int p dpow base (snd r) k';
    Ok (fst r :: fst r2, snd r2)
  end.

(** The same loop once power is negative: [left] is number_prec - places, [power] the current power. *)
Fixpoint d2b_frac (p : Z) (dpow : Q -> Q -> option Q) (base : Z) (v : number) (power : Z) (left : nat) : out str :=
  match left with
  | O => Ok []
  | S l =>
    if negb (Qle_bool (to_decimal p v) 0)
    then
      do r <- d2b_step p dpow base v power;
      do s <- d2b_frac p dpow base (snd r) (power - 1) l;
      Ok (if power =? -1 then "."%char :: fst r :: s else fst r :: s)
    else Ok []
  end.

(** [dec_to_base] (bases.py:98-132).  [prec] is number_prec.  With base 10 the number prints itself with its
    own format; for a Number in arbitrary base 10 that is this very call again, so python's recursion limit
    is hit ([Py]).  The other formats print through [tostr].  The fuel of [top_power] bounds the number of
    digits (a number below 2^n has at most n digits). *)
Definition dec_to_base (p prec : Z) (dpow : Q -> Q -> option Q) (tostr : number -> out str) (v : number) (base : Z) : out str :=
  if Qeq_bool (to_decimal p v) 0 then Ok $"0"
  else if base =? 10 then
    match ncast v with Some (CArb 10) => Py | _ => tostr v end
  else if (base <? 2) || (36 <? base) then Calc
  else
    let neg := negb (Qle_bool 0 (to_decimal p v)) in
    let v := num_abs p v in
    let power := top_power p base v (Z.to_nat (Z.log2 (nnum v) + 1)) 0 in
    do ri <- d2b_int p dpow base v (Z.to_nat (power + 1));
    do fr <- d2b_frac p dpow base (snd ri) (-1) (Z.to_nat prec);
    let s := (if neg then ["-"%char] else []) ++ fst ri ++ fr in
    Ok (if existsb (ceq "."%char) s then rstrip "0"%char s else s).

(** ** Literals *)

(** Digit classes of the regular expressions (all matched ignoring case). *)
Definition is_bin (c : ascii) : bool := (48 <=? code c) && (code c <=? 49).
Definition is_oct (c : ascii) : bool := (48 <=? code c) && (code c <=? 55).
Definition is_hex (c : ascii) : bool := is_digit c || ((65 <=? code c) && (code c <=? 70)) || ((97 <=? code c) && (code c <=? 102)).
Definition is_alnum (c : ascii) : bool := is_digit c || is_alpha c.

(** Regex [\-?PREFIX[D]+(\.[D]+)?] with IGNORECASE: matched text and rest
    (binarynumbers.py:46, octalnumbers.py:47, hexadecimalnumbers.py:46). *)
Definition match_prefixed (pre : str) (cls : ascii -> bool) (s : str) : option (str * str) :=
  let '(sg, s1) := opt_minus s in
  if prefixb pre (lower (firstn (length pre) s1)) then
    match match_digits cls (skipn (length pre) s1) with
    | Some (ip, fp, r) =>
      Some (sg ++ firstn (length pre) s1 ++ ip ++ match fp with Some f => "."%char :: f | None => [] end, r)
    | None => None
    end
  else None.

Definition bin_pre : str := $"0b".
Definition oct_pre : str := $"0o".
Definition hex_pre : str := $"0x".
Definition match_bin := match_prefixed bin_pre is_bin.
Definition match_oct := match_prefixed oct_pre is_oct.
Definition match_hex := match_prefixed hex_pre is_hex.

Definition set_width (n : number) (w : option Z) : number := mkNum (nnum n) (nden n) (ncast n) w.
(** [Number.copy] loses the width (number.py:96-97). *)
Definition num_copy (n : number) : number := set_width n None.

(** [BinaryNumericalRepresentation.parse] on a text matched by its regex (binarynumbers.py:75-83). *)
Definition parse_bin (p : Z) (dpow : Q -> Q -> option Q) (v : str) : out number :=
  do n <- base_to_dec p dpow (remove_prefix v bin_pre) 2;
  Ok (set_width (with_cast (num_copy n) (Some CBin)) (Some (get_width v bin_pre))).
(** octalnumbers.py:74-80 and hexadecimalnumbers.py:74-80 *)
Definition parse_oct (p : Z) (dpow : Q -> Q -> option Q) (v : str) : out number :=
  do n <- base_to_dec p dpow (remove_prefix v oct_pre) 8; Ok (with_cast (num_copy n) (Some COct)).
Definition parse_hex (p : Z) (dpow : Q -> Q -> option Q) (v : str) : out number :=
  do n <- base_to_dec p dpow (remove_prefix v hex_pre) 16; Ok (with_cast (num_copy n) (Some CHex)).

(** Regex [\-?\d+z[0-9A-Z]+(\.[0-9A-Z]+)?] with IGNORECASE (arbitrarybasenumbers.py:43). *)
Definition match_arb (s : str) : option (str * str) :=
  let '(sg, s1) := opt_minus s in
  let '(bs, s2) := span is_digit s1 in
  match bs, s2 with
  | _ :: _, z :: s3 =>
    if ceq (lower_c z) "z"%char then
      match match_digits is_alnum s3 with
      | Some (ip, fp, r) => Some (sg ++ bs ++ [z] ++ ip ++ match fp with Some f => "."%char :: f | None => [] end, r)
      | None => None
      end
    else None
  | _, _ => None
  end.

(** [ArbitraryBaseNumericalRepresentation.parse] on a matched text (arbitrarybasenumbers.py:72-86): the base is
    the number before the first z; a CalculatorException gives no number ([None]). *)
Definition parse_arb (p : Z) (dpow : Q -> Q -> option Q) (v : str) : out (option number) :=
  let '(sg, v1) := opt_minus v in
  let '(bs, _) := span is_digit v1 in
  let base := digits_val 10 (map digit_val bs) in
  match base_to_dec p dpow (remove_prefix v (dec_str base ++ ["z"%char])) base with
  | Ok n => Ok (Some (with_cast n (Some (CArb base))))
  | Calc => Ok None
  | Py => Py
  end.

(** [ArbitraryBaseNumericalRepresentation.to_string] (arbitrarybasenumbers.py:88-89) *)
Definition arb_to_string (p prec : Z) (dpow : Q -> Q -> option Q) (tostr : number -> out str) (v : number) (base : Z) : out str :=
  do s <- dec_to_base p prec dpow tostr v base;
  Ok (add_prefix s (dec_str base ++ ["z"%char])).
(** [BinaryNumericalRepresentation.to_string] (binarynumbers.py:86-90) *)
Definition bin_to_string (p prec : Z) (dpow : Q -> Q -> option Q) (v : number) : out str :=
  do s <- dec_to_base p prec dpow (fun _ => Py) v 2;
  Ok (add_prefix (match nwidth v with Some w => force_width s w | None => s end) bin_pre).
(** octalnumbers.py:83-84, hexadecimalnumbers.py:83-84 *)
Definition oct_to_string (p prec : Z) (dpow : Q -> Q -> option Q) (v : number) : out str :=
  do s <- dec_to_base p prec dpow (fun _ => Py) v 8; Ok (add_prefix s oct_pre).
Definition hex_to_string (p prec : Z) (dpow : Q -> Q -> option Q) (v : number) : out str :=
  do s <- dec_to_base p prec dpow (fun _ => Py) v 16; Ok (add_prefix s hex_pre).
