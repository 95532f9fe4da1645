(** Number formats: scientific notation (features/numerical/expnumbers.py), percentages (percentagenumbers.py), and
    printing a Number in whatever format it has (objects/number.py:59-79). *)
From Coq Require Import ZArith QArith Qabs Qround Ascii String List Bool Lia.
From Verif Require Import Base Dec Num Lex Bases.
Import ListNotations.
Open Scope Z_scope.

(** What printing depends on: [f_prec] is the precision of the decimal context (number_size), [f_places] is number_prec
    (the number of decimal places printed), [f_pow] is [Decimal.__pow__], [f_sym] the option Symbol of
    numerical.expnumbers (default E). *)
Record fmt := mkFmt { f_prec : Z; f_places : Z; f_pow : Q -> Q -> option Q; f_sym : str }.

(** * Scientific notation *)
(** ["{0:.nE}".format(d)] of a non-zero decimal (expnumbers.py:88): sign, coefficient of [n + 1] digits and exponent,
    rounded half up (away from zero) to [n + 1] significant digits. *)
Definition sci_parts (n : Z) (d : Q) : bool * Z * Z :=
  let a := Z.abs (Qnum d) in
  let b := Zpos (Qden d) in
  let e := ilog10 a b in
  let k := e - n in
  let m := if 0 <=? k then half_up a (b * 10 ^ k) else half_up (a * 10 ^ (- k)) b in
  let '(m, e) := if m =? 10 ^ (n + 1) then (10 ^ n, e + 1) else (m, e) in
  (Qnum d <? 0, m, e).
(** The text of the mantissa: all the digits, a full stop after the first if there are more *)
Definition sci_mantissa (neg : bool) (m : Z) : str :=
  (if neg then ["-"%char] else []) ++
  match dec_str m with
  | [] => []
  | [c] => [c]
  | c :: r => c :: "."%char :: r
  end.
(** [str.replace('+', '')] has no more to do than to leave out the sign of the exponent *)
Definition sci_exponent (e : Z) : str := (if e <? 0 then ["-"%char] else []) ++ dec_str (Z.abs e).
(** The clean up (91-96) *)
Definition sci_clean (s : str) : str :=
  let s := if existsb (ceq "."%char) s then rstrip "0"%char s else s in
  let s := match rev s with c :: r => if ceq c "."%char then rev r else s | [] => s end in
  if seq_eqb s ($"0") then s else rstrip "0"%char s.
(** [dec_to_exp] (76-99) with [n] places *)
Definition dec_to_exp (F : fmt) (n : Z) (v : number) : str :=
  let d := to_decimal (f_prec F) v in
  if Qeq_bool d 0 then $"0" ++ f_sym F ++ $"0"
  else let '(neg, m, e) := sci_parts n d in sci_clean (sci_mantissa neg m) ++ f_sym F ++ sci_exponent e.
(** The regular expression (101-105) [(\-?\d+(\.\d+)?E\-?\d+)], ignoring case: the two numbers, and what is left.  The
    symbol is taken literally and must not start with a digit or full stop. *)
Definition match_exp (sym : str) (s : str) : option (declit * declit * str) :=
  match match_number s with
  | None => None
  | Some (l, r) =>
    if prefixb (lower sym) (lower r) then
      let '(m, r1) := opt_minus (skipn (length sym) r) in
      match span is_digit r1 with
      | ([], _) => None
      | (ds, r2) => Some (l, mkLit (negb (seq_eqb m [])) ds None, r2)
      end
    else None
  end.
(** [ExpNumericalRepresentation.parse] (118-131) on a text that matches *)
Definition exp_value (F : fmt) (l e : declit) : out number :=
  let p := f_prec F in
  do n <- py_opt (number_of_lit p l);
  do k <- py_opt (number_of_lit p e);
  do t <- py_opt (num_pow p (f_pow F) (num_of_Z p 10) k);
  do r <- py_opt (num_mul p n t);
  Ok (with_cast (num_copy r) (Some CExp)).
Definition parse_exp (F : fmt) (s : str) : out (option number) :=
  match match_exp (f_sym F) s with
  | Some (l, e, []) => do n <- exp_value F l e; Ok (Some n)
  | _ => Ok None
  end.

(** * Percentages *)
(** [(\-?\d+(\.\d+)?%)] (percentagenumbers.py:12) *)
Definition match_pct (s : str) : option (declit * str) :=
  match match_number s with
  | Some (l, c :: r) => if ceq c "%"%char then Some (l, r) else None
  | _ => None
  end.
(** [PercentageNumericalRepresentation.parse] (60-72) *)
Definition pct_value (F : fmt) (l : declit) : out number :=
  let p := f_prec F in
  do n <- py_opt (number_of_lit p l);
  do r <- py_opt (num_div p n (num_of_Z p 100));
  Ok (with_cast (num_copy r) (Some CPct)).
Definition parse_pct (F : fmt) (s : str) : out (option number) :=
  match match_pct s with
  | Some (l, []) => do n <- pct_value F l; Ok (Some n)
  | _ => Ok None
  end.
(** [to_string] (75-78) *)
Definition pct_to_string (F : fmt) (v : number) : out str :=
  do r <- py_opt (num_mul (f_prec F) v (num_of_Z (f_prec F) 100));
  do s <- py_opt (to_string_plain (f_prec F) (f_places F) r);
  Ok (s ++ $"%").

(** * Printing a Number (number.py:62-79) *)
(** A Number in an arbitrary base prints, in base 10, as the plain number: its own format is that same call again.
    [dec_to_base] deals with that. *)
Definition num_to_string (F : fmt) (v : number) : out str :=
  let p := f_prec F in
  match ncast v with
  | None | Some CDec => py_opt (to_string_plain p (f_places F) v)
  | Some CBin => bin_to_string p (f_places F) (f_pow F) v
  | Some COct => oct_to_string p (f_places F) (f_pow F) v
  | Some CHex => hex_to_string p (f_places F) (f_pow F) v
  | Some CExp => Ok (dec_to_exp F (f_places F) v)
  | Some CPct => pct_to_string F v
  | Some (CArb b) => arb_to_string p (f_places F) (f_pow F) (fun _ => Py) v b
  end.

(** * Conversions *)
(** [convert_to] of the representations (decimalnumbers.py:72-76, binarynumbers.py:92-97, …): a copy with another
    format; [None] for the decimal one. *)
Definition convert_to (c : option cast) (v : number) : number := with_cast (num_copy v) c.
(** [func_scientific] (expnumbers.py:61-74); [self.number] of the text is the scientific number it spells, as no other
    number type of the default calculator reads it before. *)
Definition scientific (F : fmt) (v : number) (places : option number) : out number :=
  match places with
  | None => Ok (convert_to (Some CExp) v)
  | Some n =>
    (* the format is built from the text of the places: anything but the digits of a non-negative integer is an error *)
    if (nden n =? 1) && (0 <=? nnum n) && match ncast n with None | Some CDec => true | _ => false end then
      do r <- parse_exp F (dec_to_exp F (nnum n) v);
      match r with Some x => Ok x | None => Calc end
    else Py
  end.
