(** The expectations of the test suite of the repository (/repo/tests) that use only what is modelled, run on the model:
    the values, and for errors the kind, the position and the highlighted items.  Generated from the test files; left out
    are units, dates, regular expressions, files, special, trigonometric and other functions on reals, and tests whose
    text or expected value is not ASCII. *)
From Coq Require Import ZArith QArith Ascii String List Bool.
From Verif Require Import Base Dec Num Lex Bases Formats NumProofs3 Units Syntax Pos Call Loop Parse Exec Std StdRun.
Import ListNotations.
Open Scope nat_scope.
(** [Number(n, d)], a text, a truth value, an array; [XT] the text of a number; an error of parsing or not, where, and
    which items it shows *)
Inductive expect := XN (n d : Z) | XS (s : string) | XB (b : bool) | XL (l : list expect) | XT (s : string)
| XE (parsing : bool) (pos : option nat) (items : option (list string)).
(** testrunner.py:69-93 *)
Fixpoint matches (v : value) (x : expect) : bool :=
  match x, v with
  | XN n d, VNum m => (nnum m * d =? n * nden m)%Z
  | XS s, VStr t => seq_eqb t ($s)
  | XB b, VBool c => Bool.eqb b c
  | XT s, VStr t => seq_eqb t ($s)
  | XT s, VNum m => match num_to_string (l_fmt demo) m with Ok t => seq_eqb t ($s) | _ => false end
  | XL l, VList rs => (fix go rs l := match rs, l with [], [] => true | r :: rs', x :: l' => matches (rval r) x && go rs' l' | _, _ => false end) rs l
  | _, _ => false
  end.
(** testrunner.py:46-48 *)
Definition shown (sts : list (list item)) : option (list str) :=
  let f o := match o with Some l => map snd (filter (fun p => match fst p with CDefault => false | _ => true end) l) | None => [] end in
  Some (concat (map f (highlight_statements sts))).
Fixpoint strs_eqb (a : list str) (b : list string) : bool :=
  match a, b with [], [] => true | x :: a', y :: b' => seq_eqb x ($y) && strs_eqb a' b' | _, _ => false end.
(** testrunner.py:18-50 *)
Definition passes (p : string * expect) : bool :=
  match fst (calc_in start ($(fst p))), snd p with
  | CDone rs, XE _ _ _ => false
  | CDone rs, x => match last_answer rs with Some (v, _) => matches v x | None => false end
  | CFail q _ sts nx _, XE pa pos its =>
    Bool.eqb q pa &&
    match pos with None => true | Some i => match find_pos ($(fst p)) sts nx with Some j => (i =? j) | None => false end end &&
    match its with None => true | Some l => match shown sts with Some k => strs_eqb k l | None => false end end
  | _, _ => false
  end.
(** Those that fail, and what they give instead *)
Definition failing (l : list (string * expect)) : list (string * string) :=
  map (fun p => (fst p, tell (fst (calc_in start ($(fst p)))))) (filter (fun p => negb (passes p)) l).

Definition t_arrayfunctions : list (string * expect) := [
  ("concat([1, 2, 3], [4, 5])", (XL [(XN (1) (1)); (XN (2) (1)); (XN (3) (1)); (XN (4) (1)); (XN (5) (1))]));
  ("count([2 .. 6 step 2])", (XN (3) (1)));
  ("element([1, 2, 3], 2)", (XN (2) (1)));
  ("element([1, 2, 3, 4, 5], [2 .. 4])", (XL [(XN (2) (1)); (XN (3) (1)); (XN (4) (1))]));
  ("a = [1] / 0
element(a, 1)", (XE false None None));
  ("a = [[1, 2, 3], [4, 5, 6], [7, 8, 9]]
element(a, 1)", (XL [(XN (1) (1)); (XN (2) (1)); (XN (3) (1))]));
  ("a = [[1, 2, 3], [4, 5, 6], [7, 8, 9]]
element(element(a, 1), 3)", (XN (3) (1)));
  ("a = [[1, 2, 3], [4, 5, 6], [7, 8, 9]]
element(a, [1, 3])", (XL [(XL [(XN (1) (1)); (XN (2) (1)); (XN (3) (1))]); (XL [(XN (7) (1)); (XN (8) (1)); (XN (9) (1))])]));
  ("a = [1 .. 7]
filter(a, a % 2 == 0)", (XL [(XN (2) (1)); (XN (4) (1)); (XN (6) (1))]));
  ("reverse([4, 2, 3, 1])", (XL [(XN (1) (1)); (XN (3) (1)); (XN (2) (1)); (XN (4) (1))]));
  ("sort([4, 2, 3, 1])", (XL [(XN (1) (1)); (XN (2) (1)); (XN (3) (1)); (XN (4) (1))]));
  ("sort(5, 2, 3, 1, 4)", (XL [(XN (1) (1)); (XN (2) (1)); (XN (3) (1)); (XN (4) (1)); (XN (5) (1))]))
]%string.
Definition t_arrays : list (string * expect) := [
  ("[1, 2, 3]", (XL [(XN (1) (1)); (XN (2) (1)); (XN (3) (1))]));
  ("[1 .. 3]", (XL [(XN (1) (1)); (XN (2) (1)); (XN (3) (1))]));
  ("[-3 .. -1]", (XL [(XN (-3) (1)); (XN (-2) (1)); (XN (-1) (1))]));
  ("[-1 .. -3 step -1]", (XL [(XN (-1) (1)); (XN (-2) (1)); (XN (-3) (1))]));
  ("[3 .. 1]", (XL [(XN (3) (1)); (XN (2) (1)); (XN (1) (1))]));
  ("[3 .. 1 step -1]", (XL [(XN (3) (1)); (XN (2) (1)); (XN (1) (1))]));
  ("[-1 .. -3]", (XL [(XN (-1) (1)); (XN (-2) (1)); (XN (-3) (1))]));
  ("[1.5 .. 3.5]", (XL [(XN (3) (2)); (XN (5) (2)); (XN (7) (2))]));
  ("[1.5 .. 3.5 step 0.5]", (XL [(XN (3) (2)); (XN (2) (1)); (XN (5) (2)); (XN (3) (1)); (XN (7) (2))]));
  ("[1 .. 4, 9, 14 .. 20 step 2]", (XL [(XN (1) (1)); (XN (2) (1)); (XN (3) (1)); (XN (4) (1)); (XN (9) (1)); (XN (14) (1)); (XN (16) (1)); (XN (18) (1)); (XN (20) (1))]));
  ("a = [1, 2, 3]
a", (XL [(XN (1) (1)); (XN (2) (1)); (XN (3) (1))]));
  ("a = [1, 2, 3]
a = [1, 2, 3]
a", (XL [(XN (1) (1)); (XN (2) (1)); (XN (3) (1))]));
  ("[1, 2, 3] + 4", (XL [(XN (5) (1)); (XN (6) (1)); (XN (7) (1))]));
  ("abs([-5, 2 * 3, -3 - 4])", (XL [(XN (5) (1)); (XN (6) (1)); (XN (7) (1))]));
  ("[[1, 2, 3], [4, 5, 6], [7, 8, 9]]", (XL [(XL [(XN (1) (1)); (XN (2) (1)); (XN (3) (1))]); (XL [(XN (4) (1)); (XN (5) (1)); (XN (6) (1))]); (XL [(XN (7) (1)); (XN (8) (1)); (XN (9) (1))])]));
  ("[[1, 2, 3], [4, 5, 6], [7, 8, 9]] + 10", (XL [(XL [(XN (11) (1)); (XN (12) (1)); (XN (13) (1))]); (XL [(XN (14) (1)); (XN (15) (1)); (XN (16) (1))]); (XL [(XN (17) (1)); (XN (18) (1)); (XN (19) (1))])]));
  ("a = [[1, 2, 3], [4, 5, 6], [7, 8, 9]]
b = a + 1
b - a", (XL [(XL [(XN (1) (1)); (XN (1) (1)); (XN (1) (1))]); (XL [(XN (1) (1)); (XN (1) (1)); (XN (1) (1))]); (XL [(XN (1) (1)); (XN (1) (1)); (XN (1) (1))])]));
  ("[[1, 2, 3], [4, 5, 6], [7, 8, 9]] * [10, 100, 1000]", (XL [(XL [(XN (10) (1)); (XN (20) (1)); (XN (30) (1))]); (XL [(XN (400) (1)); (XN (500) (1)); (XN (600) (1))]); (XL [(XN (7000) (1)); (XN (8000) (1)); (XN (9000) (1))])]));
  ("[1, 4, 9] < 5", (XL [(XB true); (XB true); (XB false)]));
  ("a = [1, 4, 9]
 a < 5", (XL [(XB true); (XB true); (XB false)]));
  ("a = [1, 4, 9]
 a < 5 then a else 25", (XL [(XN (1) (1)); (XN (4) (1)); (XN (25) (1))]))
]%string.
Definition t_booleans : list (string * expect) := [
  ("true", (XB true));
  ("false", (XB false));
  ("TRUE ", (XB true));
  ("false and false", (XB false));
  ("false and true", (XB false));
  ("true and false", (XB false));
  ("true and true", (XB true));
  ("false or false", (XB false));
  ("false or true", (XB true));
  ("true or false", (XB true));
  ("true or true", (XB true));
  ("true xor true", (XB false));
  ("true xor false", (XB true));
  ("false xor true", (XB true));
  ("false xor false", (XB false));
  ("true == true", (XB true));
  ("false == false", (XB true));
  ("true == false", (XB false));
  ("true == 1", (XB true));
  ("true == 0", (XB false));
  ("false == 0", (XB true));
  ("123.00 == 123", (XB true));
  ("'123' == 123", (XB true));
  ("'123.00' == 123", (XB true));
  ("('123' + 0) == 123", (XB true));
  ("'123' == (123 +$ '')", (XB true));
  ("true != true", (XB false));
  ("false != false", (XB false));
  ("true != false", (XB true));
  ("true != 1", (XB false));
  ("true != 0", (XB true));
  ("false != 0", (XB false));
  ("123.00 != 123", (XB false));
  ("'123' != 123", (XB false));
  ("'123.00' != 123", (XB false));
  ("('123' + 0) != 123", (XB false));
  ("'123' != (123 +$ '')", (XB false));
  ("123 < 14", (XB false));
  ("12 < 14", (XB true));
  ("14 < 14", (XB false));
  ("12 <= 14", (XB true));
  ("14 <= 14", (XB true));
  ("16 <= 14", (XB false));
  ("123 > 14", (XB true));
  ("12 > 14", (XB false));
  ("14 > 14", (XB false));
  ("12 >= 14", (XB false));
  ("14 >= 14", (XB true));
  ("16 >= 14", (XB true));
  ("true * true", (XN (1) (1)));
  ("true * false", (XN (0) (1)));
  ("not true", (XB false));
  ("not false", (XB true));
  ("not(not true)", (XB true));
  ("not not true", (XB true));
  ("not(true == false)", (XB true));
  ("True then 1 else 2", (XN (1) (1)));
  ("False then 1 else 2", (XN (2) (1)));
  ("True then (False then 3 else 4) else 2", (XN (4) (1)));
  ("(3 > 2) then ((2 > 3) then 3 else 4) else 2", (XN (4) (1)));
  ("3 > 2 then (2 > 3 then 3 else 4) else 2", (XN (4) (1)));
  ("true then not(true or false) else true", (XB false));
  ("true then 1 + 2 else true", (XN (3) (1)));
  ("a = 1
b = 2
true then a else b = 3
a - b", (XN (1) (1)));
  ("a = 1
b = 2
false then a else b = 3
a - b", (XN (-2) (1)));
  ("false then (1/0) else 2", (XN (2) (1)));
  ("false then 1/0 else 2", (XN (2) (1)));
  ("false and (1/0)", (XB false));
  ("true or (1/0)", (XB true))
]%string.
Definition t_comments : list (string * expect) := [
  ("123 + (#comment
456)", (XN (579) (1)));
  ("123 + 456#comment", (XN (579) (1)));
  ("#comment
123 + 456", (XN (579) (1)))
]%string.
Definition t_space : list (string * expect) := [
  ("123 + 456", (XN (579) (1)));
  ("123	+	456", (XN (579) (1)))
]%string.
Definition t_advancedarithmetic : list (string * expect) := [
  ("14 % 3", (XN (2) (1)));
  ("4 \ 3", (XN (1) (1)));
  ("(1000 \ 10) \ 10", (XN (10) (1)))
]%string.
Definition t_arbitrarybasenumbers : list (string * expect) := [
  ("base(71, 36)", (XT "36z1Z"));
  ("base(0, 36)", (XT "36z0"));
  ("base(7, 10)", (XT "10z7"));
  ("dec(10z1e3)", (XN (1000) (1)));
  ("dec(-10z2.5E1)", (XN (-25) (1)));
  ("dec(base(71, 36))", (XN (71) (1)));
  ("36z1Z", (XT "36z1Z"));
  ("-36z1Z", (XT "-36z1Z"));
  ("dec(-36z1Z)", (XN (-71) (1)));
  ("36Z1z", (XT "36z1Z"));
  ("4z1.2", (XT "4z1.2"));
  ("dec(4z1.2)", (XN (3) (2)));
  ("2z100", (XT "2z100"));
  ("2Z100", (XT "2z100"));
  ("2Z0", (XT "2z0"));
  ("02Z0", (XT "2z0"));
  ("002Z0", (XT "2z0"));
  ("2Z000", (XT "2z0"));
  ("dec(36z1Z)", (XN (71) (1)));
  ("dec(36Z1z)", (XN (71) (1)));
  ("dec(2z100)", (XN (4) (1)));
  ("dec(2Z100)", (XN (4) (1)));
  ("round(36z1Z.12I, 2)", (XT "36z1Z.13"));
  ("round(36z1Z.12H, 2)", (XT "36z1Z.12"));
  ("floor(36z1Z.12I, 2)", (XT "36z1Z.12"));
  ("ceil(36z1Z.12H, 2)", (XT "36z1Z.13"))
]%string.
Definition t_basicarithmetic : list (string * expect) := [
  ("123 + 456", (XN (579) (1)));
  ("123.2 + 456.7", (XN (5799) (10)));
  ("123 + -456", (XN (-333) (1)));
  ("123.2 + -456.7", (XN (-667) (2)));
  ("123 - 1", (XN (122) (1)));
  ("123.2 - 1.1", (XN (1221) (10)));
  ("123 - -1", (XN (124) (1)));
  ("2 + 3 * 4", (XN (14) (1)));
  ("2 + 3 * 4.5", (XN (31) (2)));
  ("2 + -3 / 4", (XN (5) (4)));
  ("1 + 2 * 3 -4", (XN (3) (1)));
  ("10 / 5 * 2", (XN (4) (1)));
  ("10 / 3", (XN (10) (3)));
  ("9 / 4.5", (XN (2) (1)));
  ("9 / -4.5", (XN (-2) (1)));
  ("-13.5 / 4.5", (XN (-3) (1)));
  ("2 + 3^3", (XN (29) (1)));
  ("2 ^ 8", (XN (256) (1)));
  ("4 ^ 0", (XN (1) (1)));
  ("4 ^ -1", (XN (1) (4)));
  ("-4 ^ -1", (XN (-1) (4)));
  ("43535.4346 ^ 0", (XN (1) (1)))
]%string.
Definition t_binarynumbers : list (string * expect) := [
  ("0b10", (XT "0b10"));
  ("0B10", (XT "0b10"));
  ("-0b11", (XT "-0b11"));
  ("-0b0011", (XT "-0b0011"));
  ("-0b11 | 0b0000", (XT "-0b0011"));
  ("0b11 | 0b0100", (XT "0b0111"));
  ("0b10.1", (XT "0b10.1"));
  ("0b0", (XT "0b0"));
  ("0b000", (XT "0b000"));
  ("dec(0b10)", (XN (2) (1)));
  ("dec(0B10)", (XN (2) (1)));
  ("dec(-0b11)", (XN (-3) (1)));
  ("dec(0b10.1)", (XN (5) (2)));
  ("0b10 + 0b1", (XT "0b11"));
  ("bin(0b10 + 0b1)", (XT "0b11"));
  ("0b10 * 0b10", (XT "0b100"));
  ("0b1000 / 0b10", (XT "0b100"));
  ("bin(0b10 * 0b10)", (XT "0b100"));
  ("bin(0b10 * -0B10)", (XT "-0b100"));
  ("dec(bin(0b10 * -0B10))", (XN (-4) (1)));
  ("bin(0.5)", (XT "0b0.1"));
  ("bin(3.5)", (XT "0b11.1"));
  ("bin(-3.5)", (XT "-0b11.1"));
  ("bin(0)", (XT "0b0"));
  ("bin(0x1A)", (XT "0b11010"));
  ("0b10 / 0b11", (XT "0b0.10101010101010101010101010101"));
  ("0b1 / 0b10", (XT "0b0.1"));
  ("a = (0b10 / 0b11)
a * 0b11", (XT "0b10"));
  ("((0b10 / 0b11) * 0b11)", (XT "0b10"));
  ("fact(0b101)", (XT "0b1111000"));
  ("round(0b101.10101)", (XT "0b110"));
  ("round(0b101.10101, 2)", (XT "0b101.11"));
  ("round(0b101.10101, 3)", (XT "0b101.101"));
  ("floor(0b101.10111, 2)", (XT "0b101.1"));
  ("ceil(0b101.10001, 3)", (XT "0b101.101"))
]%string.
Definition t_bitwiseoperators : list (string * expect) := [
  ("0b10101 & 0b110", (XT "0b00100"));
  ("0b10101 | 0b110", (XT "0b10111"));
  ("0b10101 ^^ 0b110", (XT "0b10011"));
  ("~0b1011101", (XT "0b0100010"));
  ("~0b00111100", (XT "0b11000011"));
  ("~60", (XN (3) (1)));
  ("1 + ~60", (XN (4) (1)));
  ("0b10101 << 1", (XT "0b101010"));
  ("0b10101 << 1.5", (XE false None None));
  ("0b10101 << -1", (XE false None None));
  ("0b10101 >> 1.5", (XE false None None));
  ("0b10101 >> -1", (XE false None None));
  ("0b10101 << 2", (XT "0b1010100"));
  ("0b10101 << 8", (XT "0b1010100000000"));
  ("0b10010 >> 1", (XT "0b01001"));
  ("0b10010 >> 3", (XT "0b00010"));
  ("0b10010 >> 4", (XT "0b00001"));
  ("0b10010 >> 5", (XT "0b00000"))
]%string.
Definition t_decimalfunction : list (string * expect) := [
  ("dec(36z1Z)", (XN (71) (1)));
  ("dec(0b10)", (XN (2) (1)));
  ("dec(0xff)", (XN (255) (1)));
  ("dec(0o77)", (XN (63) (1)));
  ("dec(1.234e1)", (XN (617) (50)))
]%string.
Definition t_decimalnumbers : list (string * expect) := [
  ("123", (XN (123) (1)));
  ("123.45", (XN (2469) (20)));
  ("-123.45", (XN (-2469) (20)))
]%string.
Definition t_expnumbers : list (string * expect) := [
  ("1.234e1", (XN (617) (50)));
  ("-1.234e1", (XN (-617) (50)));
  ("dec(1.234e1)", (XN (617) (50)));
  ("dec(1.234e10)", (XN (12340000000) (1)));
  ("dec(1.234e2)", (XN (617) (5)));
  ("dec(1.234e0)", (XN (617) (500)));
  ("dec(1.234e-1)", (XN (617) (5000)));
  ("dec(1.234e-2)", (XN (617) (50000)));
  ("1.23e2 + 1.2e1", (XT "1.35E2"));
  ("dec(1.23e2 + 1.2e1)", (XN (135) (1)));
  ("10E0 * 1", (XT "1E1"));
  ("0E0", (XT "0E0"));
  ("0E0 * 1", (XT "0E0"));
  ("1E9 * 1", (XT "1E9"));
  ("1 * 1E9", (XN (1000000000) (1)));
  ("dec(1E9)", (XN (1000000000) (1)));
  ("dec(1E9)", (XT "1000000000"));
  ("2e0 / 3", (XT "6.666666666666666666666666666667E-1"));
  ("scientific(123.456789)", (XT "1.23456789E2"));
  ("scientific(123.45678900000)", (XT "1.23456789E2"));
  ("scientific(12345678900000)", (XT "1.23456789E13"));
  ("scientific(123.456789, 3)", (XT "1.235E2"));
  ("scientific(123.456789, 5)", (XT "1.23457E2"));
  ("scientific(0.000123456789, 5)", (XT "1.23457E-4"));
  ("scientific(123.4) * 2", (XT "2.468E2"))
]%string.
Definition t_hexadecimalnumbers : list (string * expect) := [
  ("0xff", (XN (255) (1)));
  ("0xFF", (XN (255) (1)));
  ("0xFF.2", (XN (2041) (8)));
  ("-0xFF.2", (XN (-2041) (8)));
  ("hex(255)", (XT "0xFF"));
  ("dec(hex(255))", (XN (255) (1)));
  ("0xff", (XT "0xFF"));
  ("0xf.88", (XT "0xF.88"));
  ("0x0", (XT "0x0"));
  ("0x000", (XT "0x0"));
  ("dec(0xff)", (XN (255) (1)));
  ("dec(0xf.88)", (XN (497) (32)));
  ("0xff + 0XFF", (XT "0x1FE"));
  ("hex(15.125)", (XT "0xF.2"));
  ("hex(0b10101)", (XT "0x15"));
  ("hex(-15.125)", (XT "-0xF.2"));
  ("hex(0)", (XT "0x0"));
  ("0xF + 4", (XT "0x13"));
  ("4 + 0xF", (XN (19) (1)));
  ("0x1 / 0x2", (XT "0x0.8"));
  ("0x2 / 0x3", (XT "0x0.AAAAAAAAAAAAAAAAAAAAAAAAAAAAAA"));
  ("round(0x10F.348, 2)", (XT "0x10F.35"));
  ("round(0x10F.347, 2)", (XT "0x10F.34"));
  ("floor(0x10F.348, 2)", (XT "0x10F.34"));
  ("ceil(0x10F.347, 2)", (XT "0x10F.35"));
  ("mean([5, 0xF])", (XN (10) (1)));
  ("mean([0xF, 5])", (XT "0xA"))
]%string.
Definition t_numericalconstants : list (string * expect) := [
  ("e", (XN (54365636569180904707205749427053249955144941873999) (20000000000000000000000000000000000000000000000000)));
  ("pi", (XN (314159265358979323846264338327950288419716939937511) (100000000000000000000000000000000000000000000000000)));
  ("tau", (XN (314159265358979323846264338327950288419716939937511) (50000000000000000000000000000000000000000000000000)));
  ("tau / 2 pi", (XN (1) (1)))
]%string.
Definition t_numericalfunctions : list (string * expect) := [
  ("abs(-4)", (XN (4) (1)));
  ("floor(1.4)", (XN (1) (1)));
  ("floor(1.5)", (XN (1) (1)));
  ("floor(1.599, 1)", (XN (3) (2)));
  ("floor(1.599, 2)", (XN (159) (100)));
  ("ceil(1.4)", (XN (2) (1)));
  ("ceil(1.5)", (XN (2) (1)));
  ("ceil(1.234, 1)", (XN (13) (10)));
  ("ceil(1.234, 2)", (XN (31) (25)));
  ("round(1.1)", (XN (1) (1)));
  ("round(1.5)", (XN (2) (1)));
  ("round(1.11, 1)", (XN (11) (10)));
  ("round(1.16, 1)", (XN (6) (5)));
  ("fact(5)", (XN (120) (1)));
  ("fact(-5)", (XE false None None));
  ("fact(5.5)", (XE false None None));
  ("lcm(4, 5)", (XN (20) (1)));
  ("lcm(4, -5)", (XN (20) (1)));
  ("lcm(0.5, 1)", (XE false None None));
  ("lcm(1, 0.5)", (XE false None None));
  ("gcd(54, 60)", (XN (6) (1)));
  ("gcd(10, -5)", (XN (5) (1)));
  ("gcd(0.5, 1)", (XE false None None));
  ("gcd(1, 0.5)", (XE false None None))
]%string.
Definition t_numericalrepresentation : list (string * expect) := [
  ("255 as hexadecimal", (XT "0xFF"));
  ("0xFF as decimal", (XT "255"));
  ("0xFF as decimal", (XN (255) (1)));
  ("255 as binary", (XT "0b11111111"));
  ("0b11111111 as decimal", (XT "255"));
  ("255 as octal", (XT "0o377"));
  ("0o377 as decimal", (XT "255"));
  ("255 as scientific", (XT "2.55E2"));
  ("2.55E2 as decimal", (XT "255"));
  ("2.5 as percentage", (XT "250%"));
  ("250% as decimal", (XT "2.5"));
  ("b = 255
b as binary", (XT "0b11111111"));
  ("b = 255 as hexadecimal
b as binary", (XT "0b11111111"));
  ("(255 as hexadecimal) as binary", (XT "0b11111111"))
]%string.
Definition t_octalnumbers : list (string * expect) := [
  ("0o77", (XN (63) (1)));
  ("0o77.4", (XN (127) (2)));
  ("-0o77.4", (XN (-127) (2)));
  ("oct(63)", (XT "0o77"));
  ("dec(oct(63))", (XN (63) (1)));
  ("0o77", (XT "0o77"));
  ("0o77.4", (XT "0o77.4"));
  ("0o0", (XT "0o0"));
  ("0o000", (XT "0o0"));
  ("dec(0o77)", (XN (63) (1)));
  ("dec(0o77.4)", (XN (127) (2)));
  ("oct(63.5)", (XT "0o77.4"));
  ("oct(-63.5)", (XT "-0o77.4"));
  ("oct(0)", (XT "0o0"));
  ("oct(0b10101)", (XT "0o25"));
  ("round(0o12.334, 2)", (XT "0o12.34"));
  ("round(0o12.334, 1)", (XT "0o12.3"));
  ("floor(0o12.337, 2)", (XT "0o12.33"));
  ("ceil(0o12.301, 1)", (XT "0o12.4"))
]%string.
Definition t_percentagenumbers : list (string * expect) := [
  ("100%", (XN (1) (1)));
  ("200% * 4", (XN (8) (1)));
  ("200% * 4", (XT "800%"));
  ("51.23%", (XN (5123) (10000)));
  ("-51.23%", (XN (-5123) (10000)));
  ("round(51.23%)", (XN (51) (100)));
  ("round(51.23%, 1)", (XN (64) (125)));
  ("ceil(51.23%, 1)", (XN (513) (1000)));
  ("floor(51.29%, 1)", (XN (64) (125)))
]%string.
Definition t_statisticalfunctions : list (string * expect) := [
  ("min([1, 2, 3])", (XN (1) (1)));
  ("min(2.1, 2.11, 2.09)", (XN (209) (100)));
  ("min(-2.1, -2.11, -2.09)", (XN (-211) (100)));
  ("1 + (( min([ 2, -1,  3 ])))", (XN (0) (1)));
  ("( min([ min([4,5,6]), min([2,8,9]),  min([3,7,8]) ]))", (XN (2) (1)));
  ("( min([ min([4,5,6]), min([2,8,9])+1,  min([3,7,8]) ]))", (XN (3) (1)));
  ("( min([ min([4,5,6]), 2 * min([2,8,9]) - 3,  min([3,7,8]) ]))", (XN (1) (1)));
  ("( min([ min([4,5,6]), 2 * min([2,8,9])-3,  min([3,7,8]) ]))", (XN (1) (1)));
  ("(min([min([4,5,6]),((2 * min([2,8,9])-(3 + 1))),min([3,7,8]) ]))", (XN (0) (1)));
  ("min([0, 3, 6], [4, 2, 5])", (XL [(XN (0) (1)); (XN (2) (1)); (XN (5) (1))]));
  ("min(3, [4, 2, 5])", (XL [(XN (3) (1)); (XN (2) (1)); (XN (3) (1))]));
  ("min([0, 3, 6], 4)", (XL [(XN (0) (1)); (XN (3) (1)); (XN (4) (1))]));
  ("min([0, 3, 6], [1, 2, 3], [6, 4, 1])", (XL [(XN (0) (1)); (XN (2) (1)); (XN (1) (1))]));
  ("min(5, 2, 3, 1, 4)", (XN (1) (1)));
  ("max([3, 5, 7])", (XN (7) (1)));
  ("max(2.1, 2.11, 2.09)", (XN (211) (100)));
  ("max(-2.1, -2.11, -2.09)", (XN (-209) (100)));
  ("mean(2, 3, 5, 6)", (XN (4) (1)));
  ("mean([2, 3, 5, 6])", (XN (4) (1)));
  ("mean([1, 2, 6])", (XN (3) (1)));
  ("mean([1 .. 100])", (XN (101) (2)));
  ("a=[1 .. 100]
mean(a)", (XN (101) (2)));
  ("median(6, 1, 9)", (XN (6) (1)));
  ("median([6, 1, 9])", (XN (6) (1)));
  ("mode(1, 1, 2, 4)", (XN (1) (1)));
  ("mode([1, 1, 2, 4])", (XN (1) (1)));
  ("sum(1, 2, 3, 4)", (XN (10) (1)));
  ("sum([1, 2, 3, 4])", (XN (10) (1)));
  ("sum(([10]))", (XN (10) (1)));
  ("sum([(10)])", (XN (10) (1)));
  ("sum([(1), 2, 3])", (XN (6) (1)));
  ("sum(([(1), 2, 3]))", (XN (6) (1)));
  ("sum([1, (2), 3])", (XN (6) (1)));
  ("sum([1, 2, (3)])", (XN (6) (1)));
  ("sum([1, 2, (3) + 2])", (XN (8) (1)));
  ("sum([(1), 2, 3 + 2])", (XN (8) (1)));
  ("sum([ (10) ])", (XN (10) (1)));
  ("sum( [ (10) ] )", (XN (10) (1)));
  ("sum([( 10 )])", (XN (10) (1)));
  ("sum( [( 10 )] )", (XN (10) (1)))
]%string.
Definition t_assignment : list (string * expect) := [
  ("x = 1
 x", (XN (1) (1)));
  ("x = 1
 x * 2", (XN (2) (1)));
  ("x = 1 + 1", (XN (2) (1)));
  ("3 + (c = 4 * 5)", (XN (23) (1)));
  ("3 + (c = 4 * 5)
 c", (XN (20) (1)));
  ("day_usage = 1
 day_usage", (XN (1) (1)));
  ("day_usage_2 = 1
 day_usage_2", (XN (1) (1)))
]%string.
Definition t_assignmentfunctions : list (string * expect) := [
  ("x = 1
reset()
 x = 2
 x", (XN (2) (1)));
  ("x = 1
 y=2
 delete(x)
 y", (XN (2) (1)));
  ("x = 1
 y=2
 delete(y)
 x", (XN (1) (1)))
]%string.
Definition t_assignmentoperators : list (string * expect) := [
  ("x = 0
 x++
 x", (XN (1) (1)));
  ("x = -1.5
 x++
 x", (XN (-1) (2)));
  ("x = 3
 x--
 x", (XN (2) (1)));
  ("x = 0.5
 x--
 x", (XN (-1) (2)));
  ("x = 0
 x += 2
 x", (XN (2) (1)));
  ("x = 1
 x += 2.5
 x", (XN (7) (2)));
  ("x = 5
 x -= 2
 x", (XN (3) (1)));
  ("x = 1.5
 x -= 2.7
 x", (XN (-6) (5)));
  ("x = 5
 x *= 2
 x", (XN (10) (1)));
  ("x = 5
 x *= -2.5
 x", (XN (-25) (2)));
  ("x = 5
 x *= 2", (XN (10) (1)));
  ("x = 8
 x /= 4
 x", (XN (2) (1)));
  ("x = 5
 x ^= 2
 x", (XN (25) (1)));
  ("x = 5
 x ^= -1
 x", (XN (1) (5)));
  ("x = 15
 x %= 4
 x", (XN (3) (1)));
  ("x = 5
 x \= 2
 x", (XN (2) (1)))
]%string.
Definition t_stringarrayfunctions : list (string * expect) := [
  ("join(['ab', 'b', 'c'], '||')", (XS "ab||b||c"));
  ("join(['ab', 'b', 2], '||')", (XS "ab||b||2"));
  ("join(['ab', 'b', 2])", (XS "abb2"));
  ("split('ab||b||2', '||')", (XL [(XS "ab"); (XS "b"); (XS "2")]));
  ("split(12345367, 3)", (XL [(XS "12"); (XS "45"); (XS "67")]))
]%string.
Definition t_stringcomparison : list (string * expect) := [
  ("true ==$ 'True'", (XB true));
  ("true ==$ 'TRUE'", (XB false));
  ("'123' ==$ 123", (XB true));
  ("'abc' ==$ 'ABC'", (XB false));
  ("'abc' !=$ 'ABC'", (XB true));
  ("'a' <$ 'b'", (XB true));
  ("123 <$ 14", (XB true));
  ("'a' <=$ 'A'", (XB false));
  ("'a' >$ 'b'", (XB false));
  ("'b' >=$ 'b'", (XB true));
  ("'a' <~ 'A'", (XB false));
  ("'a' >~ 'A'", (XB false))
]%string.
Definition t_stringfunctions : list (string * expect) := [
  ("length('ABCabc')", (XN (6) (1)));
  ("lower('ABCabc')", (XS "abcabc"));
  ("upper('ABCabc')", (XS "ABCABC"));
  ("lstrip('   ABCabc   ', ' ')", (XS "ABCabc   "));
  ("rstrip('   ABCabc   ', ' ')", (XS "   ABCabc"));
  ("strip('   ABCabc   ', ' ')", (XS "ABCabc"));
  ("find('ABCabc', 'ab')", (XN (3) (1)));
  ("replace('ABCabc', 'BC', 'fgh')", (XS "Afghabc"));
  ("replace('ABCabc', '123', 'fgh')", (XS "ABCabc"));
  ("replace('ABCaBCbc', 'BC', 'fgh')", (XS "Afghafghbc"));
  ("substr('ABCabc', 3)", (XS "abc"));
  ("substr('ABCabc', -4)", (XS "Cabc"));
  ("substr('ABCabc', 3, 4)", (XS "ab"));
  ("substr('ABCabc', 4, 4)", (XS "b"));
  ("substr('ABCabc', 3, -1)", (XS "abc"));
  ("substr('ABCabc', 3, -2)", (XS "ab"));
  ("substr('ABCabc', -3, -2)", (XS "ab"));
  ("substr('123456', 4, 4)", (XS "5"));
  ("substr('123456', 0b100, 0b100)", (XS "5"))
]%string.
Definition t_strings : list (string * expect) := [
  ("'abc'", (XS "abc"));
  ("'abc def'", (XS "abc def"));
  ("'abc
def'", (XS "abc
def"));
  ("'123.45'", (XS "123.45"));
  ("'123.45' * 2", (XN (2469) (10)));
  ("'hello' +$ 'goodbye'", (XS "hellogoodbye"));
  ("'hello' +$ 'good\'bye\\'", (XS "hellogood'bye\"));
  ("123 +$ 'abc'", (XS "123abc"));
  ("'123' +$ '456'", (XS "123456"));
  ("'0b10' +$ '101'", (XS "0b10101"));
  ("0b10 +$ 101", (XS "0b10101"));
  ("('12' +$ '3') - 100", (XN (23) (1)));
  ("10 / 3 +$ ''", (XS "3.333333333333333333333333333333"));
  ("((10 / 3 +$ '') *$ 1) * 3", (XN (9999999999999999999999999999999) (1000000000000000000000000000000)));
  ("'abc' *$ 3", (XS "abcabcabc"));
  ("'123' *$ 2", (XS "123123"));
  ("'123' *$ 0b10", (XS "123123"));
  ("'abc' *$ '3'", (XS "abcabcabc"))
]%string.
Definition t_inlinefunctions : list (string * expect) := [
  ("f = { 10 * PARAM1 }
@f(2)", (XN (20) (1)));
  ("f = { 
 10 * PARAM1 
 }
@f(2)", (XN (20) (1)));
  ("f = { 1 + 2 
 10 * PARAM1 }
@f(2)", (XN (20) (1)));
  ("a = 2
f = { b = 4 * a 
 b * PARAM1 }
@f(2)", (XN (16) (1)));
  ("f = [ {PARAM1*2}, {PARAM1*4} ]
@f(3)", (XL [(XN (6) (1)); (XN (12) (1))]));
  ("f = [ {PARAM1*2}, {PARAM1*4} ]
@f([3, 9])", (XL [(XL [(XN (6) (1)); (XN (18) (1))]); (XL [(XN (12) (1)); (XN (36) (1))])]))
]%string.
Definition t_innerexpressions : list (string * expect) := [
  ("4 * (2 + (3)) - 3", (XN (17) (1)));
  ("4 * (2 + (3 + 1)) - 3", (XN (21) (1)));
  ("(10 / 3) * 3", (XN (10) (1)));
  ("10 / 3 (3)", (XN (10) (9)));
  ("123 + (1 * 3) - 456", (XN (-330) (1)))
]%string.
Definition t_terminator : list (string * expect) := [
  ("
((1 + 3)
/ 2)
", (XN (2) (1)));
  ("1 + 2
3 + 4", (XN (7) (1)));
  ("1
2", (XN (2) (1)));
  ("1 
2", (XN (2) (1)));
  ("
((1 + 3)
/ 2)
", (XN (2) (1)));
  ("1 +
2", (XN (3) (1)));
  ("1 + 2
3 + 4", (XN (7) (1)));
  ("1 + 2 + 
3 + 4", (XN (10) (1)));
  ("true then
1
else
2", (XN (1) (1)));
  ("true then
1 + 3
else
2", (XN (4) (1)));
  ("true then
1
else
2
456", (XN (456) (1)));
  ("a = [0, 1]
(a > 0) then 1 / a else 0", (XL [(XN (0) (1)); (XN (1) (1))]));
  ("a = [0, 1]
b = 1 / a
filter(b, a > 0)", (XL [(XN (1) (1))]))
]%string.
Definition t_testerrorhandling : list (string * expect) := [
  ("1 2", (XE true (Some 2) (Some ["1"; " "])));
  ("1 + + 1", (XE false (Some 2) (Some ["1"; " "])));
  ("1+ + 1", (XE false (Some 1) (Some ["1"])));
  ("+ 1", (XE false (Some 0) (Some [])));
  (" + ", (XE false (Some 1) (Some [" "])));
  ("+", (XE false (Some 0) (Some [])));
  ("1 +", (XE false (Some 2) (Some ["1"; " "])));
  ("1 + (2 3)", (XE true (Some 7) (Some ["1"; " "; "+"; " "; "("; "2"; " "])));
  ("1 + (2  3)", (XE true (Some 8) (Some ["1"; " "; "+"; " "; "("; "2"; " "; " "])));
  ("min([1, 2, ''])", (XE false (Some 0) (Some [])));
  ("1 + (min([1, 2, '']))", (XE false (Some 5) (Some ["1"; " "; "+"; " "; "("])));
  ("1 + (min([1, 2, 3 +])", (XE true (Some 4) (Some ["1"; " "; "+"; " "])));
  ("1 + (min([1, 2, 3 +]))", (XE false (Some 18) (Some ["1"; " "; "+"; " "; "("; "min"; "("; "["; "1"; ","; " "; "2"; ","; " "; "3"; " "])));
  ("1 + (min([1, 2, 3] +))", (XE false (Some 19) (Some ["1"; " "; "+"; " "; "("; "min"; "("; "["; "1"; ","; " "; "2"; ","; " "; "3"; "]"; " "])));
  ("1 + (min([1, 2, (1 2)])", (XE true (Some 19) (Some ["1"; " "; "+"; " "; "("; "min"; "("; "["; "1"; ","; " "; "2"; ","; " "; "("; "1"; " "])));
  ("sort([1, 2, 3], [4, 5, 6])", (XE false (Some 0) (Some [])));
  ("1 / 0", (XE false (Some 2) (Some ["1"; " "])));
  ("2 + (1 / 0) + 3", (XE false (Some 7) (Some ["2"; " "; "+"; " "; "("; "1"; " "])));
  ("(2 + #comment
(1 / 0) + 3)", (XE false (Some 17) (Some ["("; "2"; " "; "+"; " "; "#comment"; "
"; "("; "1"; " "])));
  ("(2 + (((1 / 0)) + 3))", (XE false (Some 10) (Some ["("; "2"; " "; "+"; " "; "("; "("; "("; "1"; " "])));
  ("1 + ''", (XE false (Some 2) (Some ["1"; " "])));
  ("true then 1 else 2 3", (XE true (Some 19) (Some ["true"; " "; "then"; " "; "1"; " "; "else"; " "; "2"; " "])));
  ("true then 1 2 else 3", (XE true (Some 12) (Some ["true"; " "; "then"; " "; "1"; " "])));
  ("false then 1 else (+)", (XE false (Some 19) (Some ["false"; " "; "then"; " "; "1"; " "; "else"; " "; "("])));
  ("false then 1 else ( +)", (XE false (Some 20) (Some ["false"; " "; "then"; " "; "1"; " "; "else"; " "; "("; " "])));
  ("true then 1 else 2 else 3", (XE false (Some 19) (Some ["true"; " "; "then"; " "; "1"; " "; "else"; " "; "2"; " "])));
  ("true else false then 1 else 2", (XE false (Some 5) (Some ["true"; " "])));
  ("(1/0) else", (XE false (Some 6) (Some ["("; "1"; "/"; "0"; ")"; " "])));
  ("f = './tests/externalfunctions/does_not_exist'
@f(1, 2)", (XE false (Some 47) (Some ["f"; " "; "="; " "; "'./tests/externalfunctions/does_not_exist'"; "
"])));
  ("f = './tests/externalfunctions/ext_func_addition2'
@f(1, 2)", (XE false (Some 51) (Some ["f"; " "; "="; " "; "'./tests/externalfunctions/ext_func_addition2'"; "
"])));
  ("round((+))", (XE false (Some 7) (Some ["round"; "("; "("])));
  ("(1/0) +", (XE false (Some 6) (Some ["("; "1"; "/"; "0"; ")"; " "])));
  ("[1, 2 / 0]", (XE false (Some 6) (Some ["["; "1"; ","; " "; "2"; " "])));
  ("[1, (2 / 0)]", (XE false (Some 7) (Some ["["; "1"; ","; " "; "("; "2"; " "])));
  ("[1 .. 2 / 0 step 2]", (XE false (Some 8) (Some ["["; "1"; " "; ".."; " "; "2"; " "])));
  ("[1 .. (2 / 0) step 2]", (XE false (Some 9) (Some ["["; "1"; " "; ".."; " "; "("; "2"; " "])));
  ("[1 .. 2 step 2 / 0]", (XE false (Some 15) (Some ["["; "1"; " "; ".."; " "; "2"; " "; "step"; " "; "2"; " "])));
  ("[1 .. 2 step (2 / 0)]", (XE false (Some 16) (Some ["["; "1"; " "; ".."; " "; "2"; " "; "step"; " "; "("; "2"; " "])));
  ("[1 .. 2 step -1]", (XE false (Some 15) (Some ["["; "1"; " "; ".."; " "; "2"; " "; "step"; " "; "-1"])));
  ("[1 step 2]", (XE true (Some 3) (Some ["["; "1"; " "])));
  ("@mean([", (XE true (Some 6) (Some ["@mean"; "("])));
  ("simplefunc = './tests/externalfunctions/simplefunc'
@simplefunc(@simplefunc(*))", (XE false (Some 76) (Some ["simplefunc"; " "; "="; " "; "'./tests/externalfunctions/simplefunc'"; "
"; "@simplefunc"; "("; "@simplefunc"; "("])));
  ("5.97237e24kg / ", (XE false (Some 13) (Some ["5.97237e24"; "kg"; " "])))
]%string.

Definition all_tests : list (string * expect) :=
  t_arrayfunctions ++ t_arrays ++ t_booleans ++ t_comments ++ t_space ++ t_advancedarithmetic ++ t_arbitrarybasenumbers ++ t_basicarithmetic ++ t_binarynumbers ++ t_bitwiseoperators ++ t_decimalfunction ++ t_decimalnumbers ++ t_expnumbers ++ t_hexadecimalnumbers ++ t_numericalconstants ++ t_numericalfunctions ++ t_numericalrepresentation ++ t_octalnumbers ++ t_percentagenumbers ++ t_statisticalfunctions ++ t_assignment ++ t_assignmentfunctions ++ t_assignmentoperators ++ t_stringarrayfunctions ++ t_stringcomparison ++ t_stringfunctions ++ t_strings ++ t_inlinefunctions ++ t_innerexpressions ++ t_terminator ++ t_testerrorhandling.
(** What fails is computed while this file is compiled, and must be nothing.  This is a test of the model and no theorem:
    the definition holds only the outcome, so that checking the compiled file does not run the tests again. *)
Definition failed : list (string * string) := Eval vm_compute in failing all_tests.
Example test_suite : failed = [].
Proof. reflexivity. Qed.
(** One of the files of tests as a theorem *)
Example assignment_suite : failing t_assignment = [].
Proof. vm_cast_no_check (@eq_refl (list (string * string)) []). Qed.
