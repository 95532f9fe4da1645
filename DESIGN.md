# Design of the Rocq model of ModularCalculator

Target: `/repo` (python, pinned commit), read as text. Nothing in this directory runs it.
The model is in `rocq/theories`, logical name `Verif`, Coq 8.16.1, standard library only.

## Layout of the model

| Model file | Code modelled |
| --- | --- |
| `Base.v` | python `str`/`list` primitives used by the code (prefix test, find, split, join, rstrip, slicing) |
| `Dec.v` | the part of python's `decimal` used by `Number`: rounding to `prec` significant digits, ROUND_HALF_UP |
| `Num.v` | `objects/number.py` |
| `Lex.v` | the regular expressions of the literal parsers, as functions that split a text |
| `Bases.v` | `features/numerical/bases.py` and the binary, octal, hexadecimal, arbitrary base literals built on it |
| `Formats.v` | `expnumbers.py`, `percentagenumbers.py`; printing a Number in its format |
| `Units.v` | `objects/units.py`, `services/unitnormaliser.py`, `unitdefinitions/temperature.py` |
| `Install.v` | `modularcalculator.py` (`add_op`, `add_parser`, `install_features`), `features/presets.py`, the dependency graph of all features |
| `Syntax.v` | `objects/items.py` and the item classes of the features, values, exceptions |
| `Pos.v` | `objects/exceptions.py` (`find_pos`, `truncate`), `services/syntaxhighlighter.py` |
| `Call.v` | `objects/operators.py`: `Operation.call` |
| `Loop.v` | the operator loop of `engine.py` `execute`, `restore_non_functional_items` |
| `Parse.v` | `engine.py` `parse` and every `parse_*` of the features (numbers and units through parameters) |
| `Exec.v` | `engine.py` `execute`, `calculate`; the `value` methods of items (functions, inline and external functions, pointers, arrays and ranges, variables) |
| `Std.v` | the operators and functions of booleans, arithmetic, numerical, bitwise, statistical, string, array and state features, and the standard calculator made of them |
| `StdRun.v` | runs a text on that calculator, for examples |
| `StdTests.v` | the expectations of `/repo/tests` that stay within the model, run on the model |

For each: `X.v` (definitions, each citing file and lines), `XSpec.v` where a separate specification is needed,
`XProofs.v` (lemmas), and `Prop_*.v` files which hold only the property theorems (`exact lemma`), `Example`s of
concrete non-trivial instances and `Print Assumptions`.

## General modelling decisions

* Python exceptions are values. A `CalculatorException` is distinguished from any other python exception.
* `decimal.Decimal` values that the code keeps as integers are `Z`; a rounded decimal is a mantissa and a power of ten.
  Precision is a parameter `p >= 1`. Exponent range limits (Emax = 999999) are not modelled. The rounding mode is
  ROUND_HALF_UP, the one `NumericalEngine` sets.
* Loops become structural recursion or recursion on explicit fuel. When fuel is used the result distinguishes
  running out, and theorems exclude it or bound the fuel needed.
* Text is a list of 8-bit characters (Latin-1). Other Unicode characters are not modelled.
* Aliasing (two names for one mutable object) is not modelled unless stated.
* Error message wording is abstracted; error positions are kept.

## Properties: what is modelled and how it is proved

`MANIFEST.json` has the theorems and a note on the exact range of each. "Refuted" means: the statement, or the part of
it named, is false of the model; a theorem `..._refuted` has the witness.

| Property | Modelled by | Proof |
| --- | --- | --- |
| C01 | `Num.v` add/sub/mul/div at precision p | algebra on Z; every rounding is the identity on values that fit |
| C02 | constructor | gcd lemmas; invariant over an inductive set of reachable Numbers |
| C03 | add/mul | symmetry of lcm, products; no fit hypothesis |
| C04 | comparisons via rounded quotient | monotonicity of rounding; strictness and hash contract refuted beyond the precision |
| C05 | `//`, `%` | Z.quot / Z.div laws; identity refuted for opposite signs |
| C06 | `**` with integer exponent | induction on the exponent; any Decimal power that is exact when it can be |
| C07 | `parse_number` | induction on the digits |
| C08 | `to_string` | rounding error bounds; digit printing/reading inverse |
| C09, C10 | `dec_to_base`, `base_to_dec`, prefix functions | induction on digits; refuted for base 36 |
| C11 | power list operations | invariant by induction over operation histories |
| C12, C14 | conversions in exact rational arithmetic | field reasoning, induction over the unit list; temperatures in compounds refuted |
| C13 | dimension expansion + deduplicate | sum-of-powers specification; partial, refuted where a running total vanishes |
| C15 | odometer search | enumeration lemma for mixed-radix counters |
| C16 | `dedupe` | partial: value times size kept; what it does with different dimensions, with a pair and with a cancelling pair; dimension refuted |
| C17, C18 | `add_op`, `add_parser` | invariant over insertion sequences |
| C19 | `install_features` | well-founded recursion over the graph, invariant on the trace |
| C20, C21, C22 | parser loop and all parsers | invariant on consumed text, induction on fuel; fuel length+1 suffices |
| C23, C24 | operator loop, `execute` | the loop's reduction order is the grouping defined by levels and directions, which exists and is unique |
| C25, C26, C27, C48 | `Operation.call` | case analysis and induction on nesting |
| C28 | `calculate`, all operators and functions of the calculators (standard, regular expressions, units and dates) but `element` | invariant on values, slots and variables through operands, operator loop, calls and statements; each operation shown to give a value or a calculator exception; the position of an error inside an argument or element is found again because parsing lays arguments out in the items. Assumes that numbers can be displayed (`displayed`), no function pointers, no ranges, with units that answers are not simplified; refuted without |
| C29 | `calculate` | induction on statements against a separate step relation |
| C30, C31, C32 | assignment features in the standard calculator | frame lemmas through `call`; C32 by an invariant on every run |
| C33, C34 | inline and external functions | case analysis; frame of the variable store |
| C35 | boolean operators | case analysis through `call` |
| C36 | ranges | loop invariant over a common denominator; refuted: step 0, steps lost in rounding |
| C37 | array functions | sortedness and stability of the modelled sort; induction |
| C38, C39 | `find_pos`, `highlight` | induction on items |
| C40, C41 | operator and string lexers | induction on text |
| C42, C43 | terminator | induction on parsing; a statement ending in an operand is complete; independence of history refuted |
| C44 | ambiguous units | induction on the preference list |
| C45, C46 | integer functions, bitwise operators | number theory in Z through `call` |
| C47 | split/join | induction on text |
| C49 | feature graph transcribed as data | computation over the finite graph plus the general install theorem |
| C50 | rounding | error bound lemma |
| C51 | `normalise_from_left/right` | invariant of the rewriting loops; measure for the `while` loop |
| C52 | `execute` with fuel | monotonicity in fuel; size measure |
| C53 | statistical functions | folds over a common denominator; permutation and sortedness for the median |
| C54 | text functions and comparisons | induction on text; an end before the start of a text in `substr` refuted |
| C55 | arithmetic and comparison operators on operands of any format | exactness of the number operations through `call` |
| C56 | floor, ceil, round with places | the half is compared exactly although the decimal is rounded |
| C57 | the calculator with units: registration, table of units, conversion of operands, operators | exactness of the number operations after the conversion theorem C12; the table is checked by a decision procedure proved correct |
| C58, C59, C60 | `*` `/` `^` on quantities, `to`, operators on units | the rewriting theorem C51, the conversion theorem C12 and sums over unit lists, through `call` |
| C61 | errors of `execute` and the items put back into them | invariant on the slots of a statement; which items each index stands for; refuted for errors kept in arrays |
| C62 | `add_unit`, `get_unit`, `parse_units` | induction on the units added and on the lengths tried |
| C63 | `string_to_date`, `date_to_string`, `dateadd`, `datesubtract`, `datedifference`, `dateformat`, `+%`, `-%` | the calendar as a relation "next day" against the closed formulas of `datetime`; first match of each format of `strptime`, proved to be exactly the texts of a written grammar of dates; refuted for a padding that is too short |
| C64 | `simplify_loop`, `simplify`, `finalize` (UnitCalc.v), every combination found and every unit chosen | by the invariant of the rewriting (value times size, dimensions) over `find_units`; the hypotheses are decided for the registry of the code; the measure 2·(sum of powers)+1 bounds the rounds without compound units; refuted: a cycle of two units (knots and metres per second squared) is a loop that never ends, for every fuel; dimension changed or a Python error by `dedupe` and by a value 0; the choice among candidates by induction over them, for any order of closeness |
| C65 | `format_loop`, `prefix_at_least_one`, `get_system`, `format_parts`, `fn_format`, `fn_compact` (UnitCalc.v); comparisons with 1 and 0 are exact, where the code compares rounded decimals | by induction over the unprefixed units with the quantity left as invariant; sortedness of `get_system`; specification (`largest_first`, `best_prefix`) separate in PartsSpec.v; hypotheses decided for the registry of the code; refuted for temperatures by evaluation |
| C66 | `call` with arrays of numbers (Call.v `norm_arrays`, `put_back`, `restore`), `normalise_inputs` (UnitCalc.v), `fn_sum`, `fn_pick`, `fn_stat`, `fn_sort` (Std.v) | conversion of the array as a map over its elements (`gather_call`); then as C53 and C37 with what the elements measure (`measure`, GatherSpec.v) as the order; that a sum of temperatures is the one of `+` is refuted by evaluation |
| C67 | the operators and functions of regex.py and the calculator with them (Regex.v); Python's `re` is a record of functions, and the loops of findall, split and sub over the matches follow CPython | the loop ends within its bound because every round moves on or forbids the empty match (`scan_total`); the text is laid out as pieces and matches (`laid`, unique: `laid_one`), and each operation is stated with that layout; conditions on the engine: `engine_ok`, met by the engine of RegexRun.v (`demo_ok`) |
| C68 | the unit tables (UnitData.v) as registered by the features, and `to` | the definitions are written down independently (DefinitionSpec.v); a decision procedure (`fact_b`) checks sizes, dimensions and that the dimensions add up without vanishing, is proved right (`fact_b_ok`) and run on the table once; with the conversion theorem of C59 it gives the statement for all numbers |
| C69 | trigonometryfunctions.py, specialfunctions.py, `log`, `exp`, `stdev` (Floats.v); what math, scipy.special, statistics.stdev and Decimal.ln return is a parameter, None for an exception and for no finite number | a lemma for calls with any number of numbers (`fnum_call`), that names are distinct by computation, then unfolding; the refutations hold for every library that gives different answers at the two arguments |
| C70 | the conversions of numericalrepresentation.py, expnumbers.py, percentagenumbers.py (Formats.v, Std.v) and the reading of texts as numbers (`text_number`) | what the digits of a text in scientific notation are worth (`dec_to_exp_text`) and that ten to the exponent is exact (`pow_ten`); rounding to significant digits has its own definition (FormatSpec.v) and follows from that of the decimals; that no other format takes the text (`text_number_other`), then the round trips of C08 and C09 |
| C71 | all the parsers of the standard calculator in order (`std_parsers`, `try_parsers`) on a text that starts with a name, and the whole of `calculate` on it | names, and the words that are taken, are defined by character codes and written out in VarNameSpec.v; each parser before the one for variables is shown to find nothing (`before_consts`, `name_read`), then the loop over a whole text (`name_parse`, `copy_parse`) and the execution of C30; the constants are compared with their fifty places written out as fractions |
| C72 | `eval_ptr`, `inline_impl`, `set_params`, `statements_of`, `run_all` and the call machinery for an operation without restrictions, for any calculator configuration | the names of the parameters (digits without leading zero), the variables on entry (`entered`), the parts of a body and the runs are relations in ParamSpec.v; decimal writing is shown unique (`writes_unique`); that a self-call never ends is an induction on the depth (`no_stop`) |
| C73 | Heap.v: numbers as cells of a heap, variables and arrays as addresses, the cast written in place by `Operation.call`; only numbers and arrays of numbers without units, an error is `None` | the semantics with values (`n_eval`), `makes`, `assigns`, `formatless` are in HeapSpec.v; simulation between the two semantics by induction over programs; answers of the heap operations shown equal to those of `callop`/`call` in the calculator's model (`pick_agrees`, `element_agrees`, `make_agrees`); refutations by computation |
| C74 | the whole path from text to answer in the standard calculator: the parsers tried in order, `parse_loop`, the operand loop `eval_operands`, the calls of + - * / ^, implicit multiplication and =, the functions abs, floor, ceil, round, fact, gcd and lcm, statements and results | ArithTextSpec.v defines expressions, the relation `reads` between texts and expressions, values in Q and sizes without reference to the calculator; ArithTextProofs2-3 show that such a text is read into the expected items, ArithTextProofs that the operand loop reduces items along any binding tree (`loop_runs_end`), ArithTextProofs4-5 that each operator is exact, ArithFunProofs that each function is, ArithTextProofs6-7 do lines and assignments; `aformat` says which format the answer has, and Prop_ArithShown.v joins this with the printing of C08 |
| C75 | the `install` methods of all features as lists of effects (InstallRun.v: parsers, operators with direction and words, new tables, entries, attributes that must exist, calls on the unit normaliser), run in the order of `install_features`, over several calls | InstallRunSpec.v says what a calculator made of features is, InstallBuiltSpec.v how a calculator of the model is compared with it; InstallRunProofs shows that a unit step whose needs are met cannot fail, InstallRunProofs2 the same for effects and what they add up to, InstallRunProofs3 checks by computation, feature by feature, that the direct dependencies provide what each effect needs, and concludes for every order that respects dependencies, InstallRunProofs4 shows that calls give such orders; InstallBuilt computes the parts other than units |
| C76 | nothing new: the calculator of C74 on texts that have no value | ArithErrSpec.v judges an expression by structural recursion (worth a rational, unset, wrong, open) without mentioning the calculator; ArithErrProofs shows what one operator makes of two judged operands, ArithErrFun what a function makes of judged arguments, ArithErrProofs2 follows trees of operands through the rewriting loop (an error inside parentheses becomes an operand that is an exception and is handed on), ArithErrProofs3 relates judging and `avalue` of C74, ArithErrProofs4 goes to texts and programs |
| C77 | nothing new: the calculator with units (C57-C62) on whole texts | UnitTextSpec.v has the texts as an inductive relation and the total as a fold over numerals and sizes of units, without the calculator; UnitTextProofs runs the operator loop (all numbers are joined with their units first, then the signs from the left, then `to`), UnitTextProofs2 follows the values, UnitTextProofs3 reads blanks, numerals, operators and unit names (no longer name fits, by the condition on the registry), UnitTextProofs4 puts parsing and running together, UnitTextProofs5 does the same for quantities that do not go together; UnitTextTable decides the conditions for the registry the code builds |
| C78 | nothing new: the boolean operators of the standard calculator (C19, C22) on whole texts | CondTextSpec.v has the texts as an inductive relation over the arithmetic texts of C74 and decides them on the rationals with `Qle_bool` and `Qeq_bool`; CondTextProofs reads the symbols, words and parentheses, CondTextProofs2 runs the operator loop and the comparisons, whose exactness is C46's; CondLoopProofs cuts the operands of `and`, `or` and `xor` apart (`settle_both`, C79): each settles by itself under the levels above, `not` included, which the theory of binary operators does not know, and what is left is a tree of the joining words only (for `then … else` see C79) |
| C79 | nothing new: `then` with `else` of the standard calculator (C19) on whole texts | ChoiceTextSpec.v has the texts over those of C74 and C78 and the arithmetic that is chosen; LoopWalls.v proves of any operator table that an operator looser than all on both sides of it separates them: the loop does on `X q Y` the steps it does on X and on Y alone, interleaved (`settle_both`); ChoiceLoopProofs applies it twice to `c then x else y`, with the operators above `then` leaving the state; ChoiceTextProofs reads the words, ChoiceTextProofs2 runs the items, errors in branches included |
| C80 | nothing new: `calculate` on programs of choices | ChoiceLineSpec.v has the lines, the values and the variables after each; ChoiceLineComplete proves that a statement with one `then … else` is complete (the trial run with stand-in values ends with one result), ChoiceLineParse that a program is cut into those lines, ChoiceLineRun that `n = …` and `n += …` wait for the choice (the operators of the choice are all tighter, so the loop of `settle_both` runs between the name and it) and what the operators that assign do, errors included, and that `n++` and `n--`, which have no right side, run at once, ChoiceLineProofs is the induction over the lines, with the first wrong line |
| C81 | nothing new: `calculate` on arrays | ArrayTextSpec.v has the texts, ArrayRunSpec.v what the elements give; `reads_parse_in` (ArithTextProofs3) reads arithmetic inside arrays too, ArrayTextProofs follows `arr_elem` and `arr_loop` through dots, `step`, commas and the bracket, ArrayTextProofs2 runs the parts and gives ranges to the theorems of C36 over the product of the denominators |
| C82 | nothing new: `calculate` on calls with an array | ArrayCallSpec.v has the texts and what the first least and greatest element is, and what numbers over a common denominator are (for `sum`); ArrayCallProofs reads the name, the array as the argument (`array_on` under the flags of a call), for `element` the comma and the arithmetic behind it, and the parenthesis, and hands the list of C81 to the theorems of C37 and C53 |
| C83 | nothing new: `calculate` on arrays | ArrayErrSpec.v says which elements go wrong, with `judge` of C76; ArrayErrProofs counts the items `eval_element` passes (`element_counts`), finds each part where `laid_out` (ContainProofs3) puts it, and so gets a cut text from `truncate_reach`; ArrayErrProofs2 does the same for the argument of a call |
| C84 | nothing new: `calculate` on calls with an array | ArrayCallProofs2 gives the list of C81, read as in C82, to the theorems of C53 and C37 |

Not expressible in this model: timing results (`times`), unicode classification, what the
libraries for real-valued functions compute (C69 takes them as a parameter), the current time (`now`).

## What the model says about the code

Behaviour that a reader of the code may not expect, each shown by a theorem or example on the model:

* `[1..1 step 0]` is `[]`; `[1E99..2E99 step 1E-3]` never ends; `['1'..3]` lets a TypeError out of `calculate`.
* `element(a, 0)` is the last element.
* `sin(180 degrees)` is the sine of 180, in degrees; `log(2 m)` is in metres; `sp_bdtrc(k, n, 0.5)` is `sp_bdtrc(k, n, 0)`.
* `delete(x)` of an array variable leaves `x`; `reset()` and `delete` ignore `stateless`.
* `c then a else b` evaluates both branches, and spreads a branch that is an array.
* `~5` uses as many bits as 5 has decimal digits; `~(0b1 << 4)` keeps the width of `0b1`.
* An inline function with an empty body, or whose body fails with an unknown error, leaves its parameters behind.
* Parsing an incomplete statement is remembered between runs, and can change what the next run accepts.
* `-7 // 2` and `-7 % 2` are not consistent with each other.
* After `x = ([true, false] then (1/0) else 2)` the error kept in `x` is reported by `element(x, 1)` at a place where
  that text is looked for in vain (an Exception from `find_pos`), or at another `/` later in the statement.
* `not 'a' =~ 'b'` fails, because `not` binds more tightly; `regexget(s, p, 0)` is the last match; `regexsub` with 2
  replaces the first two matches.
* `2 m * (3 ft/m)` fails with an unknown error (an AttributeError in the code), `(3 ft/m) * (2 m)` is 6 feet: the
  second unit vanishes when it is brought to the units of the first. `6 m/m` is an error, `6 m / 2 m` is 3.
* After `x = 300` the statement `max(x, 0x1)` makes `x` be 0x12C; `element(x, 0x2)` does so to an element of `x`. The 5 in
  `f = {max(PARAM1, 5)}` is 0x5 for good after `@f(0x1)`.
* A function called with fewer inputs sees its caller's other parameters; a function that calls itself inside
  `then`/`else` never stops.

Shared python objects: `Number` and result objects are shared between variables, arrays and results, and
`Operation.call`, `UnitPowerList` methods and exceptions change some in place. The model copies; Heap.v is a separate
model of shared numbers, and C73 says where copying makes no difference. Where a method of a
unit list changes its receiver the model returns the new list; the callers were read for a second reference.

## Checks of the model itself

* `StdTests.v`: the test expectations of the repository within the model's reach, run when the file is compiled (the
  compiled file only holds the outcome, so that `coqchk` need not run them again).
* `UnitTests.v`: 155 expectations of the repository's tests of units. `UnitData.v` is generated from the python
  definitions of units by a script, `UnitReg.v` is the code that registers them.
* `DateTests.v`: the 22 expectations of the repository's tests of dates.
* `RegexTests.v`: the 24 expectations of the repository's tests of regular expressions.
* `seeded/LOG.jsonl`: wrong programs (single edits of the model's functions) and which theorem fails on each. Edits
  that no theorem noticed were run again when there were more theorems; a later line for the same edit names those that
  notice it. An edit whose lines all name none is one that no theorem notices.
  By reading, these are: another kind of failure where a loop ends or a registration of units fails (`simplify_loop`,
  `add_system`, `mult_power`, `make_multiunit`, `normalise_after`), which no theorem tells apart; names and sizes of single
  units in the generated data (`ud_…`); seconds of 60 and days of 32 (`m_second`, `m_day`), which `make_date` refuses
  whether or not they are matched; and branches that are not reached (`py_digit` below -36, the other value of `the_number`).
  The edit of `std_valid` was not run again after `c26_array_of`, which is about that branch, nor was that of `itrunc`.

## Trusted base

* Coq 8.16.1 kernel (and `vm_compute`, part of the kernel, for witnesses).
* Axioms: none. `Print Assumptions` follows the theorems in each `Prop_*.v`, and says of all of them that they are closed
  under the global context. `coqchk -o` lists seven entries of the standard library's `ssr.ssrunder.Under_rel` for the
  modules loaded; no property theorem uses them.
* What C63 needs of python's `datetime`, modelled from its documentation and source: the regular expressions of
  `strptime`, `strftime` (with `%Y` not padded, as by glibc), `date.toordinal` and the arithmetic of `timedelta`.
* What C67 needs of python's `re`: the loops over the matches, after CPython's source; the engine itself is a parameter.
* The hand translation from python to Gallina. Nothing checks it mechanically; each definition cites the lines it
  follows and states its simplifications.
