{"id": "C01", "title": "Number arithmetic is exact on rationals", "statement": "Adding, subtracting, multiplying or dividing two Numbers gives exactly the rational sum, difference, product or quotient of the two values, as long as the intermediate numerators and denominators have at most the configured number of significant digits (100 by default). Division by zero is refused, and is the only refusal.", "quantifier": "every configured precision, every pair of Numbers whose intermediate products fit that precision", "why_tests_cant": "The pairs are unbounded; the fraction reduction and least-common-multiple steps interact with decimal rounding in ways samples do not cover.", "anchors": ["modularcalculator/objects/number.py:Number.__init__,__add__,__sub__,__mul__,__truediv__,normalise"]}
{"id": "C02", "title": "Numbers are kept in lowest terms with a positive denominator", "statement": "Every Number produced by the constructor and by + - * / % has a strictly positive denominator, and numerator and denominator share no common factor when the inputs to the reduction fit the precision; equal rationals then have identical representation.", "quantifier": "every constructor argument pair and every chain of operations within precision", "why_tests_cant": "It is an invariant over all reachable Numbers, i.e. over arbitrary operation histories.", "anchors": ["modularcalculator/objects/number.py:Number.__init__"]}
{"id": "C03", "title": "Addition and multiplication are commutative, including their rounding", "statement": "a+b and b+a, a*b and b*a give the same numerator and denominator, whatever the precision and even when intermediate results are rounded.", "quantifier": "all pairs of Numbers and all precisions, no size bound", "why_tests_cant": "Rounding happens only for operands too large or numerous to sample.", "anchors": ["modularcalculator/objects/number.py:Number.__add__,__mul__,normalise"]}
{"id": "C04", "title": "Number comparison is a total order consistent with the exact order", "statement": "The comparison operators on Numbers form a total preorder, and never contradict the exact rational order: if x is exactly <= y then x <= y evaluates true. The converse (distinct rationals compare as distinct) and the contract that equal Numbers hash equally do not hold beyond the precision.", "quantifier": "all Numbers, all precisions", "why_tests_cant": "Monotonicity of rounding is a statement over all rationals.", "anchors": ["modularcalculator/objects/number.py:Number.__lt__,__le__,__eq__,__gt__,__ge__,__hash__,to_decimal"]}
{"id": "C05", "title": "Floor, remainder and integer division laws", "statement": "For operands within precision, a\\b is the floor of the exact quotient and a%b is the remainder with the sign of the dividend and magnitude below |b|; the identity a = (a\\b)*b + a%b holds whenever the operands have the same sign (and fails in general for opposite signs).", "quantifier": "all pairs of Numbers with non-zero divisor whose quotient is represented exactly", "why_tests_cant": "The law spans all signs and magnitudes.", "anchors": ["modularcalculator/objects/number.py:Number.__floordiv__,__mod__", "modularcalculator/features/numerical/advancedarithmetic.py:op_number_moddiv"]}
{"id": "C06", "title": "Integer powers follow the laws of exponents", "statement": "Raising a Number to an integer exponent gives the exact power, negative exponents give the reciprocal, and x^(m+n) = x^m * x^n, when results fit the precision.", "quantifier": "all Numbers and all integer exponents within precision", "why_tests_cant": "Unbounded exponents and bases.", "anchors": ["modularcalculator/objects/number.py:Number.__pow__", "modularcalculator/features/numerical/basicarithmetic.py:op_number_power"]}
{"id": "C07", "title": "Decimal literals denote exactly the number written", "statement": "A decimal literal (optional minus, digits, optional point and digits) parsed by the calculator denotes exactly the rational written, provided it fits the precision.", "quantifier": "every literal of any length within precision", "why_tests_cant": "Infinitely many literals.", "anchors": ["modularcalculator/features/numerical/decimalnumbers.py:parse_number", "modularcalculator/objects/number.py:Number.__init__"]}
{"id": "C08", "title": "Displaying a Number then reading it back", "statement": "The text printed for a Number is a well-formed decimal literal without trailing zeros, with at most the configured number of decimal places; reading it back gives a value within half a unit of the last displayed place (plus the rounding of the stored value), and gives exactly the same Number if that has few enough places.", "quantifier": "every Number whose printed form fits the precision, every precision and number of places", "why_tests_cant": "Quantifies over all Numbers and settings.", "anchors": ["modularcalculator/objects/number.py:Number.to_string"]}
{"id": "C09", "title": "Base conversion round trip", "statement": "Formatting a number in any base from 2 to 36 and parsing the resulting text yields the original number; the digits printed are the canonical ones (no leading zeros, digits below the base).", "quantifier": "every integer (and every fraction that terminates in that base within the configured places), every base 2..36", "why_tests_cant": "All integers times all bases.", "anchors": ["modularcalculator/features/numerical/bases.py:dec_to_base,base_to_dec"]}
{"id": "C10", "title": "Prefix stripping for non-decimal literals", "statement": "Reading a literal with a base prefix strips only the prefix at the front. True for binary, octal and hexadecimal literals; false for arbitrary-base literals whose digits repeat the prefix text.", "quantifier": "all literals", "why_tests_cant": "The failing literals are rare and specific.", "anchors": ["modularcalculator/features/numerical/bases.py:number_remove_prefix", "modularcalculator/features/numerical/arbitrarybasenumbers.py"]}
{"id": "C11", "title": "Power lists keep no duplicate and no zero entries", "statement": "Building a compound unit by adding, removing, raising and multiplying units never leaves the same unit listed twice nor a unit with power zero, and the power stored for each unit is the sum of the powers added for it.", "quantifier": "all sequences of add/remove operations over any set of units", "why_tests_cant": "All operation histories.", "anchors": ["modularcalculator/objects/units.py:AbstractPowerList.add,remove,merge,multiply,remove_zeros"]}
{"id": "C12", "title": "Unit conversion round trip and transitivity", "statement": "Converting a value from one compound unit to another and back yields the original value exactly, and converting via an intermediate unit equals converting directly, for compound units of scale-based units in exact arithmetic.", "quantifier": "every value, every pair/triple of compound units of equal dimensions", "why_tests_cant": "Unbounded values and unit compositions.", "anchors": ["modularcalculator/services/unitnormaliser.py:unit_conversion", "modularcalculator/objects/units.py:UnitPowerList.convert"]}
{"id": "C13", "title": "Units of different dimensions never convert", "statement": "A conversion between compound units succeeds only if their base-dimension exponents agree; if they differ, it is refused with an error and no value is produced. If they agree it succeeds (true when no dimension repeats in the expansion; the duplicate-merging step can miss entries otherwise).", "quantifier": "all pairs of compound units over any dimension table", "why_tests_cant": "All compositions of dimensions; the deduplication loop mutates the list it iterates over.", "anchors": ["modularcalculator/services/unitnormaliser.py:unit_conversion,unit_normalised_dimensionlist", "modularcalculator/objects/units.py:AbstractPowerList.deduplicate"]}
{"id": "C14", "title": "Temperature conversion is affine and invertible", "statement": "Celsius, Fahrenheit and Kelvin values convert to each other by the usual affine formulas, conversions are mutually inverse, and relative conversions ignore the offset.", "quantifier": "all values", "why_tests_cant": "All rationals.", "anchors": ["modularcalculator/features/unitdefinitions/temperature.py:Celsius.convert,Fahrenheit.convert"]}
{"id": "C15", "title": "Searching sub-units by dimension is sound and complete", "statement": "The search that the unit simplifier uses to find combinations of sub-units with a required dimension returns exactly the bounded combinations whose total dimension is the goal, each once.", "quantifier": "all unit lists with integer powers, all goals", "why_tests_cant": "Combinatorial search over unbounded lists.", "anchors": ["modularcalculator/services/unitnormaliser.py:find_units_matching_dimensions"]}
{"id": "C16", "title": "Removing redundant units does not change the quantity", "statement": "Collapsing several units of the same dimension in a result leaves the physical quantity unchanged. (False of the code in general: units can be replaced by a unit of another dimension.)", "quantifier": "all values and compound units", "why_tests_cant": "The failing combinations depend on order and on index shifting while deleting.", "anchors": ["modularcalculator/services/unitnormaliser.py:dedupe"]}
{"id": "C17", "title": "Operator precedence table is independent of installation order", "statement": "Whatever order features are installed in, every pair of installed operators from different layout levels is ordered as the layout says, operators of the same layout level share a level, and no operator is lost or duplicated.", "quantifier": "all layouts, all sequences of operator additions", "why_tests_cant": "All permutations of installations.", "anchors": ["modularcalculator/modularcalculator.py:add_op", "modularcalculator/features/layout.py:op_map"]}
{"id": "C18", "title": "Parser order follows the layout", "statement": "After any sequence of parser additions the active parsers are exactly the added ones that the layout lists, in layout order, each once, the latest registration winning.", "quantifier": "all layouts, all sequences of additions", "why_tests_cant": "All permutations of installations.", "anchors": ["modularcalculator/modularcalculator.py:add_parser"]}
{"id": "C19", "title": "Feature installation respects dependencies", "statement": "Installing features runs each feature's installer at most once, after the installers of all its dependencies, and when it finishes everything requested and everything it depends on is installed.", "quantifier": "all acyclic feature graphs, all requested lists, all previously installed sets", "why_tests_cant": "All dependency graphs and histories of installs.", "anchors": ["modularcalculator/modularcalculator.py:install_features,add_feature_to_be_installed"]}
{"id": "C20", "title": "Parsing loses no text", "statement": "When parsing succeeds, concatenating the texts of all parsed items of all statements yields exactly the input expression.", "quantifier": "every input text, every enabled set of the modelled parsers", "why_tests_cant": "All strings, including nested brackets, functions, arrays and bodies.", "anchors": ["modularcalculator/engine.py:parse", "modularcalculator/features/structure/", "modularcalculator/features/arrays/arrays.py", "modularcalculator/features/state/", "modularcalculator/features/strings/strings.py"]}
{"id": "C21", "title": "Parse errors carry the exact failing position", "statement": "When parsing fails, the texts of the items reported followed by the reported remaining text is a prefix split of the input: the reported items spell the prefix before the failing place.", "quantifier": "every input text", "why_tests_cant": "All strings.", "anchors": ["modularcalculator/engine.py:parse", "modularcalculator/objects/exceptions.py:find_pos"]}
{"id": "C22", "title": "Parsing terminates and consumes progress", "statement": "Parsing any text terminates with either a result or an error, never looping, and needs recursion depth at most linear in the text length.", "quantifier": "every input text", "why_tests_cant": "Termination is not testable.", "anchors": ["modularcalculator/engine.py:parse"]}
{"id": "C23", "title": "Expressions evaluate according to precedence and associativity", "statement": "Evaluating a flat sequence operand op operand op ... gives the value of the expression tree determined by the precedence levels and each level's direction (left to right unless declared right to left).", "quantifier": "every operator table, every sequence of binary operators and operands, every interpretation of the operators", "why_tests_cant": "All expressions of all lengths over all tables.", "anchors": ["modularcalculator/engine.py:execute,execute_operator"]}
{"id": "C24", "title": "Operands are evaluated once each, left to right, before any operator", "statement": "Every operand of a statement is evaluated exactly once, in source order, before any operator runs, whatever the operators are; operators run afterwards in precedence order.", "quantifier": "every statement and operator table", "why_tests_cant": "An ordering property over all statements.", "anchors": ["modularcalculator/engine.py:execute"]}
{"id": "C25", "title": "Errors in operands propagate unchanged through ordinary operators", "statement": "If an operand evaluates to an error, then an operator or function not declared to accept errors returns that first error unchanged and its implementation is not run.", "quantifier": "every operation definition, all inputs", "why_tests_cant": "All operations and positions.", "anchors": ["modularcalculator/objects/operators.py:Operation.call"]}
{"id": "C26", "title": "Arguments are validated before an operation runs", "statement": "An operation's implementation runs only with a number of arguments between the declared bounds, and with each argument satisfying at least one of the declared types; otherwise an error naming the operation is raised and the implementation is not run.", "quantifier": "every operation definition and argument list", "why_tests_cant": "All combinations of restrictions and inputs.", "anchors": ["modularcalculator/objects/operators.py:Operation.call,validate"]}
{"id": "C27", "title": "Array arguments are broadcast element-wise", "statement": "Applying an operation to arrays where scalars are expected gives the array of per-element results, of the common length; element errors stay in their element; arrays of different lengths are refused.", "quantifier": "all operations, all array lengths and nestings", "why_tests_cant": "All shapes and lengths.", "anchors": ["modularcalculator/objects/operators.py:Operation.call"]}
{"id": "C28", "title": "Failures reach the caller only as calculator exceptions", "statement": "calculate() either returns a response or raises the documented exception, which carries a response and names a place in the text. Proved for every calculator whose operations, called with values, give a value or a calculator exception, and every text without function pointers and ranges that can be read; and for the standard calculator, whose operators and functions (but element) are shown to be such, if numbers can be displayed; likewise for the calculator with regular expressions, and for the one with units and dates if answers are not simplified. Refuted without these conditions: a number too large to display, a range from a text, an error taken out of an array, and a digit that its base does not have each let another python exception out.", "quantifier": "every input text, every state, every set of operators and functions meeting the conditions", "why_tests_cant": "The escaping inputs are specific.", "anchors": ["modularcalculator/engine.py:calculate", "modularcalculator/objects/operators.py:Operation.call"]}
{"id": "C29", "title": "A failing statement reports exactly the results before it", "statement": "If the k-th statement fails, the exception's response has exactly the results of the first k-1 statements, and they equal those of calculating the earlier statements alone.", "quantifier": "every statement list and every failing position", "why_tests_cant": "All statement lists.", "anchors": ["modularcalculator/engine.py:calculate"]}
{"id": "C30", "title": "Variables read back what was last assigned; others are untouched", "statement": "After assigning to a variable, reading it yields the assigned value and unit; no other variable changes. Deleting makes it unset; reset clears all. An updating assignment (+=, ++, ...) stores the operator's result, in the number format of the right operand if that has one.", "quantifier": "all variable stores, names, values and histories of operations", "why_tests_cant": "All histories.", "anchors": ["modularcalculator/features/state/assignment.py:op_var_set,VariableItem.value", "modularcalculator/features/state/assignmentfunctions.py"]}
{"id": "C31", "title": "Conditional assignment assigns at most once", "statement": "The assign-if-empty operator stores the value only if the variable is unset, and otherwise leaves the store unchanged.", "quantifier": "all stores and values", "why_tests_cant": "All histories.", "anchors": ["modularcalculator/features/state/assignment.py:op_var_set_if_empty"]}
{"id": "C32", "title": "Stateless evaluation does not change variables", "statement": "Evaluating with the stateless flag through assignment operators leaves the variable store as it was. Refuted for the reset and delete functions, which ignore the flag.", "quantifier": "all statements and stores", "why_tests_cant": "All programs.", "anchors": ["modularcalculator/features/state/assignment.py", "modularcalculator/features/state/assignmentfunctions.py"]}
{"id": "C33", "title": "Calling an inline function leaves the caller's variables unchanged", "statement": "After a call of an inline function with a non-empty body, succeeding or failing, the caller's variables are exactly as before the call. Refuted for an empty body, where the parameters leak.", "quantifier": "all bodies, arguments and stores", "why_tests_cant": "All programs, including failing and nested ones.", "anchors": ["modularcalculator/features/structure/inlinefunctions.py:do_function"]}
{"id": "C34", "title": "External functions cannot change the caller's variables", "statement": "Running an external function file leaves the variables exactly as before, on success and on any failure, unless the file cannot be opened.", "quantifier": "all files, arguments and stores", "why_tests_cant": "All programs.", "anchors": ["modularcalculator/features/structure/externalfunctions.py:do_function"]}
{"id": "C35", "title": "Conditional and boolean operators", "statement": "'a then b else c' yields b when a is true and c when it is false; and/or/xor follow the boolean tables and and/or ignore an error on the right exactly when the left decides.", "quantifier": "all operands including errors", "why_tests_cant": "All operands.", "anchors": ["modularcalculator/features/boolean/booleans.py"]}
{"id": "C36", "title": "Array ranges contain exactly the stepped values", "statement": "The array [a..b step s] (exact arithmetic) contains exactly a, a+s, a+2s, ... up to and including b when reached, in order, for both directions.", "quantifier": "all start, end and step values", "why_tests_cant": "All ranges; termination of the loop depends on the values.", "anchors": ["modularcalculator/features/arrays/arrays.py:ArrayElement.value"]}
{"id": "C37", "title": "Sorting an array", "statement": "sort returns a permutation of its input, in nondecreasing numeric order, keeping the order of equal elements; reverse, concat, count and element obey the list laws.", "quantifier": "all arrays", "why_tests_cant": "All lengths.", "anchors": ["modularcalculator/features/arrays/arrayfunctions.py"]}
{"id": "C38", "title": "Error positions can always be located in the source", "statement": "For an error whose items spell a prefix of the text, the reported position is exactly the end of that prefix provided the remaining text reported starts there, and truncating the text there yields that prefix.", "quantifier": "all item lists and texts", "why_tests_cant": "All texts, including repeated substrings.", "anchors": ["modularcalculator/objects/exceptions.py:find_pos,truncate"]}
{"id": "C39", "title": "Syntax highlighting preserves the text", "statement": "Concatenating the highlighted fragments gives back exactly the highlighted expression, for correct, unparsable and failing expressions.", "quantifier": "every text", "why_tests_cant": "All strings.", "anchors": ["modularcalculator/services/syntaxhighlighter.py:highlight"]}
{"id": "C40", "title": "Longest matching operator wins", "statement": "At an operator position, the operator item produced is the longest operator symbol that the remaining text starts with (subject to the word boundary for alphabetic ones).", "quantifier": "all operator symbol sets and texts", "why_tests_cant": "All symbol sets and texts.", "anchors": ["modularcalculator/features/structure/operators.py:parse_operator"]}
{"id": "C41", "title": "String literals round trip", "statement": "Escaping quotes and backslashes of any text and enclosing it in quotes gives a literal that parses to exactly that text and consumes exactly that literal.", "quantifier": "every text and every following text", "why_tests_cant": "All strings.", "anchors": ["modularcalculator/features/strings/strings.py:parse_string"]}
{"id": "C42", "title": "Statement terminators do not change answers", "statement": "Splitting an expression on newlines produces the same statements, except that a newline where the statement so far is incomplete does not terminate it. Refuted: a remembered incomplete prefix can make a later complete statement unterminated.", "quantifier": "every text and session history", "why_tests_cant": "Depends on the history of earlier calls.", "anchors": ["modularcalculator/features/structure/terminator.py:parse_terminator"]}
{"id": "C43", "title": "Parsing has no side effects on variables", "statement": "parse() and calculate() with parse_only leave the variable store unchanged.", "quantifier": "every text and store", "why_tests_cant": "All texts; the terminator parser executes code during parsing.", "anchors": ["modularcalculator/engine.py:parse", "modularcalculator/features/structure/terminator.py"]}
{"id": "C44", "title": "Ambiguous unit names resolve by system preference", "statement": "An ambiguous unit name resolves to the unit of the most preferred system that has one, whatever the registration order.", "quantifier": "all preference lists and unit registrations", "why_tests_cant": "All orders.", "anchors": ["modularcalculator/services/unitnormaliser.py:get_unit,get_preferred_unit"]}
{"id": "C45", "title": "gcd, lcm and factorial", "statement": "The gcd, lcm and factorial functions return the mathematical values on integers (within precision), gcd dividing every argument and being divisible by every common divisor.", "quantifier": "all integer argument lists", "why_tests_cant": "All integers.", "anchors": ["modularcalculator/features/numerical/numericalfunctions.py"]}
{"id": "C46", "title": "Bitwise operators", "statement": "Bitwise and/or/xor/shift on integers agree with two's-complement arithmetic; bitwise not is an involution at the width of its operand where defined.", "quantifier": "all integers", "why_tests_cant": "All integers.", "anchors": ["modularcalculator/features/numerical/bitwiseoperators.py"]}
{"id": "C47", "title": "split and join are inverse", "statement": "Joining the parts of a split text with the same delimiter gives back the text; splitting a joined list gives back the list if no part contains the delimiter.", "quantifier": "all texts and delimiters", "why_tests_cant": "All strings.", "anchors": ["modularcalculator/features/strings/stringarrayfunctions.py"]}
{"id": "C48", "title": "A result keeps the number format of its first numeric operand", "statement": "The result of an operation on numbers is displayed in the format (binary, hexadecimal, percentage, ...) of the first operand having such a format.", "quantifier": "all operations and operands", "why_tests_cant": "All operand combinations.", "anchors": ["modularcalculator/objects/operators.py:Operation.call,convert_numbers"]}
{"id": "C49", "title": "Presets are nested and self-contained", "statement": "Each larger preset installs everything smaller presets install and all dependencies of what it lists.", "quantifier": "all presets and features of the repository", "why_tests_cant": "It is a closure property of the feature graph.", "anchors": ["modularcalculator/features/presets.py", "modularcalculator/modularcalculator.py:install_features"]}
{"id": "C50", "title": "Rounding error of a single operation is bounded", "statement": "When an intermediate result does not fit the precision, each of the constructor's roundings changes a value by a relative error of at most one half unit in the last place.", "quantifier": "all values and precisions", "why_tests_cant": "All rationals.", "anchors": ["modularcalculator/objects/number.py:Number.to_decimal,__init__"]}
{"id": "C51", "title": "Rewriting an operand in the other operand's units keeps the quantity", "statement": "Before two quantities are multiplied, units of one are rewritten in terms of the other's. This always terminates without failing and keeps the quantity: the value times the size of its unit, and the exponent of every base dimension, are unchanged, and no unit is listed twice.", "quantifier": "all values and all compound units of scale-based units", "why_tests_cant": "Unbounded set of units, powers and dimension relationships; the loop has no obvious bound.", "anchors": ["modularcalculator/services/unitnormaliser.py:normalise_from_left,normalise_from_right"]}
{"id": "C52", "title": "Evaluation does not depend on a recursion bound, and ends", "statement": "If a text has an answer when nested evaluation is cut off at some depth, it has the same answer and effects at any greater depth. A statement without function pointers and ranges always has an answer, at a depth given by its own nesting.", "quantifier": "all texts, stores, operator tables and depths", "why_tests_cant": "Unbounded nesting and arbitrary operators.", "anchors": ["modularcalculator/engine.py:execute", "modularcalculator/features/structure/innerexpressions.py", "modularcalculator/features/structure/functions.py"]}
{"id": "C53", "title": "Statistical functions agree with their definitions", "statement": "sum is the exact sum of the elements while the digits fit; min and max give the first of the least or greatest elements, with the value, unit and reference it was written with; mean is the exact mean rounded once; median is the middle one of the sorted elements or half the sum of the middle two; mode is the first of the most frequent ones. Of an empty array sum is 0 and the others are errors.", "quantifier": "all arrays of numbers in any format", "why_tests_cant": "Arrays of unbounded length and arbitrary rationals.", "anchors": ["modularcalculator/features/numerical/statisticalfunctions.py"]}
{"id": "C54", "title": "Text functions and comparisons agree with their definitions", "statement": "Operands of text operations are taken as the text they are shown as. Concatenation, repetition, length, find (least place or -1), substr, the strip functions, replace, lower and upper do what they say; the comparison operators decide the order by character codes, which is total, and the caseless ones the same for the texts in small letters.", "quantifier": "all texts and operands shown as texts", "why_tests_cant": "All texts of any length.", "anchors": ["modularcalculator/features/strings/stringfunctions.py", "modularcalculator/features/strings/stringcomparison.py", "modularcalculator/features/strings/strings.py:op_string_add,op_string_multiply,string"]}
{"id": "C55", "title": "Arithmetic operators and comparisons are exact on operands of any format", "statement": "For operands of any format, or texts that are numbers, of at most k digits over and under the line with 3k+1 digits of precision: + - * / give the exact result in lowest terms, the integer division the greatest integer below the quotient, % a remainder smaller than the divisor with the sign of the dividend, ^ the exact power for whole exponents, and the comparisons the order of the exact values; the result has the format of the first operand that has one. Division by zero is an error. abs gives the exact absolute value in the same unit and format.", "quantifier": "all numbers, all formats, all precisions", "why_tests_cant": "Exactness needs all digits of all numbers.", "anchors": ["modularcalculator/features/numerical/basicarithmetic.py", "modularcalculator/features/numerical/advancedarithmetic.py", "modularcalculator/features/boolean/booleans.py", "modularcalculator/objects/number.py"]}
{"id": "C56", "title": "floor, ceil and round round to the digits the number is shown with", "statement": "floor, ceil and round of a number with k >= 0 places give z / m, where m is the base the number is shown in to the power of k (two more for percentages) and z is the value times m rounded down, up, or to the nearest with halves away from zero; the unit is kept. A result differs by less than one unit of the last digit kept and what needs no rounding is unchanged. Negative places are an error.", "quantifier": "all numbers, formats, numbers of places and precisions", "why_tests_cant": "All values and halves.", "anchors": ["modularcalculator/features/numerical/numericalfunctions.py:127-160", "modularcalculator/objects/number.py:160-170"]}
{"id": "C57", "title": "Sums and comparisons of quantities are those of the quantities measured", "statement": "For two numbers with units of the same dimensions, + and - give a number in the unit of the left operand whose value times the size of the unit is the exact sum or difference of the two quantities, and < <= > >= == != compare the exact quantities. Operands of different dimensions, or one with and one without a unit, are refused with an error. Temperatures add as differences of degrees and compare as points on the absolute scale. The hypotheses on units hold of the table of units the code defines in its computing preset, Celsius and Fahrenheit being the only ones treated apart.", "quantifier": "all numbers, all units built from a well-formed table (any number of factors and powers), all states and precisions", "why_tests_cant": "Pairs of compound units with any powers, all numbers, and every digit of the result.", "anchors": ["modularcalculator/features/units/units.py", "modularcalculator/features/unitdefinitions/", "modularcalculator/objects/units.py", "modularcalculator/services/unitnormaliser.py"]}
{"id": "C58", "title": "Products and quotients of quantities are those of the quantities measured", "statement": "For two numbers with units, * and / give a number and a unit whose value times size is the exact product or quotient of the two quantities, and whose dimensions are the sums or differences of theirs; the second operand is rewritten in some unit of the same dimensions first. With a unit on at most one side the number is the plain product or quotient. Dividing by a zero quantity is an error.", "quantifier": "all numbers, all units built from a well-formed table, all states and precisions", "why_tests_cant": "Pairs of compound units with any powers and all numbers.", "anchors": ["modularcalculator/features/numerical/basicarithmetic.py:38-56,105-147", "modularcalculator/services/unitnormaliser.py:141-192"]}
{"id": "C59", "title": "to keeps the quantity and gives the unit asked for", "statement": "Converting a number with a unit, or a unit by itself, with to gives a number in the unit asked for whose value times size is the same quantity, in the number format of the operand, and showing the answer leaves it in that unit. Converting there and back gives the same number. Units of other dimensions, operands without a unit and targets that are not units are refused. Temperatures are converted as points on the absolute scale.", "quantifier": "all numbers, all units built from a well-formed table, all states", "why_tests_cant": "All pairs of units and numbers.", "anchors": ["modularcalculator/features/units/units.py:43-51,113-132", "modularcalculator/services/unitnormaliser.py:119-133", "modularcalculator/engine.py:324-337"]}
{"id": "C60", "title": "Powers of quantities and units made of units", "statement": "A whole power of a quantity has the power of value times size and the multiplied dimensions; an exponent with a unit is refused. Units side by side or with a slash combine to a unit whose size is the product or the quotient and whose dimensions add up; a whole power of a unit likewise; a number next to a unit is that many of it.", "quantifier": "all numbers, whole exponents, units and states", "why_tests_cant": "All compound units and exponents.", "anchors": ["modularcalculator/features/numerical/basicarithmetic.py:28-36,92-147", "modularcalculator/features/units/units.py:53-82"]}
{"id": "C61", "title": "Errors are reported where they happen", "statement": "When a statement fails, the items reported with the error are exactly the items of the statement before the operator or operand that failed, white space and comments included, and the text reported is that of the item; if the error comes from within brackets, a function call or an array the last item is that operand cut off where the error is. So the position of the error of a calculation is found in the text, at the place where the reported text stands.", "quantifier": "all programs of statements whose operators only pass on errors they are given and whose operands have no errors as values, all states", "why_tests_cant": "All statements with any number of operators, spaces and nested operands.", "anchors": ["modularcalculator/engine.py:148-322", "modularcalculator/objects/exceptions.py:4-25"]}
{"id": "C62", "title": "Unit names are looked up in any case, and the longest one is read", "statement": "A name means the last unit added that has it in any case, else the last unit having it as a symbol. In a text the longest beginning that is a unit name in any case (or a symbol, if symbols are enabled) and is not followed by a letter or underscore is read as that unit, and none is read only if there is none.", "quantifier": "all sequences of registrations, all texts and names", "why_tests_cant": "All registries and texts.", "anchors": ["modularcalculator/features/units/units.py:85-113", "modularcalculator/services/unitnormaliser.py:45-98"]}
{"id": "C63", "title": "Dates are moved by exactly the time given, and differ by exactly the time between them", "statement": "What is read as a date is a day of the Gregorian calendar of the years 1 to 9999 with a time of day and possibly an offset from UTC, and a date written by the calculator is read as the same date. A text is read as a date exactly when it writes it: four digits of the year, one or two of month and day, perhaps hours, minutes and seconds with up to six places, perhaps an offset, each in its range. `+%`, `-%`, dateadd and datesubtract give the date so many microseconds later or earlier on the clock, with the same offset, or an error if there is none; undoing it gives the date back. datedifference gives the time between two dates in seconds or in the unit asked for, in either order the same. dateformat writes the date with its day of the week, which follows from counting days, the name of the month, the time unless it is midnight, and the offset. Texts that are no dates, numbers that are no times and pairs of dates of which only one has an offset are refused.", "quantifier": "all texts, dates, numbers, units of time and states", "why_tests_cant": "All dates of the calendar and all amounts of time.", "anchors": ["modularcalculator/features/dates/dates.py", "modularcalculator/features/dates/datefunctions.py", "modularcalculator/features/dates/dateoperators.py"]}
{"id": "C64", "title": "Simplifying the units of an answer does not change the quantity", "statement": "The last step of a calculation replaces combinations of units by other units of the registry (volt ampere by watt) and merges units of one dimension. Whatever combination is found and whatever unit is chosen, value times size of the unit stays the same, for numbers, and for every element of an array, and replacing also keeps every base dimension. Without compound units in the registry the replacing comes to an end after a number of rounds given by the powers of the unit.", "quantifier": "all registries of units in which each dimension holds units of that dimension, all units, powers and values", "why_tests_cant": "The combinations found depend on the order of the registry, and the unit chosen on the magnitude of the value; the tests look at a few of them.", "anchors": ["modularcalculator/services/unitnormaliser.py:194-302", "modularcalculator/engine.py:324-337"]}
{"id": "C65", "title": "The parts that format splits a quantity into add up to it", "statement": "format writes a quantity as parts in the units of a measuring system (2 hours, 46 minutes, 40 seconds). The parts add up to exactly the quantity given. For a quantity that is not negative every part but the last is a whole number of an unprefixed unit of the system, everything after a part makes up less than one of that unit, and each part is written with the largest prefix that leaves at least one. A negative quantity becomes a single part in the smallest unit. compact returns the same quantity and keeps the number format.", "quantifier": "all registries of units in which each dimension holds units of that dimension, all units, values, systems and preferences", "why_tests_cant": "The remainder is carried from one unit to the next through two conversions and a possible change of prefix; a test looks at single values of a few systems.", "anchors": ["modularcalculator/features/units/unitfunctions.py:51-101", "modularcalculator/services/unitnormaliser.py:100-113", "modularcalculator/objects/units.py:26-37"]}
{"id": "C66", "title": "Sums, extremes, averages and order of quantities in different units are those of the quantities", "statement": "sum of an array of numbers with units of the same dimensions measures, in the unit of the first element, exactly the sum of what the elements measure. min and max return, unconverted, the first element that measures least or most; sort returns the elements unconverted in the order of what they measure and keeps the order of equal ones; mean, median and mode are those of the elements converted to the unit of the first. Elements without a unit or with other dimensions among those with a unit make all of these fail. Temperatures on different scales are ordered by how warm they are.", "quantifier": "all arrays of any length, units, values, formats and precisions", "why_tests_cant": "Which element comes first decides the unit everything is converted to, and the elements returned must be the originals; a test tries a few arrays in a few units.", "anchors": ["modularcalculator/features/numerical/statisticalfunctions.py:97-137", "modularcalculator/features/arrays/arrayfunctions.py:117-125", "modularcalculator/objects/operators.py:178-229", "modularcalculator/services/unitnormaliser.py:135-158"]}
{"id": "C67", "title": "Matching, finding, splitting and replacing with regular expressions agree on which parts of a text match", "statement": "For a pattern that compiles there is exactly one list of matches in a text: they come one after the other, no two at the same place, and the text is made of them and the pieces between them. =~ is true exactly if that list is not empty, !~ exactly if it is; regexget gives their texts (or their group), and with k the k-th; regexcount their number; regexsplit the pieces, one more than there are matches; regexsub puts the replacement in the place of every match, which for a replacement without backslash is joining what regexsplit gives, and with k only of the first k. A pattern that does not compile is an error in all of them.", "quantifier": "all texts, patterns, replacements and numbers, and all regular expression engines that find matches within the text and obey the rule for empty matches", "why_tests_cant": "Patterns that match the empty text make the scan subtle (it must neither stall nor skip), and the agreement of five operations over all texts and patterns is not testable; the engine itself is left open.", "anchors": ["modularcalculator/features/strings/regex.py:30-121", "modularcalculator/features/layout.py:38-41"]}
{"id": "C68", "title": "Units are what their definitions say", "statement": "For each of 1108 definitions taken from outside the code (the derived units and prefixes of the SI brochure, the binary prefixes, the international yard and pound, the imperial and US gallons with their parts, the Gregorian year, light times) and for every number x, converting x of the unit with 'to' gives exactly x times the number in the definition, in the units it is defined by, and converting back gives x again. Names, plural names and symbols with every prefix stand for the unit meant.", "quantifier": "all numbers (exact rationals, any format), all definitions in the list, by every name and symbol, both directions", "why_tests_cant": "The tests convert a handful of values; a scale with a wrong digit, a prefix symbol that another unit takes, or a derived unit whose dimensions do not match its definition shows only in the conversions that use it.", "anchors": ["modularcalculator/features/unitdefinitions/", "modularcalculator/features/units/basicunitprefixes.py:27-31", "modularcalculator/features/units/advancedunitprefixes.py:27-35", "modularcalculator/services/unitnormaliser.py:45-69"]}
{"id": "C69", "title": "Functions computed in floating point", "statement": "A trigonometric or hyperbolic function is computed from the number of its argument alone: the library function is asked once, at the decimal closest to the number, and the float it returns is the answer, exactly, in the number format of the argument; an exception of the library becomes an ordinary refusal naming the function. The same holds for the 180 special functions, each with as many arguments as it is declared with and no others, and each result of a function with several results under its own name. log(a) is the difference of the library's logarithms of numerator and denominator, log(a, b) that divided by the logarithm of b; log(b, b) = 1 and log(1) = 0; a number that is not positive, a base that is not positive, and the base one are refused. exp(x) is what e ^ x gives, with the unit of x; stdev of quantities is the library's for their decimals in the unit of the first, in that unit.", "quantifier": "all libraries (the functions of math, scipy.special, statistics.stdev and Decimal.ln are a parameter), all numbers in all formats, all precisions, all units of a single argument; log with a base for arguments in the same unit or in none; special functions for arguments without units", "why_tests_cant": "The tests evaluate each function at one or two points; that nothing but the number enters, that errors of the library are contained, and that the format survives are statements about all arguments.", "anchors": ["modularcalculator/features/numerical/trigonometryfunctions.py:140-175", "modularcalculator/features/numerical/specialfunctions.py:39-302", "modularcalculator/features/numerical/numericalfunctions.py:166-178", "modularcalculator/features/numerical/statisticalfunctions.py:135-137", "modularcalculator/objects/number.py:145-151"]}
{"id": "C70", "title": "Changing the format of a number", "statement": "dec, bin, oct, hex, scientific and the operator as give the very same number, with its unit, in the format they name, whatever format it was in; only the last of several changes shows. The text of a number in any format - decimal, percentage, scientific, binary, octal, hexadecimal, any base from 2 to 35 but 10 - is read as a number of that format, and is the same number if its digits fit in what is printed. scientific(x, n) is x rounded to n + 1 significant digits, halves away from zero, with its unit; places that are not a whole number or are negative are refused, and so is a name that is no format. base(x, b) is a text that reads as x in base b; a base below 2 or above 36 is refused for every number but zero.", "quantifier": "all numbers in all formats, all units, all precisions and numbers of places, any symbol of the exponent that marks no base; numbers whose digits fit in the precision", "why_tests_cant": "The tests print and read some twenty numbers in each format separately; that one reading function tells all formats apart and loses no digit is a statement about all numbers and settings.", "anchors": ["modularcalculator/features/numerical/expnumbers.py:61-148", "modularcalculator/features/numerical/percentagenumbers.py:12-84", "modularcalculator/features/numerical/numericalrepresentation.py:40-62", "modularcalculator/features/numerical/hexadecimalnumbers.py:60-91", "modularcalculator/numericalengine.py:45-49"]}
{"id": "C71", "title": "Names are read whole and can be variables", "statement": "Wherever an operand may stand, a name - a letter or underscore followed by letters, digits and underscores - is read as one variable up to its last character, unless it is an operator word, true or false in any case, a constant or format name that no letter follows, a function being called, or starts with step in an array. The name alone answers the stored value and unit (nothing if there is none) and changes no state; name = other, with any blanks, copies value and unit and changes no other variable. The constants e, pi and tau are their first fifty places, exactly, and in no format of their own.", "quantifier": "all names of any length, all texts that follow, all items read before, all states, values and units, all precisions", "why_tests_cant": "The tests use a handful of short names; that no literal, operator, function, constant or format takes part of any other name is a statement about every name and everything that follows it.", "anchors": ["modularcalculator/features/state/assignment.py:56-64", "modularcalculator/features/state/constants.py:33-44", "modularcalculator/features/numerical/numericalconstants.py:9-32", "modularcalculator/features/numerical/numericalrepresentation.py:40-50", "modularcalculator/features/structure/operators.py:31-40", "modularcalculator/engine.py:98-135"]}
{"id": "C72", "title": "Inline functions get their inputs as parameters", "statement": "Calling an inline function through a variable runs the statements of its body in order with PARAM1, PARAM2, ... having the values and units of the inputs and every other variable as the caller has it; the answer is that of the last statement and the variables are afterwards as before the call; nothing else gives an answer. A variable holding an array of functions calls each of them with the same inputs.", "quantifier": "all calculators with inline functions, all bodies, numbers of inputs, values, units, states and depths of nesting", "why_tests_cant": "The tests call functions with two inputs; that PARAMk is input k for every k, that no other variable is touched, and that a self-call never ends at any depth are statements about all inputs and all bodies.", "anchors": ["modularcalculator/features/structure/inlinefunctions.py:125-172", "modularcalculator/features/structure/functionpointers.py:91-145"]}
{"id": "C73", "title": "Numbers that are stored are not changed by using them", "statement": "Numbers are python objects shared by variables, arrays and the literals of function bodies. Whatever is run keeps numerator, denominator and width of every existing number. Programs without min, max and element give exactly what they give when every number is a value of its own and change no existing number; with them nothing is changed as long as no number has a format. The answers of + - * / %, min, max and element are those of the calculator's model.", "quantifier": "all programs of literals, variables, arrays, operations that construct numbers, min, max, element, assignment and calls of inline functions; all heaps", "why_tests_cant": "A test looks at the answer of an expression, not at every other variable before and after; that no number elsewhere changed is a statement about all variables and aliases.", "anchors": ["modularcalculator/objects/operators.py:165-214", "modularcalculator/numericalengine.py:42-47", "modularcalculator/features/numerical/statisticalfunctions.py:105-118", "modularcalculator/features/arrays/arrayfunctions.py:96-103"]}
{"id": "C74", "title": "Arithmetic written as in books gives its value", "statement": "The text of an arithmetic expression - numerals with sign and decimal point, variables, + - * / ^, operands beside each other, parentheses, calls of abs, floor, ceil, round, fact, gcd and lcm, any blanks - is read with the usual binding (powers, then operands beside each other, then * and /, then + and -, each level grouping to the left) and the answer is exactly its value, as a fraction in lowest terms, with no variable changed, as long as all values on the way have at most k digits above and below the line and the precision is at least 3k+1 (4k+3 where something is rounded), and no variable is shown as a percentage. A program of blank lines, such expressions and assignments of them answers line by line what each is worth with the values assigned before; afterwards the variables hold what was assigned last and all others are untouched. The format of an answer is that of the first operand that has one. An answer without a format is shown as a numeral within one unit of the last place; if the value needs no more places it is shown exactly, and the numeral entered again answers the same and is shown the same.", "quantifier": "all texts, expressions of any depth, blanks, numerals, names, sizes k, precisions, programs of any length, states", "why_tests_cant": "The tests evaluate a few dozen expressions; that reading and evaluating is right for every expression of any depth and every program of any length, from text to answer, is a statement about infinitely many texts.", "anchors": ["modularcalculator/features/numerical/basicarithmetic.py", "modularcalculator/features/numerical/decimalnumbers.py", "modularcalculator/features/structure/operators.py", "modularcalculator/features/structure/innerexpressions.py", "modularcalculator/features/structure/functions.py", "modularcalculator/features/numerical/numericalfunctions.py", "modularcalculator/features/state/assignment.py", "modularcalculator/features/structure/terminator.py", "modularcalculator/engine.py:60-340", "modularcalculator/objects/operators.py"]}
{"id": "C75", "title": "Any choice of features gives a working calculator with exactly their parts", "statement": "Installing any list of features, and any further lists in later calls, ends without an error in a calculator that has exactly the parts of the features reached from those asked for: the parsers in the order of the layout, every operator on its level, the entries of every table (functions, constants, validators, number types, handlers of function pointers, options) and the units. The parts do not depend on the order or the grouping of the requests. Every name of a unit of an installed feature is found. The calculators used everywhere else in the model are what installing particular features gives, for all settings. Only the unit constants must be asked for in the first call.", "quantifier": "all lists of features and sequences of calls (no bound), all 83 features, all settings of the modelled calculators", "why_tests_cant": "The tests install the presets; that no subset, order or sequence of installs fails or loses a part is a statement about more than 2^80 combinations and sequences of any length.", "anchors": ["modularcalculator/modularcalculator.py:92-171", "modularcalculator/engine.py:14-62", "modularcalculator/features/layout.py", "modularcalculator/features/feature.py", "modularcalculator/features/units/unitconstants.py:24-41", "modularcalculator/features/unitdefinitions/", "modularcalculator/services/unitnormaliser.py:24-110"]}
{"id": "C76", "title": "Arithmetic goes wrong only where it must, and then stops there", "statement": "A text of arithmetic (as in C74) in which a divisor is worth zero, the factorial is taken of a number that is negative or not whole, gcd or lcm of one that is not whole, or a variable without value is an operand or argument, however deep, gives an execution error and changes no variable. Every other such text has an answer: its value, or nothing for a lone variable without value. In a program the lines before the first one that goes wrong keep their answers and assignments; that line assigns nothing and the lines after it are not run. Values on the way must have at most k digits above and below the line, 3k+1 (4k+3 where something is rounded) within the precision, and k digits plus the decimal places must fit the precision.", "quantifier": "all texts, expressions of any depth, names, sizes k, precisions, decimal places, programs of any length, states", "why_tests_cant": "The tests divide by zero once. That an error at any depth reaches the end, that nothing else is an error, and that the variables are left as they were, is a statement about infinitely many texts and states.", "anchors": ["modularcalculator/features/numerical/basicarithmetic.py", "modularcalculator/features/state/assignment.py", "modularcalculator/objects/operators.py", "modularcalculator/engine.py:60-340", "modularcalculator/objects/number.py"]}
{"id": "C77", "title": "Sums of quantities, from the text to the answer", "statement": "A text of quantities (numeral, blanks, name of a unit) with + or - between them, and perhaps `to` and the name of a unit at the end, in any spelling and with any blanks, is read as that and worth the sum of numeral times size of unit. The answer is given in the unit after `to`, or else in the unit of the first quantity. If a quantity, or the unit after `to`, has other dimensions than the first quantity, the text gives an execution error instead, whatever comes after. Variables stay as they are. The numerals and the sums in the unit of the first quantity must have at most k digits above and below the line, 3k+1 within the precision; for the error also k digits plus the decimal places.", "quantifier": "all registered units, all names and symbols made of letters, all texts of any length, all numerals, sizes k, precisions, states", "why_tests_cant": "The tests read a dozen texts with units. Any name may be the beginning of a longer one (`short tons`, `pound-force per square inch`), so that `3 t to kg` or `1 pound - 2 ounces` are read as meant depends on all names registered; and conversion is in the middle of the sums.", "anchors": ["modularcalculator/features/units/units.py", "modularcalculator/objects/units.py", "modularcalculator/engine.py:60-340", "modularcalculator/features/numerical/basicarithmetic.py"]}
{"id": "C78", "title": "Conditions on arithmetic decide as they read", "statement": "A text of comparisons (< > <= >= == !=) of arithmetic texts, `true` and `false`, and `not` before a truth value or parentheses, joined with and, or and xor and with any parentheses and blanks, answers whether it holds: the comparisons compare the exact values of the arithmetic, and, or and xor are on one level below them and group to the left. Variables stay as they are. All numbers on the way must have at most k digits above and below the line, 3k+1 within the precision. A text has one such meaning, and none that has one is also arithmetic with a value.", "quantifier": "all texts of any length, all arithmetic in them (C74), all variables, sizes k, precisions, states", "why_tests_cant": "The tests try a dozen conditions with numerals. That an operator does not take a part of its neighbour's operand depends on all levels of operators together, and that comparing does not go wrong by rounding on all sizes of numbers.", "anchors": ["modularcalculator/features/boolean/booleans.py", "modularcalculator/features/layout.py", "modularcalculator/engine.py:60-340", "modularcalculator/objects/number.py"]}
{"id": "C79", "title": "then ... else takes the branch that is chosen", "statement": "A text `c then x else y`, where c is a condition on arithmetic (C78) and the branches are arithmetic or such choices in brackets, answers with the value of the arithmetic that the conditions choose. An error in a branch that is not chosen is not reported; the text is an error exactly if the chosen arithmetic goes wrong (C76). Variables stay as they are. A text has one such meaning.", "quantifier": "all texts of any length and depth, all arithmetic and conditions in them, all variables, sizes k, precisions, states", "why_tests_cant": "The tests try `then` with plain values. Here three whole expressions stand between the words, and their operators are run one level after the other across all three; that this is the same as running each alone holds for every such text.", "anchors": ["modularcalculator/features/boolean/booleans.py", "modularcalculator/engine.py:60-340", "modularcalculator/features/layout.py"]}
{"id": "C80", "title": "Programs of choices and assignments run as they read", "statement": "A program whose lines are blank, choices `c then x else y` (C79) or arithmetic, or assign such a choice to a name with `=`, `+=`, `-=`, `*=`, `/=` or `^=` (where `n += e` is n = n + (e)), or count with `n++` or `n--`, answers every line with the value of the arithmetic chosen there, where the conditions and branches see what earlier lines assigned, and leaves exactly the assigned variables. The first line whose arithmetic goes wrong, in `n += e` and `n++` also because n is not set, ends the program: the lines before it are answered and have assigned, it and the lines after it assign nothing.", "quantifier": "all programs of any number of lines, all choices of any depth in them, all variables, sizes k, precisions, states", "why_tests_cant": "The tests of `then` run one line on plain values. Here a line is ended only if its slots can be run with stand-in values (the completeness check), the assignment waits for three expressions, and the values depend on all lines before.", "anchors": ["modularcalculator/features/boolean/booleans.py", "modularcalculator/features/state/assignment.py", "modularcalculator/features/state/assignmentoperators.py", "modularcalculator/engine.py:60-340", "modularcalculator/features/layout.py"]}
{"id": "C81", "title": "Arrays of arithmetic and ranges, from the text to the answer", "statement": "An array written out, `[e1, e2, ...]`, answers the list of what its elements are worth, one after the other, and changes nothing: an element of arithmetic (C74) gives one number, exactly its value, in lowest terms and in the format of its first formatted operand; a range `a .. b` or `a .. b step c` of arithmetic gives the numbers a, a + c, a + 2c, ... as far as b, in lowest terms, by one upwards or downwards if no step is given.", "quantifier": "all arrays of one or more elements, all arithmetic of any depth in them, all ranges, any blanks, all variables, sizes k, precisions, states", "why_tests_cant": "Every element is parsed by a recursive call that must stop at the right comma, dots, `step` or bracket, also behind nested brackets and function calls with commas of their own; the tests have a few arrays of literals.", "anchors": ["modularcalculator/features/arrays/arrays.py", "modularcalculator/engine.py:91-251", "modularcalculator/features/layout.py"]}
{"id": "C82", "title": "Counting and adding up an array written out, its least and greatest element, and the one at a place", "statement": "`count([...])` of an array of arithmetic and ranges (C81) answers the number of the numbers its elements give, `min([...])` and `max([...])` the first of the least and of the greatest of them, as a number without unit; elements are compared by their decimals at the calculator's precision. `sum([...])` answers their sum, exactly and in lowest terms, if over a common denominator they have few enough digits for the precision. `element([...], e)`, for arithmetic e worth a whole number from 1 to their count, answers the number at that place, and for one that is 0 or less counts from the end, 0 being the last. Nothing is changed.", "quantifier": "all arrays of one or more elements, all arithmetic of any depth in them, all ranges, any blanks, all variables, sizes k, precisions, states", "why_tests_cant": "The array is an argument inside parentheses, its commas must not end the argument, and ranges have to be counted out before the function sees them; the tests call these functions on a few literals.", "anchors": ["modularcalculator/features/arrays/arrayfunctions.py", "modularcalculator/features/numerical/statisticalfunctions.py", "modularcalculator/features/arrays/arrays.py", "modularcalculator/features/structure/functions.py"]}
{"id": "C83", "title": "An array with an element that goes wrong is an error", "statement": "An array written out (C81) in which an element of arithmetic, or the start, the end or the step of a range, goes wrong in the sense of C76 (a division by zero, a function outside its domain, a variable without value computed with), after elements that do not, is an error of the calculator and never an exception of python's; nothing is changed, and what comes after that element does not matter. So are count, min, max, sum, mean, median, mode, sort and element of such an array, and element of any array at a place that goes wrong.", "quantifier": "all arrays, all elements before and after, all arithmetic of any depth, all ranges, any blanks, all variables, sizes k, precisions, states", "why_tests_cant": "The error is raised inside the element, and the array counts its items up to there and cuts its text at the place; a wrong count makes the cut fail with an exception of python's. The tests have a few erroneous arrays.", "anchors": ["modularcalculator/features/arrays/arrays.py", "modularcalculator/engine.py:91-251", "modularcalculator/objects/exceptions.py"]}
{"id": "C84", "title": "Averages of an array written out, and sorting it", "statement": "For an array of arithmetic and ranges (C81), `mean([...])` answers the sum of its numbers by their count, `median([...])` the middle one of them in order or half the sum of the middle two, `mode([...])` the first of the most frequent ones, all over the decimals of the calculator's precision and rounded there; `sort([...])` answers the same elements in nondecreasing order, equal ones in the order they were in. Nothing is changed.", "quantifier": "all arrays of one or more elements, all arithmetic of any depth in them, all ranges, any blanks, all variables, sizes k, precisions, states", "why_tests_cant": "Ranges have to be counted out and fractions turned into decimals before the functions see them; the tests call these functions on a few literals.", "anchors": ["modularcalculator/features/numerical/statisticalfunctions.py", "modularcalculator/features/arrays/arrayfunctions.py", "modularcalculator/features/arrays/arrays.py", "modularcalculator/features/structure/functions.py"]}
