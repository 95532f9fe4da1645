(** What units are, from their definitions outside the code: the SI brochure (9th edition), IEC 80000-13, the international
    yard and pound agreement, the imperial and US gallons, the Gregorian calendar.  An entry [(unit, k, others)] says that one
    of the unit is [k] of the others. *)
From Coq Require Import ZArith QArith Qpower Ascii String List.
From Verif Require Import Base Bases Units Syntax UnitReg.
Import ListNotations.
Open Scope string_scope.

Definition fact : Type := string * Q * list (string * Z).
Definition is1 (a : string) (k : Q) (b : string) : fact := (a, k, [(b, 1%Z)]).
Definition isl (a : string) (k : Q) (l : list (string * Z)) : fact := (a, k, l).
Definition lengths : list fact :=
  [ is1 "inch" (254 # 100) "centimetre"; is1 "foot" 12 "inch"; is1 "yard" 3 "foot"; is1 "mile" 1760 "yard"; is1 "nautical mile" 1852 "metre";
    is1 "lightsecond" 299792458 "metre"; is1 "lightminute" 60 "lightsecond"; is1 "lighthour" 60 "lightminute"; is1 "lightday" 24 "lighthour";
    is1 "lightweek" 7 "lightday"; is1 "lightyear" (36525 # 100) "lightday"; is1 "astronomical unit" 149597870700 "metre" ].
Definition masses : list fact :=
  [ is1 "tonne" 1000 "kilogram"; is1 "pound" (45359237 # 100000) "gram"; is1 "pound" 16 "ounce"; is1 "pound" 7000 "grain"; is1 "stone" 14 "pound";
    is1 "short ton" 2000 "pound"; is1 "long ton" 160 "stone" ].
Definition times : list fact :=
  [ is1 "minute" 60 "second"; is1 "hour" 60 "minute"; is1 "day" 24 "hour"; is1 "week" 7 "day"; is1 "year" (3652425 # 10000) "day"; is1 "year" 12 "month" ].
Definition volumes : list fact :=
  [ isl "hectare" (10000) [("metre", 2%Z)]; isl "litre" (1 # 1000) [("metre", 3%Z)];
    is1 "UK gallon" (454609 # 100000) "litre"; is1 "UK gallon" 4 "UK quart"; is1 "UK quart" 2 "UK pint"; is1 "UK pint" 4 "UK gill"; is1 "UK gill" 5 "UK fluid ounce";
    isl "US gallon" (231) [("inch", 3%Z)]; is1 "US gallon" 4 "US quart"; is1 "US quart" 2 "US pint"; is1 "US pint" 2 "US cup"; is1 "US cup" 2 "US gill";
    is1 "US gill" 4 "US fluid ounce" ].
(** The derived units of the SI brochure (table 4), and four others *)
Definition derived : list fact :=
  [ isl "hertz" (1) [("second", -1)%Z]; isl "newton" (1) [("kilogram", 1); ("metre", 1); ("second", -2)]%Z; isl "pascal" (1) [("newton", 1); ("metre", -2)]%Z;
    isl "joule" (1) [("newton", 1); ("metre", 1)]%Z; isl "watt" (1) [("joule", 1); ("second", -1)]%Z; isl "coulomb" (1) [("ampere", 1); ("second", 1)]%Z;
    isl "volt" (1) [("watt", 1); ("ampere", -1)]%Z; isl "farad" (1) [("coulomb", 1); ("volt", -1)]%Z; isl "ohm" (1) [("volt", 1); ("ampere", -1)]%Z;
    isl "siemens" (1) [("ampere", 1); ("volt", -1)]%Z; isl "weber" (1) [("volt", 1); ("second", 1)]%Z; isl "tesla" (1) [("weber", 1); ("metre", -2)]%Z;
    isl "henry" (1) [("weber", 1); ("ampere", -1)]%Z; isl "lumen" (1) [("candela", 1); ("steradian", 1)]%Z; isl "lux" (1) [("lumen", 1); ("metre", -2)]%Z;
    isl "becquerel" (1) [("second", -1)]%Z; isl "gray" (1) [("joule", 1); ("kilogram", -1)]%Z; isl "sievert" (1) [("joule", 1); ("kilogram", -1)]%Z;
    isl "katal" (1) [("mole", 1); ("second", -1)]%Z;
    isl "knot" (1) [("nautical mile", 1); ("hour", -1)]%Z; isl "gee" (980665 # 100000) [("metre", 1); ("second", -2)]%Z; is1 "atmosphere" 101325 "pascal";
    is1 "byte" 8 "bit" ].
(** Prefixes: name, symbol, power *)
Definition si_prefixes : list (string * string * Z) :=
  [ ("atto", "a", -18); ("femto", "f", -15); ("pico", "p", -12); ("nano", "n", -9); ("micro", String (ascii_of_nat 181) "", -6); ("milli", "m", -3);
    ("kilo", "k", 3); ("mega", "M", 6); ("giga", "G", 9); ("tera", "T", 12); ("peta", "P", 15); ("exa", "E", 18) ]%Z.
Definition iec_prefixes : list (string * string * Z) :=
  [ ("kibi", "ki", 10); ("mebi", "Mi", 20); ("gibi", "Gi", 30); ("tebi", "Ti", 40); ("pebi", "Pi", 50); ("exbi", "Ei", 60); ("zebi", "Zi", 70); ("yobi", "Yi", 80) ]%Z.
(** The units that take all the prefixes, those that take them up to kilo, those for small and for large amounts only *)
Definition all_prefixes : list (list string) :=
  [ ["grays"; "gray"; "Gy"]; ["farads"; "farad"; "F"]; ["katals"; "katal"; "kat"]; ["siemens"; "siemens"; "S"]; ["volts"; "volt"; "V"]; ["coulombs"; "coulomb"; "C"];
    ["amperes"; "ampere"; "A"]; ["joules"; "joule"; "J"]; ["sieverts"; "sievert"; "Sv"]; ["newtons"; "newton"; "N"]; ["hertz"; "hertz"; "Hz"]; ["lux"; "lux"; "lx"];
    ["henries"; "henry"; "H"]; ["lumens"; "lumen"; "lm"]; ["candelas"; "candela"; "cd"]; ["webers"; "weber"; "Wb"]; ["teslas"; "tesla"; "T"]; ["watts"; "watt"; "W"];
    ["pascals"; "pascal"; "Pa"]; ["becquerels"; "becquerel"; "Bq"]; ["moles"; "mole"; "mol"]; ["kelvin"; "kelvin"; "K"]; ["ohms"; "ohm"] ].
Definition to_kilo : list (list string) := [ ["meters"; "meter"; "m"]; ["metres"; "metre"; "m"]; ["grams"; "gram"; "g"] ].
Definition smaller : list (list string) := [ ["seconds"; "second"; "s"]; ["liters"; "liter"; "l"]; ["litres"; "litre"; "l"] ].
Definition larger : list (list string) := [ ["parsecs"; "parsec"; "pc"]; ["tonnes"; "tonne"]; ["bits"; "bit"; "bit"]; ["bytes"; "byte"; "B"] ].
(** A prefix before the name goes with a name, its symbol with the symbol. *)
Definition with_prefix (b : Q) (p : string * string * Z) (u : list string) : list fact :=
  let '(name, sym, e) := p in
  match u with
  | a :: c :: r => [is1 (name ++ a) (Qpower b e) a; is1 (name ++ c) (Qpower b e) c] ++ match r with [s] => [is1 (sym ++ s) (Qpower b e) s] | _ => [] end
  | _ => []
  end.
Definition powers_between (lo hi : Z) (ps : list (string * string * Z)) := filter (fun p => (lo <=? snd p)%Z && (snd p <=? hi)%Z)%bool ps.
Definition combine (b : Q) (ps : list (string * string * Z)) (us : list (list string)) : list fact := flat_map (fun p => flat_map (with_prefix b p) us) ps.
Definition prefixed_facts : list fact :=
  (combine 10 si_prefixes all_prefixes ++ combine 10 (powers_between (-18) 3 si_prefixes) to_kilo ++ combine 10 (powers_between (-18) 0 si_prefixes) smaller ++
  combine 10 (powers_between 0 18 si_prefixes) larger ++ combine 2 iec_prefixes [["bits"; "bit"; "bit"]; ["bytes"; "byte"; "B"]])%list.
Definition facts : list fact := (lengths ++ masses ++ times ++ volumes ++ derived ++ prefixed_facts)%list.

(** The unit that a name or symbol stands for *)
Definition stands_for (N : normaliser) (n : string) (u : unit) : Prop := get_unit (n_prefs N) (n_reg N) ($n) = Ok (Some (UDef u)).
Definition stand_for (N : normaliser) (l : list (string * Z)) (v : upl) : Prop := Forall2 (fun e f => stands_for N (fst e) (fst f) /\ snd f = snd e) l v.
