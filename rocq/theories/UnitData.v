(** The units of the features (features/unitdefinitions/*.py), transcribed from their [install] methods and class
    attributes.  Characters are Latin-1, as everywhere in this model: the symbol U+03A9 of the ohm (resistance.py:34) is left
    out.  [tau] (numericalconstants.py:12) is given to the places it has there. *)
From Coq Require Import ZArith QArith Ascii String List Bool.
From Verif Require Import Base Bases Units Install UnitReg.
Import ListNotations.
Open Scope Q_scope.

(** absorbeddose.py *)
Definition ud_absorbeddose : list ustep :=
  [ SDim ($"absorbeddose") (Some [($"distance", (2)%Z); ($"time", (-2)%Z)]);
    SPrefixed ($"absorbeddose") (mkUD [$"grays"; $"gray"] [$"Gy"] (1 # 1) UScale [$"si"] [] true false) None None ].
(** acceleration.py *)
Definition ud_acceleration : list ustep :=
  [ SDim ($"acceleration") (Some [($"distance", (1)%Z); ($"time", (-2)%Z)]);
    SUnit ($"acceleration") (mkUD [$"gees"; $"gee"] [] (196133 # 20000) UScale [] [] true false) None None;
    SMulti ($"acceleration") [($"meter", (1)%Z); ($"second", (-2)%Z)] ].
(** angle.py *)
Definition ud_angle : list ustep :=
  [ SDim ($"angle") None;
    SUnit ($"angle") (mkUD [$"radians"; $"radian"] [$"rad"] (1 # 1) UScale [$"si"] [] true true) None None;
    SUnit ($"angle") (mkUD [$"degrees"; $"degree"] [[chr 176]; $"deg"] (314159265358979323846264338327950288419716939937511 # 18000000000000000000000000000000000000000000000000000) UScale [$"si"] [] true true) None None ].
(** area.py *)
Definition ud_area : list ustep :=
  [ SDim ($"area") (Some [($"distance", (2)%Z)]);
    SUnit ($"area") (mkUD [$"acres"; $"acre"] [$"ac"] (40469 # 10) UScale [$"us"; $"uk"] [] true false) None None;
    SUnit ($"area") (mkUD [$"hectares"; $"hectare"] [$"ha"] (10000 # 1) UScale [$"si"] [] true false) None None ].
(** capacitance.py *)
Definition ud_capacitance : list ustep :=
  [ SDim ($"capacitance") (Some [($"electriccurrent", (2)%Z); ($"time", (4)%Z); ($"mass", (-1)%Z); ($"distance", (-2)%Z)]);
    SPrefixed ($"capacitance") (mkUD [$"farads"; $"farad"] [$"F"] (1 # 1) UScale [$"si"] [] true true) None None ].
(** catalyticactivity.py *)
Definition ud_catalyticactivity : list ustep :=
  [ SDim ($"catalyticactivity") (Some [($"substance", (1)%Z); ($"time", (-1)%Z)]);
    SPrefixed ($"catalyticactivity") (mkUD [$"katals"; $"katal"] [$"kat"] (1 # 1) UScale [$"si"] [] true true) None None ].
(** data.py *)
Definition ud_data : list ustep :=
  [ SDim ($"data") None;
    SPrefixed ($"data") (mkUD [$"bits"; $"bit"] [$"bit"] (1 # 1) UScale [$"si"] [] true false) (Some (1 # 1)) None;
    SSystem ($"bits") ($"iec");
    SUnit ($"data") (mkUD [$"bits"; $"bit"] [$"bit"] (1 # 1) UScale [$"si"] [] true false) (Some (mkPre (Some ($"zetta")) (Some ($"Z")) (1000000000000000000000 # 1))) None;
    SUnit ($"data") (mkUD [$"bits"; $"bit"] [$"bit"] (1 # 1) UScale [$"si"] [] true false) (Some (mkPre (Some ($"yotta")) (Some ($"Y")) (1000000000000000000000000 # 1))) None;
    SUnit ($"data") (mkUD [$"bits"; $"bit"] [$"bit"] (1 # 1) UScale [$"si"] [] true false) (Some (mkPre (Some ($"kibi")) (Some ($"ki")) (1024 # 1))) (Some [$"iec"]);
    SUnit ($"data") (mkUD [$"bits"; $"bit"] [$"bit"] (1 # 1) UScale [$"si"] [] true false) (Some (mkPre (Some ($"mebi")) (Some ($"Mi")) (1048576 # 1))) (Some [$"iec"]);
    SUnit ($"data") (mkUD [$"bits"; $"bit"] [$"bit"] (1 # 1) UScale [$"si"] [] true false) (Some (mkPre (Some ($"gibi")) (Some ($"Gi")) (1073741824 # 1))) (Some [$"iec"]);
    SUnit ($"data") (mkUD [$"bits"; $"bit"] [$"bit"] (1 # 1) UScale [$"si"] [] true false) (Some (mkPre (Some ($"tebi")) (Some ($"Ti")) (1099511627776 # 1))) (Some [$"iec"]);
    SUnit ($"data") (mkUD [$"bits"; $"bit"] [$"bit"] (1 # 1) UScale [$"si"] [] true false) (Some (mkPre (Some ($"pebi")) (Some ($"Pi")) (1125899906842624 # 1))) (Some [$"iec"]);
    SUnit ($"data") (mkUD [$"bits"; $"bit"] [$"bit"] (1 # 1) UScale [$"si"] [] true false) (Some (mkPre (Some ($"exbi")) (Some ($"Ei")) (1152921504606846976 # 1))) (Some [$"iec"]);
    SUnit ($"data") (mkUD [$"bits"; $"bit"] [$"bit"] (1 # 1) UScale [$"si"] [] true false) (Some (mkPre (Some ($"zebi")) (Some ($"Zi")) (1180591620717411303424 # 1))) (Some [$"iec"]);
    SUnit ($"data") (mkUD [$"bits"; $"bit"] [$"bit"] (1 # 1) UScale [$"si"] [] true false) (Some (mkPre (Some ($"yobi")) (Some ($"Yi")) (1208925819614629174706176 # 1))) (Some [$"iec"]);
    SPrefixed ($"data") (mkUD [$"bytes"; $"byte"] [$"B"] (8 # 1) UScale [$"si"] [] true false) (Some (1 # 1)) None;
    SSystem ($"bytes") ($"iec");
    SUnit ($"data") (mkUD [$"bytes"; $"byte"] [$"B"] (8 # 1) UScale [$"si"] [] true false) (Some (mkPre (Some ($"zetta")) (Some ($"Z")) (1000000000000000000000 # 1))) None;
    SUnit ($"data") (mkUD [$"bytes"; $"byte"] [$"B"] (8 # 1) UScale [$"si"] [] true false) (Some (mkPre (Some ($"yotta")) (Some ($"Y")) (1000000000000000000000000 # 1))) None;
    SUnit ($"data") (mkUD [$"bytes"; $"byte"] [$"B"] (8 # 1) UScale [$"si"] [] true false) (Some (mkPre (Some ($"kibi")) (Some ($"ki")) (1024 # 1))) (Some [$"iec"]);
    SUnit ($"data") (mkUD [$"bytes"; $"byte"] [$"B"] (8 # 1) UScale [$"si"] [] true false) (Some (mkPre (Some ($"mebi")) (Some ($"Mi")) (1048576 # 1))) (Some [$"iec"]);
    SUnit ($"data") (mkUD [$"bytes"; $"byte"] [$"B"] (8 # 1) UScale [$"si"] [] true false) (Some (mkPre (Some ($"gibi")) (Some ($"Gi")) (1073741824 # 1))) (Some [$"iec"]);
    SUnit ($"data") (mkUD [$"bytes"; $"byte"] [$"B"] (8 # 1) UScale [$"si"] [] true false) (Some (mkPre (Some ($"tebi")) (Some ($"Ti")) (1099511627776 # 1))) (Some [$"iec"]);
    SUnit ($"data") (mkUD [$"bytes"; $"byte"] [$"B"] (8 # 1) UScale [$"si"] [] true false) (Some (mkPre (Some ($"pebi")) (Some ($"Pi")) (1125899906842624 # 1))) (Some [$"iec"]);
    SUnit ($"data") (mkUD [$"bytes"; $"byte"] [$"B"] (8 # 1) UScale [$"si"] [] true false) (Some (mkPre (Some ($"exbi")) (Some ($"Ei")) (1152921504606846976 # 1))) (Some [$"iec"]);
    SUnit ($"data") (mkUD [$"bytes"; $"byte"] [$"B"] (8 # 1) UScale [$"si"] [] true false) (Some (mkPre (Some ($"zebi")) (Some ($"Zi")) (1180591620717411303424 # 1))) (Some [$"iec"]);
    SUnit ($"data") (mkUD [$"bytes"; $"byte"] [$"B"] (8 # 1) UScale [$"si"] [] true false) (Some (mkPre (Some ($"yobi")) (Some ($"Yi")) (1208925819614629174706176 # 1))) (Some [$"iec"]) ].
(** distance.py *)
Definition ud_distance : list ustep :=
  [ SDim ($"distance") None;
    SPrefixed ($"distance") (mkUD [$"meters"; $"meter"; $"metres"; $"metre"] [$"m"] (1 # 1) UScale [$"si"] [] true true) None (Some (1000 # 1));
    SUnit ($"distance") (mkUD [$"meters"; $"meter"; $"metres"; $"metre"] [$"m"] (1 # 1) UScale [$"si"] [] true true) (Some (mkPre (Some ($"centi")) (Some ($"c")) (1 # 100))) None;
    SUnit ($"distance") (mkUD [$"lightyears"; $"lightyear"] [] (9460730472580800 # 1) UScale [$"asu"] [] true true) None None;
    SUnit ($"distance") (mkUD [$"lightweeks"; $"lightweek"] [] (181314478598400 # 1) UScale [$"asu"] [] false true) None None;
    SUnit ($"distance") (mkUD [$"lightdays"; $"lightday"] [] (25902068371200 # 1) UScale [$"asu"] [] true true) None None;
    SUnit ($"distance") (mkUD [$"lighthours"; $"lighthour"] [] (1079252848800 # 1) UScale [$"asu"] [] true true) None None;
    SUnit ($"distance") (mkUD [$"lightminutes"; $"lightminute"] [] (17987547480 # 1) UScale [$"asu"] [] true true) None None;
    SUnit ($"distance") (mkUD [$"lightseconds"; $"lightsecond"] [] (299792458 # 1) UScale [$"asu"] [] true true) None None;
    SUnit ($"distance") (mkUD [$"astronomical units"; $"astronomical unit"] [$"au"] (149597870700 # 1) UScale [$"asu"] [] true true) None None;
    SPrefixed ($"distance") (mkUD [$"parsecs"; $"parsec"] [$"pc"] (30856775810000000 # 1) UScale [$"asu"] [] true true) (Some (1 # 1)) None;
    SUnit ($"distance") (mkUD [$"inches"; $"inch"] [$"in"] (127 # 5000) UScale [$"us"; $"uk"] [] true true) None None;
    SUnit ($"distance") (mkUD [$"feet"; $"foot"] [$"ft"] (381 # 1250) UScale [$"us"; $"uk"] [] true true) None None;
    SUnit ($"distance") (mkUD [$"yards"; $"yard"] [$"yd"] (1143 # 1250) UScale [$"us"; $"uk"] [] true true) None None;
    SUnit ($"distance") (mkUD [$"miles"; $"mile"] [$"mi"] (201168 # 125) UScale [$"us"; $"uk"] [] true true) None None;
    SUnit ($"distance") (mkUD [$"nautical miles"; $"nautical mile"] [$"nmi"] (1852 # 1) UScale [$"nautical"] [] true true) None None ].
(** electricalconductance.py *)
Definition ud_electricalconductance : list ustep :=
  [ SDim ($"electricalconductance") (Some [($"time", (3)%Z); ($"electriccurrent", (2)%Z); ($"mass", (-1)%Z); ($"distance", (-2)%Z)]);
    SPrefixed ($"electricalconductance") (mkUD [$"siemens"; $"siemens"] [$"S"] (1 # 1) UScale [$"si"] [] true true) None None ].
(** electricalpotential.py *)
Definition ud_electricalpotential : list ustep :=
  [ SDim ($"electricalpotential") (Some [($"mass", (1)%Z); ($"distance", (2)%Z); ($"time", (-3)%Z); ($"electriccurrent", (-1)%Z)]);
    SPrefixed ($"electricalpotential") (mkUD [$"volts"; $"volt"] [$"V"] (1 # 1) UScale [$"si"] [] true true) None None ].
(** electriccharge.py *)
Definition ud_electriccharge : list ustep :=
  [ SDim ($"electriccharge") (Some [($"electriccurrent", (1)%Z); ($"time", (1)%Z)]);
    SPrefixed ($"electriccharge") (mkUD [$"coulombs"; $"coulomb"] [$"C"] (1 # 1) UScale [$"si"] [] true true) None None ].
(** electriccurrent.py *)
Definition ud_electriccurrent : list ustep :=
  [ SDim ($"electriccurrent") None;
    SPrefixed ($"electriccurrent") (mkUD [$"amperes"; $"ampere"] [$"A"] (1 # 1) UScale [$"si"] [] true true) None None ].
(** energy.py *)
Definition ud_energy : list ustep :=
  [ SDim ($"energy") (Some [($"mass", (1)%Z); ($"distance", (2)%Z); ($"time", (-2)%Z)]);
    SPrefixed ($"energy") (mkUD [$"joules"; $"joule"] [$"J"] (1 # 1) UScale [$"si"] [] true true) None None ].
(** equivalentdose.py *)
Definition ud_equivalentdose : list ustep :=
  [ SDim ($"equivalentdose") (Some [($"distance", (2)%Z); ($"time", (-2)%Z)]);
    SPrefixed ($"equivalentdose") (mkUD [$"sieverts"; $"sievert"] [$"Sv"] (1 # 1) UScale [$"si"] [] true false) None None ].
(** force.py *)
Definition ud_force : list ustep :=
  [ SDim ($"force") (Some [($"mass", (1)%Z); ($"distance", (1)%Z); ($"time", (-2)%Z)]);
    SPrefixed ($"force") (mkUD [$"newtons"; $"newton"] [$"N"] (1 # 1) UScale [$"si"] [] true true) None None ].
(** frequency.py *)
Definition ud_frequency : list ustep :=
  [ SDim ($"frequency") (Some [($"time", (-1)%Z)]);
    SPrefixed ($"frequency") (mkUD [$"hertz"; $"hertz"] [$"Hz"] (1 # 1) UScale [$"si"] [] true true) None None ].
(** illuminance.py *)
Definition ud_illuminance : list ustep :=
  [ SDim ($"illuminance") (Some [($"luminousintensity", (1)%Z); ($"solidangle", (1)%Z); ($"distance", (-2)%Z)]);
    SPrefixed ($"illuminance") (mkUD [$"lux"; $"lux"] [$"lx"] (1 # 1) UScale [$"si"] [] true true) None None ].
(** inductance.py *)
Definition ud_inductance : list ustep :=
  [ SDim ($"inductance") (Some [($"mass", (1)%Z); ($"distance", (2)%Z); ($"time", (-2)%Z); ($"electriccurrent", (-2)%Z)]);
    SPrefixed ($"inductance") (mkUD [$"henries"; $"henry"] [$"H"] (1 # 1) UScale [$"si"] [] true true) None None ].
(** luminousflux.py *)
Definition ud_luminousflux : list ustep :=
  [ SDim ($"luminousflux") (Some [($"luminousintensity", (1)%Z); ($"solidangle", (1)%Z)]);
    SPrefixed ($"luminousflux") (mkUD [$"lumens"; $"lumen"] [$"lm"] (1 # 1) UScale [$"si"] [] true true) None None ].
(** luminousintensity.py *)
Definition ud_luminousintensity : list ustep :=
  [ SDim ($"luminousintensity") None;
    SPrefixed ($"luminousintensity") (mkUD [$"candelas"; $"candela"] [$"cd"] (1 # 1) UScale [$"si"] [] true true) None None ].
(** magneticflux.py *)
Definition ud_magneticflux : list ustep :=
  [ SDim ($"magneticflux") (Some [($"mass", (1)%Z); ($"distance", (2)%Z); ($"time", (-2)%Z); ($"electriccurrent", (-1)%Z)]);
    SPrefixed ($"magneticflux") (mkUD [$"webers"; $"weber"] [$"Wb"] (1 # 1) UScale [$"si"] [] true true) None None ].
(** magneticfluxdensity.py *)
Definition ud_magneticfluxdensity : list ustep :=
  [ SDim ($"magneticfluxdensity") (Some [($"mass", (1)%Z); ($"time", (-2)%Z); ($"electriccurrent", (-1)%Z)]);
    SPrefixed ($"magneticfluxdensity") (mkUD [$"teslas"; $"tesla"] [$"T"] (1 # 1) UScale [$"si"] [] true true) None None ].
(** mass.py *)
Definition ud_mass : list ustep :=
  [ SDim ($"mass") None;
    SPrefixed ($"mass") (mkUD [$"grams"; $"gram"] [$"g"] (1 # 1000) UScale [$"si"] [] true true) None (Some (1000 # 1));
    SPrefixed ($"mass") (mkUD [$"tonnes"; $"tonne"] [] (1000 # 1) UScale [$"si"] [] true true) (Some (1 # 1)) None;
    SUnit ($"mass") (mkUD [$"grains"; $"grain"] [$"gr"] (6479891 # 100000000000) UScale [$"us"; $"uk"] [] true true) None None;
    SUnit ($"mass") (mkUD [$"ounces"; $"ounce"] [$"oz"] (45359237 # 1600000000) UScale [$"us"; $"uk"] [] true true) None None;
    SUnit ($"mass") (mkUD [$"pounds"; $"pound"] [$"lb"] (45359237 # 100000000) UScale [$"us"; $"uk"] [] true true) None None;
    SUnit ($"mass") (mkUD [$"stone"; $"stone"] [$"st"] (317514659 # 50000000) UScale [$"uk"] [] true true) None None;
    SUnit ($"mass") (mkUD [$"short tons"; $"short ton"] [] (45359237 # 50000) UScale [$"us"] [] true true) None None;
    SUnit ($"mass") (mkUD [$"long tons"; $"long ton"] [] (317514659 # 312500) UScale [$"uk"] [] true true) None None;
    SAmb [$"tons"; $"ton"] [] [$"short ton"; $"long ton"] ].
(** power.py *)
Definition ud_power : list ustep :=
  [ SDim ($"power") (Some [($"mass", (1)%Z); ($"distance", (2)%Z); ($"time", (-3)%Z)]);
    SPrefixed ($"power") (mkUD [$"watts"; $"watt"] [$"W"] (1 # 1) UScale [$"si"] [] true true) None None ].
(** pressure.py *)
Definition ud_pressure : list ustep :=
  [ SDim ($"pressure") (Some [($"mass", (1)%Z); ($"distance", (-1)%Z); ($"time", (-2)%Z)]);
    SPrefixed ($"pressure") (mkUD [$"pascals"; $"pascal"] [$"Pa"] (1 # 1) UScale [$"si"] [] true true) None None;
    SUnit ($"pressure") (mkUD [$"atmospheres"; $"atmosphere"] [$"atm"] (101325 # 1) UScale [] [] true true) None None;
    SUnit ($"pressure") (mkUD [$"pound-force per square inch"; $"pound-force per square inch"] [$"psi"] (6894757 # 1000) UScale [$"us"; $"uk"] [] true true) None None ].
(** radioactivity.py *)
Definition ud_radioactivity : list ustep :=
  [ SDim ($"radioactivity") (Some [($"time", (-1)%Z)]);
    SPrefixed ($"radioactivity") (mkUD [$"becquerels"; $"becquerel"] [$"Bq"] (1 # 1) UScale [$"si"] [] true false) None None ].
(** resistance.py *)
Definition ud_resistance : list ustep :=
  [ SDim ($"resistance") (Some [($"mass", (1)%Z); ($"distance", (2)%Z); ($"time", (-3)%Z); ($"electriccurrent", (-2)%Z)]);
    SPrefixed ($"resistance") (mkUD [$"ohms"; $"ohm"] [] (1 # 1) UScale [$"si"] [] true true) None None ].
(** solidangle.py *)
Definition ud_solidangle : list ustep :=
  [ SDim ($"solidangle") None;
    SUnit ($"solidangle") (mkUD [$"steradians"; $"steradian"] [$"sr"] (1 # 1) UScale [$"si"] [] true true) None None ].
(** substance.py *)
Definition ud_substance : list ustep :=
  [ SDim ($"substance") None;
    SPrefixed ($"substance") (mkUD [$"moles"; $"mole"] [$"mol"] (1 # 1) UScale [$"si"] [] true true) None None ].
(** temperature.py *)
Definition ud_temperature : list ustep :=
  [ SDim ($"temperature") None;
    SPrefixed ($"temperature") (mkUD [$"kelvin"; $"kelvin"] [$"K"] (1 # 1) UScale [$"si"] [] true true) None None;
    SUnit ($"temperature") (mkUD [$"Celsius"; $"Celsius"; $"deg C"] [[chr 176; chr 67]] (1 # 1) UCelsius [$"si"] [] true true) None None;
    SUnit ($"temperature") (mkUD [$"Fahrenheit"; $"Fahrenheit"; $"deg F"] [[chr 176; chr 70]] (1 # 1) UFahrenheit [$"us"; $"uk"] [] true true) None None ].
(** time.py *)
Definition ud_time : list ustep :=
  [ SDim ($"time") None;
    SPrefixed ($"time") (mkUD [$"seconds"; $"second"] [$"s"] (1 # 1) UScale [$"si"; $"gregorian"] [] true true) None (Some (1 # 1));
    SUnit ($"time") (mkUD [$"minutes"; $"minute"] [] (60 # 1) UScale [$"gregorian"] [] true true) None None;
    SUnit ($"time") (mkUD [$"hours"; $"hour"] [$"h"] (3600 # 1) UScale [$"gregorian"] [$"us"; $"uk"; $"nautical"] true true) None None;
    SUnit ($"time") (mkUD [$"days"; $"day"] [] (86400 # 1) UScale [$"gregorian"] [] true true) None None;
    SUnit ($"time") (mkUD [$"weeks"; $"week"] [] (604800 # 1) UScale [$"gregorian"] [] false true) None None;
    SUnit ($"time") (mkUD [$"months"; $"month"] [] (2629746 # 1) UScale [$"gregorian"] [] true true) None None;
    SUnit ($"time") (mkUD [$"years"; $"year"] [$"yr"] (31556952 # 1) UScale [$"gregorian"] [] true true) None None ].
(** velocity.py *)
Definition ud_velocity : list ustep :=
  [ SDim ($"velocity") (Some [($"distance", (1)%Z); ($"time", (-1)%Z)]);
    SUnit ($"velocity") (mkUD [$"knots"; $"knot"] [$"kn"; $"kt"] (463 # 900) UScale [$"nautical"] [] true true) None None;
    SMulti ($"velocity") [($"meter", (1)%Z); ($"second", (-1)%Z)] ].
(** volume.py *)
Definition ud_volume : list ustep :=
  [ SDim ($"volume") (Some [($"distance", (3)%Z)]);
    SPrefixed ($"volume") (mkUD [$"liters"; $"liter"; $"litres"; $"litre"] [$"l"] (1 # 1000) UScale [$"si"] [] true true) None (Some (1 # 1));
    SUnit ($"volume") (mkUD [$"liters"; $"liter"; $"litres"; $"litre"] [$"l"] (1 # 1000) UScale [$"si"] [] true true) (Some (mkPre (Some ($"centi")) (Some ($"c")) (1 # 100))) None;
    SUnit ($"volume") (mkUD [$"UK fluid ounces"; $"UK fluid ounce"] [] (454609 # 16000000000) UScale [$"uk"] [] true true) None None;
    SUnit ($"volume") (mkUD [$"UK gills"; $"UK gill"] [] (454609 # 3200000000) UScale [$"uk"] [] false true) None None;
    SUnit ($"volume") (mkUD [$"UK pints"; $"UK pint"] [] (454609 # 800000000) UScale [$"uk"] [] true true) None None;
    SUnit ($"volume") (mkUD [$"UK quarts"; $"UK quart"] [] (454609 # 400000000) UScale [$"uk"] [] false true) None None;
    SUnit ($"volume") (mkUD [$"UK gallons"; $"UK gallon"] [] (454609 # 100000000) UScale [$"uk"] [] true true) None None;
    SUnit ($"volume") (mkUD [$"US drams"; $"US dram"] [] (473176473 # 256000000000000) UScale [$"us"] [] true true) None None;
    SUnit ($"volume") (mkUD [$"US fluid ounces"; $"US fluid ounce"] [] (473176473 # 16000000000000) UScale [$"us"] [] true true) None None;
    SUnit ($"volume") (mkUD [$"US gills"; $"US gill"] [] (473176473 # 4000000000000) UScale [$"us"] [] false true) None None;
    SUnit ($"volume") (mkUD [$"US cups"; $"US cup"] [] (473176473 # 2000000000000) UScale [$"us"] [] true true) None None;
    SUnit ($"volume") (mkUD [$"US pints"; $"US pint"] [] (473176473 # 1000000000000) UScale [$"us"] [] true true) None None;
    SUnit ($"volume") (mkUD [$"US quarts"; $"US quart"] [] (473176473 # 500000000000) UScale [$"us"] [] true true) None None;
    SUnit ($"volume") (mkUD [$"US gallons"; $"US gallon"] [] (473176473 # 125000000000) UScale [$"us"] [] true true) None None;
    SAmb [$"fluid ounces"; $"fluid ounce"] [$"floz"; $"fl.oz"] [$"US fluid ounce"; $"UK fluid ounce"];
    SAmb [$"pints"; $"pint"] [$"pt"] [$"US pint"; $"UK pint"];
    SAmb [$"quarts"; $"quart"] [] [$"US quart"; $"UK quart"];
    SAmb [$"gallons"; $"gallon"] [$"gal"] [$"US gallon"; $"UK gallon"] ].

(** The definitions by feature id *)
Definition unit_features : list (str * list ustep) :=
  [ ($"unitdefinitions.absorbeddose", ud_absorbeddose);
    ($"unitdefinitions.acceleration", ud_acceleration);
    ($"unitdefinitions.angle", ud_angle);
    ($"unitdefinitions.area", ud_area);
    ($"unitdefinitions.capacitance", ud_capacitance);
    ($"unitdefinitions.catalyticactivity", ud_catalyticactivity);
    ($"unitdefinitions.data", ud_data);
    ($"unitdefinitions.distance", ud_distance);
    ($"unitdefinitions.electricalconductance", ud_electricalconductance);
    ($"unitdefinitions.electricalpotential", ud_electricalpotential);
    ($"unitdefinitions.electriccharge", ud_electriccharge);
    ($"unitdefinitions.electriccurrent", ud_electriccurrent);
    ($"unitdefinitions.energy", ud_energy);
    ($"unitdefinitions.equivalentdose", ud_equivalentdose);
    ($"unitdefinitions.force", ud_force);
    ($"unitdefinitions.frequency", ud_frequency);
    ($"unitdefinitions.illuminance", ud_illuminance);
    ($"unitdefinitions.inductance", ud_inductance);
    ($"unitdefinitions.luminousflux", ud_luminousflux);
    ($"unitdefinitions.luminousintensity", ud_luminousintensity);
    ($"unitdefinitions.magneticflux", ud_magneticflux);
    ($"unitdefinitions.magneticfluxdensity", ud_magneticfluxdensity);
    ($"unitdefinitions.mass", ud_mass);
    ($"unitdefinitions.power", ud_power);
    ($"unitdefinitions.pressure", ud_pressure);
    ($"unitdefinitions.radioactivity", ud_radioactivity);
    ($"unitdefinitions.resistance", ud_resistance);
    ($"unitdefinitions.solidangle", ud_solidangle);
    ($"unitdefinitions.substance", ud_substance);
    ($"unitdefinitions.temperature", ud_temperature);
    ($"unitdefinitions.time", ud_time);
    ($"unitdefinitions.velocity", ud_velocity);
    ($"unitdefinitions.volume", ud_volume) ].

(** units/units.py:33-35, basicunitprefixes.py:27-31, advancedunitprefixes.py:27-35, systems.py:27-35 *)
Definition p10 (z : Z) : Q := Qpower 10 z.
Definition some_prefix (n : str) (s : str) (k : Z) : prefix := mkPre (Some n) (Some s) (Qred (p10 k)).
Definition unit_base_features : list (str * list ustep) :=
  [ ($"units.units", [SPrefixes [mkPre None None 1]]);
    ($"units.basicunitprefixes", [SPrefixes [some_prefix ($"micro") [chr 181] (-6); some_prefix ($"milli") ($"m") (-3);
                                             some_prefix ($"kilo") ($"k") 3; some_prefix ($"mega") ($"M") 6]]);
    ($"units.advancedunitprefixes", [SPrefixes [some_prefix ($"atto") ($"a") (-18); some_prefix ($"femto") ($"f") (-15);
       some_prefix ($"pico") ($"p") (-12); some_prefix ($"nano") ($"n") (-9); some_prefix ($"giga") ($"G") 9;
       some_prefix ($"tera") ($"T") 12; some_prefix ($"peta") ($"P") 15; some_prefix ($"exa") ($"E") 18]]);
    ($"units.systems", [SSystems [$"gregorian"; $"si"; $"us"; $"uk"; $"asu"; $"nautical"; $"iec"]]) ].
(** The steps in the order in which [install_features] runs the features of a preset (Install.v) *)
Definition steps_of (f : str) : list ustep :=
  match assoc f unit_base_features with
  | Some l => l
  | None => match assoc f unit_features with Some l => l | None => [] end
  end.
Definition preset_steps (names : list str) : list ustep :=
  match install 20 features names (mkIst [] []) with IOk st => flat_map steps_of (trace st) | _ => [] end.
Definition preset_units (names : list str) : out normaliser := reg_steps (preset_steps names) norm_init.
