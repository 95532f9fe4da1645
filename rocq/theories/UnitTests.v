(** The expectations of the tests of the repository for units (/repo/tests/units), run on the model with the unit
    definitions of the preset Computing.  Generated from the test files; left out are those with powers that are no
    integers or compared as text. *)
From Coq Require Import ZArith QArith Ascii String List Bool.
From Verif Require Import Base Dec Num Lex Bases Formats Units UnitReg UnitData Syntax Pos Call Loop Parse Exec Std StdRun Install UnitCalc UnitRun.
Import ListNotations.
Open Scope nat_scope.
(** [Number(n, d)] without and with the name of its unit, a text, an error of execution *)
Inductive uexpect := XN (n d : Z) | XS (s : string) | XQ (n d : Z) (u : string) | XFail.
(** testrunner.py:18-50, 69-93 *)
Definition umatches (c : cout) (x : uexpect) : bool :=
  match c, x with
  | CDone rs, XN n d => match last_answer rs with Some (VNum m, None) => (nnum m * d =? n * nden m)%Z | _ => false end
  | CDone rs, XS s => match last_answer rs with Some (VStr t, None) => seq_eqb t (uchars s) | _ => false end
  | CDone rs, XQ n d s =>
    match last_answer rs with
    | Some (VNum m, Some u) => (nnum m * d =? n * nden m)%Z && seq_eqb (unit_name (negb (nnum m =? nden m)%Z) (eu_list u)) (uchars s)
    | _ => false end
  | CFail false _ _ _ _, XFail => true
  | _, _ => false
  end.
(** Those that fail, and what they give instead *)
Definition ufailing (N : normaliser) (l : list (string * uexpect)) : list (string * string) :=
  map (fun p => (fst p, uanswer N (fst p))) (filter (fun p => negb (umatches (fst (ucalc N start (uchars (fst p)))) (snd p))) l).
Definition unit_tests : list (string * uexpect) := [
  ("3 meters to feet", (XQ (1250) 127 "feet"));
  ("3.5 meters to feet", (XQ (4375) 381 "feet"));
  ("0.035 meters to feet", (XQ (175) 1524 "feet"));
  ("-0.035 meters to feet", (XQ (-175) 1524 "feet"));
  ("3.5 feet to meters", (XQ (2667) 2500 "meters"));
  ("35000000 feet to meters", (XQ (10668000) 1 "meters"));
  ("123 meters", (XQ (123) 1 "meters"));
  ("1 meters + 2 meters", (XQ (3) 1 "meters"));
  ("1 meters * 2", (XQ (2) 1 "meters"));
  ("6 meters / 2", (XQ (3) 1 "meters"));
  ("1 metre", (XQ (1) 1 "meter"));
  ("2 meters * 3 meters", (XQ (6) 1 "meters^2"));
  ("20 meters / 5 meters", (XN (4) 1));
  ("20 meters \ 5 meters", (XN (4) 1));
  ("12 meters * 3@C", (XQ (36) 1 "meter Celsius"));
  ("2 meters * 3 meters * 4 meters", (XQ (24) 1 "meters^3"));
  ("(2 meters * 3 meters * 4 meters) / 2 meters", (XQ (12) 1 "meters^2"));
  ("(2 meters * 3 meters * 4 meters) / (2 meters * 4 meters)", (XQ (3) 1 "meters"));
  ("(2 meters * 3 meters) / 2 feet", (XQ (1250) 127 "meters"));
  ("(2 meters * 3 meters * 4 meters) / (5 feet * 6 feet)", (XQ (1250000) 145161 "meters"));
  ("2 m/s", (XQ (2) 1 "meters/second"));
  ("2 m/s + 3 m/s", (XQ (5) 1 "meters/second"));
  ("2 m/s + 3 miles/hour", (XQ (10441) 3125 "meters/second"));
  ("2 m/s to miles/hour", (XQ (6250) 1397 "miles/hour"));
  ("2 m^2", (XQ (2) 1 "meters^2"));
  ("2 m^3", (XQ (2) 1 "meters^3"));
  ("2 m^2 to feet^2", (XQ (3125000) 145161 "feet^2"));
  ("40 * (meters*meters) / (seconds*seconds) * 2 meters", (XQ (80) 1 "meters^3/second^2"));
  ("12 meters @C / s", (XQ (12) 1 "meter Celsius/second"));
  ("0.625 meters/(second^2 celsius) * 4@C", (XQ (5) 2 "meters/second^2"));
  ("40 TW h / yr", (XQ (40) 1 "terawatt hours/year"));
  ("0.004563084645220168834131873146 TW to TW h / yr", (XQ (999979466119096509240246406516743) 25000000000000000000000000000000 "terawatt hours/year"));
  ("40 TW h / yr to MW", (XQ (2000000000) 438291 "megawatts"));
  ("40 TW h / yr to W", (XQ (2000000000000000) 438291 "watts"));
  ("1 kW to J/s", (XQ (1000) 1 "joules/second"));
  ("kW to J/s", (XQ (1000) 1 "joules/second"));
  ("1 meters^3 to l", (XQ (1000) 1 "liters"));
  ("1 kW + 23 J/s", (XQ (1023) 1000 "kilowatts"));
  ("1 J/h + 2 kW", (XQ (7200001) 1 "joules/hour"));
  ("1l / 10cm^2", (XQ (1) 1 "meter"));
  ("1 km J/h + 2 m kW", (XQ (7201) 1 "kilometer joules/hour"));
  ("1 km W + 2 m W", (XQ (501) 500 "kilometer watts"));
  ("1 kW / (100 J/s)", (XN (10) 1));
  ("10 W s + 23 J", (XQ (33) 1 "watt seconds"));
  ("100J / 2W", (XQ (50) 1 "seconds"));
  ("(100 W h) / (10 J/s)", (XQ (10) 1 "hours"));
  ("1000000 liters / 1 hectare", (XQ (10) 1 "centimeters"));
  ("1 hectare * 1 cm", (XQ (100000) 1 "liters"));
  ("10 W s / 2J", (XN (5) 1));
  ("100 mi / 2 knots", (XQ (100584) 2315 "hours"));
  ("100 nmi / 2 knots", (XQ (50) 1 "hours"));
  ("0 nmi / 2 knots", (XQ (0) 1 "hours"));
  ("(100 mi) / (2 mi/h)", (XQ (50) 1 "hours"));
  ("1 UK pint + 2 UK pints", (XQ (3) 1 "UK pints"));
  ("1 liter + 2 UK pints", (XQ (854609) 400000 "liters"));
  ("1N + 2kg m/s/s", (XQ (3) 1 "newtons"));
  ("2 gee * 10 s", (XQ (196133) 1000 "meters/second"));
  ("10W to kg m^2 s^-3", (XQ (10) 1 "kilogram meters^2/second^3"));
  ("10 kg m^2/s^3 to J/s", (XQ (10) 1 "joules/second"));
  ("10 kg m^2/s^3", (XQ (10) 1 "kilogram meters^2/second^3"));
  ("20 kg m^2 / 2s^3", (XQ (10) 1 "watts"));
  ("10 kg m^2/s^3/W^2", (XQ (10) 1 "kilogram meters^2/(second^3 watt^2)"));
  ("1 kW / 100 J/s", (XN (10) 1));
  ("1 GRAM to kg", (XQ (1) 1000 "kilograms"));
  ("(2kg)^1", (XQ (2) 1 "kilograms"));
  ("(2kg)^0", (XN (1) 1));
  ("3m s^-1", (XQ (3) 1 "meters/second"));
  ("3m s^-2", (XQ (3) 1 "meters/second^2"));
  ("3 / 2s", (XQ (3) 2 "hertz"));
  ("min([1kg, 2g])", (XQ (2) 1 "grams"));
  ("mean([1g, 2kg])", (XQ (2001) 2 "grams"));
  ("min([2W, 1.5J/s])", (XQ (3) 2 "joules/second"));
  ("min([1kg, 2kg, 500g])", (XQ (500) 1 "grams"));
  ("round(2.567s, 2)", (XQ (257) 100 "seconds"));
  ("5 kg m/s^2", (XQ (5) 1 "kilogram meters/second^2"));
  ("25 kg m / 5 s^2", (XQ (5) 1 "newtons"));
  ("5 (@C/kg/m)*s^2", (XQ (5) 1 "Celsius/newton"));
  ("1 m^2/s", (XQ (1) 1 "meter^2/second"));
  ("100m/s^2 / (1kN/ 1000000kg)", (XN (100000) 1));
  ("10N / 5kg", (XQ (2) 1 "meters/second^2"));
  ("80 mi/UK gallon", (XQ (80) 1 "miles/UK gallon"));
  ("1 / (80 mi/UK gallon)", (XQ (1) 80 "UK gallons/mile"));
  ("1 / (80 mi/UK gallon) * 100 miles", (XQ (5) 4 "UK gallons"));
  ("10km/l", (XQ (10) 1 "kilometers/liter"));
  ("10kg^20", (XQ (10) 1 "kilograms^20"));
  ("6 / 2s", (XQ (3) 1 "hertz"));
  ("6 / (2s^2)", (XQ (3) 1 "hertz^2"));
  ("6 / (2s^5)", (XQ (3) 1 "hertz^5"));
  ("6 / 2Hz", (XQ (3) 1 "seconds"));
  ("6 / 2s to Bq", (XQ (3) 1 "becquerels"));
  ("2 cd * 3 sr", (XQ (6) 1 "lumens"));
  ("2 cd * 3 sr / 4 m^2", (XQ (3) 2 "lux"));
  ("4 lux * 2 m^2", (XQ (8) 1 "lumens"));
  ("4 lm / 2 sr", (XQ (2) 1 "candelas"));
  ("10J / 2 kg to Gy", (XQ (5) 1 "grays"));
  ("10J / 2 kg to Sv", (XQ (5) 1 "sieverts"));
  ("10 mol / 2 s", (XQ (5) 1 "katals"));
  ("10A * 3s", (XQ (30) 1 "coulombs"));
  ("20W / 4A", (XQ (5) 1 "volts"));
  ("20C / 4V", (XQ (5) 1 "farads"));
  ("20V / 4A", (XQ (5) 1 "ohms"));
  ("1 / 2 ohms", (XQ (1) 2 "siemens"));
  ("1 / 2 siemens", (XQ (1) 2 "ohms"));
  ("6V * 2s", (XQ (12) 1 "webers"));
  ("8 Wb / 2 m^2", (XQ (4) 1 "teslas"));
  ("8 Wb / 2 A", (XQ (4) 1 "henries"));
  ("1 / 10s", (XQ (100) 1 "millihertz"));
  ("a = 1 / 10s;a", (XQ (100) 1 "millihertz"));
  ("0.002092531754169369520182468769 seconds^-1 * 0", (XQ (0) 1 "hertz"));
  ("1 pint to ml", (XQ (473176473) 1000000 "milliliters"));
  ("tank = 17100;thruster = 0.486/s;format((tank / (3 thruster)))", (XS "3 hours, 15 minutes, 28.395061728395061728395061728395 seconds"));
  ("x = 2 T m^2;x", (XQ (2) 1 "tesla meters^2"));
  ("1m/s + 2", XFail);
  ("gm = G * 5.97237e24kg", (XQ (398600751696000) 1 "meters^3/second^2"));
  ("format(1 hour + 23 minutes + 45 seconds)", (XS "1 hour, 23 minutes, 45 seconds"));
  ("format(61s)", (XS "1 minute, 1 second"));
  ("format(2 weeks + 3 hour + 23 minutes + 45 seconds)", (XS "14 days, 3 hours, 23 minutes, 45 seconds"));
  ("format(1 hour + 23 minutes + 0.001 seconds)", (XS "1 hour, 23 minutes, 1 millisecond"));
  ("format(456765.34533646 s)", (XS "5 days, 6 hours, 52 minutes, 45.34533646 seconds"));
  ("format(456765.34533646 s, si)", (XS "456765.34533646 seconds"));
  ("format(456765.34533646 minutes, si)", (XS "27405920.7201876 seconds"));
  ("format(456765000.34533646 ms, gregorian)", (XS "5 days, 6 hours, 52 minutes, 45.00034533646 seconds"));
  ("format(0.000000046 ms)", (XS "46 picoseconds"));
  ("format(1.000000001 ms)", (XS "1.000000001 milliseconds"));
  ("format(0.001000000001 ms)", (XS "1.000000001 microseconds"));
  ("format(1000000001 ms, si)", (XS "1000000.001 seconds"));
  ("format(1000000000 ms, si)", (XS "1000000 seconds"));
  ("format(1000000000 ms)", (XS "11 days, 13 hours, 46 minutes, 40 seconds"));
  ("format(456765.345336 ms, si)", (XS "456.765345336 seconds"));
  ("format(1.543 miles)", (XS "1 mile, 955 yards, 2 feet, 0.48 inches"));
  ("format(1.543 long tons)", (XS "1 long ton, 86 stone, 12 pounds, 5 ounces, 52.5 grains"));
  ("format(1.543 short tons)", (XS "1 short ton, 1086 pounds"));
  ("format(1.54467 short tons)", (XS "1 short ton, 1089 pounds, 5 ounces, 192.5 grains"));
  ("format(1.543 tons)", (XS "1 short ton, 1086 pounds"));
  ("format(12345.6789kg)", (XS "12 tonnes, 345.6789 kilograms"));
  ("format(1234 MB)", (XS "1.234 gigabytes"));
  ("format(1234000000 bytes)", (XS "1.234 gigabytes"));
  ("format(1234005000 bytes)", (XS "1.234005 gigabytes"));
  ("compact(40 TW h / yr)", (XQ (2000000) 438291 "gigawatts"));
  ("-200 @C to K", (XQ (1463) 20 "kelvin"));
  ("20 @C to @F", (XQ (68) 1 "Fahrenheit"));
  ("20000 @C to @F", (XQ (36032) 1 "Fahrenheit"));
  ("68 @F to @C", (XQ (20) 1 "Celsius"));
  ("1 meter + 23 cm", (XQ (123) 100 "meters"));
  ("1 meter + 23 `m", (XQ (1000023) 1000000 "meters"));
  ("1 meter + 23 nm", (XQ (1000000023) 1000000000 "meters"));
  ("1K + 1K", (XQ (2) 1 "kelvin"));
  ("1@C + 1@C", (XQ (2) 1 "Celsius"));
  ("1K + 1@C", (XQ (2) 1 "kelvin"));
  ("1@C + 1K", (XQ (2) 1 "Celsius"));
  ("si", (XS "si"));
  ("G", (XQ (41713) 625000000000000 "meters^3/(kilogram second^2)"));
  ("earthgravity", (XQ (196133) 20000 "meters/second^2"));
  ("speedoflight", (XQ (299792458) 1 "meters/second"));
  ("Planck", (XQ (132521403) 200000000000000000000000000000000000000000 "joule seconds"))
]%string.

Example unit_test_suite : ufailing demo_norm unit_tests = [].
Proof. vm_cast_no_check (@eq_refl (list (string * string)) []). Qed.
