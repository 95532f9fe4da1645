(** The expectations of the repository's tests of regular expressions (tests/strings/regex.py), with the small engine. *)
From Coq Require Import String List.
From Verif Require Import StdRun Regex RegexRun.
Import ListNotations.
Open Scope string_scope.
Example regex_tests : map ranswer
  ["'ABC' =~ '\\w'";
   "'ABC' =~ '\\d'";
   "'ABC123abc' =~ '\\d{3}'";
   "'ABC123abc' =~ '\\d{4}'";
   "'ABC123abc' =~ '^\\w{3}\\d{3}\\w{3}$'";
   "'ABC123abc' =~ '^\\w{3}\\d{3}\\w{2}$'";
   "'ABC' !~ '\\w'";
   "'ABC' !~ '\\d'";
   "regexget('123ABC123DEF123GHI123', '[A-Z]+')";
   "regexget('123456', '[A-Z]+')";
   "regexget('123ABC456', '\\d+', 2)";
   "regexsplit('123ABC456XYZ789', '[A-Z]+')";
   "regexsplit('123456', '[A-Z]+')";
   "regexsplit('123A456XY789', '[A-Z]')";
   "regexsplit('123A456XY789Z', '[A-Z]')";
   "regexsplit('Z123A456XY789Z', '[A-Z]')";
   "regexsplit('Z123A456XY789Z', '[A-Z]+')";
   "regexsub('123ABC123', '[A-Z]+', 'defg')";
   "regexsub('123456', '[A-Z]+', 'defg')";
   "regexsub('123ABC456XYZ789', '[A-Z]+', 'defg')";
   "regexsub('123ABC456XYZ789', '[A-Z]+', 'defg', 1)";
   "regexsub('123456789', '[A-Z]+', 'defg')";
   "regexcount('1abc2def3ghi4', '[a-z]{3}')";
   "regexcount('12345', '[a-z]{3}')"] =
  ["True"; "False"; "True"; "False"; "True"; "False"; "False"; "True"; "['ABC';'DEF';'GHI';]"; "[]"; "'456'"; "['123';'456';'789';]"; "['123456';]"; "['123';'456';'';'789';]"; "['123';'456';'';'789';'';]"; "['';'123';'456';'';'789';'';]"; "['';'123';'456';'789';'';]"; "'123defg123'"; "'123456'"; "'123defg456defg789'"; "'123defg456XYZ789'"; "'123456789'"; "3"; "0"].
Proof. vm_compute. reflexivity. Qed.
