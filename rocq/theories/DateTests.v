(** The expectations of the repository's tests of dates (tests/dates), on the model. *)
From Coq Require Import Ascii String List.
From Verif Require Import UnitRun DateRun.
Import ListNotations.
Example date_tests : map (danswer demo_norm) ["dateformat('2012-01-02')"; "dateformat('2012-01-02T11:45:56')"; "dateformat('2012-01-02T11:45:56.123456')"; "dateformat('2012-01-02+0100')"; "dateformat('2012-01-02T11:45:56-0430')"; "dateformat('2012-01-02T11:45:56.123456+1256')"; "dateadd('2012-01-02T11:45:56', 5 seconds)"; "dateadd('2012-01-02T11:45:56', 0.123456 seconds)"; "dateadd('2012-01-02T11:45:56', 5 hours)"; "dateadd('2012-01-02T11:45:56', 5 weeks)"; "dateadd(dateadd('0900-01-01', 1 year), 1 year)"; "datesubtract('2012-01-02T11:45:56', 5 seconds)"; "datedifference('2012-01-02T11:45:56', '2012-01-04T11:45:56', days)"; "datedifference('2012-01-02T11:45:56', '2012-01-01T11:45:56', hours)"; "datedifference('2012-01-02T11:45:56', '2012-01-02T11:45:56.123456', seconds)"; "datedifference('2012-01-02T11:45:56', '2012-01-02T11:45:56.123456')"; "datedifference('2012-01-02T11:45:56', '2012-01-02T11:45:56.123456', microseconds)"; "datedifference('2012-01-02-0200', '2012-01-02T04:00:00+0100', hours)"; "datedifference('2012-01-02T11:45:56-0200', '2012-01-02T11:45:56+0100', hours)"; "datedifference('2012-01-02-0200', '2012-01-02T11:45:56.123456+0100', microseconds)"; "'2012-01-02T11:45:56' +% 5 seconds"; "'2012-01-02T11:45:56' -% 5 seconds"]%string =
  ["'Monday, 02-Jan-2012'"; "'Monday, 02-Jan-2012 at 11:45:56'"; "'Monday, 02-Jan-2012 at 11:45:56.123456'"; "'Monday, 02-Jan-2012 (+0100)'"; "'Monday, 02-Jan-2012 at 11:45:56 (-0430)'"; "'Monday, 02-Jan-2012 at 11:45:56.123456 (+1256)'"; "'2012-01-02T11:46:01'"; "'2012-01-02T11:45:56.123456'"; "'2012-01-02T16:45:56'"; "'2012-02-06T11:45:56'"; "'0902-01-01T11:38:24'"; "'2012-01-02T11:45:51'"; "2 days"; "24 hours"; "0.123456 seconds"; "0.123456 seconds"; "123456 microseconds"; "1 hour"; "3 hours"; "31556123456 microseconds"; "'2012-01-02T11:46:01'"; "'2012-01-02T11:45:51'"]%string.
Proof. vm_compute. reflexivity. Qed.
