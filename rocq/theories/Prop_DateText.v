(** C63, continued: which texts are read as dates, and as which *)
From Coq Require Import ZArith Ascii String List Bool Lia.
From Verif Require Import Base Dates DateSpec DateProofs3 DateTextSpec DateTextProofs DateTextProofs3.
Import ListNotations.
Open Scope Z_scope.

(** A text is read as a date exactly when it is a way to write it. *)
Theorem c63_texts : forall s d, string_to_date s = Some d <-> is_date d /\ date_written d s.
Proof.
  intros s d. split; [intros H; split; [exact (read_is_date s d H)|exact (read_written s d H)]|]. intros [D W]. exact (written_read s d D W).
Qed.
Print Assumptions c63_texts.
(** No text writes two dates, and a text that writes none is refused. *)
Theorem c63_one_meaning : forall s d d', is_date d -> is_date d' -> date_written d s -> date_written d' s -> d = d'.
Proof.
  intros s d d' D D' W W'. assert (E : Some d = Some d') by (rewrite <- (written_read s d D W); exact (written_read s d' D' W')). now injection E.
Qed.
Print Assumptions c63_one_meaning.
Theorem c63_no_text : forall s, (forall d, is_date d -> ~ date_written d s) <-> string_to_date s = None.
Proof.
  intros s. split.
  - intros H. destruct (string_to_date s) as [d|] eqn:E; [|reflexivity]. destruct (H d); [exact (read_is_date s d E)|exact (read_written s d E)].
  - intros E d D W. rewrite (written_read s d D W) in E. discriminate E.
Qed.
Print Assumptions c63_no_text.
Example c63_texts_ex : map (fun s => string_to_date ($s))
  ["2026-1-2"; "2026-11- 7t5:06:7.25+01:00:30.5"; "0001-01-01Z"; "9999-12-31T23:59:59.999999-2359"; "2026-1-:"; "2026-02-30"; "2026-13-01"; "2026-01-01T24:00:00"; "2026-01-01T1:2"; "2026-01-01+01:0002"; "226-01-01"; "2026-01-01T00:00:00.1234567"]%string =
  [Some (mkDate 2026 1 2 0 None); Some (mkDate 2026 11 7 18367250000 (Some 3630500000)); Some (mkDate 1 1 1 0 (Some 0)); Some (mkDate 9999 12 31 86399999999 (Some (-86340000000)));
   None; None; None; None; None; None; None; None].
Proof. vm_compute. reflexivity. Qed.
Example c63_texts_ex_written : exists d, is_date d /\ date_written d ($"2026-11- 7t5:06:7.25+01:00:30.5").
Proof. exists (mkDate 2026 11 7 18367250000 (Some 3630500000)). apply c63_texts. vm_compute. reflexivity. Qed.
