(** What the theorems about the names of variables are stated with. *)
From Coq Require Import ZArith QArith Ascii String List Bool.
From Verif Require Import Base Bases TextSpec.
Import ListNotations.
Open Scope nat_scope.

(** Characters, by their codes *)
Definition letter (c : ascii) : Prop := (65 <= code c <= 90 \/ 97 <= code c <= 122)%Z.
Definition name_char (c : ascii) : Prop := letter c \/ (48 <= code c <= 57)%Z \/ code c = 95%Z.
(** A name: a letter or underscore, then letters, digits and underscores *)
Definition is_name (n : str) : Prop := exists c r, n = c :: r /\ (letter c \/ code c = 95%Z) /\ Forall name_char r.
(** The text after a name: nothing that would be part of it *)
Definition name_over (r : str) : Prop := match r with [] => True | c :: _ => ~ name_char c end.
(** [n] starts with the word [w], which no letter follows *)
Definition starts_word (w n : str) : Prop := exists r, n = w ++ r /\ match r with [] => True | c :: _ => ~ letter c end.
Definition starts (w n : str) : Prop := exists r, n = w ++ r.
(** The names that mean something else at the start of an operand *)
Definition operator_words : list str := map list_ascii_of_string ["not"; "and"; "or"; "xor"; "then"; "else"; "as"]%string.
Definition constant_names : list str := map list_ascii_of_string ["e"; "pi"; "tau"]%string.
Definition format_names : list str :=
  map list_ascii_of_string ["decimal"; "binary"; "octal"; "hexadecimal"; "arbitrarybase"; "scientific"; "percentage"; "boolean"]%string.
Definition taken (n : str) : Prop :=
  In n operator_words \/ caseless n ($"true") \/ caseless n ($"false") \/ starts ($"IMPLICIT_MULTIPLY") n \/
  (exists w, In w constant_names /\ starts_word w n) \/ (exists w, In w format_names /\ starts_word w n).
(** Blanks *)
Definition gap (k : nat) : str := repeat " "%char k.
(** The constants to fifty places *)
Definition constant_value (w : str) (q : Q) : Prop :=
  In (w, q) [($"e", 271828182845904523536028747135266249775724709369995 # (10 ^ 50))%Q;
             ($"pi", 314159265358979323846264338327950288419716939937511 # (10 ^ 50))%Q;
             ($"tau", 628318530717958647692528676655900576839433879875022 # (10 ^ 50))%Q].
