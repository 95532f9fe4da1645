(** Python [str] and [list] primitives that the modelled code uses.

    A python [str] is modelled as a list of ASCII characters.  Simplification: python strings are
    unicode; here the alphabet is the 256 [ascii] values and character classes are the ASCII ones. *)
From Coq Require Import ZArith Ascii String List Bool Lia.
Import ListNotations.
Open Scope Z_scope.

Definition str := list ascii.

(** Literal strings: [$"abc"]. *)
Notation "$ s" := (list_ascii_of_string s%string) (at level 0, s at level 0, only parsing).

Definition ceq (a b : ascii) : bool := Ascii.eqb a b.

Fixpoint seq_eqb (a b : str) : bool :=
  match a, b with
  | [], [] => true
  | x :: a', y :: b' => ceq x y && seq_eqb a' b'
  | _, _ => false
  end.

(** [s.startswith(p)] *)
Fixpoint prefixb (p s : str) : bool :=
  match p, s with
  | [], _ => true
  | x :: p', y :: s' => ceq x y && prefixb p' s'
  | _ :: _, [] => false
  end.

(** [s.find(sub)] from the start: index of the first occurrence. *)
Fixpoint sfind (sub s : str) : option nat :=
  if prefixb sub s then Some O
  else match s with
       | [] => None
       | _ :: s' => option_map S (sfind sub s')
       end.

(** [s.find(sub, i)]; python returns -1 when [i] is past the end unless [sub] is empty and [i = len]. *)
Definition sfind_from (sub s : str) (i : nat) : option nat :=
  if Nat.ltb (length s) i then None
  else option_map (fun k => (i + k)%nat) (sfind sub (skipn i s)).

(** [s.rstrip(c)] for one character. *)
Fixpoint rstrip (c : ascii) (s : str) : str :=
  match s with
  | [] => []
  | x :: s' => match rstrip c s' with
               | [] => if ceq x c then [] else [x]
               | r => x :: r
               end
  end.

(** Character classes (ASCII). *)
Definition code (c : ascii) : Z := Z.of_N (N_of_ascii c).
Definition is_digit (c : ascii) : bool := (48 <=? code c) && (code c <=? 57).
Definition is_lower (c : ascii) : bool := (97 <=? code c) && (code c <=? 122).
Definition is_upper (c : ascii) : bool := (65 <=? code c) && (code c <=? 90).
Definition is_alpha (c : ascii) : bool := is_lower c || is_upper c.
(** regex [\w] *)
Definition is_word (c : ascii) : bool := is_alpha c || is_digit c || ceq c "_"%char.
(** regex [\s] and [str.isspace] *)
Definition is_space (c : ascii) : bool := (code c =? 32) || ((9 <=? code c) && (code c <=? 13)) || ((28 <=? code c) && (code c <=? 31)).

Definition chr (z : Z) : ascii := ascii_of_N (Z.to_N z).
(** [str.lower] / [str.upper] on ASCII *)
Definition lower_c (c : ascii) : ascii := if is_upper c then chr (code c + 32) else c.
Definition upper_c (c : ascii) : ascii := if is_lower c then chr (code c - 32) else c.
Definition lower (s : str) : str := map lower_c s.
Definition upper (s : str) : str := map upper_c s.

(** Digit characters: [BasesFeature.digits] (features/numerical/bases.py:30). *)
Definition digit_chars : str := $"0123456789ABCDEFGHIJKLMNOPQRSTUVWXYZ".
Definition digit_char (d : Z) : ascii := nth (Z.to_nat d) digit_chars "?"%char.
(** [digits.find(c)] *)
Fixpoint index_of (c : ascii) (s : str) (i : Z) : Z :=
  match s with
  | [] => -1
  | x :: s' => if ceq x c then i else index_of c s' (i + 1)
  end.
Definition digit_val (c : ascii) : Z := index_of c digit_chars 0.

(** Digits of a non-negative integer in base [b], most significant first ("0" has one digit). *)
Fixpoint zdigits_fuel (f : nat) (b z : Z) (acc : list Z) : list Z :=
  match f with
  | O => z :: acc
  | S f' => if z <? b then z :: acc else zdigits_fuel f' b (z / b) (z mod b :: acc)
  end.
Definition zdigits (b z : Z) : list Z := zdigits_fuel (Z.to_nat (Z.log2 z)) b z [].

(** [str(z)] for a non-negative integer. *)
Definition dec_str (z : Z) : str := map digit_char (zdigits 10 z).

(** Value of a digit list in base [b]. *)
Definition digits_val (b : Z) (ds : list Z) : Z := fold_left (fun a d => a * b + d) ds 0.

(** [s.zfill(w)] of a digit string (no sign). *)
Definition zfill (w : nat) (s : str) : str := repeat "0"%char (w - length s) ++ s.
