(** Regular-expression matchers used by the parsers, written as functions that split a text into the
    matched part and the rest. *)
From Coq Require Import ZArith QArith Ascii String List Bool Lia.
From Verif Require Import Base Dec Num.
Import ListNotations.
Open Scope Z_scope.

(** Longest prefix of characters satisfying [f] (regex [[...]*], greedy) and the rest. *)
Fixpoint span (f : ascii -> bool) (s : str) : str * str :=
  match s with
  | [] => ([], [])
  | c :: s' => if f c then let '(a, b) := span f s' in (c :: a, b) else ([], s)
  end.

(** Optional leading minus sign (regex [\-?]). *)
Definition opt_minus (s : str) : str * str :=
  match s with
  | c :: s' => if ceq c "-"%char then ([c], s') else ([], s)
  | [] => ([], [])
  end.

(** Regex [D+(\.D+)?] for a digit class [f]: integer part, fractional part (without the dot) if any, rest. *)
Definition match_digits (f : ascii -> bool) (s : str) : option (str * option str * str) :=
  let '(ip, r) := span f s in
  match ip with
  | [] => None
  | _ =>
    match r with
    | c :: r' =>
      if ceq c "."%char
      then let '(fp, r2) := span f r' in
           match fp with
           | [] => Some (ip, None, r)
           | _ => Some (ip, Some fp, r2)
           end
      else Some (ip, None, r)
    | [] => Some (ip, None, [])
    end
  end.

(** A decimal literal broken into its parts. *)
Record declit := mkLit { l_neg : bool; l_int : str; l_frac : option str }.

Definition lit_text (l : declit) : str :=
  (if l_neg l then ["-"%char] else []) ++ l_int l ++
  match l_frac l with Some f => "."%char :: f | None => [] end.

(** [num_regex] = [(\-?\d+(\.\d+)?)] (features/numerical/decimalnumbers.py:33-35). *)
Definition match_number (s : str) : option (declit * str) :=
  let '(m, s1) := opt_minus s in
  match match_digits is_digit s1 with
  | Some (ip, fp, r) => Some (mkLit (negb (seq_eqb m [])) ip fp, r)
  | None => None
  end.

(** [Decimal(text)] for the text of a decimal literal: the coefficient is the number spelled by all the
    digits, the exponent minus the number of fractional digits. *)
Definition decimal_of_lit (l : declit) : Q :=
  let fr := match l_frac l with Some f => f | None => [] end in
  let c := digits_val 10 (map digit_val (l_int l ++ fr)) in
  Qmake (if l_neg l then - c else c) (Z.to_pos (10 ^ Z.of_nat (length fr))).

(** [Number(text)] (number.py:15-55 with a string numerator). *)
Definition number_of_lit (p : Z) (l : declit) : option number := num_make p None (decimal_of_lit l) 1.
