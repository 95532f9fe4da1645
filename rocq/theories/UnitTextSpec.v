(** What the theorem about texts of quantities is stated with. *)
From Coq Require Import ZArith QArith Ascii String List Bool.
From Verif Require Import Base Num Lex LexSpec Bases Units UnitsSpec UnitReg Syntax UnitCalc UnitCalcSpec NameSpec TextSpec VarNameSpec ArithTextSpec.
Import ListNotations.
Open Scope nat_scope.

(** * Texts *)
(** A number of a unit: numeral, blanks, name *)
Definition quantity_text (t : str) (q : declit * str) : Prop :=
  exists b, t = lit_text (fst q) ++ b ++ snd q /\ lit_ok (fst q) /\ blank_text b /\ b <> [].
(** What may follow the first quantity: [+] or [-], blanks, another one; at the end, perhaps, [to] and the name of a unit *)
Definition sign_char (minus : bool) : ascii := if minus then "-"%char else "+"%char.
Inductive sum_rest : str -> list (bool * (declit * str)) -> option str -> Prop :=
| sum_none b : blank_text b -> sum_rest b [] None
| sum_to b1 b2 n b3 : blank_text b1 -> b1 <> [] -> blank_text b2 -> b2 <> [] -> blank_text b3 -> sum_rest (b1 ++ $"to" ++ b2 ++ n ++ b3) [] (Some n)
| sum_more b1 m b2 t q r qs tgt : blank_text b1 -> blank_text b2 -> b2 <> [] -> quantity_text t q -> sum_rest r qs tgt ->
    sum_rest (b1 ++ [sign_char m] ++ b2 ++ t ++ r) ((m, q) :: qs) tgt.
Definition sum_text (text : str) (q : declit * str) (qs : list (bool * (declit * str))) (tgt : option str) : Prop :=
  exists b t r, text = b ++ t ++ r /\ blank_text b /\ quantity_text t q /\ sum_rest r qs tgt.

(** * Names *)
(** A word of letters that is nothing else to the calculator *)
Definition more_constants : list str := map list_ascii_of_string ["G"; "earthgravity"; "speedoflight"; "Planck"]%string.
Definition unit_word (n : str) : Prop :=
  n <> [] /\ Forall letter n /\ ~ In n operator_words /\ n <> $"to" /\ ~ caseless n ($"true") /\ ~ caseless n ($"false") /\ ~ In n constant_names /\ ~ In n more_constants.
(** The name of a unit of [us] *)
Definition unit_for (U : ucfg) (us : list unit) (n : str) (u : unit) : Prop :=
  unit_word n /\ get_unit (n_prefs (u_norm U)) (n_reg (u_norm U)) n = Ok (Some (UDef u)) /\ unit_here (u_norm U) (u_syms U) n (length n) /\ In u us.
(** No name or symbol of a unit ends with a blank, has a [+] or [-] in it with nothing or a blank after it, or the word
    [to] after a blank *)
Definition goes_on (r : str) : Prop := exists c x, r = c :: x /\ is_space c = false.
Definition key_apart (k : str) : Prop :=
  (forall a c, k = a ++ [c] -> is_space c = false) /\ (forall a m r, k = a ++ sign_char m :: r -> goes_on r) /\
  (forall a c r, k = a ++ c :: $"to" ++ r -> is_space c = true -> goes_on r).
Definition keys_apart (N : normaliser) : Prop :=
  (forall k d, In (k, d) (rnames (n_reg N)) -> key_apart k) /\ (forall k d, In (k, d) (rsyms (n_reg N)) -> key_apart k).

(** * Values *)
(** A number with its unit is worth number times size of the unit.  The sums of the first, the first two, ... of them: *)
Definition amount (l : declit) (u : unit) : Q := (spec_val l * uscale u)%Q.
Fixpoint sums_along (sum : Q) (qs : list (bool * declit * unit)) : list Q :=
  sum :: match qs with
         | [] => []
         | (m, l, u) :: r => sums_along (if m : bool then sum - amount l u else sum + amount l u)%Q r
         end.
Fixpoint total (sum : Q) (qs : list (bool * declit * unit)) : Q :=
  match qs with
  | [] => sum
  | (m, l, u) :: r => total (if m : bool then sum - amount l u else sum + amount l u)%Q r
  end.
(** The numerals, the numerals converted to the unit of the first, and the sums in that unit, have at most [k] digits above
    and below the fraction bar, and the numerals no more decimals than the calculator's precision [p]. *)
Definition lit_fits (p k : Z) (l : declit) : Prop :=
  has_digits k (spec_val l) /\ match l_frac l with Some f => (Z.of_nat (length f) <= p)%Z | None => True end.
Definition digits_stay (p k : Z) (l0 : declit) (u0 : unit) (qs : list (bool * declit * unit)) : Prop :=
  lit_fits p k l0 /\
  Forall (fun x => let '(_, l, u) := x in lit_fits p k l /\ has_digits k (spec_val l * uscale u / uscale u0)%Q) qs /\
  Forall (fun s => has_digits k (s / uscale u0)%Q) (sums_along (amount l0 u0) qs).
(** The quantities of a text, with the units their names stand for *)
Definition with_unit (unit_at : str -> unit) (x : bool * (declit * str)) : bool * declit * unit := (fst x, fst (snd x), unit_at (snd (snd x))).
