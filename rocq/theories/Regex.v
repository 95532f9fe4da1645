(** Regular expressions (features/strings/regex.py).

    Python's [re] module itself is not part of the repository.  It is a parameter [R : relib], a record of functions
    about which nothing is assumed here; the theorems say what they need of it ([engine_ok] in RegexSpec.v), and
    RegexRun.v has an engine that meets it.  What [re.findall], [re.split], [re.sub] and [re.subn] do with the engine, the
    loop over the matches, is written out here after CPython (Modules/_sre/sre.c: pattern_findall, pattern_split,
    pattern_subx; since version 3.7 all three go on in the same way after an empty match). *)
From Coq Require Import ZArith QArith Ascii String List Bool.
From Verif Require Import Base Dec Num Lex Bases Formats Syntax Pos Call Loop Parse Exec Std.
Import ListNotations.
Open Scope nat_scope.

(** A match: from where to where, and the texts of the groups (None for one that took no part) *)
Record rmatch := mkMatch { m_from : nat; m_to : nat; m_groups : list (option str) }.
(** A compiled pattern looks, in the whole text, for the first match that starts at a place or later; with [true] it must
    not be the empty one at that very place ([state.must_advance]). *)
Definition matcher := str -> nat -> bool -> option rmatch.
(** [re_compile p]: None is the exception [re.error].  [re_template p t]: the replacement [t] made ready for the pattern
    ([sre_parse.parse_template]), then used for every match. *)
Record relib := mkRe { re_compile : str -> option matcher; re_template : str -> str -> option (str -> rmatch -> str) }.

(** The loop over the matches.  After a match the search goes on where it ended, and if it was empty then not with an empty
    one at that place.  [n] bounds the number of rounds; c67_found shows that [scan_fuel] is enough. *)
Fixpoint scan (m : matcher) (s : str) (n from : nat) (adv : bool) : option (list rmatch) :=
  match n with
  | O => None
  | S n' =>
    match m s from adv with
    | None => Some []
    | Some r => match scan m s n' (m_to r) (m_to r =? m_from r) with Some l => Some (r :: l) | None => None end
    end
  end.
Definition scan_fuel (s : str) : nat := 2 * length s + 2.
Definition scan_all (m : matcher) (s : str) : M (list rmatch) :=
  match scan m s (scan_fuel s) 0 false with Some l => ret l | None => fun st => (OFuel, st) end.
(** [string[i:j]] for [0 <= i] *)
Definition slice (s : str) (i j : nat) : str := firstn (j - i) (skipn i s).
(** What findall gives for a match: its text, or the text of the only group ([''] if that took no part), or else the tuple
    of the groups. *)
Definition group_text (g : option str) : str := match g with Some t => t | None => [] end.
Definition found_of (s : str) (r : rmatch) : list str :=
  match m_groups r with
  | [] => [slice s (m_from r) (m_to r)]
  | gs => map group_text gs
  end.
Definition findall (R : relib) (p s : str) : M (list (list str)) :=
  let* m := pym (re_compile R p) in let* l := scan_all m s in ret (map (found_of s) l).
(** The pieces between the matches, with the groups of the matches between them *)
Fixpoint split_from (s : str) (i : nat) (l : list rmatch) : list (option str) :=
  match l with
  | [] => [Some (slice s i (length s))]
  | r :: l' => Some (slice s i (m_from r)) :: m_groups r ++ split_from s (m_to r) l'
  end.
Definition resplit (R : relib) (p s : str) : M (list (option str)) :=
  let* m := pym (re_compile R p) in let* l := scan_all m s in ret (split_from s 0 l).
Fixpoint sub_from (f : rmatch -> str) (s : str) (i : nat) (l : list rmatch) : str :=
  match l with
  | [] => slice s i (length s)
  | r :: l' => slice s i (m_from r) ++ f r ++ sub_from f s (m_to r) l'
  end.
(** [while (!count || n < count)]: 0 is no limit, a negative count allows nothing *)
Definition limit (count : Z) (l : list rmatch) : list rmatch :=
  if (count =? 0)%Z then l else firstn (Z.to_nat count) l.
(** The count must be a machine integer ([Py_ssize_t], 64 bits), or there is an OverflowError, before anything else. *)
Definition resub (R : relib) (p t s : str) (count : Z) : M str :=
  let* m := pym (re_compile R p) in
  if (Z.leb (- 2 ^ 63) count && Z.ltb count (2 ^ 63))%bool then
    let* f := pym (re_template R p t) in let* l := scan_all m s in ret (sub_from (f s) s 0 (limit count l))
  else pyerr.

(** * The operations (91-121) *)
(** [op_regex], [op_regexnot] (91-95): vals[1] is the pattern *)
Definition op_regex (L : lib) (R : relib) (neg : bool) : impl := fun _ vs _ _ _ =>
  match vs with
  | [v; w] =>
    let* p := lift (string_of L w) in let* s := lift (string_of L v) in
    let* m := pym (re_compile R p) in
    just (VBool (match m s 0 false with Some _ => negb neg | None => neg end))
  | _ => pyerr
  end.
(** A tuple, found with two groups or more, is no value of the model: there it is a python error.  In python the tuple
    becomes the value. *)
Definition found_value (f : list str) : option value := match f with [t] => Some (VStr t) | _ => None end.
Fixpoint all_found (l : list (list str)) : option (list value) :=
  match l with
  | [] => Some []
  | f :: r => match found_value f, all_found r with Some v, Some vs => Some (v :: vs) | _, _ => None end
  end.
Definition bare (v : value) : result := mkRes v None None.
(** [func_regexget] (97-103) *)
Definition fn_regexget (L : lib) (R : relib) : impl := fun _ vs _ _ _ =>
  match vs with
  | v :: w :: rest =>
    let* p := lift (string_of L w) in let* s := lift (string_of L v) in
    let* found := findall R p s in
    match rest with
    | [] => let* l := pym (all_found found) in just (VList (map bare l))
    | [VNum n] => let* f := pym (py_index found (num_int (l_prec L) n - 1)) in let* x := pym (found_value f) in just x
    | _ => pyerr
    end
  | _ => pyerr
  end.
(** [func_regexsplit] (105-108) *)
Definition piece_value (x : option str) : value := match x with Some t => VStr t | None => VNone end.
Definition fn_regexsplit (L : lib) (R : relib) : impl := fun _ vs _ _ _ =>
  match vs with
  | [v; w] =>
    let* p := lift (string_of L w) in let* s := lift (string_of L v) in
    let* l := resplit R p s in just (VList (map (fun x => bare (piece_value x)) l))
  | _ => pyerr
  end.
(** [func_regexsub] (110-116) *)
Definition fn_regexsub (L : lib) (R : relib) : impl := fun _ vs _ _ _ =>
  match vs with
  | v :: w :: u :: rest =>
    let* p := lift (string_of L w) in let* t := lift (string_of L u) in let* s := lift (string_of L v) in
    match rest with
    | [VNum n] => let* r := resub R p t s (num_int (l_prec L) n) in just (VStr r)
    | [] => let* r := resub R p t s 0 in just (VStr r)
    | _ => pyerr
    end
  | _ => pyerr
  end.
(** [func_regexcount] (118-119) *)
Definition fn_regexcount (L : lib) (R : relib) : impl := fun _ vs _ _ _ =>
  match vs with
  | [v; w] =>
    let* p := lift (string_of L w) in let* s := lift (string_of L v) in
    let* found := findall R p s in just (VNum (num_of_Z (l_prec L) (Z.of_nat (length found))))
  | _ => pyerr
  end.

(** * The calculator with them (install: 30-89): the operators bind as in layout.py:41, after [not] and [~] *)
Definition regex_level (L : lib) (R : relib) : level :=
  [op2 L ($"=~") tystr (op_regex L R false); op2 L ($"!~") tystr (op_regex L R true)].
Definition regex_table (L : lib) (R : relib) : optable :=
  let T := std_table L in
  mkTab (firstn 2 (std_levels L) ++ regex_level L R :: skipn 2 (std_levels L)) (t_uassign T) (t_umul T) (t_udiv T) (t_div T) (t_imul T).
Definition regex_funcs (L : lib) (R : relib) : list (str * opdef) :=
  std_funcs L ++
  [ fdef ($"regexget") 2 3 [mkRestr 0 (Some 1) [tystr]; mkRestr 2 (Some 2) [tynum]] (fn_regexget L R);
    fdef ($"regexsplit") 2 2 (all_are tystr) (fn_regexsplit L R);
    fdef ($"regexsub") 3 4 [mkRestr 0 (Some 2) [tystr]; mkRestr 3 (Some 3) [tynum]] (fn_regexsub L R);
    fdef ($"regexcount") 2 2 [mkRestr 0 (Some 1) [tystr]] (fn_regexcount L R) ].
Definition regex_parsers (L : lib) (R : relib) : list parser :=
  map (fun p => match p with PFunc _ => PFunc (map fst (regex_funcs L R)) | p => p end) (std_parsers L).
Definition with_regex (L : lib) (R : relib) : ecfg :=
  mkG (l_prec L) (std_env L) (mkPC (regex_parsers L R) (regex_table L R) std_arr true) (regex_funcs L R)
      true false (fun _ => None) (fun _ => Calc) Ok.
