(** Model of [objects/units.py], [services/unitnormaliser.py] and [features/unitdefinitions/temperature.py].

    Simplifications, for this file:
    - Numbers are exact rationals: a value is a [Q], a power a [Z] (the code uses [Number] for both; a Number
      within the precision computes exactly, see C01, C06; fractional powers such as [m^0.5]
      are not modelled);
    - unit objects are compared by identity in the code; here by the field [uid];
    - in-place mutation of a power list becomes returning the new list (every modelled caller copies first). *)
From Coq Require Import ZArith QArith Qpower Ascii String List Bool Lia.
From Verif Require Import Base Bases.
Import ListNotations.
Open Scope Z_scope.

(** ** Power lists: [AbstractPower], [AbstractPowerList] (units.py:100-235) *)

(** [UnitPowerList] and [DimensionPowerList]: keys with their powers, in order. *)
Definition plist (K : Type) := list (K * Z).

(** [find] (units.py:190-194): the power of the first entry with this key. *)
Fixpoint pl_find {K} (eqb : K -> K -> bool) (k : K) (l : plist K) : option Z :=
  match l with
  | [] => None
  | (k', q) :: r => if eqb k' k then Some q else pl_find eqb k r
  end.

(** [add] (units.py:196-203).  A key not present is appended, whatever the power.  [_del] is
    [list.remove], which deletes the first equal entry: the entry just updated, since [find] returned the
    first one with that key. *)
Fixpoint pl_add {K} (eqb : K -> K -> bool) (k : K) (p : Z) (l : plist K) : plist K :=
  match l with
  | [] => [(k, p)]
  | (k', q) :: r =>
    if eqb k' k then (if q + p =? 0 then r else (k', q + p) :: r)
    else (k', q) :: pl_add eqb k p r
  end.

(** [remove] (units.py:205-206) *)
Definition pl_remove {K} (eqb : K -> K -> bool) (k : K) (p : Z) (l : plist K) : plist K := pl_add eqb k (- p) l.

(** [multiply] (units.py:211-212) *)
Definition pl_multiply {K} (p : Z) (l : plist K) : plist K := map (fun e => (fst e, snd e * p)) l.

(** [merge] (units.py:214-218) *)
Definition pl_merge {K} (eqb : K -> K -> bool) (a b : plist K) : plist K :=
  fold_left (fun l e => pl_add eqb (fst e) (snd e) l) b a.

(** [remove_zeros] (units.py:229-230) *)
Definition pl_remove_zeros {K} (l : plist K) : plist K := filter (fun e => negb (snd e =? 0)) l.

(** [check_empty] (units.py:232-235) *)
Definition pl_check_empty {K} (l : plist K) : option (plist K) := match l with [] => None | _ => Some l end.

(** [deduplicate] (units.py:220-227) walks the list it deletes from.  [obj.power += duplicate.power] changes
    the entry [obj] is (marked [true] below, wherever it now stands); [_del(duplicate)] deletes the first entry
    with the same key and the same power, which may be [obj] itself. *)
Fixpoint del_first {K} (eqb : K -> K -> bool) (k : K) (q : Z) (l : list (bool * (K * Z))) : list (bool * (K * Z)) :=
  match l with
  | [] => []
  | (b, (k', q')) :: r => if eqb k' k && (q' =? q) then r else (b, (k', q')) :: del_first eqb k q r
  end.
Definition set_obj {K} (q : Z) (l : list (bool * (K * Z))) : list (bool * (K * Z)) :=
  map (fun e : bool * (K * Z) => if fst e then (true, (fst (snd e), q)) else e) l.
Fixpoint dd_inner {K} (eqb : K -> K -> bool) (k : K) (cur : Z) (dups : list Z) (l : list (bool * (K * Z))) : list (bool * (K * Z)) :=
  match dups with
  | [] => l
  | q :: ds => dd_inner eqb k (cur + q) ds (del_first eqb k q (set_obj (cur + q) l))
  end.
Definition dd_step {K} (eqb : K -> K -> bool) (i : nat) (k : K) (q : Z) (l : plist K) : plist K :=
  let rest := skipn (S i) l in
  let dups := map snd (filter (fun e => eqb (fst e) k) rest) in
  let tagged := map (pair false) (firstn i l) ++ (true, (k, q)) :: map (pair false) rest in
  map snd (dd_inner eqb k q dups tagged).
(** The [for] loop over the live list: [i] goes up by one per iteration; it ends when the list has no entry [i].
    (The list only shrinks, so fuel equal to the initial length is never used up early: [dd_loop_fuel].) *)
Fixpoint dd_loop {K} (eqb : K -> K -> bool) (fuel i : nat) (l : plist K) : plist K :=
  match fuel with
  | O => l
  | S f => match nth_error l i with
           | None => l
           | Some (k, q) => dd_loop eqb f (S i) (dd_step eqb i k q l)
           end
  end.
Definition pl_dedup {K} (eqb : K -> K -> bool) (l : plist K) : plist K :=
  pl_remove_zeros (dd_loop eqb (length l) 0 l).

(** [str(Decimal)] of an integer. *)
Definition z_str (z : Z) : str := if z <? 0 then "-"%char :: dec_str (- z) else dec_str z.

(** [__str__] of an entry (units.py:122-123) and of a list (units.py:165-166): the texts, sorted, joined. *)
Definition entry_text (kt : str * Z) : str := fst kt ++ "^"%char :: z_str (snd kt).
(** Lexicographic order on strings, as python's [<=]. *)
Fixpoint str_le (a b : str) : bool :=
  match a, b with
  | [], _ => true
  | _ :: _, [] => false
  | x :: a', y :: b' => (code x <? code y) || ((code x =? code y) && str_le a' b')
  end.
Fixpoint sinsert (x : str) (l : list str) : list str :=
  match l with
  | [] => [x]
  | y :: r => if str_le x y then x :: l else y :: sinsert x r
  end.
Definition ssort (l : list str) : list str := fold_right sinsert [] l.
Fixpoint sjoin (d : str) (l : list str) : str :=
  match l with
  | [] => []
  | [x] => x
  | x :: r => x ++ d ++ sjoin d r
  end.
Definition pl_text (l : plist str) : str := sjoin ($", ") (ssort (map entry_text l)).
(** [__eq__] (units.py:156-157) *)
Definition pl_eqb (a b : plist str) : bool := seq_eqb (pl_text a) (pl_text b).

(** ** Units (units.py:7-97) *)

Inductive ukind := UScale | UCelsius | UFahrenheit.

(** [UnitDefinition]: the fields the modelled code reads.  [unames], [usyms] are [names()], [symbols()] with the
    prefix already prepended (units.py:42-54). *)
Record unit := mkUnit {
  uid : Z; unames : list str; usyms : list str; udim : str; uscale : Q; ukind_of : ukind; usystems : list str }.
Definition ueqb (a b : unit) : bool := uid a =? uid b.
(** [plural] (units.py:30-31); the empty text stands for the IndexError of a unit without names. *)
Definition plural (u : unit) : str := match unames u with [] => [] | n :: _ => n end.

Definition upl := plist unit.
Definition upl_text (l : upl) : str := pl_text (map (fun e => (plural (fst e), snd e)) l).
(** [UnitPowerList.__eq__] *)
Definition upl_eqb (a b : upl) : bool := seq_eqb (upl_text a) (upl_text b).

(** Celsius and Fahrenheit constants (temperature.py). *)
Definition q27315 : Q := 27315 # 100.
Definition q45967 : Q := 45967 # 100.

(** [convert] (units.py:90-91; temperature.py:45-52, 61-68).  [Py] is the plain [Exception] raised for an absolute
    conversion with another power, and for dividing by a zero scale. *)
Definition uconvert (u : unit) (num : Q) (power : Z) (relative : bool) : out Q :=
  match ukind_of u with
  | UScale => if Qeq_bool (uscale u) 0 then Py else Ok (num / Qpower (uscale u) power)%Q
  | UCelsius =>
    if relative then Ok num
    else if power =? -1 then Ok (num + q27315)%Q
    else if power =? 1 then Ok (num - q27315)%Q
    else Py
  | UFahrenheit =>
    if relative then Ok (num / Qpower (5 # 9) power)%Q
    else if power =? -1 then Ok ((num + q45967) * (5 # 9))%Q
    else if power =? 1 then Ok (num * (9 # 5) - q45967)%Q
    else Py
  end.

(** [UnitPowerList.convert] (units.py:355-358), [convertfrom], [convertto] (units.py:360-364). *)
Fixpoint lconvert (l : upl) (num : Q) (power : Z) (relative : bool) : out Q :=
  match l with
  | [] => Ok num
  | (u, q) :: r => do num <- uconvert u num (q * power) relative; lconvert r num power relative
  end.
Definition convertfrom (l : upl) (num : Q) (relative : bool) : out Q := lconvert l num (-1) relative.
Definition convertto (l : upl) (num : Q) (relative : bool) : out Q := lconvert l num 1 relative.

(** [addall], [removeall] (units.py:366-371) *)
Definition addall (l : upl) (units : upl) (power : Z) : upl :=
  fold_left (fun acc e => pl_add ueqb (fst e) (snd e * power) acc) units l.
Definition removeall (l : upl) (units : upl) (power : Z) : upl := addall l units (- power).
(** [UnitDefinition.list] (units.py:87-88) *)
Definition ulist (u : unit) : upl := [(u, 1)].
(** [addandconvert], [removeandconvert] (units.py:373-381) with a single unit. *)
Definition addandconvert (l : upl) (value : Q) (u : unit) (power : Z) (relative : bool) : out (Q * upl) :=
  do v <- uconvert u value power relative; Ok (v, addall l (ulist u) power).
Definition removeandconvert (l : upl) (value : Q) (u : unit) (power : Z) (relative : bool) : out (Q * upl) :=
  do v <- uconvert u value (- power) relative; Ok (v, removeall l (ulist u) power).
(** [power] (units.py:383-384) *)
Definition upower (l : upl) (p : Z) : option upl := pl_check_empty (pl_remove_zeros (pl_multiply p l)).
(** [UnitPowerList.new] (units.py:253-259) *)
Definition upl_new (l : list (upl * Z)) : option upl :=
  pl_check_empty (fold_left (fun acc e => addall acc (fst e) (snd e)) l []).

(** ** The normaliser (unitnormaliser.py) *)

Definition dlist := plist str.
(** [relationships]: derived dimension to base dimensions (unitnormaliser.py:39-43). *)
Definition rels := list (str * dlist).

(** [normalised_dimension] (371-374) *)
Fixpoint norm_dim (rel : rels) (d : str) : dlist :=
  match rel with
  | [] => [(d, 1)]
  | (d', l) :: r => if seq_eqb d' d then l else norm_dim r d
  end.

(** [get_subunit_list] (368-369): each unit with its power and dimensions. *)
Definition subunits (rel : rels) (l : upl) : list (unit * Z * dlist) :=
  map (fun e => (fst e, snd e, norm_dim rel (udim (fst e)))) l.

(** [unit_normalised_dimensionlist] (365-366) *)
Definition expand_dims (rel : rels) (l : upl) : dlist :=
  flat_map (fun s : unit * Z * dlist => map (fun e => (fst e, snd e * snd (fst s))) (snd s)) (subunits rel l).
Definition unit_dims (rel : rels) (l : upl) : dlist := pl_dedup seq_eqb (expand_dims rel l).

(** [unit_conversion] (119-133).  [None] is python's [None]; [Calc] the CalculatorExceptions. *)
Definition unit_conversion (rel : rels) (num : Q) (from to : option upl) (relative : bool) : out (Q * option upl) :=
  let same := match from, to with
              | None, None => true
              | Some a, Some b => upl_eqb a b
              | _, _ => false
              end in
  if same then Ok (num, from)
  else match from, to with
       | None, _ => Calc
       | _, None => Calc
       | Some a, Some b =>
         if pl_eqb (unit_dims rel a) (unit_dims rel b)
         then do x <- convertfrom a num relative; do y <- convertto b x relative; Ok (y, to)
         else Calc
       end.

(** ** [find_units_matching_dimensions] (304-363) *)

(** [dimensionlist_map] (314-317): the distinct dimensions, in order of first appearance. *)
Fixpoint dim_index (d : str) (m : list str) : option nat :=
  match m with
  | [] => None
  | x :: r => if seq_eqb x d then Some O else option_map S (dim_index d r)
  end.
Definition dim_map (ds : list str) : list str :=
  fold_left (fun m d => match dim_index d m with Some _ => m | None => m ++ [d] end) ds [].

Fixpoint vupd (f : Z -> Z) (i : nat) (v : list Z) : list Z :=
  match v, i with
  | [], _ => []
  | x :: r, O => f x :: r
  | x :: r, S i' => x :: vupd f i' r
  end.
Definition vupd_dim (m : list str) (d : str) (f : Z -> Z) (v : list Z) : list Z :=
  match dim_index d m with Some i => vupd f i v | None => v end.

(** A goal vector (319-323): later entries overwrite earlier ones. *)
Definition goal_vec (m : list str) (dl : dlist) : list Z :=
  fold_left (fun v e => vupd_dim m (fst e) (fun _ => snd e) v) dl (repeat 0 (length m)).

(** The vector of the current counter (340-344). *)
Definition this_vec (m : list str) (units : list (unit * Z * dlist)) (counter : list Z) : list Z :=
  fold_left (fun v sn => fold_left (fun v e => vupd_dim m (fst e) (fun x => x + snd sn * snd e) v) (snd (fst sn)) v)
            (combine units counter) (repeat 0 (length m)).

(** [returnlist] (348-351) *)
Definition found_units (units : list (unit * Z * dlist)) (counter : list Z) : upl :=
  filter (fun e => negb (snd e =? 0)) (map (fun sn => (fst (fst (fst sn)), snd sn)) (combine units counter)).

Definition vec_eqb (a b : list Z) : bool := (length a =? length b)%nat && forallb (fun xy => fst xy =? snd xy) (combine a b).

(** One counter increment with its carry loop (354-361), on the positions from last to first; each position is
    (current, minimum, maximum).  [None]: [stop]. *)
Fixpoint odo (l : list (Z * Z * Z)) (inc : Z) : option (list (Z * Z * Z)) :=
  match l with
  | [] => Some []
  | (c, mn, mx) :: r =>
    let c := c + inc in
    if mx <? c then match r with [] => None | _ => option_map (cons (mn, mn, mx)) (odo r 1) end
    else option_map (cons (c, mn, mx)) (odo r 0)
  end.

(** Range of a unit's counter (327-333). *)
Definition crange (p : Z) : Z * Z := if p <? 0 then (p, 0) else (0, p).

(** The [while] loop (338-361); the counter is kept last position first.  The result is the list of counters
    visited, in order; [None] if the fuel ran out. *)
Fixpoint odo_run (fuel : nat) (l : list (Z * Z * Z)) : option (list (list Z)) :=
  match fuel with
  | O => None
  | S f => option_map (cons (rev (map (fun c => fst (fst c)) l)))
             (match odo l 1 with None => Some [] | Some l' => odo_run f l' end)
  end.
(** Enough steps for every combination. *)
Definition odo_fuel (powers : list Z) : nat := Z.to_nat (fold_right (fun p a => (Z.abs p + 1) * a) 1 powers).
Definition counters (units : list (unit * Z * dlist)) : option (list (list Z)) :=
  let powers := map (fun s => snd (fst s)) units in
  odo_run (odo_fuel powers) (rev (map (fun p => let '(mn, mx) := crange p in (mn, mn, mx)) powers)).

(** The whole search.  [Py] only if the loop ran out of fuel (excluded by [find_units_total]).  With an empty unit
    list the early return is taken. *)
Definition find_units (goals : list dlist) (units : list (unit * Z * dlist)) : out (list (list upl)) :=
  let udims := map fst (flat_map snd units) in
  let gdims := map fst (concat goals) in
  if existsb (fun d => existsb (seq_eqb d) udims) gdims
  then
    let m := dim_map (gdims ++ udims) in
    match counters units with
    | None => Py
    | Some cs =>
      Ok (map (fun g => map (found_units units) (filter (fun c => vec_eqb (goal_vec m g) (this_vec m units c)) cs)) goals)
    end
  else Ok (map (fun _ => []) goals).

(** ** Normalising operands of a multiplication (141-192) *)

(** [get_units_by_dimension] (376-380): a dict keyed by dimension list; the value of a repeated key is replaced,
    its place kept. *)
Fixpoint dict_set (k : dlist) (u : unit) (d : list (dlist * unit)) : list (dlist * unit) :=
  match d with
  | [] => [(k, u)]
  | (k', u') :: r => if pl_eqb k' k then (k', u) :: r else (k', u') :: dict_set k u r
  end.
Definition units_by_dim (rel : rels) (l : upl) : list (dlist * unit) :=
  fold_left (fun d e => dict_set (norm_dim rel (udim (fst e))) (fst e) d) l [].

(** The [for remove in unitsfound] / [for add in unitsfound] loops. *)
Fixpoint remove_list (found : upl) (v : Q) (l : upl) (relative : bool) : out (Q * upl) :=
  match found with
  | [] => Ok (v, l)
  | (u, q) :: r => do vl <- removeandconvert l v u q relative; remove_list r (fst vl) (snd vl) relative
  end.
Fixpoint add_list (found : upl) (power : Z) (v : Q) (l : upl) (relative : bool) : out (Q * upl) :=
  match found with
  | [] => Ok (v, l)
  | (u, q) :: r => do vl <- addandconvert l v u (q * Z.abs power) relative; add_list r power (fst vl) (snd vl) relative
  end.

(** The units of [unit2] that are not units of [unit1] (166, 173). *)
Definition other_units (rel : rels) (known : list unit) (l : upl) : list (unit * Z * dlist) :=
  filter (fun s => negb (existsb (ueqb (fst (fst s))) known)) (subunits rel l).

(** The [while] loop (168-174); [Calc] is never produced by it, [Py] stands also for running out of fuel. *)
Fixpoint left_loop (fuel : nat) (rel : rels) (known : list unit) (u : unit) (dims : dlist) (power : Z)
                   (v : Q) (l : upl) (relative : bool) : out (Q * upl) :=
  do found <- find_units [dims] (other_units rel known l);
  match found with
  | (f :: _) :: _ =>
    match fuel with
    | O => Py
    | S fuel' =>
      do vl <- addandconvert l v u power relative;
      do vl <- remove_list f (fst vl) (snd vl) relative;
      left_loop fuel' rel known u dims power (fst vl) (snd vl) relative
    end
  | _ => Ok (v, l)
  end.
(** Total of the absolute powers of the units not known: each round lowers it. *)
Definition weight (l : list (unit * Z * dlist)) : nat := Z.to_nat (fold_right (fun s a => Z.abs (snd (fst s)) + a) 0 l).

Fixpoint powers_loop (rel : rels) (known : list unit) (u : unit) (dl : dlist) (powers : list Z)
                     (v : Q) (l : upl) (relative : bool) : out (Q * upl) :=
  match powers with
  | [] => Ok (v, l)
  | p :: ps =>
    do vl <- left_loop (weight (other_units rel known l)) rel known u (pl_multiply p dl) p v l relative;
    powers_loop rel known u dl ps (fst vl) (snd vl) relative
  end.
Fixpoint left_units (rel : rels) (known : list unit) (todo : list (dlist * unit)) (v : Q) (l : upl) (relative : bool) : out (Q * upl) :=
  match todo with
  | [] => Ok (v, l)
  | (dl, u) :: r =>
    do vl <- powers_loop rel known u dl [1; -1] v l relative;
    left_units rel known r (fst vl) (snd vl) relative
  end.
(** [normalise_from_left] (160-176): the second value and unit list, the first are unchanged. *)
Definition normalise_from_left (rel : rels) (unit1 : upl) (v2 : Q) (unit2 : upl) (relative : bool) : out (Q * upl) :=
  let ud := units_by_dim rel unit1 in
  left_units rel (map snd ud) ud v2 unit2 relative.

(** [normalise_from_right] (178-192) *)
Fixpoint right_powers (rel : rels) (unitlist1 : list (unit * Z * dlist)) (u : unit) (dl : dlist) (powers : list Z)
                      (v : Q) (l : upl) (relative : bool) : out (Q * upl) :=
  match powers with
  | [] => Ok (v, l)
  | p :: ps =>
    do found <- find_units [pl_multiply p dl] unitlist1;
    do vl <- match found with
             | (f :: _) :: _ =>
               do vl <- removeandconvert l v u p relative; add_list f p (fst vl) (snd vl) relative
             | _ => Ok (v, l)
             end;
    right_powers rel unitlist1 u dl ps (fst vl) (snd vl) relative
  end.
Fixpoint right_units (rel : rels) (unitlist1 : list (unit * Z * dlist)) (todo : list (dlist * unit)) (v : Q) (l : upl) (relative : bool) : out (Q * upl) :=
  match todo with
  | [] => Ok (v, l)
  | (dl, u) :: r =>
    do vl <- right_powers rel unitlist1 u dl [1; -1] v l relative;
    right_units rel unitlist1 r (fst vl) (snd vl) relative
  end.
Definition normalise_from_right (rel : rels) (unit1 : upl) (v2 : Q) (unit2 : upl) (relative : bool) : out (Q * upl) :=
  right_units rel (subunits rel unit1) (units_by_dim rel unit2) v2 unit2 relative.

(** ** [dedupe] (265-296) *)

(** The dict of dimensions to positions (268-272). *)
Fixpoint group_add (d : str) (i : nat) (g : list (str * list nat)) : list (str * list nat) :=
  match g with
  | [] => [(d, [i])]
  | (d', is) :: r => if seq_eqb d' d then (d', is ++ [i]) :: r else (d', is) :: group_add d i r
  end.
Definition group_dims (l : upl) : list (str * list nat) :=
  fold_left (fun g ie => group_add (udim (fst (snd ie))) (fst ie) g) (combine (seq 0 (length l)) l) [].

(** [for i in units_i] with a replacement unit (281-286). [Py]: IndexError. *)
Fixpoint replace_loop (idx : list nat) (ru : unit) (v : Q) (l : upl) : out (Q * upl) :=
  match idx with
  | [] => Ok (v, l)
  | i :: r =>
    match nth_error l i with
    | None => Py
    | Some (u, q) =>
      if ueqb u ru then replace_loop r ru v l
      else do vl <- removeandconvert l v u q false;
           do vl <- addandconvert (snd vl) (fst vl) ru q false;
           replace_loop r ru (fst vl) (snd vl)
    end
  end.
Fixpoint get_all (idx : list nat) (l : upl) : out upl :=
  match idx with
  | [] => Ok []
  | i :: r => match nth_error l i with None => Py | Some e => do x <- get_all r l; Ok (e :: x) end
  end.
Fixpoint dedupe_loop (groups : list (str * list nat)) (v : Q) (l : upl) : out (Q * upl) :=
  match groups with
  | [] => Ok (v, l)
  | (_, idx) :: r =>
    do vl <- (if (1 <? length idx)%nat
              then do es <- get_all idx l;
                   if negb (fold_left (fun a e => a + snd e) es 0 =? 0)
                   then match l with
                        | [] => Py
                        | (ru, _) :: _ => replace_loop idx ru v l
                        end
                   else remove_list es v l false
              else Ok (v, l));
    dedupe_loop r (fst vl) (snd vl)
  end.
Definition dedupe (v : Q) (l : upl) : out (Q * upl) :=
  if (1 <? length l)%nat then dedupe_loop (group_dims l) v l else Ok (v, l).

(** ** Unit names (63-68, 90-98, 109-117; units.py:23-24, 57-68) *)

(** [AmbiguousUnitDefinition]: names, symbols and the dict from system to unit. *)
Record ambig := mkAmbig { anames : list str; asyms : list str; aunits : list (str * unit) }.

Definition mem_str (x : str) (l : list str) : bool := existsb (seq_eqb x) l.
Fixpoint assoc {A} (k : str) (l : list (str * A)) : option A :=
  match l with
  | [] => None
  | (k', v) :: r => if seq_eqb k' k then Some v else assoc k r
  end.

(** [add_unit] (units.py:63-68): [None] is the exception for a second unit of one system. *)
Definition ambig_add (a : ambig) (u : unit) : option ambig :=
  fold_left (fun acc s =>
    match acc with
    | None => None
    | Some a => match assoc s (aunits a) with
                | Some _ => None
                | None => Some (mkAmbig (anames a) (asyms a) (aunits a ++ [(s, u)]))
                end
    end) (usystems u) (Some a).

(** [isunit] (units.py:23-24) *)
Definition isunit (names syms : list str) (name : str) : bool :=
  mem_str (lower name) (map lower names) || mem_str name syms.

(** [get_preferred_system] (109-113) *)
Fixpoint preferred_system (prefs systems : list str) : option str :=
  match prefs with
  | [] => None
  | s :: r => if mem_str s systems then Some s else preferred_system r systems
  end.
(** [get_preferred_unit] (115-117); [Py]: KeyError. *)
Definition preferred_unit (prefs : list str) (a : ambig) : out unit :=
  match preferred_system prefs (map fst (aunits a)) with
  | None => Py
  | Some s => match assoc s (aunits a) with Some u => Ok u | None => Py end
  end.

(** [unitnames] and [unitsymbols] (26-29, 52-59): a name is bound to the unit or ambiguous unit added last. *)
Inductive udef := UDef (u : unit) | UAmb (a : ambig).
Fixpoint dset {A} (k : str) (v : A) (l : list (str * A)) : list (str * A) :=
  match l with
  | [] => [(k, v)]
  | (k', v') :: r => if seq_eqb k' k then (k', v) :: r else (k', v') :: dset k v r
  end.
Record unitreg := mkReg { ambigs : list ambig; rnames : list (str * udef); rsyms : list (str * udef) }.
Definition reg_names (names syms : list str) (d : udef) (r : unitreg) : unitreg :=
  mkReg (ambigs r) (fold_left (fun t n => dset (lower n) d t) names (rnames r))
                   (fold_left (fun t s => dset s d t) syms (rsyms r)).
(** [add_unit] (45-59) *)
Definition reg_add_unit (u : unit) (r : unitreg) : unitreg := reg_names (unames u) (usyms u) (UDef u) r.

(** [get_unit] (90-98): ambiguous units first, then lower-case names, then symbols.  [Ok None]: not found. *)
Fixpoint find_ambig (name : str) (l : list ambig) : option ambig :=
  match l with
  | [] => None
  | a :: r => if isunit (anames a) (asyms a) name then Some a else find_ambig name r
  end.
Definition get_unit (prefs : list str) (r : unitreg) (name : str) : out (option udef) :=
  match find_ambig name (ambigs r) with
  | Some a => do u <- preferred_unit prefs a; Ok (Some (UDef u))
  | None =>
    match assoc (lower name) (rnames r) with
    | Some d => Ok (Some d)
    | None => Ok (assoc name (rsyms r))
    end
  end.
(** [add_ambiguous_unit] (71-82) *)
Fixpoint ambig_fill (prefs : list str) (r : unitreg) (names : list str) (a : ambig) : out ambig :=
  match names with
  | [] => Ok a
  | n :: ns =>
    do d <- get_unit prefs r n;
    match d with
    | Some (UDef u) => match ambig_add a u with Some a' => ambig_fill prefs r ns a' | None => Py end
    | _ => Py
    end
  end.
Definition reg_add_ambiguous (prefs : list str) (a : ambig) (names : list str) (r : unitreg) : out unitreg :=
  do a' <- ambig_fill prefs r names a;
  Ok (reg_names (anames a) (asyms a) (UAmb a') (mkReg (ambigs r ++ [a']) (rnames r) (rsyms r))).
