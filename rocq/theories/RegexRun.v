(** A small engine of regular expressions, by backtracking, for the examples: characters, [.], [\d], [\w], classes like
    [[a-z]], groups, [*], [+], [?], [{3}], [|], [^] and [$], and in replacements [\1] to [\9].  It shows that there are engines as the theorems ask for. *)
From Coq Require Import ZArith QArith Ascii String List Bool.
From Verif Require Import Base Dec Num Lex Bases Formats Syntax Pos Call Loop Parse Exec Std StdRun Regex.
Import ListNotations.
Open Scope nat_scope.

Inductive rx := REps | RBegin | REnd | RChr (p : ascii -> bool) | RSeq (a b : rx) | RAlt (a b : rx) | RStar (a : rx) | RGrp (a : rx).
Fixpoint n_groups (r : rx) : nat :=
  match r with
  | REps => 0 | RBegin => 0 | REnd => 0 | RChr _ => 0 | RSeq a b => n_groups a + n_groups b | RAlt a b => n_groups a + n_groups b
  | RStar a => n_groups a | RGrp a => S (n_groups a)
  end.
Definition nones (r : rx) : list (option str) := repeat None (n_groups r).
(** How many characters of the beginning of the text can be matched, the preferred way first, and the groups then; [at0]
    says that the text has not been cut *)
Definition ways := list (nat * list (option str)).
(** [*]: one more round if it takes something, else none; [n] is the length of what is left *)
Fixpoint star (body : bool -> str -> ways) (none : list (option str)) (n : nat) (at0 : bool) (s : str) : ways :=
  match n with
  | O => [(0, none)]
  | S n' =>
    flat_map (fun w : nat * list (option str) =>
      if fst w =? 0 then [] else
      map (fun v : nat * list (option str) => (fst w + fst v, if fst v =? 0 then snd w else snd v)) (star body none n' false (skipn (fst w) s))) (body at0 s)
    ++ [(0, none)]
  end.
Fixpoint begins (r : rx) (at0 : bool) (s : str) : ways :=
  match r with
  | REps => [(0, [])]
  | RBegin => if at0 then [(0, [])] else []
  | REnd => match s with [] => [(0, [])] | [c] => if ceq c newline then [(0, [])] else [] | _ => [] end
  | RChr p => match s with c :: _ => if p c then [(1, [])] else [] | [] => [] end
  | RSeq a b => flat_map (fun w => map (fun v => (fst w + fst v, snd w ++ snd v)) (begins b (at0 && (fst w =? 0)) (skipn (fst w) s))) (begins a at0 s)
  | RAlt a b => map (fun w => (fst w, snd w ++ nones b)) (begins a at0 s) ++ map (fun w => (fst w, nones a ++ snd w)) (begins b at0 s)
  | RStar a => star (begins a) (nones a) (length s) at0 s
  | RGrp a => map (fun w => (fst w, Some (firstn (fst w) s) :: snd w)) (begins a at0 s)
  end.
(** The first place with a match; [rest] is the text from the place [k] on.  A way longer than the rest, of which there are
    none, is left out, which spares a proof. *)
Fixpoint look (r : rx) (rest : str) (k : nat) (adv : bool) : option rmatch :=
  match find (fun w => (fst w <=? length rest) && (negb adv || (0 <? fst w))) (begins r (k =? 0) rest) with
  | Some w => Some (mkMatch k (k + fst w) (snd w))
  | None => match rest with [] => None | _ :: t => look r t (S k) false end
  end.

(** * Patterns *)
Definition digit_in (lo hi c : ascii) : bool := (code lo <=? code c)%Z && (code c <=? code hi)%Z.
Fixpoint class_of (s : str) : option ((ascii -> bool) * str) :=
  match s with
  | [] => None
  | c :: t =>
    if ceq c "]"%char then Some ((fun _ => false), t)
    else match t with
         | d :: e :: t' =>
           if ceq d "-"%char then
             match class_of t' with Some (p, r) => Some ((fun x => digit_in c e x || p x), r) | None => None end
           else match class_of t with Some (p, r) => Some ((fun x => ceq x c || p x), r) | None => None end
         | _ => match class_of t with Some (p, r) => Some ((fun x => ceq x c || p x), r) | None => None end
         end
  end.
Definition special (c : ascii) : bool := existsb (ceq c) ($"*+?|()[]\{}^$").
Fixpoint times (a : rx) (n : nat) : rx := match n with O => a | S n' => RSeq a (times a n') end.
Fixpoint p_alt (n : nat) (s : str) : option (rx * str) :=
  match n with
  | O => None
  | S n' =>
    match p_seq n' s with
    | Some (a, t) => match t with
                     | c :: t' => if ceq c "|"%char then match p_alt n' t' with Some (b, u) => Some (RAlt a b, u) | None => None end else Some (a, t)
                     | [] => Some (a, [])
                     end
    | None => None
    end
  end
with p_seq (n : nat) (s : str) : option (rx * str) :=
  match n with
  | O => None
  | S n' =>
    match s with
    | [] => Some (REps, [])
    | c :: t =>
      if ceq c "|"%char || ceq c ")"%char then Some (REps, s) else
      match (if ceq c "("%char then
               match p_alt n' t with Some (a, d :: u) => if ceq d ")"%char then Some (RGrp a, u) else None | _ => None end
             else if ceq c "["%char then match class_of t with Some (p, u) => Some (RChr p, u) | None => None end
             else if ceq c "."%char then Some (RChr (fun x => negb (ceq x newline)), t)
             else if ceq c "^"%char then Some (RBegin, t) else if ceq c "$"%char then Some (REnd, t)
             else if ceq c "\"%char then
               match t with
               | d :: u => if ceq d "d"%char then Some (RChr (digit_in "0"%char "9"%char), u) else if ceq d "w"%char then Some (RChr is_word, u) else None
               | [] => None
               end
             else if special c then None else Some (RChr (ceq c), t)) with
      | None => None
      | Some (a, u) =>
        let '(a, u) := match u with
                       | d :: v => if ceq d "*"%char then (RStar a, v) else if ceq d "+"%char then (RSeq a (RStar a), v)
                                   else if ceq d "?"%char then (RAlt a REps, v)
                                   else match v with
                                        | k :: e :: v' => if ceq d "{"%char && digit_in "1"%char "9"%char k && ceq e "}"%char then (times a (Z.to_nat (code k - 49)), v') else (a, u)
                                        | _ => (a, u)
                                        end
                       | [] => (a, u)
                       end in
        match p_seq n' u with Some (b, v) => Some (RSeq a b, v) | None => None end
      end
    end
  end.
Definition demo_compile (p : str) : option matcher :=
  match p_alt (2 * length p + 3) p with
  | Some (r, []) => Some (fun s from adv => if from <=? length s then look r (skipn from s) from adv else None)
  | _ => None
  end.
(** [\1] to [\9] *)
Fixpoint fill (t : str) (gs : list (option str)) : option str :=
  match t with
  | [] => Some []
  | c :: r =>
    if ceq c "\"%char then
      match r with
      | d :: r' => if digit_in "1"%char "9"%char d
                   then match nth_error gs (Z.to_nat (code d - 49)), fill r' gs with Some g, Some u => Some (group_text g ++ u) | _, _ => None end
                   else None
      | [] => None
      end
    else match fill r gs with Some u => Some (c :: u) | None => None end
  end.
Definition demo_template (p t : str) : option (str -> rmatch -> str) :=
  match p_alt (2 * length p + 3) p with
  | Some (r, []) => match fill t (nones r) with
                    | Some _ => Some (fun _ m => match fill t (m_groups m) with Some u => u | None => [] end)
                    | None => None
                    end
  | _ => if existsb (ceq "\"%char) t then None else Some (fun _ _ => t)
  end.
Definition demo_re : relib := mkRe demo_compile demo_template.
Definition ranswer (t : string) : string := tell (fst (calculate (with_regex demo demo_re) 20 plain_flags (lines t) start)).
