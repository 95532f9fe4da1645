(** C73: numbers are objects; what changes a number that is stored. *)
From Coq Require Import ZArith QArith Ascii String List Bool Lia.
From Verif Require Import Base Dec Num Bases Formats Units Install Syntax Call Loop Exec Std StdSpec StdProofs StdProofs2 StdProofs6 StdProofs7 StdProofs9 StatProofs ArithProofs StdRun Heap HeapSpec HeapProofs HeapProofs2.
Import ListNotations.
Open Scope nat_scope.

(** Whatever is run, every number that exists keeps its numerator, denominator and width: only its format can change. *)
Theorem c73_amounts : forall p e s v s', h_eval p e s = Some (v, s') ->
  forall a n, nth_error (h_cells s) a = Some n ->
  exists m, nth_error (h_cells s') a = Some m /\ nnum m = nnum n /\ nden m = nden n /\ nwidth m = nwidth n.
Proof. intros p e s v s' H a n Ha. exact (eval_amounts p e s v s' H a n Ha). Qed.
Print Assumptions c73_amounts.

(** Without assignment outside functions the variables hold the same objects afterwards. *)
Theorem c73_variables : forall p e s v s', ~ assigns e -> h_eval p e s = Some (v, s') -> h_vars s' = h_vars s.
Proof. exact eval_vars. Qed.
Print Assumptions c73_variables.

(** Programs without min, max and element cannot tell that numbers are shared: they give what they give when every number
    is a value of its own, they fail when that fails, and no number that exists is changed. *)
Theorem c73_copies : forall p lits e s W, makes e -> literals_below (length lits) e ->
  (exists more, h_cells s = lits ++ more) -> vars_show (h_cells s) (h_vars s) W ->
  match n_eval lits e W with
  | Some (w, W') => exists v s', h_eval p e s = Some (v, s') /\ cell_shows (h_cells s') v w /\ vars_show (h_cells s') (h_vars s') W' /\
                                 exists more, h_cells s' = h_cells s ++ more
  | None => h_eval p e s = None
  end.
Proof. intros p lits e s W M B G V. exact (eval_copies p lits e s W M B G V). Qed.
Print Assumptions c73_copies.

(** With min, max and element too, nothing is changed while no number has a format. *)
Theorem c73_no_formats : forall p e s v s', plain_ops e -> Forall formatless (h_cells s) -> h_eval p e s = Some (v, s') ->
  (exists more, h_cells s' = h_cells s ++ more) /\ Forall formatless (h_cells s').
Proof. intros p e s v s' O F H. exact (eval_plain p e s v s' O F H). Qed.
Print Assumptions c73_no_formats.

(** The answers are those of the calculator: of the operators + - * / and %, which change no number that exists ... *)
Theorem c73_operators : forall L stl sym f x y a b n s e1 e2 hs i hs1 j hs2,
  In (sym, f) [($"+", num_add); ($"-", num_sub); ($"*", num_mul); ($"/", num_div); ($"%", num_mod)] ->
  rval x = VNum a -> rval y = VNum b -> runit x = None -> runit y = None -> f (l_prec L) a b = Some n ->
  h_eval (l_prec L) e1 hs = Some (HNum i, hs1) -> h_eval (l_prec L) e2 hs1 = Some (HNum j, hs2) ->
  nth_error (h_cells hs2) i = Some a -> nth_error (h_cells hs2) j = Some b ->
  exists r m k hs3, callop (std L) stl sym [x; y] s = (OOk r, s) /\ rval r = VNum m /\
    h_eval (l_prec L) (HMake (on_two (f (l_prec L))) [e1; e2]) hs = Some (HNum k, hs3) /\ nth_error (h_cells hs3) k = Some m /\
    (forall c, c < length (h_cells hs2) -> nth_error (h_cells hs3) c = nth_error (h_cells hs2) c).
Proof. intros L stl sym f x y a b n s e1 e2 hs i hs1 j hs2 H. exact (make_agrees L stl sym f x y a b n s _ e1 e2 hs i hs1 j hs2 H eq_refl). Qed.
Print Assumptions c73_operators.

(** ... of min and max, which can change the number they give and no other ... *)
Theorem c73_max : forall L h stl x l ns s e hs a t hs1, assoc ($"max") (g_funcs (std L)) = Some (d_max L) /\
  (rval x = VList l -> holds_numbers l ns -> h_eval (l_prec L) e hs = Some (HArr (a :: t), hs1) -> h_read (h_cells hs1) (a :: t) = Some ns ->
   exists r m b hs2, call (std_env L) h (d_max L) stl [x] s = (OOk r, s) /\ rval r = VNum m /\
    h_eval (l_prec L) (HPick (fun u w => num_ltb (l_prec L) w u) e) hs = Some (HNum b, hs2) /\ nth_error (h_cells hs2) b = Some m /\
    (forall c, c <> b -> nth_error (h_cells hs2) c = nth_error (h_cells hs1) c)).
Proof.
  intros. split; [reflexivity|]. intros Hx Hl He Hr.
  apply (pick_agrees L h (d_max L) _ (fun u w => value_lt (l_prec L) w u) stl x l ns s (l_prec L) e hs a t hs1); try assumption; try reflexivity.
  - repeat split; reflexivity.
  - intros. now apply lt_nums.
Qed.
Theorem c73_min : forall L h stl x l ns s e hs a t hs1, assoc ($"min") (g_funcs (std L)) = Some (d_min L) /\
  (rval x = VList l -> holds_numbers l ns -> h_eval (l_prec L) e hs = Some (HArr (a :: t), hs1) -> h_read (h_cells hs1) (a :: t) = Some ns ->
   exists r m b hs2, call (std_env L) h (d_min L) stl [x] s = (OOk r, s) /\ rval r = VNum m /\
    h_eval (l_prec L) (HPick (num_ltb (l_prec L)) e) hs = Some (HNum b, hs2) /\ nth_error (h_cells hs2) b = Some m /\
    (forall c, c <> b -> nth_error (h_cells hs2) c = nth_error (h_cells hs1) c)).
Proof.
  intros. split; [reflexivity|]. intros Hx Hl He Hr.
  apply (pick_agrees L h (d_min L) _ (value_lt (l_prec L)) stl x l ns s (l_prec L) e hs a t hs1); try assumption; try reflexivity.
  - repeat split; reflexivity.
  - intros. now apply lt_nums.
Qed.
Print Assumptions c73_max. Print Assumptions c73_min.

(** ... and of element, in the same way. *)
Theorem c73_element : forall L h stl x y l ns n s e i hs t hs1 b hs2,
  rval x = VList l -> rval y = VNum n -> holds_numbers l ns ->
  h_eval (l_prec L) e hs = Some (HArr t, hs1) -> h_eval (l_prec L) i hs1 = Some (HNum b, hs2) ->
  nth_error (h_cells hs2) b = Some n -> h_read (h_cells hs2) t = Some ns ->
  assoc ($"element") (g_funcs (std L)) = Some (d_element L) /\
  match h_eval (l_prec L) (HElement e i) hs with
  | Some (HNum a, hs3) => exists r m, call (std_env L) h (d_element L) stl [x; y] s = (OOk r, s) /\ rval r = VNum m /\
                                      nth_error (h_cells hs3) a = Some m /\
                                      (forall c, c <> a -> nth_error (h_cells hs3) c = nth_error (h_cells hs2) c)
  | Some (HArr _, _) => False
  | None => forall r s', call (std_env L) h (d_element L) stl [x; y] s <> (OOk r, s')
  end.
Proof. intros L h stl x y l ns n s e i hs t hs1 b hs2 Hx Hy Hl He Hi Hb Hr. split; [reflexivity|]. now apply (element_agrees L h stl x y l ns n s _ e i hs t hs1 b hs2). Qed.
Print Assumptions c73_element.

(** * What is shared *)
Definition h_text (v : option (hv * hst)) : list (out str) :=
  match v with
  | Some (HNum a, s) => match nth_error (h_cells s) a with Some n => [num_to_string (l_fmt demo) n] | None => [] end
  | Some (HArr l, s) => map (fun a => match nth_error (h_cells s) a with Some n => num_to_string (l_fmt demo) n | None => Py end) l
  | None => []
  end.
Definition dec (z : Z) : number := mkNum z 1 None None.
Definition hex (z : Z) : number := mkNum z 1 (Some CHex) None.
Definition biggest : hexpr -> hexpr := HPick (fun u w => num_ltb 100 w u).
Definition run_h (lits : list number) (l : list hexpr) (last : hexpr) : list (out str) :=
  h_text (h_eval 100 (fold_right HSeq last l) (mkH lits [])).
Definition nx := $"x".
Definition ny := $"y".

(** [x = 300], then [max(x, 0x1)]: [x] is 0x12C from then on, though nothing was assigned to it. *)
Theorem c73_max_refuted : ~ (forall e s v s' n w, ~ assigns e -> h_eval 100 e s = Some (v, s') -> assoc n (h_vars s) = Some w ->
  h_text (Some (w, s')) = h_text (Some (w, s))).
Proof.
  intros H. specialize (H (biggest (HArray [HVar nx; HLit 1])) (mkH [dec 300; hex 1] [(nx, HNum 0)]) (HNum 0) (mkH [hex 300; hex 1] [(nx, HNum 0)]) nx (HNum 0)).
  assert (X : h_text (Some (HNum 0, mkH [hex 300; hex 1] [(nx, HNum 0)])) = h_text (Some (HNum 0, mkH [dec 300; hex 1] [(nx, HNum 0)]))).
  { apply H; [cbn; tauto|vm_compute; reflexivity|reflexivity]. }
  vm_compute in X. discriminate X.
Qed.
Print Assumptions c73_max_refuted.
(** Two programs that differ by the statement [max(x, 0x1)], whose answer is not used *)
Example c73_max_ex :
  run_h [dec 300; hex 1] [HSet nx (HLit 0)] (HVar nx) = [Ok ($"300")] /\
  run_h [dec 300; hex 1] [HSet nx (HLit 0); biggest (HArray [HVar nx; HLit 1])] (HVar nx) = [Ok ($"0x12C")].
Proof. vm_compute. split; reflexivity. Qed.
(** [x = [10, 300]], then [element(x, 0x2)] *)
Example c73_element_ex :
  run_h [dec 10; dec 300; hex 2] [HSet nx (HArray [HLit 0; HLit 1])] (HVar nx) = [Ok ($"10"); Ok ($"300")] /\
  run_h [dec 10; dec 300; hex 2] [HSet nx (HArray [HLit 0; HLit 1]); HElement (HVar nx) (HLit 2)] (HVar nx) = [Ok ($"10"); Ok ($"0x12C")].
Proof. vm_compute. split; reflexivity. Qed.
(** [x = 300], [y = x], then [max(y, 0x1)]: it is [x] that is shown otherwise *)
Example c73_alias_ex :
  run_h [dec 300; hex 1] [HSet nx (HLit 0); HSet ny (HVar nx); biggest (HArray [HVar ny; HLit 1])] (HVar nx) = [Ok ($"0x12C")].
Proof. vm_compute. reflexivity. Qed.

(** The calls of a function are not independent: [max(PARAM1, 5)] gives 5 for 1, and 0x5 for 1 once it was called with 0x1,
    because the 5 in the body is one object. *)
Theorem c73_literal_refuted : ~ (forall b i j s u s1 v s2, ~ assigns b -> i <> j -> h_eval 100 (HCall [HLit i] b) s = Some (u, s1) ->
  h_eval 100 (HSeq (HCall [HLit j] b) (HCall [HLit i] b)) s = Some (v, s2) -> h_text (Some (v, s2)) = h_text (Some (u, s1))).
Proof.
  intros H. pose (b := biggest (HArray [HVar ($"PARAM1"); HLit 0])). pose (s := mkH [dec 5; hex 1; dec 1] []).
  specialize (H b 2 1 s (HNum 0) s (HNum 0) (mkH [hex 5; hex 1; dec 1] [])).
  assert (X : h_text (Some (HNum 0, mkH [hex 5; hex 1; dec 1] [])) = h_text (Some (HNum 0, s))).
  { apply H; [cbn; tauto|discriminate|vm_compute; reflexivity|vm_compute; reflexivity]. }
  vm_compute in X. discriminate X.
Qed.
Print Assumptions c73_literal_refuted.

(** A program without min, max and element, with shared numbers, and formats *)
Definition sums (a b : hexpr) : hexpr := HMake (on_two (num_add 100)) [a; b].
Example c73_copies_ex : let e := HSeq (HSet nx (HLit 0)) (HSeq (HSet ny (HVar nx)) (HSeq (HSet nx (sums (HLit 1) (HVar ny))) (HArray [HVar nx; HVar ny; HLit 0]))) in
  makes e /\ literals_below 2 e /\ h_text (h_eval 100 e (mkH [dec 300; hex 1] [])) = [Ok ($"0x12D"); Ok ($"300"); Ok ($"300")].
Proof. cbn zeta. split; [cbn; tauto|]. split; [cbn; lia|]. vm_compute. reflexivity. Qed.
(** One with max and without formats *)
Example c73_no_formats_ex : let e := HSeq (HSet nx (HLit 0)) (HArray [biggest (HArray [HVar nx; HLit 1]); HVar nx]) in
  plain_ops e /\ Forall formatless [dec 300; dec 1] /\ h_text (h_eval 100 e (mkH [dec 300; dec 1] [])) = [Ok ($"300"); Ok ($"300")].
Proof. cbn zeta. split; [cbn; tauto|]. split; [repeat constructor|]. vm_compute. reflexivity. Qed.
(** The calculator's own max, for the case above *)
Example c73_max_agree_ex : answer "max(300, 0x1)" = "0x12C"%string /\ answer "element([10, 300], 0x2)" = "0x12C"%string.
Proof. vm_compute. split; reflexivity. Qed.
