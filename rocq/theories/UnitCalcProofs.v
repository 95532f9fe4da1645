(** Operators on numbers with units. *)
From Coq Require Import ZArith QArith Qpower Qabs Qround Qreduction Ascii String List Bool Lia Lqa Permutation.
From Verif Require Import Base BaseProofs Dec DecProofs Num NumSpec NumProofs NumProofs2 NumProofs3 NumProofs4 Bases BasesProofs Formats Units UnitsSpec UnitsProofs UnitsProofs2 UnitsProofs3 UnitsProofs4 UnitsProofs5 UnitReg Install Syntax Pos Call CallSpec CallProofs Loop Parse Exec ExecSpec Std StdSpec StdProofs StdProofs3 StdProofs4 StdProofs5 StdProofs6 StdProofs7 StdProofs9 TextSpec TextProofs ArithSpec ArithProofs UnitCalc UnitCalcSpec.
Import ListNotations.
Open Scope nat_scope.

(** * Numbers from rationals *)
Lemma num_q_val n : num_q n = val n. Proof. reflexivity. Qed.
Lemma of_q_val n q : (val (of_q n q) == q)%Q.
Proof.
  unfold of_q. destruct (Qeq_bool q (num_q n)) eqn:E; [apply Qeq_bool_iff in E; now rewrite E|].
  unfold val. cbn [nnum nden]. rewrite <- (Qred_correct q) at 3. rewrite (Qmake_Qdiv (Qnum (Qred q)) (Qden (Qred q))) || idtac.
  destruct (Qred q) as [a b]. cbn [Qnum Qden]. rewrite (Qmake_Qdiv a b). reflexivity.
Qed.
Lemma of_q_good n q : good n -> good (of_q n q).
Proof. intros G. unfold of_q. destruct (Qeq_bool q (num_q n)); [exact G|]. unfold good. cbn [nden]. lia. Qed.
Lemma of_q_cast n q : ncast (of_q n q) = ncast n.
Proof. unfold of_q. destruct (Qeq_bool q (num_q n)); reflexivity. Qed.
Lemma of_q_size k n q : size_le k n -> has_digits k q -> size_le k (of_q n q).
Proof. intros S [H1 H2]. unfold of_q. destruct (Qeq_bool q (num_q n)); [exact S|]. split; cbn [nnum nden]; assumption. Qed.

(** * Worlds *)
Lemma world_scaled rel us l : world rel us -> over us l -> all_scaled l.
Proof. intros ((_ & S) & _) O. unfold all_scaled, over in *. rewrite Forall_forall in *. intros e He. apply S. now apply O. Qed.
Lemma over_in us l u : over us l -> In u (map fst l) -> In u us.
Proof. unfold over. rewrite Forall_forall. intros O H. apply in_map_iff in H as (e & <- & He). now apply O. Qed.
Lemma over_named rel us a b : world rel us -> over us a -> over us b -> named (map fst a ++ map fst b).
Proof.
  intros (_ & [N1 N2] & _) Oa Ob. assert (I : forall u, In u (map fst a ++ map fst b) -> In u us).
  { intros u H. apply in_app_iff in H as [H|H]; [exact (over_in us a u Oa H)|exact (over_in us b u Ob H)]. }
  split; [intros u H; apply N1, I, H|]. intros u v H1 H2. apply N2; apply I; assumption.
Qed.
Lemma over_clean rel us l : world rel us -> over us l -> clean_dims rel l.
Proof.
  intros (_ & _ & D & _) O. unfold clean_dims, expand_dims, subunits. rewrite Forall_forall in *. intros e He.
  apply in_flat_map in He as (s & Hs & He). apply in_map_iff in Hs as ([u q] & <- & Hs). cbn [fst snd] in *.
  apply in_map_iff in He as (c & <- & Hc). cbn [fst]. unfold over in O. rewrite Forall_forall in O. specialize (O _ Hs). cbn [fst] in O.
  destruct (D _ O) as (_ & _ & _ & C). rewrite Forall_forall in C. now apply C.
Qed.
Lemma over_pos rel us l : world rel us -> over us l -> (0 < factor l)%Q.
Proof.
  intros (_ & _ & _ & P) O. induction O as [|[u q] l Hu O IH]; cbn [factor]; [reflexivity|].
  rewrite Forall_forall in P. specialize (P u Hu). cbn [fst] in *. apply Qmult_lt_0_compat; [|exact IH].
  apply Qnot_le_lt. intros Z. apply (qp_nz (uscale u) q); [intros E; rewrite E in P; discriminate|].
  apply Qle_antisym; [exact Z|]. apply Qpower_pos. apply Qlt_le_weak. exact P.
Qed.

(** * Conversion of a value *)
Lemma convert_ok rel us n a b relative : world rel us -> over us (eu_list a) -> over us (eu_list b) ->
  same_dims rel (Some a) (Some b) -> steady rel a -> steady rel b -> good n ->
  exists m c, convert_value rel (VNum n) (Some a) (Some b) relative = Ok (VNum m, Some c) /\ (val m == val n * factor (eu_list a) / factor (eu_list b))%Q /\
    good m /\ ncast m = ncast n /\ (c = b \/ c = a /\ Permutation (eu_list a) (eu_list b)) /\
    (forall k, size_le k n -> has_digits k (val n * factor (eu_list a) / factor (eu_list b)) -> size_le k m).
Proof.
  intros W Oa Ob D Sa Sb G. pose proof (over_named rel us _ _ W Oa Ob) as N. pose proof (world_scaled rel us _ W Oa) as Ca. pose proof (world_scaled rel us _ W Ob) as Cb.
  destruct (proj1 (conversion_defined rel (num_q n) (eu_list a) (eu_list b) relative Ca Cb N (over_clean rel us _ W Oa) (over_clean rel us _ W Ob) Sa Sb) D) as [[w u] E].
  destruct (unit_conversion_value rel (num_q n) _ _ relative w u Ca Cb N E) as [V (c & -> & P)].
  unfold convert_value. cbn [same_unit ulist_of option_map]. destruct (upl_eqb (eu_list a) (eu_list b)) eqn:Q.
  - assert (X : w = num_q n /\ c = eu_list a) by (unfold unit_conversion in E; rewrite Q in E; injection E; auto). destruct X as [-> ->].
    exists n, a. split; [reflexivity|]. split; [exact V|]. split; [exact G|]. split; [reflexivity|]. split; [right; auto|]. auto.
  - rewrite E. cbn [obind fst]. exists (of_q n w), b. split; [reflexivity|]. split; [rewrite of_q_val; exact V|]. split; [now apply of_q_good|].
    split; [apply of_q_cast|]. split; [now left|]. intros k S H. apply of_q_size; [exact S|]. unfold has_digits in *.
    rewrite (Qred_complete w (val n * factor (eu_list a) / factor (eu_list b)))%Q; [exact H|exact V].
Qed.
Lemma convert_refused rel us n a b relative : world rel us -> over us (eu_list a) -> over us (eu_list b) ->
  (exists d, dims_of rel (Some a) d <> dims_of rel (Some b) d) -> steady rel a -> steady rel b -> convert_value rel (VNum n) (Some a) (Some b) relative = Calc.
Proof.
  intros W Oa Ob D Sa Sb. pose proof (over_named rel us _ _ W Oa Ob) as N. pose proof (world_scaled rel us _ W Oa) as Ca. pose proof (world_scaled rel us _ W Ob) as Cb.
  pose proof (proj2 (conversion_defined rel (num_q n) (eu_list a) (eu_list b) relative Ca Cb N (over_clean rel us _ W Oa) (over_clean rel us _ W Ob) Sa Sb) D) as E.
  unfold convert_value. cbn [same_unit ulist_of option_map]. rewrite E. unfold unit_conversion in E. destruct (upl_eqb (eu_list a) (eu_list b)); [discriminate|reflexivity].
Qed.

Lemma kelvin_order k x y : ((x < y <-> to_kelvin k x < to_kelvin k y) /\ (x == y <-> to_kelvin k x == to_kelvin k y))%Q.
Proof.
  destruct k; cbn [to_kelvin].
  - tauto.
  - split; split; intros; lra.
  - change (5 / 9)%Q with (5 # 9)%Q. split; split; intros; lra.
Qed.
Lemma convert_temperature rel n a b relative : temperature a -> temperature b -> udim a = udim b -> named [a; b] -> good n ->
  exists m c, convert_value rel (VNum n) (Some (mkEU [(a, 1%Z)] false)) (Some (mkEU [(b, 1%Z)] false)) relative = Ok (VNum m, c) /\
    (val m == if relative then val n * degree (ukind_of a) / degree (ukind_of b) else from_kelvin (ukind_of b) (to_kelvin (ukind_of a) (val n)))%Q /\
    good m /\ ncast m = ncast n /\
    (forall k, size_le k n -> has_digits k (if relative then val n * degree (ukind_of a) / degree (ukind_of b) else from_kelvin (ukind_of b) (to_kelvin (ukind_of a) (val n))) -> size_le k m).
Proof.
  intros Ta Tb D N G. destruct (temp_conversion rel (num_q n) a b relative Ta Tb D N) as (w & c & E & _ & V).
  unfold convert_value. cbn [same_unit ulist_of option_map eu_list]. destruct (upl_eqb [(a, 1%Z)] [(b, 1%Z)]) eqn:K.
  - unfold unit_conversion in E. rewrite K in E. injection E as <- _. exists n, (Some (mkEU [(a, 1%Z)] false)). repeat split; auto; apply H.
  - match goal with |- context [obind ?X _] => replace X with (@Ok (Q * option upl) (w, Some c)) by (symmetry; exact E) end. cbn [obind fst]. exists (of_q n w), (Some (mkEU [(b, 1%Z)] false)). split; [reflexivity|]. split; [rewrite of_q_val; exact V|]. split; [now apply of_q_good|].
    split; [apply of_q_cast|]. intros k S H. apply of_q_size; [exact S|]. unfold has_digits in *. rewrite (Qred_complete _ _ V). exact H.
Qed.

(** * Calls on two operands that count as numbers *)
Lemma unit_type_num U x n ts : number_at (u_lib U) x n -> validate_types (unit_env U) (tynum :: ts) (rval x) (runit x) (rref x) = Ok tt.
Proof.
  intros H. pose proof (type_num_first (u_lib U) x n ts H) as T. cbn [validate_types] in *.
  replace (validate_input (unit_env U) tynum (rval x) (runit x) (rref x)) with (validate_input (std_env (u_lib U)) tynum (rval x) (runit x) (rref x)) by reflexivity.
  destruct (validate_input (std_env (u_lib U)) tynum (rval x) (runit x) (rref x)) as [[]| |] eqn:E; try discriminate; [reflexivity|].
  pose proof (type_num (u_lib U) x n H) as T2. cbn [validate_types] in T2. rewrite E in T2. discriminate.
Qed.
Lemma unit_to_number U v : to_number (unit_env U) v = any_number (l_fmt (u_lib U)) v.
Proof. destruct v; reflexivity. Qed.
Definition normalised (U : ucfg) (d : opdef) (a b : number) (u v : option eunit) : out (list value * list (option eunit) * option eunit) :=
  if o_norm d then normalise_inputs (u_rels U) [VNum a; VNum b] [u; v] (o_multi d) (o_rel d) else Ok ([VNum a; VNum b], [u; v], None).
Lemma utakes2_prepare U d x y a b : takes2 d -> number_at (u_lib U) x a -> number_at (u_lib U) y b ->
  prepare (unit_env U) d [rval x; rval y] [runit x; runit y] [rref x; rref y] =
  do n <- normalised U d a b (runit x) (runit y); Ok (fst (fst n), snd (fst n), format_of a b, snd n).
Proof.
  intros (Ev & Emin & Emax & Eu & Ea & _) Hx Hy. unfold prepare.
  assert (V : validate (unit_env U) d [rval x; rval y] [runit x; runit y] [rref x; rref y] = Ok tt).
  { unfold validate. rewrite Emin, Emax, Eu. destruct Ev as [-> | [-> | ->]].
    all: cbn [all_are num_or_unit base_exponent each_is length Nat.ltb Nat.leb obind out_each indices rs_from rs_to rs_types Nat.min Nat.add Nat.sub seq nth_error].
    all: rewrite !(unit_type_num U x a _ Hx), !(unit_type_num U y b _ Hy); reflexivity. }
  assert (C : convert_numbers (unit_env U) d [rval x; rval y] = ([VNum a; VNum b], format_of a b)).
  { unfold number_at in Hx, Hy. unfold convert_numbers. destruct Ev as [-> | [-> | ->]].
    all: cbn [all_are num_or_unit base_exponent each_is fold_left rs_types existsb is_plain_number tynum ty].
    all: replace (seq_eqb ($"number") s_number) with true by reflexivity; cbn [orb].
    all: unfold convert_range; cbn [rs_from rs_to length Nat.add Nat.sub seq fold_left]; unfold convert_one; cbn [nth_error]; rewrite !unit_to_number, Hx, Hy; cbn [fst snd list_set].
    all: unfold format_of, first_some; destruct (ncast a); reflexivity. }
  assert (A : all_numbers (unit_env U) d 0 [VNum a; VNum b] = true).
  { cbn [all_numbers]. unfold can_be. destruct Ev as [-> | [-> | ->]]; reflexivity. }
  rewrite V, Ea, C. cbn [obind fst snd]. rewrite A. cbn [e_norm unit_env]. unfold normalised. destruct (o_norm d); reflexivity.
Qed.
Lemma utakes2_call U h d stl x y a b s : takes2 d -> number_at (u_lib U) x a -> number_at (u_lib U) y b ->
  call (unit_env U) h d stl [x; y] s =
  match (let* n := lift (normalised U d a b (runit x) (runit y)) in
         let* o := o_impl d h (fst (fst n)) (snd (fst n)) [rref x; rref y] stl in
         ret (finish d (format_of a b) (snd n) o)) s with
  | (OErr e, s') => if wrapped e then (OErr e, s') else if shows (u_lib U) (rval x) && shows (u_lib U) (rval y) then (OErr (XCalc true (MOp (o_name d))), s') else (OPy, s')
  | (OPy, s') => if shows (u_lib U) (rval x) && shows (u_lib U) (rval y) then (OErr (XCalc false (MOp (o_name d))), s') else (OPy, s')
  | r => r
  end.
Proof.
  intros Hd Hx Hy. destruct (is_num_scalar (u_lib U) x a Hx) as [Lx Ex]. destruct (is_num_scalar (u_lib U) y b Hy) as [Ly Ey]. rewrite call_scalars.
  - unfold call_plain. replace (o_excs d) with false by (symmetry; apply Hd). unfold find_exc. cbn [find map]. rewrite Ex, Ey.
    rewrite (utakes2_prepare U d x y a b Hd Hx Hy). cbn [forallb e_tostr unit_env]. rewrite andb_true_r.
    destruct (normalised U d a b (runit x) (runit y)) as [n| |]; reflexivity.
  - cbn [forallb]. rewrite Lx, Ly. reflexivity.
  - unfold must_be. destruct Hd as ([-> | [-> | ->]] & _); reflexivity.
Qed.

(** * The operators *)
Lemma ucallop_eq U stl sym ins : callop (with_units U) stl sym ins =
  match find_op (unit_table U) sym with
  | Some o => call (unit_env U) (op_handle (with_units U) 4 stl) (op_def o) stl ins
  | None => pyerr
  end.
Proof. reflexivity. Qed.
Lemma ufind_plus U : find_op (unit_table U) ($"+") = Some (mkOper [None] [None] false (d_add (u_lib U) ($"+") num_add)). Proof. reflexivity. Qed.
Lemma ufind_minus U : find_op (unit_table U) ($"-") = Some (mkOper [None] [None] false (d_add (u_lib U) ($"-") num_sub)). Proof. reflexivity. Qed.
Lemma ufind_star U : find_op (unit_table U) ($"*") = Some (mkOper [None] [None] false (d_mul (u_lib U) ($"*") (op_multiply (u_lib U)))). Proof. reflexivity. Qed.
Lemma ufind_slash U : find_op (unit_table U) ($"/") = Some (mkOper [None] [None] false (d_mul (u_lib U) ($"/") (op_divide (u_lib U)))). Proof. reflexivity. Qed.
Lemma ufind_caret U : find_op (unit_table U) ($"^") = Some (mkOper [None] [None] false (d_pow (u_lib U))). Proof. reflexivity. Qed.
Lemma ufind_cmp U sym f : In (sym, f) cmp_ops -> find_op (unit_table U) sym = Some (mkOper [None] [None] false (d_cmp (u_lib U) sym f)).
Proof. intros H. repeat (destruct H as [H|H]; [injection H as <- <-; reflexivity|]). destruct H. Qed.

(** Operands brought to the unit of the first *)
Lemma to_first rel a b u v relative : normalise_inputs rel [VNum a; VNum b] [Some u; v] false relative =
  do r <- convert_value rel (VNum b) v (Some u) relative; Ok ([VNum a; fst r], [Some u; snd r], Some u).
Proof. unfold normalise_inputs. cbn [first_unit length Nat.ltb Nat.leb convert_rest]. destruct (convert_value rel (VNum b) v (Some u) relative) as [[w c]| |]; reflexivity. Qed.
Lemma none_first rel a b v relative : normalise_inputs rel [VNum a; VNum b] [None; Some v] false relative = Calc.
Proof. reflexivity. Qed.

Lemma usum_call U stl sym f x y a b u c m n s : (sym = $"+" /\ f = num_add) \/ (sym = $"-" /\ f = num_sub) ->
  number_at (u_lib U) x a -> number_at (u_lib U) y b -> runit x = Some u ->
  convert_value (u_rels U) (VNum b) (runit y) (Some u) true = Ok (VNum m, c) -> f (l_prec (u_lib U)) a m = Some n -> ncast n = ncast a ->
  callop (with_units U) stl sym [x; y] s = (OOk (mkRes (VNum (with_cast n (format_of a b))) (Some u) None), s).
Proof.
  intros Hs Hx Hy Ux Hc Hn Cn. assert (G : exists d, find_op (unit_table U) sym = Some (mkOper [None] [None] false d) /\ takes2 d /\ o_impl d = op_num2 (u_lib U) f /\ o_autores d = true /\ o_norm d = true /\ o_multi d = false /\ o_rel d = true).
  { destruct Hs as [[-> ->]|[-> ->]]; eexists; (split; [apply ufind_plus || apply ufind_minus|]); (split; [repeat split; auto|]); repeat split; reflexivity. }
  destruct G as (d & F & T & I & A & N1 & N2 & N3). rewrite ucallop_eq, F. cbn [op_def]. rewrite (utakes2_call U _ d stl x y a b s T Hx Hy), I.
  unfold normalised. rewrite N1, N2, N3, Ux, to_first, Hc. cbn [obind fst snd]. unfold bind, lift, op_num2, pym. cbn [fst snd]. rewrite Hn. unfold just, ret, bind.
  pose proof (finish_cast d a b n A Cn) as P. unfold finish in *. cbn [or_val or_unit or_ref] in *. injection P as P. now rewrite P.
Qed.
Lemma ucmp_call U stl sym f x y a b u c m s : In (sym, f) cmp_ops -> number_at (u_lib U) x a -> number_at (u_lib U) y b -> runit x = Some u ->
  convert_value (u_rels U) (VNum b) (runit y) (Some u) false = Ok (VNum m, c) ->
  callop (with_units U) stl sym [x; y] s = (OOk (mkRes (VBool (f (l_prec (u_lib U)) a m)) None None), s).
Proof.
  intros Hs Hx Hy Ux Hc. rewrite ucallop_eq, (ufind_cmp U sym f Hs). cbn [op_def]. rewrite (utakes2_call U _ (d_cmp (u_lib U) sym f) stl x y a b s); [|repeat split; auto|exact Hx|exact Hy].
  unfold normalised. cbn [d_cmp odef o_norm o_multi o_rel]. rewrite Ux, to_first, Hc. reflexivity.
Qed.
(** Refusal: the units do not fit *)
Definition needs_same : list str := [$"+"; $"-"; $"<"; $">"; $"<="; $">="; $"=="; $"!="].
Lemma urefused_call U stl sym x y a b s : In sym needs_same -> number_at (u_lib U) x a -> number_at (u_lib U) y b ->
  shows (u_lib U) (rval x) = true -> shows (u_lib U) (rval y) = true ->
  (forall relative, normalise_inputs (u_rels U) [VNum a; VNum b] [runit x; runit y] false relative = Calc) ->
  callop (with_units U) stl sym [x; y] s = (OErr (XCalc true (MOp ($"operator " ++ sym))), s).
Proof.
  intros Hs Hx Hy Sx Sy R. assert (G : exists d, find_op (unit_table U) sym = Some (mkOper [None] [None] false d) /\ takes2 d /\ o_norm d = true /\ o_multi d = false /\ o_name d = $"operator " ++ sym).
  { repeat (destruct Hs as [<-|Hs]; [eexists; split; [reflexivity|]; (split; [repeat split; auto|]); repeat split; reflexivity|]). destruct Hs. }
  destruct G as (d & F & T & N1 & N2 & N3). rewrite ucallop_eq, F. cbn [op_def]. rewrite (utakes2_call U _ d stl x y a b s T Hx Hy).
  unfold normalised. rewrite N1, N2, R. unfold bind, lift. cbn [wrapped]. rewrite Sx, Sy, N3. reflexivity.
Qed.
