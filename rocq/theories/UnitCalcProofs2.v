(** Products, quotients and powers of numbers with units. *)
From Coq Require Import ZArith QArith Qpower Qabs Qround Qreduction Ascii String List Bool Lia Permutation.
From Verif Require Import Base BaseProofs Dec DecProofs Num NumSpec NumProofs NumProofs2 NumProofs3 NumProofs4 Bases BasesProofs Formats Units UnitsSpec UnitsProofs UnitsProofs2 UnitsProofs3 UnitsProofs4 UnitsProofs5 UnitReg Install Syntax Pos Call CallSpec CallProofs Loop Parse Exec ExecSpec Std StdSpec StdProofs StdProofs3 StdProofs4 StdProofs5 StdProofs6 StdProofs7 StdProofs9 TextSpec TextProofs ArithSpec ArithProofs UnitCalc UnitCalcSpec UnitCalcProofs.
Import ListNotations.
Open Scope Z_scope.

(** * Products and powers of unit lists *)
Lemma addall_spec us rel m p : units_ok us -> over us m -> forall l, over us l ->
  over us (addall l m p) /\ (factor (addall l m p) == factor l * Qpower (factor m) p)%Q /\
  (forall d, dim_total rel (addall l m p) d = dim_total rel l d + p * dim_total rel m d) /\ (once ueqb l -> once ueqb (addall l m p)).
Proof.
  intros U. induction m as [|[u q] m IH]; intros Om l Ol; unfold addall; cbn [fold_left factor dim_total fst snd].
  - split; [exact Ol|]. split; [rewrite Qpower_1; ring|]. split; [intros; lia|auto].
  - inversion Om as [|? ? A B]; subst. cbn [fst] in A.
    destruct (IH B (pl_add ueqb u (q * p) l) (pl_add_over us u (q * p) l A Ol)) as (I1 & I2 & I3 & I4). unfold addall in *.
    split; [exact I1|]. split; [|split].
    + rewrite I2, (pl_add_factor us u (q * p) l U A Ol), Qmult_power, Qpower_mult. ring.
    + intros d. rewrite I3, (pl_add_dims us rel u (q * p) l d (proj1 U) A Ol). ring.
    + intros O. apply I4. apply pl_add_once; [apply equiv_unit|exact O].
Qed.
Lemma new2_spec us rel x y sg : units_ok us -> over us x -> over us y ->
  let w := option_map (fun l => mkEU l false) (upl_new [(x, 1); (y, sg)]) in
  (size_of w == factor x * Qpower (factor y) sg)%Q /\ (forall d, dims_of rel w d = dim_total rel x d + sg * dim_total rel y d) /\
  match w with None => True | Some c => over us (eu_list c) /\ once ueqb (eu_list c) end.
Proof.
  intros U Ox Oy. cbv zeta. unfold upl_new. cbn [fold_left fst snd].
  destruct (addall_spec us rel x 1 U Ox [] (Forall_nil _)) as (A1 & A2 & A3 & A4).
  destruct (addall_spec us rel y sg U Oy _ A1) as (B1 & B2 & B3 & B4).
  assert (V : (factor (addall (addall [] x 1) y sg) == factor x * Qpower (factor y) sg)%Q) by (rewrite B2, A2; cbn [factor]; ring_simplify (1 * Qpower (factor x) 1)%Q; reflexivity).
  assert (D : forall d, dim_total rel (addall (addall [] x 1) y sg) d = dim_total rel x d + sg * dim_total rel y d) by (intros d; rewrite B3, A3; cbn [dim_total]; ring).
  destruct (addall (addall [] x 1) y sg) as [|e l]; cbn [pl_check_empty option_map size_of dims_of eu_list].
  - split; [exact V|]. split; [exact D|exact I].
  - split; [exact V|]. split; [exact D|]. split; [exact B1|]. apply B4, A4. exact I.
Qed.
Lemma power_list_spec us rel l p : over us l ->
  over us (pl_remove_zeros (pl_multiply p l)) /\ (factor (pl_remove_zeros (pl_multiply p l)) == Qpower (factor l) p)%Q /\
  (forall d, dim_total rel (pl_remove_zeros (pl_multiply p l)) d = p * dim_total rel l d).
Proof.
  unfold pl_multiply, pl_remove_zeros. induction l as [|[u q] l IH]; intros O; cbn [map filter fst snd factor dim_total].
  - split; [exact O|]. split; [now rewrite Qpower_1|intros; lia].
  - inversion O as [|? ? A B]; subst. destruct (IH B) as (I1 & I2 & I3). rewrite Qmult_power, <- Qpower_mult.
    destruct (Z.eqb_spec (q * p) 0) as [E|E]; cbn [negb].
    + split; [exact I1|]. split; [rewrite I2, E; cbn [Qpower]; ring|]. intros d. rewrite I3. cbn [fst snd]. replace (p * (q * psum seq_eqb d (norm_dim rel (udim u)) + dim_total rel l d)) with (q * p * psum seq_eqb d (norm_dim rel (udim u)) + p * dim_total rel l d) by ring. rewrite E. ring.
    + split; [constructor; auto|]. cbn [factor dim_total]. split; [rewrite I2; ring|]. intros d. rewrite I3. ring.
Qed.
Lemma upower_spec us rel l p f : over us l -> let w := option_map (fun l => mkEU l f) (upower l p) in
  (size_of w == Qpower (factor l) p)%Q /\ (forall d, dims_of rel w d = p * dim_total rel l d).
Proof.
  intros O. cbv zeta. unfold upower. destruct (power_list_spec us rel l p O) as (_ & V & D).
  destruct (pl_remove_zeros (pl_multiply p l)) as [|e r]; cbn [pl_check_empty option_map size_of dims_of eu_list]; split; assumption.
Qed.

(** * Two operands brought to common units *)
Lemma pair_ok rel us n u v relative : world rel us -> made_of us u -> made_of us v -> (exists d, dims_of rel (Some v) d <> 0) -> good n ->
  exists q c, normalise_pair rel (eu_list u) (VNum n) v relative = Ok (VNum (of_q n q), Some c) /\ (q * size_of (Some c) == val n * size_of (Some v))%Q /\
    same_dims rel (Some c) (Some v) /\ made_of us c.
Proof.
  intros ((C & S) & N & D & P) (Ou & Onu & _) (Ov & Onv & _) [d Hd] G. assert (U : units_ok us) by (split; assumption).
  destruct (normalise_from_left_spec rel us (eu_list u) (eu_list v) (num_q n) relative U D Ou Ov Onv) as (v1 & l1 & E1 & Q1 & O1 & On1 & D1).
  destruct (normalise_from_right_spec rel us (eu_list u) l1 v1 relative U D Ou O1) as (v2 & l2 & E2 & Q2 & O2 & On2 & D2).
  unfold normalise_pair. rewrite E1. cbn [obind fst snd].
  assert (Ne1 : l1 <> []) by (intros ->; apply Hd; cbn [dims_of]; rewrite <- D1; reflexivity).
  assert (Ne2 : l2 <> []) by (intros ->; apply Hd; cbn [dims_of]; rewrite <- D1, <- D2; reflexivity).
  destruct l1 as [|e1 r1] eqn:L1; [contradiction|]. cbn [is_nil]. rewrite <- L1 in *. rewrite E2. cbn [obind fst snd].
  destruct l2 as [|e2 r2] eqn:L2; [contradiction|]. cbn [is_nil]. rewrite <- L2 in *.
  exists v2, (mkEU l2 (eu_nosimp v)). split; [reflexivity|]. split; [|split; [|split; [|split]]]; cbn [eu_list size_of].
  - unfold same_quantity in *. rewrite Q2. exact Q1.
  - intros e. cbn [dims_of eu_list]. rewrite D2. apply D1.
  - exact O2.
  - apply On2, On1, Onv.
  - exact Ne2.
Qed.
Lemma to_common rel a b u v relative : eu_list u <> [] -> normalise_inputs rel [VNum a; VNum b] [Some u; Some v] true relative =
  do r <- normalise_pair rel (eu_list u) (VNum b) v relative; Ok ([VNum a; fst r], [Some u; snd r], None).
Proof.
  intros N. unfold normalise_inputs. cbn [first_unit length Nat.ltb Nat.leb normalise_all normalise_after obind fst snd].
  destruct (eu_list u) as [|e l]; [contradiction|]. cbn [is_nil]. destruct (normalise_pair rel (e :: l) (VNum b) v relative) as [[w c]| |]; reflexivity.
Qed.
Lemma one_unit rel a b u v relative : u = None \/ v = None -> normalise_inputs rel [VNum a; VNum b] [u; v] true relative = Ok ([VNum a; VNum b], [u; v], None).
Proof. intros [-> | ->]; [destruct v; reflexivity|]. destruct u; reflexivity. Qed.

Definition products : list (str * Z * (Z -> number -> number -> option number)) := [($"*", 1, num_mul); ($"/", -1, num_div)].
Lemma uscale_call U stl sym sg f x y a b u v m n s : In (sym, sg, f) products -> number_at (u_lib U) x a -> number_at (u_lib U) y b ->
  normalise_inputs (u_rels U) [VNum a; VNum b] [runit x; runit y] true true = Ok ([VNum a; VNum m], [u; v], None) ->
  f (l_prec (u_lib U)) a m = Some n -> ncast n = ncast a ->
  callop (with_units U) stl sym [x; y] s =
  (OOk (mkRes (VNum (with_cast n (format_of a b))) (match join_units sg u v with Some w => w | None => None end) None), s).
Proof.
  intros Hs Hx Hy Hn Hf Cn. assert (G : exists d, find_op (unit_table U) sym = Some (mkOper [None] [None] false d) /\ takes2 d /\ o_impl d = op_scale (u_lib U) sg f /\ o_autores d = true /\ o_norm d = true /\ o_multi d = true /\ o_rel d = true).
  { destruct Hs as [Hs|[Hs|[]]]; injection Hs as <- <- <-; eexists; (split; [apply ufind_star || apply ufind_slash|]); (split; [repeat split; auto|]); repeat split; reflexivity. }
  destruct G as (d & F & T & I & A & N1 & N2 & N3). rewrite ucallop_eq, F. cbn [op_def]. rewrite (utakes2_call U _ d stl x y a b s T Hx Hy), I.
  unfold normalised. rewrite N1, N2, N3, Hn. unfold bind, lift, op_scale. cbn [fst snd unit_value]. unfold pym. rewrite Hf. unfold ret, bind.
  pose proof (finish_cast d a b n A Cn) as P. unfold finish in *. cbn [or_val or_unit or_ref] in *. injection P as P. now rewrite P.
Qed.
Lemma uscale_none U stl sym sg f x y a b u v m s : In (sym, sg, f) products -> number_at (u_lib U) x a -> number_at (u_lib U) y b ->
  shows (u_lib U) (rval x) = true -> shows (u_lib U) (rval y) = true ->
  normalise_inputs (u_rels U) [VNum a; VNum b] [runit x; runit y] true true = Ok ([VNum a; VNum m], [u; v], None) ->
  f (l_prec (u_lib U)) a m = None ->
  callop (with_units U) stl sym [x; y] s = (OErr (XCalc false (MOp ($"operator " ++ sym))), s).
Proof.
  intros Hs Hx Hy Sx Sy Hn Hf. assert (G : exists d, find_op (unit_table U) sym = Some (mkOper [None] [None] false d) /\ takes2 d /\ o_impl d = op_scale (u_lib U) sg f /\ o_name d = $"operator " ++ sym /\ o_norm d = true /\ o_multi d = true /\ o_rel d = true).
  { destruct Hs as [Hs|[Hs|[]]]; injection Hs as <- <- <-; eexists; (split; [apply ufind_star || apply ufind_slash|]); (split; [repeat split; auto|]); repeat split; reflexivity. }
  destruct G as (d & F & T & I & A & N1 & N2 & N3). rewrite ucallop_eq, F. cbn [op_def]. rewrite (utakes2_call U _ d stl x y a b s T Hx Hy), I.
  unfold normalised. rewrite N1, N2, N3, Hn. unfold bind, lift, op_scale. cbn [fst snd unit_value]. unfold pym. rewrite Hf. unfold pyerr, bind. cbn [wrapped]. rewrite Sx, Sy, A. reflexivity.
Qed.
Lemma join_spec us rel u v sg : units_ok us -> sg = 1 \/ sg = -1 ->
  match u with Some x => over us (eu_list x) | None => True end -> match v with Some y => over us (eu_list y) | None => True end ->
  let w := match join_units sg u v with Some w => w | None => None end in
  (size_of w == size_of u * Qpower (size_of v) sg)%Q /\ forall d, dims_of rel w d = dims_of rel u d + sg * dims_of rel v d.
Proof.
  intros U Hs Ou Ov. cbv zeta. destruct u as [x|], v as [y|]; cbn [join_units].
  - destruct (new2_spec us rel (eu_list x) (eu_list y) sg U Ou Ov) as (A & B & _). split; assumption.
  - cbn [size_of dims_of]. split; [rewrite Qpower_1; ring|intros; lia].
  - destruct Hs as [-> | ->]; cbn [Z.eqb Pos.eqb].
    + cbn [size_of dims_of]. split; [simpl Qpower; ring|intros d; ring].
    + destruct (upower_spec us rel (eu_list y) (-1) (eu_nosimp y) Ov) as [A B]. cbn [size_of dims_of] in *. split; [rewrite A; ring|]. intros d. rewrite B. ring.
  - cbn [size_of dims_of]. split; [rewrite Qpower_1; ring|intros; lia].
Qed.
