(** C59: converting with [to]. *)
From Coq Require Import ZArith QArith Qpower Qabs Qround Ascii String List Bool Lia Lqa Permutation.
From Verif Require Import Base BaseProofs Dec Num NumSpec NumProofs NumProofs2 NumProofs3 NumProofs4 Bases BasesProofs Formats Units UnitsSpec UnitsProofs UnitsProofs2 UnitsProofs3 UnitsProofs4 UnitsProofs5 UnitReg UnitData Install Syntax Pos Call CallSpec Loop Parse Exec Std StdSpec StdRun StdProofs9 TextSpec TextProofs ArithSpec ArithProofs UnitCalc UnitCalcSpec UnitCalcProofs UnitCalcProofs2 UnitCalcProofs3 UnitRun UnitTable.
Import ListNotations.
Open Scope Z_scope.

(** Between units of the same dimensions the same quantity comes out, in the unit asked for and in the format of the number,
    and the answer stays in that unit when it is shown. *)
Theorem c59_to : forall U us stl x y a u v s, world (u_rels U) us -> made_of us u -> made_of us v -> quantity_at U x a u -> rval y = VUnit v ->
  same_dims (u_rels U) (Some u) (Some v) -> steady (u_rels U) u -> steady (u_rels U) v -> good a ->
  exists n w, let r := mkRes (VNum n) (Some w) None in callop (with_units U) stl ($"to") [x; y] s = (OOk r, s) /\
    (val n * size_of (Some v) == val a * size_of (Some u))%Q /\ Permutation (eu_list w) (eu_list v) /\ ncast n = ncast a /\ good n /\ finalize U r = Ok r.
Proof.
  intros U us stl x y a u v s W (Ou & _) (Ov & _) Hx Hy D Su Sv G.
  destruct (convert_ok (u_rels U) us a u v false W Ou Ov D Su Sv G) as (n & c & E & V & Gn & Cn & Hc & _).
  exists n, (mkEU (eu_list c) true). cbv zeta. split; [|split; [|split; [|split; [|split]]]].
  - rewrite (uto_call U stl x y a u v s Hx Hy), E. reflexivity.
  - rewrite V. cbn [size_of]. field. apply factor_nz, (world_scaled (u_rels U) us); assumption.
  - cbn [eu_list]. destruct Hc as [-> | [-> P]]; [apply Permutation_refl|exact P].
  - exact Cn.
  - exact Gn.
  - unfold mkRes. cbn [finalize eu_nosimp]. rewrite andb_false_r. reflexivity.
Qed.
Print Assumptions c59_to.

(** There and back again *)
Theorem c59_round_trip : forall U us stl x y z a u v s, world (u_rels U) us -> made_of us u -> made_of us v -> quantity_at U x a u -> rval y = VUnit v -> rval z = VUnit u ->
  same_dims (u_rels U) (Some u) (Some v) -> steady (u_rels U) u -> steady (u_rels U) v -> good a ->
  exists r n w, callop (with_units U) stl ($"to") [x; y] s = (OOk r, s) /\
    callop (with_units U) stl ($"to") [r; z] s = (OOk (mkRes (VNum n) (Some w) None), s) /\ (val n == val a)%Q /\ Permutation (eu_list w) (eu_list u).
Proof.
  intros U us stl x y z a u v s W Mu Mv Hx Hy Hz D Su Sv G. pose proof Mu as (Ou & Onu & Neu). pose proof Mv as (Ov & Onv & Nev).
  destruct (convert_ok (u_rels U) us a u v false W Ou Ov D Su Sv G) as (n & c & E & V & Gn & Cn & Hc & _).
  exists (mkRes (VNum n) (Some (mkEU (eu_list c) true)) None).
  assert (Nu : ~ (factor (eu_list u) == 0)%Q) by (apply factor_nz, (world_scaled (u_rels U) us); assumption).
  assert (Nv : ~ (factor (eu_list v) == 0)%Q) by (apply factor_nz, (world_scaled (u_rels U) us); assumption).
  assert (Pc : Permutation (eu_list c) (eu_list v)) by (destruct Hc as [-> | [-> P]]; [apply Permutation_refl|exact P]).
  set (c' := mkEU (eu_list c) true).
  assert (X : over us (eu_list c') /\ same_dims (u_rels U) (Some c') (Some u) /\ steady (u_rels U) c').
  { unfold c', steady, same_dims, dims_of. cbn [eu_list]. destruct Hc as [-> | [-> _]].
    - split; [exact Ov|]. split; [intros d; symmetry; apply D|exact Sv].
    - split; [exact Ou|]. split; [reflexivity|exact Su]. }
  destruct X as (X1 & X2 & X3).
  destruct (convert_ok (u_rels U) us n c' u false W X1 Ou X2 X3 Su Gn) as (m & e & E' & V' & Gm & Cm & He & _).
  exists m, (mkEU (eu_list e) true). split; [rewrite (uto_call U stl x y a u v s Hx Hy), E; reflexivity|]. split; [|split].
  - rewrite (uto_call U stl (mkRes (VNum n) (Some c') None) z n c' u s); [|left; split; reflexivity|exact Hz]. rewrite E'. reflexivity.
  - rewrite V', V. unfold c'. cbn [eu_list]. rewrite (factor_perm _ _ Pc). field. split; assumption.
  - cbn [eu_list]. destruct He as [-> | [-> P]]; [apply Permutation_refl|exact P].
Qed.
Print Assumptions c59_round_trip.

(** Other dimensions are refused, and so is anything but a quantity and a unit. *)
Theorem c59_different : forall U us stl x y a u v s, world (u_rels U) us -> made_of us u -> made_of us v -> quantity_at U x a u -> rval y = VUnit v ->
  (exists d, dims_of (u_rels U) (Some u) d <> dims_of (u_rels U) (Some v) d) -> steady (u_rels U) u -> steady (u_rels U) v ->
  shows (u_lib U) (rval x) = true -> shows (u_lib U) (rval y) = true ->
  callop (with_units U) stl ($"to") [x; y] s = (OErr (XCalc true (MOp ($"operator " ++ $"to"))), s).
Proof.
  intros U us stl x y a u v s W (Ou & _) (Ov & _) Hx Hy D Su Sv Sx Sy.
  rewrite (uto_call U stl x y a u v s Hx Hy), (convert_refused (u_rels U) us a u v false W Ou Ov D Su Sv), Sx, Sy. reflexivity.
Qed.
Print Assumptions c59_different.
Theorem c59_no_unit : forall U stl x y s, is_list (rval x) = false -> is_exc (rval x) = false -> is_list (rval y) = false -> is_exc (rval y) = false ->
  (runit x = None /\ forall u, rval x <> VUnit u) \/ (forall v, rval y <> VUnit v) -> shows (u_lib U) (rval x) = true -> shows (u_lib U) (rval y) = true ->
  callop (with_units U) stl ($"to") [x; y] s = (OErr (XCalc true (MOp ($"operator " ++ $"to"))), s).
Proof.
  intros U stl x y s Lx Ex Ly Ey H Sx Sy. apply uto_refused; auto. destruct H as [[H1 H2]|H]; [left|now right]. split; [|exact H2].
  unfold has_type. cbn. rewrite H1. destruct (any_number (l_fmt (u_lib U)) (rval x)); reflexivity.
Qed.
Print Assumptions c59_no_unit.

(** Temperatures are converted as points on the absolute scale. *)
Theorem c59_temperature : forall U stl x y a t w s, temperature t -> temperature w -> udim t = udim w -> named [t; w] -> good a ->
  rval x = VNum a -> runit x = Some (mkEU [(t, 1)] false) -> rval y = VUnit (mkEU [(w, 1)] false) ->
  exists n c, callop (with_units U) stl ($"to") [x; y] s = (OOk (mkRes (VNum n) c None), s) /\
    (to_kelvin (ukind_of w) (val n) == to_kelvin (ukind_of t) (val a))%Q /\ ncast n = ncast a.
Proof.
  intros U stl x y a t w s Tt Tw Ud Nm G Vx Ux Vy.
  destruct (convert_temperature (u_rels U) a t w false Tt Tw Ud Nm G) as (n & c & E & V & _ & C & _). cbv iota in V.
  exists n, (flag_simple c). split; [|split; [|exact C]].
  - rewrite (uto_call U stl x y a _ _ s (or_introl (conj Vx Ux)) Vy), E. reflexivity.
  - rewrite <- (proj2 (kelvin_inverse (ukind_of w) (to_kelvin (ukind_of t) (val a)))). destruct (ukind_of w); cbn [to_kelvin]; rewrite V; reflexivity.
Qed.
Print Assumptions c59_temperature.
Example c59_ex : map (uanswer demo_norm) ["3 miles to km"; "1 kW hour to J"; "5 m/s to km/hour"; "mile to m"; "20@C to @F"; "0xF00 inches to feet"; "1 kg m/s^2 to N"; "3 m to s"; "3 to m"; "3 m to 2"; "(3 ft to cm) to ft"; "3 kg m to kg m"]%string =
  ["4.828032 kilometers"; "3600000 joules"; "18 kilometers/hour"; "1609.344 meters"; "68 Fahrenheit"; "0x140 feet"; "1 newton"; "execute error"; "execute error"; "execute error"; "3 feet"; "3 kilogram meters"]%string.
Proof. vm_compute. reflexivity. Qed.
