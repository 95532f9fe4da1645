(** C60: powers of quantities, and units made of units. *)
From Coq Require Import ZArith QArith Qpower Qabs Qround Ascii String List Bool Lia Lqa Permutation.
From Verif Require Import Base BaseProofs Dec Num NumSpec NumProofs NumProofs2 NumProofs3 NumProofs4 Bases BasesProofs Formats Units UnitsSpec UnitsProofs UnitsProofs2 UnitsProofs3 UnitsProofs4 UnitsProofs5 UnitReg UnitData Install Syntax Pos Call CallSpec Loop Parse Exec Std StdSpec StdRun StdProofs9 TextSpec TextProofs ArithSpec ArithProofs UnitCalc UnitCalcSpec UnitCalcProofs UnitCalcProofs2 UnitCalcProofs3 UnitRun UnitTable.
Import ListNotations.
Open Scope Z_scope.

(** A whole power of a quantity is the power of the quantity, with all exponents of dimensions multiplied. *)
Theorem c60_power : forall U us stl x y a b u s, world (u_rels U) us -> made_of us u -> number_at (u_lib U) x a -> number_at (u_lib U) y b -> runit x = Some u -> runit y = None ->
  let p := l_prec (u_lib U) in 1 <= p -> pow_ok p (f_pow (l_fmt (u_lib U))) -> good a -> nden b = 1 -> Z.abs (nnum b) < 10 ^ p -> (nnum a <> 0 \/ 0 < nnum b) ->
  Z.abs (nnum a ^ Z.abs (nnum b)) < 10 ^ p -> nden a ^ Z.abs (nnum b) < 10 ^ p ->
  exists n w, callop (with_units U) stl ($"^") [x; y] s = (OOk (mkRes (VNum n) w None), s) /\
    (val n * size_of w == Qpower (val a * size_of (Some u)) (nnum b))%Q /\ (forall d, dims_of (u_rels U) w d = nnum b * dims_of (u_rels U) (Some u) d) /\ ncast n = format_of a b.
Proof.
  intros U us stl x y a b u s W (Ou & _) Hx Hy Ux Uy p Hp Hpow Ga Db Sb Nz S1 S2.
  assert (S3 : small p (nden a ^ Z.abs (nnum b))) by (unfold small, good in *; rewrite Z.abs_eq; [exact S2|apply Z.pow_nonneg; lia]).
  assert (N : exists n, num_pow p (f_pow (l_fmt (u_lib U))) a b = Some n /\ (val n == Qpower (val a) (nnum b))%Q /\ good n /\ lowest n /\ ncast n = ncast a).
  { destruct (Z.leb_spec 0 (nnum b)).
    - rewrite (Z.abs_eq (nnum b)) in S1, S3 by lia. now apply num_pow_nonneg.
    - rewrite (Z.abs_neq (nnum b)) in S1, S3 by lia. apply num_pow_neg; auto. destruct Nz as [Nz|Nz]; [exact Nz|lia]. }
  destruct N as (n & E & V & G & Lo & C). destruct (upower_spec us (u_rels U) (eu_list u) (nnum b) false Ou) as [P1 P2].
  exists (with_cast n (format_of a b)). eexists. split; [now apply (upow_call U stl x y a b n s u)|]. split; [|split; [exact P2|reflexivity]].
  rewrite with_cast_val, V, P1. cbn [size_of]. rewrite Qmult_power. reflexivity.
Qed.
Print Assumptions c60_power.

(** An exponent with a unit is refused. *)
Theorem c60_exponent : forall U stl x y a b v s, number_at (u_lib U) x a -> number_at (u_lib U) y b -> runit y = Some v ->
  let p := l_prec (u_lib U) in 1 <= p -> pow_ok p (f_pow (l_fmt (u_lib U))) -> good a -> nden b = 1 -> Z.abs (nnum b) < 10 ^ p -> (nnum a <> 0 \/ 0 < nnum b) ->
  Z.abs (nnum a ^ Z.abs (nnum b)) < 10 ^ p -> nden a ^ Z.abs (nnum b) < 10 ^ p -> shows (u_lib U) (rval x) = true -> shows (u_lib U) (rval y) = true ->
  callop (with_units U) stl ($"^") [x; y] s = (OErr (XCalc true (MOp ($"operator " ++ $"^"))), s).
Proof.
  intros U stl x y a b v s Hx Hy Uy p Hp Hpow Ga Db Sb Nz S1 S2 Sx Sy.
  assert (S3 : small p (nden a ^ Z.abs (nnum b))) by (unfold small, good in *; rewrite Z.abs_eq; [exact S2|apply Z.pow_nonneg; lia]).
  assert (N : exists n, num_pow p (f_pow (l_fmt (u_lib U))) a b = Some n).
  { destruct (Z.leb_spec 0 (nnum b)).
    - rewrite (Z.abs_eq (nnum b)) in S1, S3 by lia. destruct (num_pow_nonneg p (f_pow (l_fmt (u_lib U))) a b) as (n & E & _); eauto.
    - rewrite (Z.abs_neq (nnum b)) in S1, S3 by lia. destruct (num_pow_neg p (f_pow (l_fmt (u_lib U))) a b) as (n & E & _); eauto. destruct Nz as [Nz|Nz]; [exact Nz|lia]. }
  destruct N as (n & E). now apply (upow_refused U stl x y a b n s v).
Qed.
Print Assumptions c60_exponent.

(** Units side by side are multiplied, units with a slash divided: the size is the product or the quotient and the
    dimensions add up, provided something is left. *)
Theorem c60_units : forall U us stl sym sg x y u v s, In (sym, sg) [($"UNIT_MULTIPLY", 1); ($"UNIT_DIVIDE", -1)] -> world (u_rels U) us -> made_of us u -> made_of us v ->
  rval x = VUnit u -> rval y = VUnit v -> (exists d, dims_of (u_rels U) (Some u) d + sg * dims_of (u_rels U) (Some v) d <> 0) ->
  exists w, callop (with_units U) stl sym [x; y] s = (OOk (mkRes (VUnit w) None None), s) /\ made_of us w /\
    (size_of (Some w) == size_of (Some u) * Qpower (size_of (Some v)) sg)%Q /\
    forall d, dims_of (u_rels U) (Some w) d = dims_of (u_rels U) (Some u) d + sg * dims_of (u_rels U) (Some v) d.
Proof.
  intros U us stl sym sg x y u v s H W (Ou & _) (Ov & _) Hx Hy [d Hd]. pose proof W as (Uo & _).
  rewrite (uunits_call U stl sym sg x y u v s H Hx Hy).
  destruct (new2_spec us (u_rels U) (eu_list u) (eu_list v) sg Uo Ou Ov) as (S & D & K).
  destruct (upl_new [(eu_list u, 1); (eu_list v, sg)]) as [l|] eqn:E; cbn [option_map] in S, D, K.
  - exists (mkEU l true). split; [reflexivity|]. split; [|split; [exact S|exact D]]. destruct K as [K1 K2]. split; [exact K1|]. split; [exact K2|].
    cbn [eu_list]. intros ->. apply Hd. specialize (D d). cbn in D. cbn [dims_of]. lia.
  - exfalso. apply Hd. specialize (D d). cbn [dims_of] in *. lia.
Qed.
Print Assumptions c60_units.
(** So with a whole power of a unit, other than zero. *)
Theorem c60_unit_power : forall U us stl x y u b s, world (u_rels U) us -> made_of us u -> rval x = VUnit u -> number_at (u_lib U) y b -> nden b = 1 ->
  (exists d, nnum b * dims_of (u_rels U) (Some u) d <> 0) ->
  exists w, callop (with_units U) stl ($"^") [x; y] s = (OOk (mkRes (VUnit w) None None), s) /\
    (size_of (Some w) == Qpower (size_of (Some u)) (nnum b))%Q /\ forall d, dims_of (u_rels U) (Some w) d = nnum b * dims_of (u_rels U) (Some u) d.
Proof.
  intros U us stl x y u b s W (Ou & _) Hx Hy Db [d Hd]. rewrite (uunitpow_call U stl x y b u s Hx Hy Db).
  destruct (upower_spec us (u_rels U) (eu_list u) (nnum b) false Ou) as [S D]. destruct (upower (eu_list u) (nnum b)) as [l|]; cbn [option_map] in S, D.
  - exists (mkEU l false). split; [reflexivity|]. split; [exact S|exact D].
  - exfalso. apply Hd. specialize (D d). cbn [dims_of] in *. lia.
Qed.
Print Assumptions c60_unit_power.
(** A number next to a unit is that many of it. *)
Theorem c60_of_unit : forall U stl x y a u k s, number_at (u_lib U) x a -> runit x = None -> rval y = VUnit u -> good a -> size_le k a -> 1 <= k -> 2 * k <= l_prec (u_lib U) ->
  exists n, callop (with_units U) stl ($"UNIT_ASSIGNMENT") [x; y] s = (OOk (mkRes (VNum n) (Some u) None), s) /\ (val n == val a)%Q /\ ncast n = ncast a.
Proof.
  intros U stl x y a u k s Hx Ux Hy Ga Sa Hk Hp. assert (P1 : 1 <= l_prec (u_lib U)) by lia.
  assert (One : good (num_of_Z (l_prec (u_lib U)) 1) /\ size_le k (num_of_Z (l_prec (u_lib U)) 1) /\ (val (num_of_Z (l_prec (u_lib U)) 1) == 1)%Q).
  { assert (T : 10 ^ 1 <= 10 ^ k) by (apply Z.pow_le_mono_r; lia). rewrite num_of_Z_eq. split; [unfold good; cbn [nden]; lia|]. split; [split; cbn [nnum nden]; lia|reflexivity]. }
  destruct One as (G1 & S1 & V1).
  destruct (num_mul_exact _ a (num_of_Z (l_prec (u_lib U)) 1) P1 Ga G1 (size_mul _ k _ _ ltac:(lia) Ga G1 Sa S1 Hp)) as (n & N & Vn & _ & _ & C).
  exists n. split; [now apply (uassign_call U stl x y a u n s)|]. split; [rewrite Vn, V1; ring|exact C].
Qed.
Print Assumptions c60_of_unit.

(** Units that cancel each other are an unknown error instead of no unit. *)
Theorem c60_cancel_refuted : map (uanswer demo_norm) ["6 m/m"; "6 m / 2 m"; "m/m"; "6 m s/m"]%string = ["execute error"; "3"; "execute error"; "6 seconds"]%string.
Proof. vm_compute. reflexivity. Qed.
Print Assumptions c60_cancel_refuted.
Example c60_ex : map (uanswer demo_norm) ["(3 m/s)^2"; "(2 m)^-1"; "(2 km)^3"; "(5 m)^0"; "2^(3 m)"; "3 kg m/s^2"; "3 kg m s^-2"; "0xff cm"; "4 m^2"]%string =
  ["9 meters^2/second^2"; "0.5 meters^-1"; "8 kilometers^3"; "1"; "execute error"; "3 kilogram meters/second^2"; "3 kilogram meters/second^2"; "0xFF centimeters"; "4 meters^2"]%string.
Proof. vm_compute. reflexivity. Qed.
