(** C58: multiplying and dividing numbers with units. *)
From Coq Require Import ZArith QArith Qpower Qabs Qround Ascii String List Bool Lia Lqa Permutation.
From Verif Require Import Base BaseProofs Dec Num NumSpec NumProofs NumProofs2 NumProofs3 NumProofs4 Bases BasesProofs Formats Units UnitsSpec UnitsProofs UnitsProofs2 UnitsProofs3 UnitsProofs4 UnitsProofs5 UnitReg UnitData Install Syntax Pos Call CallSpec Loop Parse Exec Std StdSpec StdRun StdProofs9 TextSpec TextProofs ArithSpec ArithProofs UnitCalc UnitCalcSpec UnitCalcProofs UnitCalcProofs2 UnitRun UnitTable.
Import ListNotations.
Open Scope Z_scope.

(** The operators, what they do to quantities and to exponents of dimensions *)
Definition scalings : list (str * (Q -> Q -> Q) * Z) := [($"*", Qmult, 1); ($"/", Qdiv, -1)].

(** What both theorems come to, once the operands are brought to units [u] and [v] *)
Lemma product_of U us stl sym f sg x y a b m u v k s : In (sym, f, sg) scalings -> units_ok us ->
  number_at (u_lib U) x a -> number_at (u_lib U) y b ->
  normalise_inputs (u_rels U) [VNum a; VNum b] [runit x; runit y] true true = Ok ([VNum a; VNum m], [u; v], None) ->
  match u with Some x => over us (eu_list x) | None => True end -> match v with Some y => over us (eu_list y) | None => True end ->
  good a -> good m -> size_le k a -> size_le k m -> 0 <= k -> 2 * k + 1 <= l_prec (u_lib U) -> (sg = -1 -> ~ (val m == 0)%Q) -> ~ (size_of v == 0)%Q ->
  exists n w, callop (with_units U) stl sym [x; y] s = (OOk (mkRes (VNum n) w None), s) /\
    (val n * size_of w == f (val a * size_of u) (val m * size_of v))%Q /\
    (forall d, dims_of (u_rels U) w d = dims_of (u_rels U) u d + sg * dims_of (u_rels U) v d) /\ ncast n = format_of a b.
Proof.
  intros H Hu Hx Hy Hn Ou Ov Ga Gm Sa Sm Hk Hp Hz Nz. assert (P1 : 1 <= l_prec (u_lib U)) by lia.
  assert (P2 : 2 * k <= l_prec (u_lib U)) by lia.
  destruct H as [H|[H|[]]]; injection H as <- <- <-.
  - destruct (num_mul_exact _ a m P1 Ga Gm (size_mul _ k a m Hk Ga Gm Sa Sm P2)) as (n & N & Vn & _ & _ & C).
    destruct (join_spec us (u_rels U) u v 1 Hu (or_introl eq_refl) Ou Ov) as [J1 J2].
    exists (with_cast n (format_of a b)). eexists. split; [|split; [|split]].
    + eapply uscale_call; [left; reflexivity|exact Hx|exact Hy|exact Hn|exact N|exact C].
    + rewrite with_cast_val, Vn, J1. simpl Qpower. ring.
    + exact J2.
    + reflexivity.
  - assert (Z0 : nnum m <> 0) by (intros E; apply (Hz eq_refl); unfold val; rewrite E; unfold Qdiv; change (inject_Z 0) with 0%Q; ring).
    destruct (num_div_exact _ a m P1 Ga Gm (size_div _ k a m Hk Ga Gm Sa Sm P2) Z0) as (n & N & Vn & _ & _ & C).
    destruct (join_spec us (u_rels U) u v (-1) Hu (or_intror eq_refl) Ou Ov) as [J1 J2].
    exists (with_cast n (format_of a b)). eexists. split; [|split; [|split]].
    + eapply uscale_call; [right; left; reflexivity|exact Hx|exact Hy|exact Hn|exact N|exact C].
    + rewrite with_cast_val, Vn, J1. simpl Qpower. field. split; [exact Nz|apply Hz; reflexivity].
    + exact J2.
    + reflexivity.
Qed.

(** [*] and [/] of two quantities: the second is rewritten in some unit [c] of the same dimensions, and the result measures
    the product or the quotient of the quantities, its dimensions the sums or differences of theirs. *)
Theorem c58_product : forall U us stl sym f sg x y a b u v k s, In (sym, f, sg) scalings -> world (u_rels U) us -> made_of us u -> made_of us v ->
  number_at (u_lib U) x a -> number_at (u_lib U) y b -> runit x = Some u -> runit y = Some v ->
  (exists d, dims_of (u_rels U) (Some v) d <> 0) -> good a -> good b -> size_le k a -> size_le k b -> 0 <= k -> 2 * k + 1 <= l_prec (u_lib U) ->
  (sg = -1 -> ~ (val b == 0)%Q) ->
  exists c, made_of us c /\ same_dims (u_rels U) (Some c) (Some v) /\
    (has_digits k (val b * size_of (Some v) / size_of (Some c)) ->
     exists n w, callop (with_units U) stl sym [x; y] s = (OOk (mkRes (VNum n) w None), s) /\
       (val n * size_of w == f (val a * size_of (Some u)) (val b * size_of (Some v)))%Q /\
       (forall d, dims_of (u_rels U) w d = dims_of (u_rels U) (Some u) d + sg * dims_of (u_rels U) (Some v) d) /\ ncast n = format_of a b).
Proof.
  intros U us stl sym f sg x y a b u v k s H W Mu Mv Hx Hy Ux Uy Hd Ga Gb Sa Sb Hk Hp Hz.
  destruct (pair_ok (u_rels U) us b u v true W Mu Mv Hd Gb) as (q & c & E & V & D & Mc). exists c. split; [exact Mc|]. split; [exact D|].
  intros Dg. pose proof W as ((C & S) & _).
  assert (Nz : forall l, over us l -> ~ (factor l == 0)%Q) by (intros l O; apply factor_nz; apply (world_scaled (u_rels U) us); assumption).
  assert (Q1 : (q == val b * size_of (Some v) / size_of (Some c))%Q) by (rewrite <- V; cbn [size_of]; field; apply Nz, Mc).
  assert (Sm : size_le k (of_q b q)).
  { apply of_q_size; [exact Sb|]. unfold has_digits in *. rewrite (Qred_complete _ _ Q1). exact Dg. }
  destruct (product_of U us stl sym f sg x y a b (of_q b q) (Some u) (Some c) k s) as (n & w & N1 & N2 & N3 & N4); auto.
  - split; assumption.
  - rewrite Ux, Uy, to_common by apply Mu. rewrite E. reflexivity.
  - apply Mu.
  - apply Mc.
  - apply of_q_good, Gb.
  - intros Es Z. apply (Hz Es). rewrite of_q_val in Z. rewrite Z in V. cbn [size_of] in V.
    destruct (Qmult_integral (val b) (factor (eu_list v))) as [R|R]; [rewrite <- V; ring|exact R|]. destruct (Nz (eu_list v) (proj1 Mv) R).
  - cbn [size_of]. apply Nz, Mc.
  - exists n, w. split; [exact N1|]. split; [|split; [|exact N4]].
    + rewrite N2. assert (R : (val (of_q b q) * size_of (Some c) == val b * size_of (Some v))%Q) by (rewrite of_q_val; exact V).
      destruct H as [H|[H|[]]]; injection H as <- <- <-; rewrite R; reflexivity.
    + intros d. rewrite N3. rewrite (D d). reflexivity.
Qed.
Print Assumptions c58_product.

(** With a unit on at most one side nothing is converted. *)
Theorem c58_scale : forall U us stl sym f sg x y a b k s, In (sym, f, sg) scalings -> world (u_rels U) us ->
  number_at (u_lib U) x a -> number_at (u_lib U) y b -> runit x = None \/ runit y = None ->
  (forall u, runit x = Some u \/ runit y = Some u -> made_of us u) ->
  good a -> good b -> size_le k a -> size_le k b -> 0 <= k -> 2 * k + 1 <= l_prec (u_lib U) -> (sg = -1 -> ~ (val b == 0)%Q) ->
  exists n w, callop (with_units U) stl sym [x; y] s = (OOk (mkRes (VNum n) w None), s) /\
    (val n * size_of w == f (val a * size_of (runit x)) (val b * size_of (runit y)))%Q /\ (val n == f (val a) (val b))%Q /\
    (forall d, dims_of (u_rels U) w d = dims_of (u_rels U) (runit x) d + sg * dims_of (u_rels U) (runit y) d) /\ ncast n = format_of a b.
Proof.
  intros U us stl sym f sg x y a b k s H W Hx Hy Hn M Ga Gb Sa Sb Hk Hp Hz. pose proof W as ((C & S) & _).
  assert (Nz : forall l, over us l -> ~ (factor l == 0)%Q) by (intros l O; apply factor_nz; apply (world_scaled (u_rels U) us); assumption).
  assert (Ny : ~ (size_of (runit y) == 0)%Q) by (destruct (runit y) as [v|] eqn:E; cbn [size_of]; [apply Nz, M; auto|discriminate]).
  assert (Nx : ~ (size_of (runit x) == 0)%Q) by (destruct (runit x) as [v|] eqn:E; cbn [size_of]; [apply Nz, M; auto|discriminate]).
  destruct (product_of U us stl sym f sg x y a b b (runit x) (runit y) k s) as (n & w & N1 & N2 & N3 & N4); auto.
  - split; assumption.
  - apply one_unit, Hn.
  - destruct (runit x) as [u|] eqn:E; [apply M; auto|exact I].
  - destruct (runit y) as [u|] eqn:E; [apply M; auto|exact I].
  - exists n, w. split; [exact N1|]. split; [exact N2|]. split; [|split; assumption].
    assert (Sw : (size_of w == size_of (runit x) * Qpower (size_of (runit y)) sg)%Q).
    { clear N2 N3. assert (exists g, In (sym, sg, g) products /\ exists n, g (l_prec (u_lib U)) a b = Some n /\ ncast n = ncast a) as (g & Hg & n' & En & Cn).
      { assert (P1 : 1 <= l_prec (u_lib U)) by lia. assert (P2 : 2 * k <= l_prec (u_lib U)) by lia.
        destruct H as [H|[H|[]]]; injection H as <- <- <-.
        - exists num_mul. split; [left; reflexivity|]. destruct (num_mul_exact _ a b P1 Ga Gb (size_mul _ k a b Hk Ga Gb Sa Sb P2)) as (r & R & _ & _ & _ & Cr). eauto.
        - exists num_div. split; [right; left; reflexivity|]. assert (Z0 : nnum b <> 0) by (intros E; apply (Hz eq_refl); unfold val; rewrite E; unfold Qdiv; change (inject_Z 0) with 0%Q; ring).
          destruct (num_div_exact _ a b P1 Ga Gb (size_div _ k a b Hk Ga Gb Sa Sb P2) Z0) as (r & R & _ & _ & _ & Cr). eauto. }
      pose proof (uscale_call U stl sym sg g x y a b (runit x) (runit y) b n' s Hg Hx Hy (one_unit _ _ _ _ _ _ Hn) En Cn) as R. rewrite R in N1. injection N1 as _ <-.
      apply (join_spec us (u_rels U)); [split; assumption| | |].
      - destruct H as [H|[H|[]]]; injection H as <- <- <-; auto.
      - destruct (runit x) as [u|] eqn:E; [apply M; auto|exact I].
      - destruct (runit y) as [u|] eqn:E; [apply M; auto|exact I]. }
    rewrite Sw in N2. destruct H as [H|[H|[]]]; injection H as <- <- <-.
    + simpl Qpower in N2. apply Qmult_inj_r with (z := (size_of (runit x) * size_of (runit y))%Q); [intros Z; destruct (Qmult_integral _ _ Z); auto|].
      rewrite N2. ring.
    + simpl Qpower in N2. specialize (Hz eq_refl). apply Qmult_inj_r with (z := (size_of (runit x) * / size_of (runit y))%Q).
      * intros Z. destruct (Qmult_integral _ _ Z) as [A|A]; [auto|]. apply Ny. rewrite <- (Qinv_involutive (size_of (runit y))), A. reflexivity.
      * rewrite N2. field. split; assumption.
Qed.
Print Assumptions c58_scale.

(** Dividing by a zero quantity is an error. *)
Theorem c58_by_zero : forall U us stl x y a b v s, world (u_rels U) us -> number_at (u_lib U) x a -> number_at (u_lib U) y b ->
  (runit x = None \/ runit y = None \/ exists u, runit x = Some u /\ runit y = Some v /\ made_of us u /\ made_of us v /\ exists d, dims_of (u_rels U) (Some v) d <> 0) ->
  good b -> nnum b = 0 -> shows (u_lib U) (rval x) = true -> shows (u_lib U) (rval y) = true ->
  callop (with_units U) stl ($"/") [x; y] s = (OErr (XCalc false (MOp ($"operator " ++ $"/"))), s).
Proof.
  intros U us stl x y a b v s W Hx Hy Hn Gb Z Sx Sy.
  assert (exists m u w, normalise_inputs (u_rels U) [VNum a; VNum b] [runit x; runit y] true true = Ok ([VNum a; VNum m], [u; w], None) /\ nnum m = 0) as (m & u & w & E & Zm).
  { destruct Hn as [Hn|[Hn|(u & Ux & Uy & Mu & Mv & Hd)]].
    - do 3 eexists. split; [apply one_unit; left; exact Hn|exact Z].
    - do 3 eexists. split; [apply one_unit; right; exact Hn|exact Z].
    - destruct (pair_ok (u_rels U) us b u v true W Mu Mv Hd Gb) as (q & c & E & V & D & Mc). do 3 eexists. split; [rewrite Ux, Uy, to_common by apply Mu; rewrite E; reflexivity|].
      assert (Vz : (val b == 0)%Q) by (unfold val; rewrite Z; unfold Qdiv; change (inject_Z 0) with 0%Q; ring). rewrite Vz in V.
      assert (Qz : (q == 0)%Q). { destruct (Qmult_integral q (size_of (Some c))) as [R|R]; [rewrite V; ring|exact R|]. exfalso. revert R. cbn [size_of]. apply factor_nz. apply (world_scaled (u_rels U) us); [exact W|apply Mc]. }
      unfold of_q. destruct (Qeq_bool q (num_q b)); [exact Z|]. cbn [nnum]. rewrite (Qred_complete _ _ Qz). reflexivity. }
  apply (uscale_none U stl _ (-1) num_div x y a b u w m s); auto; [right; left; reflexivity|]. apply num_div_zero, Zm.
Qed.
Print Assumptions c58_by_zero.

(** Without a dimension on the right this fails: bringing feet per meter to meters leaves no unit, and the code goes on to
    ask nothing for a copy. *)
Theorem c58_no_dimension_refuted : map (uanswer demo_norm) ["2 m * (3 ft/m)"; "(3 ft/m) * (2 m)"; "2 m * (3 s/m)"]%string =
  ["execute error"; "6 feet"; "6 seconds"]%string.
Proof. vm_compute. reflexivity. Qed.
Print Assumptions c58_no_dimension_refuted.
Example c58_ex : map (uanswer demo_norm) ["3 m * 2 ft"; "3 m / 2 s"; "6 m^2 / 3 ft"; "2 / 4 s"; "5 * 2 kg"; "3 W * 2 hours"; "1 m / 0 s"; "6 m / 3 cm"]%string =
  ["1.8288 meters^2"; "1.5 meters/second"; "6.561679790026246719160104986877 meters"; "0.5 hertz"; "10 kilograms"; "21.6 kilojoules"; "execute error"; "200"]%string.
Proof. vm_compute. reflexivity. Qed.
