(** C68: units are what their definitions outside the code say. *)
From Coq Require Import ZArith QArith Qpower Ascii String List Bool Lia Permutation.
From Verif Require Import Base BaseProofs Dec Num NumSpec NumProofs Bases Formats Units UnitsSpec UnitsProofs UnitsProofs2 UnitReg UnitData Install Syntax Pos Call Loop Parse Exec Std StdRun UnitCalc UnitCalcSpec UnitCalcProofs UnitCalcProofs3 UnitRun UnitTable DefinitionSpec DefinitionProofs.
Import ListNotations.
Open Scope Z_scope.

(** Every fact in the list is about units there are. *)
Theorem c68_known : forall n k l, In (n, k, l) facts -> exists u v, stands_for demo_norm n u /\ stand_for demo_norm l v.
Proof. intros n k l H. exact (fact_b_known _ _ _ _ _ (preset_facts _ H)). Qed.
Print Assumptions c68_known.

(** Any number of a unit, converted to the units it is defined by, is exactly as many times the number in the definition, and
    as many of the others, converted back, exactly that number. *)
Theorem c68_defined : forall U n k l u v f g stl x y a s, In (n, k, l) facts -> u_norm U = demo_norm -> stands_for demo_norm n u -> stand_for demo_norm l v ->
  rval x = VNum a -> runit x = Some (mkEU [(u, 1)] f) -> rval y = VUnit (mkEU v g) -> good a ->
  exists m w, callop (with_units U) stl ($"to") [x; y] s = (OOk (mkRes (VNum m) (Some w) None), s) /\ (val m == val a * k)%Q /\ Permutation (eu_list w) v /\ ncast m = ncast a.
Proof.
  intros U n k l u v f g stl x y a s H E Hu Hv Vx Ux Vy G.
  destruct (fact_b_ok _ _ _ _ _ _ _ (preset_facts _ H) Hu Hv) as (I & O & F & S1 & S2 & D).
  assert (W : world (u_rels U) (plain_units demo_norm)) by (unfold u_rels; rewrite E; exact preset_world).
  assert (O1 : over (plain_units demo_norm) [(u, 1)]) by (constructor; [exact I|constructor]).
  assert (Rl : u_rels U = n_rels demo_norm) by (unfold u_rels; rewrite E; reflexivity).
  destruct (convert_ok (u_rels U) (plain_units demo_norm) a (mkEU [(u, 1)] f) (mkEU v g) false W O1 O) as (m & c & C & V & _ & Cm & Hc & _).
  - intros d. unfold dims_of. cbn [eu_list]. rewrite <- !expand_total, Rl. apply D.
  - unfold steady. rewrite Rl. exact S1.
  - unfold steady. rewrite Rl. exact S2.
  - exact G.
  - exists m, (mkEU (eu_list c) true). split; [|split; [|split; [|exact Cm]]].
    + rewrite (uto_call U stl x y a _ _ s (or_introl (conj Vx Ux)) Vy), C. reflexivity.
    + rewrite V. cbn [eu_list]. rewrite F. field. apply factor_nz, (world_scaled (u_rels U) (plain_units demo_norm)); assumption.
    + cbn [eu_list]. destruct Hc as [-> | [-> P]]; [apply Permutation_refl|exact P].
Qed.
Print Assumptions c68_defined.
Theorem c68_back : forall U n k l u v f g stl x y a s, In (n, k, l) facts -> u_norm U = demo_norm -> stands_for demo_norm n u -> stand_for demo_norm l v ->
  rval x = VNum a -> runit x = Some (mkEU v f) -> rval y = VUnit (mkEU [(u, 1)] g) -> good a ->
  exists m w, callop (with_units U) stl ($"to") [x; y] s = (OOk (mkRes (VNum m) (Some w) None), s) /\ (val m * k == val a)%Q /\ Permutation (eu_list w) [(u, 1)] /\ ncast m = ncast a.
Proof.
  intros U n k l u v f g stl x y a s H E Hu Hv Vx Ux Vy G.
  destruct (fact_b_ok _ _ _ _ _ _ _ (preset_facts _ H) Hu Hv) as (I & O & F & S1 & S2 & D).
  assert (W : world (u_rels U) (plain_units demo_norm)) by (unfold u_rels; rewrite E; exact preset_world).
  assert (O1 : over (plain_units demo_norm) [(u, 1)]) by (constructor; [exact I|constructor]).
  assert (Rl : u_rels U = n_rels demo_norm) by (unfold u_rels; rewrite E; reflexivity).
  destruct (convert_ok (u_rels U) (plain_units demo_norm) a (mkEU v f) (mkEU [(u, 1)] g) false W O O1) as (m & c & C & V & _ & Cm & Hc & _).
  - intros d. unfold dims_of. cbn [eu_list]. rewrite <- !expand_total, Rl. symmetry. apply D.
  - unfold steady. rewrite Rl. exact S2.
  - unfold steady. rewrite Rl. exact S1.
  - exact G.
  - exists m, (mkEU (eu_list c) true). split; [|split; [|split; [|exact Cm]]].
    + rewrite (uto_call U stl x y a _ _ s (or_introl (conj Vx Ux)) Vy), C. reflexivity.
    + rewrite V. cbn [eu_list].
      assert (N1 : ~ (factor [(u, 1%Z)] == 0)%Q) by (apply factor_nz, (world_scaled (u_rels U) (plain_units demo_norm)); assumption).
      rewrite F. rewrite F in N1. field. split; intros Z; apply N1; rewrite Z; ring.
    + cbn [eu_list]. destruct Hc as [-> | [-> P]]; [apply Permutation_refl|exact P].
Qed.
Print Assumptions c68_back.

(** Four units are not: a US dram comes out as a sixteenth of a fluid ounce (it is an eighth), an acre as 4046.9 square metres
    (it is 4840 square yards), a psi is cut off after seven digits, and a light year is not what light travels in a year
    (365.25 days against 365.2425).  The symbol of kibi is ki and not Ki. *)
Theorem c68_refuted : map (uanswer demo_norm) ["1 US fluid ounce to US drams"; "4840 yard^2 to acres"; "1 psi to pound gee/inch^2"; "1 lightyear / (1 lightsecond/second) to years"; "1 kiB to bytes"; "1 KiB to bytes"]%string =
  ["16 US drams"; "0.999989231856482739874966023376 acres"; "0.999999957479524097649209407154 pound gees/inch^2"; "1.000020534302552413807265036243 years"; "1024 bytes"; "execute error"]%string.
Proof. vm_compute. reflexivity. Qed.
Print Assumptions c68_refuted.
Example c68_ex : length facts = 1108%nat /\ map (uanswer demo_norm) ["3 miles to yards"; "5 kB to bits"; "0xA UK gallons to UK pints"; "2 MV to W/A"; "7 weeks to minutes"]%string =
  ["5280 yards"; "40000 bits"; "0x50 UK pints"; "2000000 watts/ampere"; "70560 minutes"]%string.
Proof. split; vm_compute; reflexivity. Qed.
