(** C64: simplifying the units of an answer; more on C16. *)
From Coq Require Import ZArith QArith Qpower Ascii String List Bool Lia.
From Verif Require Import Base BaseProofs Dec Num NumSpec Bases Units UnitsSpec UnitsProofs UnitsProofs2 UnitsProofs4 UnitReg UnitData Install InstallProofs Syntax UnitCalc UnitCalcSpec UnitCalcProofs UnitRun UnitTable SimplifySpec SimplifyProofs DedupeProofs EndlessProofs EndProofs ChoiceProofs.
Import ListNotations.
Open Scope Z_scope.

(** ** C16: where removing units of the same dimension does what it is for *)
(** Units of different dimensions stay as they are. *)
Theorem c16_distinct : forall v l, NoDup (map (fun e => udim (fst e)) l) -> dedupe v l = Ok (v, l).
Proof. exact dedupe_distinct. Qed.
Print Assumptions c16_distinct.
(** A unit of the dimension of the first is turned into the first, and the quantity stays: value times size and dimensions. *)
Theorem c16_pair : forall us rel v mid post u q w p, units_ok us -> over us ((u, q) :: mid ++ (w, p) :: post) ->
  once ueqb ((u, q) :: mid ++ (w, p) :: post) -> udim w = udim u -> NoDup (map (fun e => udim (fst e)) ((u, q) :: mid ++ post)) -> q + p <> 0 ->
  exists v', dedupe v ((u, q) :: mid ++ (w, p) :: post) = Ok (v', (u, q + p) :: mid ++ post) /\
    (v' * factor ((u, (q + p)%Z) :: mid ++ post) == v * factor ((u, q) :: mid ++ (w, p) :: post))%Q /\
    forall d, dim_total rel ((u, q + p) :: mid ++ post) d = dim_total rel ((u, q) :: mid ++ (w, p) :: post) d.
Proof. exact dedupe_pair. Qed.
Print Assumptions c16_pair.
(** Two units of one dimension with opposite powers go, wherever they are. *)
Theorem c16_cancel : forall us rel v pre mid post u q w, units_ok us -> over us (pre ++ (u, q) :: mid ++ (w, - q) :: post) ->
  once ueqb (pre ++ (u, q) :: mid ++ (w, - q) :: post) -> udim w = udim u -> NoDup (map (fun e => udim (fst e)) (pre ++ (u, q) :: mid ++ post)) ->
  exists v', dedupe v (pre ++ (u, q) :: mid ++ (w, - q) :: post) = Ok (v', pre ++ mid ++ post) /\
    (v' * factor (pre ++ mid ++ post) == v * factor (pre ++ (u, q) :: mid ++ (w, (- q)%Z) :: post))%Q /\
    forall d, dim_total rel (pre ++ mid ++ post) d = dim_total rel (pre ++ (u, q) :: mid ++ (w, - q) :: post) d.
Proof. exact dedupe_cancel. Qed.
Print Assumptions c16_cancel.

(** ** C64 *)
(** Replacing combinations of units by units of the registry keeps value times size and every base dimension. *)
Theorem c64_replacing : forall U us fuel v l v' l', units_ok us -> goes_with (u_norm U) us -> over us l -> simplify_loop fuel U v l = Ok (v', l') ->
  (v' * factor l' == v * factor l)%Q /\ (forall d, dim_total (u_rels U) l' d = dim_total (u_rels U) l d) /\ (once ueqb l -> once ueqb l').
Proof. intros U us fuel v l v' l' HU G O H. destruct (simplify_loop_spec U us HU G fuel v l v' l' O H) as (A & B & C & D). auto. Qed.
Print Assumptions c64_replacing.
(** All of the simplification keeps value times size. *)
Theorem c64_simplify : forall U us v l v' l', units_ok us -> goes_with (u_norm U) us -> over us l -> simplify U v l = Ok (v', l') ->
  (v' * factor l' == v * factor l)%Q /\ over us l'.
Proof. intros U us v l v' l'. apply simplify_spec. Qed.
Print Assumptions c64_simplify.
(** When the replacing leaves no two units of one dimension, the dimensions are kept as well. *)
Theorem c64_dimensions : forall U us v l v' l', units_ok us -> goes_with (u_norm U) us -> over us l -> simplify U v l = Ok (v', l') ->
  (forall v1 l1, simplify_loop simplify_fuel U v l = Ok (v1, l1) -> NoDup (map (fun e => udim (fst e)) l1)) ->
  forall d, dim_total (u_rels U) l' d = dim_total (u_rels U) l d.
Proof.
  intros U us v l v' l' HU G O H N d. unfold simplify in H. cbv zeta in H.
  destruct (simplify_loop simplify_fuel U v l) as [[v1 l1]| |] eqn:E.
  - specialize (N v1 l1 eq_refl). destruct (c64_replacing U us _ v l v1 l1 HU G O E) as (_ & D & _).
    destruct l as [|[u q] [|e l]]; cbn [obind fst snd] in H.
    + unfold dedupe in H. cbn [length Nat.ltb Nat.leb] in H. injection H as _ <-. reflexivity.
    + destruct (q <? 0); cbn [obind fst snd] in H.
      * rewrite (dedupe_distinct v1 l1 N) in H. injection H as _ <-. apply D.
      * unfold dedupe in H. cbn [length Nat.ltb Nat.leb] in H. injection H as _ <-. reflexivity.
    + rewrite (dedupe_distinct v1 l1 N) in H. injection H as _ <-. apply D.
  - destruct l as [|[u q] [|e l]]; cbn [obind fst snd] in H; [injection H as _ <-; reflexivity| |discriminate].
    destruct (q <? 0); cbn [obind fst snd] in H; [discriminate|]. injection H as _ <-; reflexivity.
  - destruct l as [|[u q] [|e l]]; cbn [obind fst snd] in H; [injection H as _ <-; reflexivity| |discriminate].
    destruct (q <? 0); cbn [obind fst snd] in H; [discriminate|]. injection H as _ <-; reflexivity.
Qed.
Print Assumptions c64_dimensions.
(** The answer of a statement, arrays included, is the same quantity after the final step of the calculator. *)
Theorem c64_finalize : forall U us r r', units_ok us -> goes_with (u_norm U) us -> units_from us r -> finalize U r = Ok r' -> same_answer r r'.
Proof. intros U us r r' HU G. now apply finalize_spec. Qed.
Print Assumptions c64_finalize.

(** *** The units of the code, temperatures aside *)
Definition unit_dec (u v : unit) : {u = v} + {u <> v}.
Proof. repeat decide equality. Defined.
Definition cold_units (N : normaliser) : list unit :=
  filter (fun u => psum seq_eqb ($"temperature") (norm_dim (n_rels N) (udim u)) =? 0) (plain_units N).
Definition in_b (us : list unit) (u : unit) : bool := existsb (fun v => ueqb u v && if unit_dec u v then true else false) us.
Lemma in_b_ok us u : in_b us u = true -> In u us.
Proof.
  intros H. apply existsb_exists in H as (v & I & E). destruct (ueqb u v); [|discriminate E]. cbn [andb] in E. destruct (unit_dec u v) as [-> |]; [exact I|discriminate E].
Qed.
Fixpoint total_list (rel : rels) (l : upl) : dlist := match l with [] => [] | (u, q) :: r => map (fun e => (fst e, q * snd e)) (norm_dim rel (udim u)) ++ total_list rel r end.
Lemma total_list_sum rel l d : psum seq_eqb d (total_list rel l) = dim_total rel l d.
Proof.
  induction l as [|[u q] l IH]; cbn [total_list dim_total]; [reflexivity|]. rewrite <- IH. generalize (norm_dim rel (udim u)). intros ds.
  induction ds as [|[k p] ds IHd]; cbn [map app psum fst snd]; [lia|]. rewrite IHd. destruct (seq_eqb k d); lia.
Qed.
(** The same totals, looking at the dimensions that occur *)
Definition same_totals (a b : dlist) : bool := forallb (fun d => psum seq_eqb d a =? psum seq_eqb d b) (map fst a ++ map fst b).
Lemma same_totals_ok a b : same_totals a b = true -> forall d, psum seq_eqb d a = psum seq_eqb d b.
Proof.
  intros H d. unfold same_totals in H. rewrite forallb_forall in H. destruct (in_dec (list_eq_dec Ascii.ascii_dec) d (map fst a ++ map fst b)) as [I|I].
  - apply Z.eqb_eq, H, I.
  - rewrite in_app_iff in I. rewrite !UnitsProofs3.psum_absent; tauto.
Qed.
Definition proper_b (rel : rels) (dim : str) : bool :=
  let ds := norm_dim rel dim in once_b ds && forallb (fun e => negb (snd e =? 0)) ds && negb (match ds with [] => true | _ => false end).
Lemma proper_b_ok rel dim : proper_b rel dim = true -> proper_dim rel dim.
Proof.
  unfold proper_b, proper_dim. cbv zeta. rewrite !andb_true_iff. intros [[H1 H2] H3]. split; [now apply once_b_ok|]. split.
  - unfold nonzero. rewrite Forall_forall. rewrite forallb_forall in H2. intros e He. apply H2 in He. apply negb_true_iff, Z.eqb_neq in He. exact He.
  - intros Z. rewrite Z in H3. discriminate.
Qed.
Definition covered_b (N : normaliser) (us : list unit) (dim : str) : bool :=
  forallb (fun e => negb (seq_eqb (fst e) dim) || forallb (fun c => in_b us (c_unit c) && seq_eqb (udim (c_unit c)) dim) (snd e)) (n_units N) &&
  forallb (fun e => negb (seq_eqb (fst e) dim) || forallb (fun m => forallb (fun x => in_b us (fst x)) m && same_totals (total_list (n_rels N) m) (norm_dim (n_rels N) dim)) (snd e)) (n_multis N).
Lemma covered_b_ok N us dim : covered_b N us dim = true -> covered N us dim.
Proof.
  unfold covered_b. rewrite andb_true_iff, !forallb_forall. intros [H1 H2]. split.
  - intros cs c I Ic. specialize (H1 _ I). cbn [fst snd] in H1. rewrite seq_eqb_refl in H1. cbn [negb orb] in H1. rewrite forallb_forall in H1.
    specialize (H1 c Ic). apply andb_true_iff in H1 as [A B]. split; [now apply in_b_ok|now apply seq_eqb_iff].
  - intros ms m I Im. specialize (H2 _ I). cbn [fst snd] in H2. rewrite seq_eqb_refl in H2. cbn [negb orb] in H2. rewrite forallb_forall in H2.
    specialize (H2 m Im). apply andb_true_iff in H2 as [A B]. split.
    + apply Forall_forall. intros e He. apply in_b_ok. rewrite forallb_forall in A. now apply A.
    + intros d. rewrite <- total_list_sum. now apply same_totals_ok.
Qed.
Definition foreign_b (N : normaliser) (us : list unit) (dim : str) : bool :=
  existsb (fun d => negb (psum seq_eqb d (norm_dim (n_rels N) dim) =? 0) && forallb (fun u => psum seq_eqb d (norm_dim (n_rels N) (udim u)) =? 0) us) (map fst (norm_dim (n_rels N) dim)).
Lemma foreign_b_ok N us dim : foreign_b N us dim = true -> foreign N us dim.
Proof.
  unfold foreign_b. intros H. apply existsb_exists in H as (d & _ & H). apply andb_true_iff in H as [H1 H2]. exists d. split.
  - apply negb_true_iff, Z.eqb_neq in H1. exact H1.
  - apply Forall_forall. rewrite forallb_forall in H2. intros u Hu. apply Z.eqb_eq, H2, Hu.
Qed.
Definition goes_with_b (N : normaliser) (us : list unit) : bool :=
  forallb (fun e => proper_b (n_rels N) (fst e) && (covered_b N us (fst e) || foreign_b N us (fst e))) (n_units N).
Lemma goes_with_b_ok N us : goes_with_b N us = true -> goes_with N us.
Proof.
  unfold goes_with_b. rewrite forallb_forall. intros H dim cs I. specialize (H _ I). cbn [fst] in H. apply andb_true_iff in H as [A B].
  split; [now apply proper_b_ok|]. apply orb_true_iff in B as [B|B]; [left; now apply covered_b_ok|right; now apply foreign_b_ok].
Qed.
Lemma cold_ok N : units_ok (plain_units N) -> units_ok (cold_units N).
Proof.
  intros [C S]. unfold cold_units. split.
  - intros u v Hu Hv. apply filter_In in Hu as [Hu _]. apply filter_In in Hv as [Hv _]. now apply C.
  - now apply Forall_filter.
Qed.
Lemma preset_goes_with : goes_with demo_norm (cold_units demo_norm).
Proof. apply goes_with_b_ok. vm_cast_no_check (@eq_refl bool true). Qed.
(** The units of the code satisfy the hypotheses, those of temperature left out: 411 units. *)
Theorem c64_preset : units_ok (cold_units demo_norm) /\ goes_with demo_norm (cold_units demo_norm).
Proof. split; [apply cold_ok; exact (proj1 preset_world)|exact preset_goes_with]. Qed.
Print Assumptions c64_preset.
Example c64_count : length (cold_units demo_norm) = 411%nat.
Proof. vm_cast_no_check (@eq_refl nat 411%nat). Qed.
Example c64_ex : map (uanswer demo_norm) ["10 volts * 20 amperes"; "5 watts * 1 nautical mile / 1 newton"; "1 / 10 seconds"; "30 knots * 2 seconds"; "5 watts / 1 newton"; "3 volts / 2 amperes";
    "2 moles * 3 metres * 1 foot"; "300 moles * 2 volts / 3 watts * 4 amperes"; "3 feet * 2 metres * 4 inches"]%string =
  ["200 watts"; "9.719222462203023758099352051836 nautical mile knots"; "100 millihertz"; "30.866666666666666666666666666667 meters"; "5 meters/second"; "1.5 ohms";
   "1.8288 mole meters^2"; "0.8 kilomoles"; "6.561679790026246719160104986877 feet^3"]%string.
Proof. vm_compute. reflexivity. Qed.
(** The three moves the hypotheses of C16 speak of, with real units, and that their hypotheses hold *)
Definition a_unit (id : Z) (d : string) (s : Q) : unit := mkUnit id [list_ascii_of_string d] [] (list_ascii_of_string d) s UScale [].
Example c16_moves_ex : let m := a_unit 1 "length" 1 in let ft := a_unit 2 "length" (381 # 1250) in let sec := a_unit 3 "time" 1 in
  units_ok [m; ft; sec] /\ once ueqb [(m, 2); (sec, -1); (ft, 1)] /\
  dedupe 10 [(m, 1); (sec, -1)] = Ok (10%Q, [(m, 1); (sec, -1)]) /\
  (exists v, dedupe 1250 [(m, 2); (sec, -1); (ft, 1)] = Ok (v, [(m, 3); (sec, -1)]) /\ (v == 381)%Q) /\
  (exists v, dedupe 1250 [(sec, -1); (ft, 1); (m, -1)] = Ok (v, [(sec, -1)]) /\ (v == 381)%Q).
Proof.
  cbv zeta. split; [split|split; [|split; [|split]]].
  - intros u v Hu Hv. cbn [In] in Hu, Hv. destruct Hu as [<-|[<-|[<-|[]]]], Hv as [<-|[<-|[<-|[]]]]; cbn [uid a_unit]; (reflexivity || discriminate).
  - repeat apply Forall_cons; try apply Forall_nil; (split; [reflexivity|cbn [uscale a_unit]; discriminate]).
  - cbn. repeat split; repeat apply Forall_cons; try apply Forall_nil; reflexivity.
  - vm_compute. reflexivity.
  - eexists. split; [vm_compute; reflexivity|reflexivity].
  - eexists. split; [vm_compute; reflexivity|reflexivity].
Qed.

(** Without the hypotheses it goes wrong.  Two units of one dimension behind another one: the answer has lost its dimension,
    metres and candelas have become moles. *)
Theorem c64_dimension_refuted : uanswer demo_norm "6 moles * 3 metres feet candelas" = "18 mole^3 feet"%string.
Proof. vm_compute. reflexivity. Qed.
(** The same with nothing after them (an index past the end), or 0 where both a unit and a compound unit could be used (a
    compound has no scale): no answer at all, but a Python error. *)
Theorem c64_fails_refuted : uanswer demo_norm "6 seconds * 3 metres feet" = "python error"%string /\ uanswer demo_norm "0 watts / 1 newton * 1 nmi" = "python error"%string.
Proof. split; vm_compute; reflexivity. Qed.

(** And it may never end: knots per second are turned into metres per second squared, and with a nautical mile around metres
    per second back into knots.  However many rounds are allowed, the unit is one of the two, still to be replaced. *)
Definition unit_called (N : normaliser) (n : string) : unit :=
  match get_unit (n_prefs N) (n_reg N) (list_ascii_of_string n) with Ok (Some (UDef u)) => u | _ => a_unit 0 "" 0 end.
Definition knot_miles (N : normaliser) : upl := [(unit_called N "nmi", 1); (unit_called N "s", -1); (unit_called N "kn", 1)].
Definition metre_miles (N : normaliser) : upl := [(unit_called N "nmi", 1); (unit_called N "m", 1); (unit_called N "s", -2)].
Lemma knot_rounds N : goes_on (demo_units N) (knot_miles N) = true -> goes_on (demo_units N) (metre_miles N) = true ->
  next (demo_units N) (knot_miles N) = metre_miles N -> next (demo_units N) (metre_miles N) = knot_miles N ->
  forall n k v, exists w, simplify_loop (n + k) (demo_units N) v (knot_miles N) = simplify_loop k (demo_units N) w (knot_miles N) \/
                          simplify_loop (n + k) (demo_units N) v (knot_miles N) = simplify_loop k (demo_units N) w (metre_miles N).
Proof. intros A B C D n k v. exact (proj1 (rounds _ _ _ A B C D n k v)). Qed.
Lemma no_end N : (forall n k v, exists w, simplify_loop (n + k) (demo_units N) v (knot_miles N) = simplify_loop k (demo_units N) w (knot_miles N) \/
                          simplify_loop (n + k) (demo_units N) v (knot_miles N) = simplify_loop k (demo_units N) w (metre_miles N)) ->
  forall n v r, simplify_loop n (demo_units N) v (knot_miles N) <> Ok r.
Proof. intros H n v r E. destruct (H n O v) as [w [F|F]]; rewrite Nat.add_0_r in F; rewrite F in E; discriminate E. Qed.
Lemma demo_rounds : goes_on (demo_units demo_norm) (knot_miles demo_norm) = true /\ goes_on (demo_units demo_norm) (metre_miles demo_norm) = true.
Proof. split; vm_cast_no_check (@eq_refl bool true). Qed.
Lemma demo_knots : next (demo_units demo_norm) (knot_miles demo_norm) = metre_miles demo_norm.
Proof. vm_compute. reflexivity. Qed.
Lemma demo_metres : next (demo_units demo_norm) (metre_miles demo_norm) = knot_miles demo_norm.
Proof. vm_compute. reflexivity. Qed.
Theorem c64_endless_refuted : (forall n k v, exists w,
    simplify_loop (n + k) (demo_units demo_norm) v (knot_miles demo_norm) = simplify_loop k (demo_units demo_norm) w (knot_miles demo_norm) \/
    simplify_loop (n + k) (demo_units demo_norm) v (knot_miles demo_norm) = simplify_loop k (demo_units demo_norm) w (metre_miles demo_norm)) /\
  forall n v r, simplify_loop n (demo_units demo_norm) v (knot_miles demo_norm) <> Ok r.
Proof.
  assert (H := knot_rounds demo_norm (proj1 demo_rounds) (proj2 demo_rounds) demo_knots demo_metres). split; [exact H|]. exact (no_end demo_norm H).
Qed.
Print Assumptions c64_endless_refuted.
(** It is the compound units that do it: without them the replacing settles after a number of rounds given by the powers. *)
Lemma wt_total l : wt l = total_power l.
Proof. unfold wt. induction l as [|[u q] l IH]; cbn [wsum total_power fold_right snd]; [reflexivity|]. rewrite IH. reflexivity. Qed.
Theorem c64_ends : forall U v l n k, n_multis (u_norm U) = [] -> (forall dim cs, In (dim, cs) (n_units (u_norm U)) -> proper_dim (u_rels U) dim) -> once ueqb l ->
  2 * total_power l + 2 <= Z.of_nat n -> simplify_loop (n + k) U v l = simplify_loop n U v l.
Proof.
  intros U v l n k NM PD O L. apply simplify_settles; auto. unfold todo. rewrite wt_total. pose proof (lone_bound l). lia.
Qed.
Print Assumptions c64_ends.
Definition no_compounds (N : normaliser) : normaliser :=
  mkNorm (n_dims N) (n_rels N) (n_units N) [] (n_prefixes N) (n_systems N) (n_prefs N) (n_reg N) (n_maxlen N) (n_next N).
Example c64_ends_ex : n_multis (no_compounds demo_norm) = [] /\ forallb (fun e => proper_b (n_rels demo_norm) (fst e)) (n_units demo_norm) = true /\
  uanswer (no_compounds demo_norm) "1 knot * 1 nmi / 1 second" = "3600 knots^2"%string.
Proof. split; [reflexivity|]. split; vm_compute; reflexivity. Qed.

(** ** Which unit is chosen *)
(** Of the candidates, one in which the quantity has a value that no other candidate betters, by the order in use. *)
Theorem c64_closest : forall U v f m p ts t x, ~ (v == 0)%Q -> orders (u_closer U) -> all_scaled f -> Forall (fun t => all_scaled (tlist t)) ts ->
  choose U v f m p ts None = Ok (Some (t, x)) ->
  In t ts /\ as_much f (tlist t) m p v x /\ forall t', In t' ts -> exists x', as_much f (tlist t') m p v x' /\ u_closer U x' x = false.
Proof. exact choose_closest. Qed.
Print Assumptions c64_closest.
(** For the quantity 0, of single units, one whose size is nearest to 1. *)
Theorem c64_zero : forall U v f m p cs t x, (v == 0)%Q -> Forall (fun c => 0 < uscale (c_unit c))%Q cs -> choose U v f m p (map TUnit cs) None = Ok (Some (t, x)) ->
  exists c, t = TUnit c /\ x = v /\ In c cs /\ forall d, In d cs -> within (uscale (c_unit d)) (uscale (c_unit c)).
Proof. exact choose_zero. Qed.
Print Assumptions c64_zero.
(** The order of the default settings is one. *)
Lemma ten_orders : orders demo_closer.
Proof.
  assert (F : forall a b, negb (Qle_bool b a) = false -> (b <= a)%Q) by (intros a b H; apply Qle_bool_iff, negb_false_iff, H).
  assert (T : forall a b, negb (Qle_bool b a) = true -> ~ (b <= a)%Q) by (intros a b H K; apply Qle_bool_iff in K; rewrite K in H; discriminate).
  assert (B : forall a b, (b <= a)%Q -> negb (Qle_bool b a) = false) by (intros a b H; apply negb_false_iff, Qle_bool_iff, H).
  split.
  - intros a b. unfold demo_closer. destruct (negb (Qle_bool (1 # 10) a)), (negb (Qle_bool (1 # 10) b)); try (reflexivity || discriminate);
      intros H; apply B, Qlt_le_weak, Qnot_le_lt, T, H.
  - intros a b c. unfold demo_closer. destruct (negb (Qle_bool (1 # 10) a)), (negb (Qle_bool (1 # 10) b)), (negb (Qle_bool (1 # 10) c)); try (reflexivity || discriminate);
      intros H1 H2; apply B; (eapply Qle_trans; [apply F, H2|apply F, H1]).
Qed.
Example c64_closest_ex : let c id s := mkCand (a_unit id "length" s) [] None [] true true in
  let m := c 1 1%Q in let km := c 2 1000%Q in let mm := c 3 (1 # 1000)%Q in
  Forall (fun t => all_scaled (tlist t)) (map TUnit [mm; m; km]) /\
  choose (demo_units norm_init) 50000 [(c_unit m, 1)] 1 1 (map TUnit [mm; m; km]) None = Ok (Some (TUnit km, 50000 / Qpower 1000 1)%Q) /\
  (50000 / Qpower 1000 1 == 50)%Q /\
  choose (demo_units norm_init) 0 [(c_unit km, 1)] 1 1 (map TUnit [mm; km; m]) None = Ok (Some (TUnit m, 0%Q)).
Proof.
  cbv zeta. split; [|split; [vm_compute; reflexivity|split; [reflexivity|vm_compute; reflexivity]]].
  repeat constructor; cbn; discriminate.
Qed.
