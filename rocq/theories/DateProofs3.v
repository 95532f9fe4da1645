(** Proofs for C63: what is read as a date is one; calls of the operators and functions of dates. *)
From Coq Require Import ZArith QArith Qround Ascii String List Bool Lia Permutation.
From Verif Require Import Base BaseProofs Dec DecProofs Num NumSpec NumProofs NumProofs2 NumProofs3 LexProofs Bases BasesProofs Formats Units UnitsSpec UnitsProofs UnitsProofs2 UnitReg Syntax Pos Call CallProofs Loop Parse Exec Std StdSpec StdProofs5 TextProofs UnitCalc UnitCalcSpec UnitCalcProofs Dates DateSpec DateProofs DateProofs2.
Import ListNotations.
Open Scope Z_scope.

(** * Reading *)
Lemma dig_in a b c : dig a b c = true -> a <= dval c <= b.
Proof. unfold dig, dval. intros H. apply andb_true_iff in H as [A B]. apply Z.leb_le in A, B. lia. Qed.
Lemma one_in a b s z r : In (z, r) (one (dig a b) s) -> a <= z <= b.
Proof. unfold one. destruct s as [|c s]; [intros []|]. destruct (dig a b c) eqn:E; [|intros []]. intros [H|[]]. apply (f_equal fst) in H; cbn [fst] in H; subst z. now apply dig_in. Qed.
Lemma two_in a b c d s z r : In (z, r) (two (dig a b) (dig c d) s) -> 10 * a + c <= z <= 10 * b + d.
Proof.
  unfold two. destruct s as [|x [|y s]]; try (intros []; fail). destruct (dig a b x) eqn:E; [|intros []]. destruct (dig c d y) eqn:F; [|intros []].
  intros [H|[]]. apply (f_equal fst) in H; cbn [fst] in H; subst z. apply dig_in in E, F. lia.
Qed.
Lemma fraction_in n : forall acc s z r, In (z, r) (m_fraction n acc s) -> acc <= z < acc + 10 ^ Z.of_nat n.
Proof.
  induction n as [|n IH]; intros acc s z r; cbn [m_fraction]; [intros []|]. destruct s as [|c s]; [intros []|].
  destruct (any c) eqn:E; [|intros []]. apply dig_in in E. rewrite Nat2Z.inj_succ, Z.pow_succ_r by lia.
  assert (P : 0 < 10 ^ Z.of_nat n) by (apply Z.pow_pos_nonneg; lia). set (q := 10 ^ Z.of_nat n) in *.
  assert (B : 0 <= dval c * q <= 9 * q) by (split; [apply Z.mul_nonneg_nonneg|apply Z.mul_le_mono_nonneg_r]; lia).
  rewrite in_app_iff. intros [H|[H|[]]].
  - apply IH in H. lia.
  - apply (f_equal fst) in H; cbn [fst] in H; subst z. lia.
Qed.
Definition fok (f : fields) : Prop := 0 <= fy f <= 9999 /\ 0 <= fH f <= 23 /\ 0 <= fM f <= 59 /\ 0 <= fS f /\ 0 <= fu f < 1000000.
Ltac split_in := repeat match goal with H : In _ (_ ++ _) |- _ => apply in_app_iff in H as [H|H] end.
Lemma year_in s z r : In (z, r) (m_year s) -> 0 <= z <= 9999.
Proof.
  unfold m_year. destruct s as [|a [|b [|c [|d s]]]]; try (intros []; fail).
  destruct (any a) eqn:A; [|intros []]. destruct (any b) eqn:B; [|intros []]. destruct (any c) eqn:C; [|intros []]. destruct (any d) eqn:D; [|intros []].
  intros [H|[]]. apply (f_equal fst) in H; cbn [fst] in H; subst z. apply dig_in in A, B, C, D. lia.
Qed.
Lemma hour_in s z r : In (z, r) (m_hour s) -> 0 <= z <= 23.
Proof. unfold m_hour, any, is. intros H. split_in; try (apply two_in in H); try (apply one_in in H); lia. Qed.
Lemma minute_in s z r : In (z, r) (m_minute s) -> 0 <= z <= 59.
Proof. unfold m_minute, any, is. intros H. split_in; try (apply two_in in H); try (apply one_in in H); lia. Qed.
Lemma second_in s z r : In (z, r) (m_second s) -> 0 <= z.
Proof. unfold m_second, any, is. intros H. split_in; try (apply two_in in H); try (apply one_in in H); lia. Qed.
Lemma micro_in s z r : In (z, r) (m_micro s) -> 0 <= z < 1000000.
Proof. intros H. apply fraction_in in H. change (10 ^ Z.of_nat 6) with 1000000 in H. lia. Qed.
Lemma tok_in t f s f' r : fok f -> In (f', r) (m_tok t f s) -> fok f'.
Proof.
  destruct f as [y m d H M sc u z]. unfold fok. intros K I. destruct t; cbn [m_tok] in I; try (destruct I; fail);
    apply in_map_iff in I as (x & E & I); injection E as <- _; cbn [fy fH fM fS fu] in *; try (destruct x as [v q]; cbn [fst]);
    try exact K.
  - apply year_in in I. lia.
  - apply hour_in in I. lia.
  - apply minute_in in I. lia.
  - apply second_in in I. lia.
  - apply micro_in in I. lia.
Qed.
Lemma matches_in ts : forall f s f' r, fok f -> In (f', r) (matches ts f s) -> fok f'.
Proof.
  induction ts as [|t ts IH]; intros f s f' r K I; cbn [matches] in I.
  - destruct I as [I|[]]. injection I as <- _. exact K.
  - apply in_flat_map in I as ([g q] & I1 & I2). cbn [fst snd] in I2. apply tok_in in I1; eauto.
Qed.
Lemma make_is_date f d : fok f -> make_date f = Some d -> is_date d.
Proof.
  intros (Y & H & M & S & U). unfold make_date. destruct (_ && _) eqn:E; [|discriminate].
  rewrite !andb_true_iff, !Z.leb_le in E. destruct E as (((((E1 & E2) & E3) & E4) & E5) & E6).
  assert (D : is_day (fy f, fm f, fd f)) by (apply is_day_iff; unfold ok_day; lia).
  assert (T : 0 <= fH f * us_hour + fM f * us_minute + fS f * us_second + fu f < day_micros) by (unfold us_hour, us_minute, us_second, day_micros; lia).
  destruct (fz f) as [[o|]|]; [|discriminate|].
  - destruct (Z.ltb_spec (Z.abs o) us_day) as [O|]; [|discriminate]. intros X. injection X as <-. split; [exact D|]. split; [cbn [dyear]; lia|]. split; [exact T|].
    cbn [doffset]. change us_day with day_micros in O. lia.
  - intros X. injection X as <-. split; [exact D|]. split; [cbn [dyear]; lia|]. split; [exact T|]. exact I.
Qed.
Lemma strptime_is_date ts s d : strptime ts s = Some d -> is_date d.
Proof.
  unfold strptime. destruct (matches ts no_fields s) as [|[f [|c r]] l] eqn:E; try discriminate. apply make_is_date.
  apply (matches_in ts no_fields s f []); [unfold fok; cbn; lia|]. rewrite E. now left.
Qed.
Lemma read_is_date s d : string_to_date s = Some d -> is_date d.
Proof.
  unfold string_to_date. generalize attempts. intros l. induction l as [|f l IH]; cbn [try_formats]; [discriminate|].
  destruct (strptime f s) as [x|] eqn:E; [|exact IH]. intros X. injection X as <-. apply (strptime_is_date _ _ _ E).
Qed.

(** * Units of time *)
Lemma only_time (l : dlist) : once seq_eqb l -> nonzero l -> (forall d, psum seq_eqb d l = if seq_eqb d ($"time") then 1 else 0) -> l = [($"time", 1)].
Proof.
  intros O Z P. assert (A : forall k q, In (k, q) l -> k = $"time" /\ q = 1).
  { intros k q I. apply (in_psum l seq_eqb k q (fun a b => seq_eqb_iff a b) O Z) in I as [I2 I1]. rewrite P in I1.
    destruct (seq_eqb k ($"time")) eqn:E; [|lia]. apply seq_eqb_iff in E. auto. }
  destruct l as [|[k q] l].
  - specialize (P ($"time")). rewrite seq_eqb_refl in P. discriminate P.
  - destruct (A k q) as [-> ->]; [now left|]. destruct l as [|[k' q'] l]; [reflexivity|]. destruct (A k' q') as [-> ->]; [right; now left|].
    destruct O as [O _]. apply Forall_inv in O. cbn [fst] in O. rewrite seq_eqb_refl in O. discriminate O.
Qed.
Lemma dims_eqb_eq a : forall b, dims_eqb a b = true <-> a = b.
Proof.
  induction a as [|[d p] a IH]; intros [|[e q] b]; cbn [dims_eqb]; try (split; [discriminate|discriminate]); [split; reflexivity|].
  rewrite !andb_true_iff, seq_eqb_iff, Z.eqb_eq, IH. split; [intros [[-> ->] ->]; reflexivity|]. intros X. injection X as -> -> ->. auto.
Qed.
Lemma check_time N us sec x : knows_time N us sec -> match x with Some u => steady (n_rels N) u | None => True end ->
  exists b, check_dims N x [($"time", 1)] = Ok b /\ (b = true <-> exists u, x = Some u /\ is_time (n_rels N) u).
Proof.
  intros (K & _) S. unfold check_dims. cbn [forallb fst]. replace (mem_str ($"time") (n_dims N)) with true.
  2:{ symmetry. unfold mem_str. apply existsb_exists. exists ($"time"). split; [exact K|apply seq_eqb_refl]. }
  cbn [andb]. eexists. split; [reflexivity|]. destruct x as [u|].
  - destruct (unit_dims_spec (n_rels N) (eu_list u) S) as (O & Z & P). rewrite dims_eqb_eq. split.
    + intros E. exists u. split; [reflexivity|]. intros d. cbn [dims_of]. rewrite <- P, E. cbn [psum].
      destruct (seq_eqb ($"time") d) eqn:F.
      * apply seq_eqb_iff in F. subst d. rewrite seq_eqb_refl. reflexivity.
      * destruct (seq_eqb d ($"time")) eqn:G; [|reflexivity]. apply seq_eqb_iff in G. subst d. rewrite seq_eqb_refl in F. discriminate F.
    + intros (v & X & T). injection X as <-. apply only_time; auto. intros d. rewrite P. apply T.
  - split; [discriminate|]. intros (v & X & _). discriminate X.
Qed.

(** * Moving a date *)
Definition moving (d : opdef) (sg : Z) (shown : str) (D : dlib) : Prop :=
  o_vals d = each_is 0 [[ty_date]; [tynum]] /\ o_min d = Some 2%nat /\ o_max d = Some 2%nat /\ o_units d = time_only /\ o_autoin d = true /\ o_excs d = false /\
  o_name d = shown /\ o_impl d = (if sg =? 1 then fn_dateadd D else fn_datesubtract D) /\ o_norm d = false.
Lemma mover_def D name sg shown stl ins : In (name, sg, shown) movers -> exists d h, moving d sg shown D /\ run_named (with_dates D) stl name ins = call (date_env (dl_units D)) h d stl ins.
Proof.
  intros H. repeat (destruct H as [H|H]; [injection H as <- <- <-; do 2 eexists; split; [|reflexivity]; repeat split|]). destruct H.
Qed.
Lemma date_type U x s : rval x = VStr s ->
  validate_types (date_env U) [ty_date] (rval x) (runit x) (rref x) = match string_to_date s with Some _ => Ok tt | None => Calc end.
Proof. intros ->. cbn [validate_types]. unfold validate_input. cbn [ty_date ty e_valid date_env]. unfold date_valid. rewrite seq_eqb_refl. cbn [obind]. destruct (string_to_date s); reflexivity. Qed.
Lemma date_other U v u r : (forall s, v <> VStr s) -> validate_types (date_env U) [ty_date] v u r = Calc.
Proof. intros H. cbn [validate_types]. unfold validate_input. cbn [ty_date ty e_valid date_env]. unfold date_valid. rewrite seq_eqb_refl. destruct v; try reflexivity. destruct (H s eq_refl). Qed.
Lemma date_num U x n : number_at (u_lib U) x n -> validate_types (date_env U) [tynum] (rval x) (runit x) (rref x) = Ok tt.
Proof. intros H. rewrite <- (unit_type_num U x n [] H). reflexivity. Qed.
Lemma date_to_number U v : to_number (date_env U) v = any_number (l_fmt (u_lib U)) v.
Proof. destruct v; reflexivity. Qed.

Lemma moving_prepare D d sg shown x y s n b : moving d sg shown D -> let U := dl_units D in rval x = VStr s -> number_at (u_lib U) y n ->
  check_dims (u_norm U) (runit y) [($"time", 1)] = Ok b ->
  prepare (date_env U) d [rval x; rval y] [runit x; runit y] [rref x; rref y] =
  match string_to_date s with
  | Some _ => if b : bool then Ok ([VStr s; VNum n], [runit x; runit y], ncast n, None) else Calc
  | None => Calc
  end.
Proof.
  intros (Ev & Emin & Emax & Eu & Ea & _) U Hx Hy Hb. unfold prepare.
  assert (V : validate (date_env U) d [rval x; rval y] [runit x; runit y] [rref x; rref y] =
              match string_to_date s with Some _ => if b : bool then Ok tt else Calc | None => Calc end).
  { unfold validate. rewrite Emin, Emax, Eu, Ev. unfold time_only.
    cbn [each_is length Nat.ltb Nat.leb obind out_each indices rs_from rs_to rs_types ur_from ur_to ur_dims Nat.min Nat.add Nat.sub seq nth_error].
    rewrite (date_type U x s Hx), (date_num U y n Hy). cbn [e_dims date_env unit_env]. rewrite Hb. destruct (string_to_date s); [|reflexivity].
    cbn [obind]. destruct b; reflexivity. }
  rewrite V. destruct (string_to_date s); [|reflexivity]. destruct b; [|reflexivity]. cbn [obind]. rewrite Ea.
  assert (C : convert_numbers (date_env U) d [rval x; rval y] = ([VStr s; VNum n], ncast n)).
  { unfold convert_numbers. rewrite Ev. unfold number_at in Hy.
    cbn [each_is fold_left rs_types existsb is_plain_number tynum ty ty_date].
    replace (seq_eqb ($"date") s_number) with false by reflexivity. replace (seq_eqb ($"number") s_number) with true by reflexivity. cbn [orb].
    unfold convert_range; cbn [rs_from rs_to length Nat.add Nat.sub seq fold_left]; unfold convert_one; cbn [nth_error]. rewrite date_to_number, Hy. cbn [fst snd list_set].
    rewrite Hx. reflexivity. }
  rewrite C. cbn [fst snd]. assert (A : all_numbers (date_env U) d 0 [VStr s; VNum n] = false).
  { cbn [all_numbers]. unfold can_be. rewrite Ev. reflexivity. }
  rewrite A. reflexivity.
Qed.

Lemma date_add_call D us sec d s n u st : let U := dl_units D in let p := l_prec (u_lib U) in
  world (u_rels U) us -> knows_time (u_norm U) us sec -> over us (eu_list u) -> steady (u_rels U) u -> is_time (u_rels U) u -> good n -> string_to_date s = Some d ->
  date_add D s (VNum n) (Some u) st =
  match dl_micros D (rnd p (val n * size_of (Some u))) with
  | Some t => match add_micros d t with Some d' => (OOk (mkOR (VStr (date_to_string d')) (Some None) None), st) | None => (OPy, st) end
  | None => (OPy, st)
  end.
Proof.
  intros U p W (_ & Gs & Is & Sc & Ts & Ss) Ou Su Tu Gn Hd. unfold date_add. rewrite Hd. fold U. fold p. unfold seconds_unit. rewrite Gs. unfold ulist. cbn [obind pym].
  assert (Os : over us (eu_list (mkEU [(sec, 1)] false))) by (apply Forall_cons; [exact Is|apply Forall_nil]).
  assert (Dm : same_dims (u_rels U) (Some u) (Some (mkEU [(sec, 1)] false))) by (intros k; rewrite (Tu k); symmetry; apply Ts).
  destruct (convert_ok (u_rels U) us n u (mkEU [(sec, 1)] false) false W Ou Os Dm Su Ss Gn) as (m & c & E & V & Gm & _).
  unfold bind, ret, lift. rewrite E. cbn [fst]. unfold to_decimal, ddiv.
  rewrite (rnd_eq p (inject_Z (nnum m) / inject_Z (nden m)) (val n * size_of (Some u))).
  - destruct (dl_micros D _) as [t|]; [|reflexivity]. cbn [pym]. unfold ret. destruct (add_micros d t); reflexivity.
  - change (inject_Z (nnum m) / inject_Z (nden m))%Q with (val m). rewrite V. cbn [eu_list factor size_of]. rewrite Sc. cbn. field.
Qed.
Lemma mover_call D us sec name sg shown stl x y s d n u st : let U := dl_units D in let p := l_prec (u_lib U) in In (name, sg, shown) movers ->
  world (u_rels U) us -> knows_time (u_norm U) us sec -> over us (eu_list u) -> steady (u_rels U) u -> is_time (u_rels U) u -> 1 <= p ->
  rval x = VStr s -> string_to_date s = Some d -> number_at (u_lib U) y n -> runit y = Some u -> good n -> size_le p n ->
  run_named (with_dates D) stl name [x; y] st =
  let failed := if shows (u_lib U) (rval y) then (OErr (XCalc false (MOp shown)), st) else (OPy, st) in
  match dl_micros D (rnd p (inject_Z sg * val n * size_of (Some u))) with
  | Some t => match add_micros d t with Some d' => (OOk (mkRes (VStr (date_to_string d')) None None), st) | None => failed end
  | None => failed
  end.
Proof.
  intros U p Hm W K Ou Su Tu Hp Hx Hd Hy Uy Gn Sn. destruct (mover_def D name sg shown stl [x; y] Hm) as (df & h & M & ->). fold U.
  destruct (is_num_scalar (u_lib U) y n Hy) as [Ly Ey]. rewrite call_scalars.
  2:{ cbn [forallb]. rewrite Hx, Ly. reflexivity. }
  2:{ unfold must_be. destruct M as (-> & _). reflexivity. }
  unfold call_plain. replace (o_excs df) with false by (symmetry; apply M). unfold find_exc. cbn [find map]. rewrite Hx, Ey. cbn [is_exc]. rewrite <- Hx.
  destruct (check_time (u_norm U) us sec (runit y) K) as (b & Hb & Tb); [rewrite Uy; exact Su|]. assert (b = true) as -> by (apply Tb; eauto).
  pose proof (moving_prepare D df sg shown x y s n true M Hx Hy Hb) as MP. fold U in MP. cbv zeta in MP. rewrite MP, Hd. clear MP. destruct M as (_ & _ & _ & _ & _ & _ & Nm & Im & _). rewrite Nm.
  assert (X : o_impl df h [VStr s; VNum n] [runit x; runit y] [rref x; rref y] stl st =
    match dl_micros D (rnd p (inject_Z sg * val n * size_of (Some u))) with
    | Some t => match add_micros d t with Some d' => (OOk (mkOR (VStr (date_to_string d')) (Some None) None), st) | None => (OPy, st) end
    | None => (OPy, st)
    end).
  { rewrite Im, Uy. destruct Sn as [Sn _].
    assert (V : sg = 1 \/ sg = -1) by (clear - Hm; repeat (destruct Hm as [Hm|Hm]; [injection Hm as <- <- <-; auto|]); destruct Hm).
    destruct V as [-> | ->].
    - cbn [Z.eqb Pos.eqb fn_dateadd]. rewrite (date_add_call D us sec d s n u st W K Ou Su Tu Gn Hd). fold U p. rewrite (rnd_eq p (inject_Z 1 * val n * size_of (Some u)) (val n * size_of (Some u))); [reflexivity|]. change (inject_Z 1) with 1%Q. ring.
    - cbn [Z.eqb fn_datesubtract]. fold U p. rewrite (num_neg_eq p n Hp) by (unfold small; lia).
      rewrite (date_add_call D us sec d s (mkNum (- nnum n) (nden n) (ncast n) None) u st W K Ou Su Tu Gn Hd). fold U p.
      rewrite (rnd_eq p (inject_Z (-1) * val n * size_of (Some u)) (val (mkNum (- nnum n) (nden n) (ncast n) None) * size_of (Some u))); [reflexivity|].
      unfold val. cbn [nnum nden]. rewrite inject_Z_opp. change (inject_Z (-1)) with (-1)%Q. unfold Qdiv. ring. }
  unfold lift, bind. cbn [fst snd]. rewrite X. cbn [forallb e_tostr date_env unit_env]. rewrite Hx. cbn [shows andb]. rewrite andb_true_r.
  cbv zeta. destruct (dl_micros D _) as [t|]; [|reflexivity]. destruct (add_micros d t) as [d'|]; reflexivity.
Qed.
(** What is not a date, and a number without a unit of time, is refused. *)
Lemma mover_refused D us sec name sg shown stl x y s n st : let U := dl_units D in In (name, sg, shown) movers -> knows_time (u_norm U) us sec ->
  rval x = VStr s -> number_at (u_lib U) y n -> match runit y with Some u => steady (u_rels U) u | None => True end ->
  string_to_date s = None \/ (forall u, runit y = Some u -> ~ is_time (u_rels U) u) -> shows (u_lib U) (rval y) = true ->
  run_named (with_dates D) stl name [x; y] st = (OErr (XCalc true (MOp shown)), st).
Proof.
  intros U Hm K Hx Hy Sy Hr Sh. destruct (mover_def D name sg shown stl [x; y] Hm) as (df & h & M & ->). fold U.
  destruct (is_num_scalar (u_lib U) y n Hy) as [Ly Ey]. rewrite call_scalars.
  2:{ cbn [forallb]. rewrite Hx, Ly. reflexivity. }
  2:{ unfold must_be. destruct M as (-> & _). reflexivity. }
  unfold call_plain. replace (o_excs df) with false by (symmetry; apply M). unfold find_exc. cbn [find map]. rewrite Hx, Ey. cbn [is_exc]. rewrite <- Hx.
  destruct (check_time (u_norm U) us sec (runit y) K Sy) as (b & Hb & Tb).
  pose proof (moving_prepare D df sg shown x y s n b M Hx Hy Hb) as MP. fold U in MP. cbv zeta in MP. rewrite MP. clear MP.
  assert (X : match string_to_date s with Some _ => if b then Ok ([VStr s; VNum n], [runit x; runit y], ncast n, @None eunit) else Calc | None => Calc end = Calc).
  { destruct Hr as [-> |Hr]; [reflexivity|]. destruct (string_to_date s); [|reflexivity]. destruct b; [|reflexivity].
    destruct (proj1 Tb eq_refl) as (u & Eu & Tu). destruct (Hr u Eu Tu). }
  rewrite X. unfold lift, bind. cbn [wrapped forallb e_tostr date_env unit_env]. rewrite Hx, Sh. cbn [shows andb].
  destruct M as (_ & _ & _ & _ & _ & _ & -> & _). reflexivity.
Qed.

(** * The difference *)
Definition d_difference (D : dlib) : opdef :=
  snd (fdef ($"datedifference") 2 3 [mkRestr 0 (Some 1%nat) [ty_date]; mkRestr 2 (Some 2%nat) [ty_unit]] (fn_datedifference D)).
Lemma difference_def D stl ins : run_named (with_dates D) stl ($"datedifference") ins = call (date_env (dl_units D)) (callop (with_dates D) stl) (d_difference D) stl ins.
Proof. reflexivity. Qed.
Lemma date_unit_type U x w : rval x = VUnit w -> validate_types (date_env U) [ty_unit] (rval x) (runit x) (rref x) = Ok tt.
Proof. intros ->. reflexivity. Qed.
(** With or without a unit to give the answer in *)
Definition asked (xs : list result) (w : option eunit) : Prop :=
  match w with None => xs = [] | Some u => exists z, xs = [z] /\ rval z = VUnit u end.
Definition asked_value (w : option eunit) : list value := match w with None => [] | Some u => [VUnit u] end.
Lemma difference_prepare D x y xs w s1 s2 : let U := dl_units D in rval x = VStr s1 -> rval y = VStr s2 -> asked xs w ->
  prepare (date_env U) (d_difference D) (map rval (x :: y :: xs)) (map runit (x :: y :: xs)) (map rref (x :: y :: xs)) =
  match string_to_date s1, string_to_date s2 with
  | Some _, Some _ => Ok (VStr s1 :: VStr s2 :: asked_value w, map runit (x :: y :: xs), None, None)
  | _, _ => Calc
  end.
Proof.
  intros U Hx Hy Hw.
  assert (V : validate (date_env U) (d_difference D) (map rval (x :: y :: xs)) (map runit (x :: y :: xs)) (map rref (x :: y :: xs)) =
              match string_to_date s1, string_to_date s2 with Some _, Some _ => Ok tt | _, _ => Calc end).
  { destruct w as [u|]; [destruct Hw as (z & -> & Hz)|cbn [asked] in Hw; subst xs].
    - unfold validate. cbn [d_difference fdef snd o_min o_max o_vals o_units map length Nat.ltb Nat.leb obind out_each indices rs_from rs_to rs_types Nat.min Nat.add Nat.sub seq nth_error].
      rewrite (date_type U x s1 Hx), (date_type U y s2 Hy), (date_unit_type U z u Hz). destruct (string_to_date s1); [|reflexivity]. destruct (string_to_date s2); reflexivity.
    - unfold validate. cbn [d_difference fdef snd o_min o_max o_vals o_units map length Nat.ltb Nat.leb obind out_each indices rs_from rs_to rs_types Nat.min Nat.add Nat.sub seq nth_error].
      rewrite (date_type U x s1 Hx), (date_type U y s2 Hy). destruct (string_to_date s1); [|reflexivity]. destruct (string_to_date s2); reflexivity. }
  unfold prepare. rewrite V. destruct (string_to_date s1); [|reflexivity]. destruct (string_to_date s2); [|reflexivity]. cbn [obind].
  replace (map rval (x :: y :: xs)) with (VStr s1 :: VStr s2 :: asked_value w).
  2:{ cbn [map]. rewrite Hx, Hy. destruct w as [u|]; [destruct Hw as (z & -> & Hz); cbn [map asked_value]; now rewrite Hz|cbn [asked] in Hw; subst xs; reflexivity]. }
  destruct w; reflexivity.
Qed.
Lemma difference_call D x y xs w s1 s2 stl st : let U := dl_units D in rval x = VStr s1 -> rval y = VStr s2 -> asked xs w ->
  run_named (with_dates D) stl ($"datedifference") (x :: y :: xs) st =
  match string_to_date s1, string_to_date s2 with
  | Some _, Some _ =>
    match fn_datedifference D (callop (with_dates D) stl) (VStr s1 :: VStr s2 :: asked_value w) (map runit (x :: y :: xs)) (map rref (x :: y :: xs)) stl st with
    | (OOk o, s') => (OOk (finish (d_difference D) None None o), s')
    | (OErr e, s') => if wrapped e then (OErr e, s') else (OErr (XCalc true (MOp ($"datedifference"))), s')
    | (OPy, s') => (OErr (XCalc false (MOp ($"datedifference"))), s')
    | (OFuel, s') => (OFuel, s')
    end
  | _, _ => (OErr (XCalc true (MOp ($"datedifference"))), st)
  end.
Proof.
  intros U Hx Hy Hw. rewrite difference_def. fold U.
  assert (Sh : forallb (e_tostr (date_env U)) (x :: y :: xs) = true).
  { cbn [forallb e_tostr date_env unit_env]. rewrite Hx, Hy. cbn [shows andb]. destruct w as [u|]; [destruct Hw as (z & -> & Hz)|cbn [asked] in Hw; subst xs; reflexivity].
    cbn [forallb]. now rewrite Hz. }
  assert (Sc : forallb (fun r => negb (is_list (rval r))) (x :: y :: xs) = true).
  { cbn [forallb]. rewrite Hx, Hy. destruct w as [u|]; [destruct Hw as (z & -> & Hz)|cbn [asked] in Hw; subst xs; reflexivity]. cbn [forallb]. now rewrite Hz. }
  assert (Fe : find_exc (x :: y :: xs) = None).
  { unfold find_exc. cbn [find]. rewrite Hx, Hy. cbn [is_exc]. destruct w as [u|]; [destruct Hw as (z & -> & Hz)|cbn [asked] in Hw; subst xs; reflexivity].
    cbn [find]. now rewrite Hz. }
  rewrite call_scalars; [|exact Sc|reflexivity]. unfold call_plain. replace (o_excs (d_difference D)) with false by reflexivity. rewrite Fe.
  pose proof (difference_prepare D x y xs w s1 s2 Hx Hy Hw) as P. cbv zeta in P. fold U in P. cbv zeta. rewrite P, Sh.
  destruct (string_to_date s1); [|reflexivity]. destruct (string_to_date s2); [|reflexivity].
  unfold bind, lift. cbn [fst snd]. replace (o_impl (d_difference D)) with (fn_datedifference D) by reflexivity.
  destruct (fn_datedifference D _ _ _ _ _ _) as [[o|e| |] s']; reflexivity.
Qed.

Lemma red_den a b q : 0 < b -> (q == inject_Z a / inject_Z b)%Q -> Z.pos (Qden (Qred q)) <= b.
Proof.
  intros Hb E. destruct b as [|b|b]; try lia. assert (F : (q == a # b)%Q) by (rewrite E, (Qmake_Qdiv a b); reflexivity).
  rewrite (Qred_complete _ _ F). unfold Qred. pose proof (Z.ggcd_gcd a (Z.pos b)) as G. pose proof (Z.ggcd_correct_divisors a (Z.pos b)) as D.
  destruct (Z.ggcd a (Z.pos b)) as [g [aa bb]]. cbn [fst snd] in *. destruct D as [_ D]. cbn [Qden].
  assert (0 <= g) by (rewrite G; apply Z.gcd_nonneg). assert (P : 0 < g * bb) by lia.
  assert (0 < g) by (destruct (Z.eq_dec g 0) as [-> |]; lia). assert (0 < bb) by (apply (Z.mul_pos_cancel_l g bb); lia).
  rewrite Z2Pos.id by lia. rewrite D. rewrite <- (Z.mul_1_l bb) at 1. apply Z.mul_le_mono_nonneg_r; lia.
Qed.
Lemma difference_ok D t : let p := l_prec (u_lib (dl_units D)) in 6 <= p -> Z.abs t < 10 ^ p -> (dl_seconds D t == inject_Z t / inject_Z us_second)%Q ->
  exists n, difference_seconds D t = Some n /\ (val n == inject_Z t / inject_Z us_second)%Q /\ good n /\ ncast n = None.
Proof.
  intros p Hp Ht E. unfold difference_seconds. fold p.
  assert (L : us_second <= 10 ^ p) by (change us_second with (10 ^ 6); apply Z.pow_le_mono_r; lia).
  assert (R : forall q, (q == inject_Z t / inject_Z us_second)%Q -> Z.pos (Qden (Qred q)) <= 10 ^ p).
  { intros q Q. apply (red_den t us_second) in Q; [lia|reflexivity]. }
  destruct (num_make_exact_Q p None (dl_seconds D t)) as (m & -> & Vm & _); [lia|now apply R|].
  assert (F : (to_decimal p m == inject_Z t / inject_Z us_second)%Q).
  { unfold to_decimal, ddiv. change (inject_Z (nnum m) / inject_Z (nden m))%Q with (val m). rewrite (rnd_eq p (val m) (inject_Z t / inject_Z us_second)) by (rewrite Vm; exact E).
    apply rnd_fits; [lia|]. exists t, (-6). split; [lia|]. unfold us_second. change (p10 (-6)) with (1 # 1000000)%Q. reflexivity. }
  rewrite Z.min_l by lia. unfold quantize. rewrite (qround_exact _ t).
  2:{ change (inject_Z (10 ^ 6)) with (inject_Z us_second). rewrite F. field. discriminate. }
  apply Z.ltb_lt in Ht. rewrite Ht. change (inject_Z (10 ^ 6)) with (inject_Z us_second).
  destruct (num_make_exact_Q p None (inject_Z t / inject_Z us_second)) as (n & -> & Vn & Gn & _ & Cn); [lia|apply R; reflexivity|].
  exists n. auto.
Qed.
