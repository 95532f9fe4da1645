(** C63: calculating with dates. *)
From Coq Require Import ZArith QArith Qabs Qround Ascii String List Bool Lia Permutation.
From Verif Require Import Base BaseProofs Dec DecProofs Num NumSpec NumProofs Bases Formats Units UnitsSpec UnitsProofs UnitsProofs2 UnitReg UnitData Install Syntax Pos Call Loop Parse Exec Std StdSpec StdRun TextProofs UnitCalc UnitCalcSpec UnitCalcProofs UnitRun UnitTable Dates DateSpec DateProofs DateProofs2 DateProofs3 DateRun.
Import ListNotations.
Open Scope Z_scope.

(** What is read as a date is one of the calendar, and a date written is read again. *)
Theorem c63_reads : forall s d, string_to_date s = Some d -> is_date d.
Proof. exact read_is_date. Qed.
Print Assumptions c63_reads.
Theorem c63_round_trip : forall d, is_date d -> padded d -> string_to_date (date_to_string d) = Some d.
Proof. exact read_back. Qed.
Print Assumptions c63_round_trip.
(** Not so a date before the year 1000 with an offset that has seconds: the padding is too short. *)
Theorem c63_padding_refuted : exists d, is_date d /\ string_to_date (date_to_string d) = None.
Proof.
  exists (mkDate 900 1 1 0 (Some 3723000000)). split; [|vm_compute; reflexivity].
  apply (read_is_date ($"0900-01-01+010203")). vm_compute. reflexivity.
Qed.
Print Assumptions c63_padding_refuted.

(** Adding a time, or taking it away, gives the date so many microseconds later on the clock with the same offset, if there
    is one up to the year 9999, and else an error. *)
Theorem c63_move : forall D us sec name sg shown stl x y s d n u t st, let U := dl_units D in let p := l_prec (u_lib U) in In (name, sg, shown) movers ->
  world (u_rels U) us -> knows_time (u_norm U) us sec -> made_of us u -> steady (u_rels U) u -> is_time (u_rels U) u -> 1 <= p ->
  rval x = VStr s -> string_to_date s = Some d -> number_at (u_lib U) y n -> runit y = Some u -> good n -> size_le p n -> shows (u_lib U) (rval y) = true ->
  dl_micros D (rnd p (inject_Z sg * val n * size_of (Some u))) = Some t ->
  (forall d', moved d t d' -> run_named (with_dates D) stl name [x; y] st = (OOk (mkRes (VStr (date_to_string d')) None None), st)) /\
  ((forall d', ~ moved d t d') -> run_named (with_dates D) stl name [x; y] st = (OErr (XCalc false (MOp shown)), st)).
Proof.
  intros D us sec name sg shown stl x y s d n u t st U p Hm W K (Ou & _) Su Tu Hp Hx Hd Hy Uy Gn Sn Sh Ht. pose proof (read_is_date s d Hd) as Id.
  pose proof (mover_call D us sec name sg shown stl x y s d n u st Hm W K Ou Su Tu Hp Hx Hd Hy Uy Gn Sn) as C. cbv zeta in C. fold U p in C. rewrite Ht, Sh in C. split.
  - intros d' M. apply (add_micros_spec d t d' Id) in M. rewrite M in C. exact C.
  - intros M. destruct (add_micros d t) as [d'|] eqn:E; [|exact C]. apply (add_micros_spec d t d' Id) in E. destruct (M d' E).
Qed.
Print Assumptions c63_move.

(** What is not a date is refused, and so is a number that is not a time. *)
Theorem c63_refused : forall D us sec name sg shown stl x y s n st, let U := dl_units D in In (name, sg, shown) movers -> knows_time (u_norm U) us sec ->
  rval x = VStr s -> number_at (u_lib U) y n -> match runit y with Some u => steady (u_rels U) u | None => True end ->
  string_to_date s = None \/ (forall u, runit y = Some u -> ~ is_time (u_rels U) u) -> shows (u_lib U) (rval y) = true ->
  run_named (with_dates D) stl name [x; y] st = (OErr (XCalc true (MOp shown)), st).
Proof. exact mover_refused. Qed.
Print Assumptions c63_refused.

(** There and back again *)
Theorem c63_there_and_back : forall D us sec name sg shown name' shown' stl x y s d n u t d' st, let U := dl_units D in let p := l_prec (u_lib U) in
  In (name, sg, shown) movers -> In (name', - sg, shown') movers ->
  world (u_rels U) us -> knows_time (u_norm U) us sec -> made_of us u -> steady (u_rels U) u -> is_time (u_rels U) u -> 1 <= p ->
  rval x = VStr s -> string_to_date s = Some d -> number_at (u_lib U) y n -> runit y = Some u -> good n -> size_le p n -> shows (u_lib U) (rval y) = true ->
  dl_micros D (rnd p (inject_Z sg * val n * size_of (Some u))) = Some t -> dl_micros D (rnd p (inject_Z (- sg) * val n * size_of (Some u))) = Some (- t) ->
  moved d t d' -> padded d' ->
  exists r, run_named (with_dates D) stl name [x; y] st = (OOk r, st) /\
    run_named (with_dates D) stl name' [r; y] st = (OOk (mkRes (VStr (date_to_string d)) None None), st).
Proof.
  intros D us sec name sg shown name' shown' stl x y s d n u t d' st U p Hm Hm' W K Mu Su Tu Hp Hx Hd Hy Uy Gn Sn Sh Ht Ht' Mv Pd.
  exists (mkRes (VStr (date_to_string d')) None None). split.
  - destruct (c63_move D us sec name sg shown stl x y s d n u t st) as [C _]; try assumption. apply C. exact Mv.
  - destruct Mv as (Id' & Ap & Of). pose proof (read_is_date s d Hd) as Id.
    destruct (c63_move D us sec name' (- sg) shown' stl (mkRes (VStr (date_to_string d')) None None) y (date_to_string d') d' n u (- t) st) as [C _]; try assumption; [reflexivity|now apply read_back|].
    apply C. split; [exact Id|]. split; [|congruence]. apply apart_iff in Ap; [|apply Id|apply Id']. apply apart_iff; [apply Id'|apply Id|]. lia.
Qed.
Print Assumptions c63_there_and_back.

(** The difference is the time between the two dates, in seconds or in the unit asked for. *)
Definition target (sec : unit) (w : option eunit) : eunit := match w with Some u => u | None => mkEU [(sec, 1)] false end.
Theorem c63_difference : forall D us sec stl x y xs w s1 s2 d1 d2 t st, let U := dl_units D in let p := l_prec (u_lib U) in
  world (u_rels U) us -> knows_time (u_norm U) us sec -> match w with Some u => made_of us u /\ steady (u_rels U) u /\ is_time (u_rels U) u | None => True end ->
  rval x = VStr s1 -> rval y = VStr s2 -> asked xs w -> string_to_date s1 = Some d1 -> string_to_date s2 = Some d2 -> time_between d1 d2 t ->
  6 <= p -> Z.abs t < 10 ^ p -> (dl_seconds D (Z.abs t) == inject_Z (Z.abs t) / inject_Z 1000000)%Q ->
  exists n r, run_named (with_dates D) stl ($"datedifference") (x :: y :: xs) st = (OOk (mkRes (VNum n) (Some r) None), st) /\
    (val n * size_of (Some r) == inject_Z (Z.abs t) / inject_Z 1000000)%Q /\ Permutation (eu_list r) (eu_list (target sec w)) /\ ncast n = None.
Proof.
  intros D us sec stl x y xs w s1 s2 d1 d2 t st U p W K Hw Hx Hy Ha H1 H2 Tb Hp Ht Ex.
  pose proof (read_is_date s1 d1 H1) as (I1 & _). pose proof (read_is_date s2 d2 H2) as (I2 & _). apply (time_between_iff d1 d2 t I1 I2) in Tb as [Aw ->].
  rewrite (difference_call D x y xs w s1 s2 stl st Hx Hy Ha), H1, H2.
  assert (A : Z.abs (micros_of d1 - micros_of d2) = Z.abs (micros_of d2 - micros_of d1)) by (clear; lia).
  destruct (difference_ok D (Z.abs (micros_of d2 - micros_of d1))) as (n & E & V & G & C); [exact Hp|now rewrite Z.abs_involutive|exact Ex|].
  destruct K as (_ & Gs & Is & Sc & Ts & Ss).
  assert (Fs : (factor [(sec, 1%Z)] == 1)%Q) by (cbn [factor]; rewrite Sc; reflexivity).
  unfold fn_datedifference. rewrite H1, H2. cbn [pym]. unfold bind at 1, ret at 1. unfold bind at 1, ret at 1. rewrite Aw, xorb_nilpotent, A, E. cbn [pym]. unfold bind at 1, ret at 1.
  unfold seconds_unit. fold U. rewrite Gs. cbn [obind lift]. unfold bind at 1, lift at 1. unfold ulist.
  destruct w as [u|]; cbn [asked_value target].
  - destruct Hw as ((Ou & _) & Su & Tu). set (sc := mkEU [(sec, 1)] false) in *.
    assert (Os : over us (eu_list sc)) by (apply Forall_cons; [exact Is|apply Forall_nil]).
    assert (Dm : same_dims (u_rels U) (Some sc) (Some u)) by (intros k; rewrite (Tu k); apply Ts).
    destruct (convert_ok (u_rels U) us n sc u false W Os Ou Dm Ss Su G) as (m & c & Ec & Vc & Gm & Cm & Hc & _).
    exists m, c. rewrite Ec. cbn [lift]. unfold bind, lift. cbn [fst snd]. split; [reflexivity|]. split; [|split].
    + assert (Nu : ~ (factor (eu_list u) == 0)%Q) by (apply factor_nz, (world_scaled (u_rels U) us); assumption).
      assert (Fc : (factor (eu_list c) == factor (eu_list u))%Q) by (destruct Hc as [-> | [-> P]]; [reflexivity|now apply factor_perm]).
      cbn [size_of]. rewrite Fc, Vc, V. unfold sc at 1. cbn [eu_list]. rewrite Fs. change us_second with 1000000. field; repeat split; first [exact Nu|discriminate].
    + destruct Hc as [-> | [-> P]]; [apply Permutation_refl|exact P].
    + congruence.
  - exists n, (mkEU [(sec, 1)] false). split; [reflexivity|]. cbn [size_of eu_list]. split; [rewrite Fs, V; change us_second with 1000000; ring|]. split; [apply Permutation_refl|exact C].
Qed.
Print Assumptions c63_difference.

(** In which order does not matter, whatever the two texts. *)
Theorem c63_symmetric : forall D stl x y xs w s1 s2 st, rval x = VStr s1 -> rval y = VStr s2 -> asked xs w ->
  run_named (with_dates D) stl ($"datedifference") (x :: y :: xs) st = run_named (with_dates D) stl ($"datedifference") (y :: x :: xs) st.
Proof.
  intros D stl x y xs w s1 s2 st Hx Hy Ha. rewrite (difference_call D x y xs w s1 s2 stl st Hx Hy Ha), (difference_call D y x xs w s2 s1 stl st Hy Hx Ha).
  destruct (string_to_date s1) as [d1|] eqn:E1, (string_to_date s2) as [d2|] eqn:E2; try reflexivity.
  unfold fn_datedifference, bind, pym, ret. rewrite E1, E2. cbv beta iota.
  rewrite (xorb_comm (is_aware d2)). replace (Z.abs (micros_of d2 - micros_of d1)) with (Z.abs (micros_of d1 - micros_of d2)) by (clear; lia). reflexivity.
Qed.
Print Assumptions c63_symmetric.

(** A date with an offset from UTC and one without have no difference, nor have texts that are no dates. *)
Theorem c63_no_difference : forall D stl x y xs w s1 s2 st, rval x = VStr s1 -> rval y = VStr s2 -> asked xs w ->
  match string_to_date s1, string_to_date s2 with Some d1, Some d2 => (doffset d1 = None /\ doffset d2 <> None) \/ (doffset d1 <> None /\ doffset d2 = None) | _, _ => True end ->
  run_named (with_dates D) stl ($"datedifference") (x :: y :: xs) st = (OErr (XCalc true (MOp ($"datedifference"))), st).
Proof.
  intros D stl x y xs w s1 s2 st Hx Hy Ha H. rewrite (difference_call D x y xs w s1 s2 stl st Hx Hy Ha).
  destruct (string_to_date s1) as [d1|] eqn:E1, (string_to_date s2) as [d2|] eqn:E2; try reflexivity.
  unfold fn_datedifference, bind, pym, ret. rewrite E1, E2. cbv beta iota. unfold is_aware.
  destruct (doffset d1), (doffset d2); destruct H as [[A B]|[A B]]; try discriminate A; try discriminate B; try destruct (A eq_refl); try destruct (B eq_refl); reflexivity.
Qed.
Print Assumptions c63_no_difference.

(** Between a date and the same date moved there are as many microseconds as it was moved. *)
Theorem c63_moved_apart : forall d t d', is_date d -> moved d t d' -> time_between d d' t.
Proof.
  intros d t d' Id (Id' & Ap & Of). unfold time_between. rewrite Of. destruct (doffset d) as [o|]; [|exact Ap]. replace (t + o - o) with t by ring. exact Ap.
Qed.
Print Assumptions c63_moved_apart.

(** The hypotheses hold for the units of the calculator, with days. *)
Lemma time_unit_ok rel (u : unit) f : norm_dim rel (udim u) = [($"time", 1)] -> is_time rel (mkEU [(u, 1)] f) /\ steady rel (mkEU [(u, 1)] f).
Proof.
  intros H. split.
  - intros d. cbn [dims_of eu_list dim_total]. rewrite H. cbn [psum]. destruct (seq_eqb ($"time") d) eqn:E.
    + apply seq_eqb_iff in E. subst d. rewrite seq_eqb_refl. reflexivity.
    + destruct (seq_eqb d ($"time")) eqn:F; [|reflexivity]. apply seq_eqb_iff in F. subst d. rewrite seq_eqb_refl in E. discriminate E.
  - unfold steady, expand_dims, subunits. cbn [eu_list map flat_map fst snd]. rewrite H. cbn [map app]. apply no_vanishing_once; [exact equiv_seq|]. split; [apply Forall_nil|exact I].
Qed.
Definition unit_dec (u v : unit) : {u = v} + {u <> v}.
Proof. repeat decide equality. Defined.
Definition time_b (N : normaliser) (nm : str) (ok : Q -> bool) : bool :=
  match get_unit (n_prefs N) (n_reg N) nm with
  | Ok (Some (UDef u)) => existsb (fun v => ueqb u v && if unit_dec u v then true else false) (plain_units N) && dims_eqb (norm_dim (n_rels N) (udim u)) [($"time", 1)] && ok (uscale u)
  | _ => false
  end.
Lemma time_b_ok N nm ok : time_b N nm ok = true ->
  exists u, get_unit (n_prefs N) (n_reg N) nm = Ok (Some (UDef u)) /\ In u (plain_units N) /\ norm_dim (n_rels N) (udim u) = [($"time", 1)] /\ ok (uscale u) = true.
Proof.
  unfold time_b. destruct (get_unit _ _ nm) as [[[u|a]|]| |]; try discriminate. rewrite !andb_true_iff, dims_eqb_eq. intros [[A B] C].
  exists u. split; [reflexivity|]. split; [|auto]. apply existsb_exists in A as (v & I & E). destruct (ueqb u v); [|discriminate E]. cbn [andb] in E.
  destruct (unit_dec u v) as [-> |]; [exact I|discriminate E].
Qed.
Lemma mem_str_in x l : mem_str x l = true -> In x l.
Proof. unfold mem_str. intros H. apply existsb_exists in H as (y & I & E). apply seq_eqb_iff in E. now subst y. Qed.
Lemma knows_time_b N : mem_str ($"time") (n_dims N) = true -> time_b N ($"seconds") (fun q => Qeq_bool q 1) = true -> exists sec, knows_time N (plain_units N) sec.
Proof.
  intros A B. destruct (time_b_ok N _ _ B) as (u & G & I & D & S). exists u. apply Qeq_bool_iff in S. split; [now apply mem_str_in|].
  split; [exact G|]. split; [exact I|]. split; [exact S|]. exact (time_unit_ok _ u false D).
Qed.
Lemma unit_made N nm ok : time_b N nm ok = true -> exists v, ok (uscale v) = true /\
  let u := mkEU [(v, 1)] false in made_of (plain_units N) u /\ steady (n_rels N) u /\ is_time (n_rels N) u.
Proof.
  intros B. destruct (time_b_ok N _ _ B) as (v & G & I & D & S). exists v. destruct (time_unit_ok (n_rels N) v false D).
  split; [exact S|]. split; [|auto]. split; [apply Forall_cons; [exact I|apply Forall_nil]|]. split; [|discriminate]. split; [apply Forall_nil|exact Logic.I].
Qed.
Example c63_units_ex : world (n_rels demo_norm) (plain_units demo_norm) /\ (exists sec, knows_time demo_norm (plain_units demo_norm) sec) /\
  exists v, Qeq_bool (uscale v) 86400 = true /\ let u := mkEU [(v, 1)] false in made_of (plain_units demo_norm) u /\ steady (n_rels demo_norm) u /\ is_time (n_rels demo_norm) u.
Proof.
  split; [exact preset_world|]. split.
  - apply (knows_time_b demo_norm); vm_compute; reflexivity.
  - apply (unit_made demo_norm ($"days") (fun q => Qeq_bool q 86400)). vm_compute. reflexivity.
Qed.
(** Leap years, the turn of the year, offsets, fractions of seconds, and what is refused *)
Example c63_ex : map (danswer demo_norm) ["'2023-02-28' +% 1 day"; "'2024-02-28' +% 1 day"; "'1900-02-28' +% 1 day"; "'2000-03-01' -% 1 day"; "'2019-12-31T23:59:59.5' +% 0.5 seconds";
    "'2020-06-01T12:00:00+0100' +% 90 minutes"; "datedifference('2020-01-01T00:00:00+0100', '2020-01-01T00:00:00-0100')"; "datedifference('2021-01-01', '2020-01-01', days)";
    "'9999-12-31' +% 1 day"; "'2020-02-30' +% 1 day"; "'2020-01-01' +% 3 meters"; "'2020-01-01' +% 3"; "datedifference('2020-01-01', '2020-01-01+0000')"; "datesubtract('0001-01-02', 1 day)"; "datesubtract('0001-01-01', 1 day)"]%string =
  ["'2023-03-01'"; "'2024-02-29'"; "'1900-03-01'"; "'2000-02-29'"; "'2020-01-01'"; "'2020-06-01T13:30:00+0100'"; "7200 seconds"; "366 days"; "execute error"; "execute error"; "execute error"; "execute error"; "execute error"; "'0001-01-01'"; "execute error"]%string.
Proof. vm_compute. reflexivity. Qed.
(** The numbers meant are those the floats can hold: for the examples they are exact. *)
Example c63_floats_ex : demo_micros (rnd 30 (inject_Z (-1) * (3 # 2) * 86400)) = Some (-129600000000) /\ (demo_seconds 129600000001 == inject_Z 129600000001 / inject_Z 1000000)%Q.
Proof. split; vm_compute; reflexivity. Qed.
