(** The statistical functions and [sort] on numbers with units. *)
From Coq Require Import ZArith QArith Qabs Qround Ascii String List Bool Lia Lqa Permutation Sorted.
From Verif Require Import Base BaseProofs Dec DecProofs Num NumSpec NumProofs NumProofs2 NumProofs3 NumProofs4 Lex LexProofs Bases BasesProofs Formats Units UnitsSpec UnitsProofs UnitsProofs2 UnitsProofs3 UnitsProofs4 UnitsProofs5 Install Syntax Pos Call CallSpec CallProofs Loop Parse Exec Std StdSpec StdProofs StdProofs5 StdProofs6 StdProofs7 StdProofs9 RangeSpec RangeProofs StatSpec StatProofs UnitReg UnitCalc UnitCalcSpec UnitCalcProofs GatherSpec.
Import ListNotations.
Open Scope nat_scope.

(** * The call: the elements in the unit of the first *)
Definition moved (U : ucfg) (u : option eunit) (r : result) : out (value * option eunit) :=
  convert_value (u_rels U) (VNum (the_num (u_lib U) r)) (runit r) u false.
(** The number and the unit the function gets *)
Definition there (U : ucfg) (u : option eunit) (r : result) : number :=
  match moved U u r with Ok (VNum m, _) => m | _ => mkNum 0 1 None None end.
Definition where_ (U : ucfg) (u : option eunit) (r : result) : option eunit := match moved U u r with Ok (_, c) => c | _ => None end.
Definition uconv (U : ucfg) (u : option eunit) (r : result) : result := Res (VNum (there U u r)) (where_ U u r) (rref r) (Some (rval r, runit r)).
Definition moves (U : ucfg) (u : option eunit) (r : result) : Prop :=
  (exists n, number_at (u_lib U) r n) /\ exists m c, moved U u r = Ok (VNum m, c).
Lemma moves_numeric U u l : Forall (moves U u) l -> numeric (u_lib U) l.
Proof. intros H r Hr. rewrite Forall_forall in H. apply (H r Hr). Qed.
Lemma convert_rest_ok U u l : Forall (moves U u) l ->
  convert_rest (u_rels U) (map (fun r => VNum (the_num (u_lib U) r)) l) (map runit l) u false = Ok (map (fun r => VNum (there U u r)) l, map (where_ U u) l).
Proof.
  intros H. induction H as [|r l (_ & m & c & E) _ IH]; [reflexivity|]. cbn [map convert_rest]. fold (moved U u r). unfold there at 1, where_ at 1. rewrite E. cbn [obind]. rewrite IH. reflexivity.
Qed.
Lemma same_unit_refl u : same_unit u u = true.
Proof. destruct u as [u|]; [|reflexivity]. unfold same_unit, upl_eqb. apply seq_eqb_refl. Qed.
Lemma moved_first U r : moved U (runit r) r = Ok (VNum (the_num (u_lib U) r), runit r).
Proof. unfold moved, convert_value. now rewrite same_unit_refl. Qed.
Lemma convert_rest_stop U u l : numeric (u_lib U) l -> Exists (fun r => moved U u r = Calc) l -> Forall (fun r => moved U u r = Calc \/ exists m c, moved U u r = Ok (VNum m, c)) l ->
  convert_rest (u_rels U) (map (fun r => VNum (the_num (u_lib U) r)) l) (map runit l) u false = Calc.
Proof.
  intros _ H F. induction H as [r l E|r l _ IH]; cbn [map convert_rest]; fold (moved U u r).
  - rewrite E. reflexivity.
  - apply Forall_cons_iff in F as [F1 F2]. destruct F1 as [-> | (m & c & ->)]; [reflexivity|]. cbn [obind]. rewrite (IH F2). reflexivity.
Qed.
Lemma array_numbers_u U l : numeric (u_lib U) l -> forall c, exists c', array_numbers (unit_env U) l c = Ok (map (fun r => VNum (the_num (u_lib U) r)) l, c').
Proof.
  induction l as [|r l IH]; intros H c; [eexists; reflexivity|]. cbn [array_numbers map]. rewrite unit_to_number.
  destruct (H r (or_introl eq_refl)) as [n Hn]. unfold the_num at 1. rewrite Hn. cbn [obind].
  destruct (IH (fun x Hx => H x (or_intror Hx)) (first_some c (ncast n))) as [c' E]. rewrite E. cbn [obind fst snd]. eexists. reflexivity.
Qed.
Lemma put_back_u U u l : put_back l (map (fun r => VNum (there U u r)) l) (map (where_ U u) l) = Ok (map (uconv U u) l).
Proof. induction l as [|r l IH]; [reflexivity|]. cbn [map put_back]. rewrite IH. reflexivity. Qed.
Definition gathers (d : opdef) : Prop := takes_numbers d /\ o_norm d = true /\ o_multi d = false /\ o_rel d = false /\ o_excs d = false.
Lemma unumbers_prepare U d l v f : gathers d -> numeric (u_lib U) l ->
  exists c, prepare (unit_env U) d [VList l] [v] [f] =
    do n <- normalise_inputs (u_rels U) (map (fun r => VNum (the_num (u_lib U) r)) l) (map runit l) false false;
    do l' <- put_back l (fst (fst n)) (snd (fst n)); Ok ([VList l'], [v], c, snd n).
Proof.
  intros ((Ev & Emin & Emax & Eu & Ea) & En & Em & Er & _) Hl.
  destruct (array_numbers_u U l Hl None) as [c Ec]. exists c. unfold prepare, validate. rewrite Ev, Emin, Emax, Eu, Ea.
  cbn [length Nat.ltb Nat.leb obind all_are out_each rs_from rs_to rs_types indices seq Nat.sub nth_error].
  unfold validate_types, validate_input. cbn [arr_of e_valid unit_env].
  replace (unit_valid U ($"array")) with (std_valid (u_lib U) ($"array")) by reflexivity. unfold std_valid at 1.
  replace (seq_eqb ($"array") ($"array")) with true by reflexivity.
  replace (seq_eqb ($"number") ($"array")) with false by reflexivity.
  rewrite (numbers_valid (u_lib U) l Hl). cbn [obind].
  unfold convert_numbers. rewrite Ev. cbn [all_are fold_left rs_types existsb is_plain_number arr_of orb fst snd].
  cbn [all_numbers]. unfold can_be. rewrite Ev. cbn [all_are existsb rs_types arr_of covers rs_from rs_to Nat.leb andb orb typ_is].
  replace (seq_eqb ($"array") s_number) with false by reflexivity. cbn [orb andb].
  cbn [norm_arrays]. unfold must_be. rewrite Ev. cbn [all_are must_be_loop covers rs_from rs_to Nat.leb andb existsb rs_types arr_of typ_is sub_is length Nat.eqb orb].
  replace (seq_eqb ($"array") s_array) with true by reflexivity. replace (seq_eqb ($"number") s_number) with true by reflexivity. cbn [andb orb].
  rewrite Ec. cbn [obind e_norm unit_env fst snd]. rewrite En, Em, Er.
  destruct (normalise_inputs (u_rels U) _ (map runit l) false false) as [n| |]; [|reflexivity|reflexivity]. cbn [obind fst snd].
  destruct (put_back l (fst (fst n)) (snd (fst n))) as [l'| |]; reflexivity.
Qed.
Lemma gather_prepare U d r0 l u v f : gathers d -> runit r0 = Some u -> Forall (moves U (Some u)) (r0 :: l) ->
  exists c, prepare (unit_env U) d [VList (r0 :: l)] [v] [f] = Ok ([VList (map (uconv U (Some u)) (r0 :: l))], [v], c, Some u).
Proof.
  intros Hd H0 Hl. destruct (unumbers_prepare U d (r0 :: l) v f Hd (moves_numeric U (Some u) _ Hl)) as [c E]. exists c. rewrite E.
  assert (N : normalise_inputs (u_rels U) (map (fun r => VNum (the_num (u_lib U) r)) (r0 :: l)) (map runit (r0 :: l)) false false =
    Ok (map (fun r => VNum (there U (Some u) r)) (r0 :: l), map (where_ U (Some u)) (r0 :: l), Some u)).
  { pose proof (moved_first U r0) as M. rewrite H0 in M. unfold normalise_inputs. cbn [map first_unit]. rewrite H0. cbn [first_unit].
    assert (T : there U (Some u) r0 = the_num (u_lib U) r0 /\ where_ U (Some u) r0 = Some u) by (unfold there, where_; rewrite M; auto). destruct T as [-> ->].
    destruct l as [|r l]; [reflexivity|]. cbn [length map Nat.ltb Nat.leb]. apply Forall_cons_iff in Hl as [_ Hl].
    pose proof (convert_rest_ok U (Some u) (r :: l) Hl) as R. cbn [map] in R. rewrite R. reflexivity. }
  rewrite N. cbn [obind fst snd]. rewrite put_back_u. reflexivity.
Qed.
Lemma gather_call U h d stl x r0 l u s : gathers d -> rval x = VList (r0 :: l) -> runit r0 = Some u -> Forall (moves U (Some u)) (r0 :: l) ->
  exists c, call (unit_env U) h d stl [x] s =
    match o_impl d h [VList (map (uconv U (Some u)) (r0 :: l))] [runit x] [rref x] stl s with
    | (OOk o, s') => (OOk (finish d c (Some u) o), s')
    | (OErr e, s') => if wrapped e then (OErr e, s')
                      else if e_tostr (unit_env U) x then (OErr (XCalc true (MOp (o_name d))), s') else (OPy, s')
    | (OPy, s') => if e_tostr (unit_env U) x then (OErr (XCalc false (MOp (o_name d))), s') else (OPy, s')
    | (OFuel, s') => (OFuel, s')
    end.
Proof.
  intros Hd Hx H0 Hl. destruct (gather_prepare U d r0 l u (runit x) (rref x) Hd H0 Hl) as [c P]. exists c.
  destruct Hd as ((Ev & _) & _ & _ & _ & He). rewrite call_eq. unfold call_step.
  assert (F : existsb (fun b => b) (flags_of d 0 [x]) = false).
  { cbn [flags_of existsb]. unfold flagged, can_be. rewrite Ev. cbn. now rewrite andb_false_r. }
  rewrite F. assert (K : is_packed d [x] = false) by (unfold is_packed; now rewrite andb_false_r). rewrite K.
  unfold call_plain. rewrite He. unfold find_exc. cbn [find map]. rewrite Hx. cbn [is_exc].
  cbn [map] in P. rewrite P. unfold bind, lift. cbn [fst snd]. destruct (o_impl d h _ _ _ stl s) as [[o|e| |] s']; unfold ret; cbn [forallb]; rewrite ?andb_true_r; reflexivity.
Qed.

(** * The numbers the functions get *)
Lemma the_num_at L r n : number_at L r n -> the_num L r = n.
Proof. unfold number_at, the_num. now intros ->. Qed.
Lemma comparable_moves U us u r : world (u_rels U) us -> made_of us u -> steady (u_rels U) u -> comparable U us u r ->
  moves U (Some u) r /\ good (there U (Some u) r) /\ lowest (there U (Some u) r) /\
  (val (there U (Some u) r) == measure (u_lib U) r / size_of (Some u))%Q /\
  (forall k, fits (u_lib U) k u r -> size_le k (there U (Some u) r)).
Proof.
  intros W (Ou & _) Su (n & v & Hn & G & Lo & Hv & (Ov & _) & D & Sv).
  destruct (convert_ok (u_rels U) us n v u false W Ov Ou D Sv Su G) as (m & c & E & V & Gm & _ & _ & Hm).
  assert (M : moved U (Some u) r = Ok (VNum m, Some c)) by (unfold moved; rewrite (the_num_at _ _ _ Hn), Hv; exact E).
  assert (T : there U (Some u) r = m) by (unfold there; now rewrite M). rewrite T.
  assert (Me : measure (u_lib U) r = (val n * size_of (Some v))%Q) by (unfold measure; unfold number_at in Hn; now rewrite Hn, Hv).
  split; [split; [now exists n|now exists m, (Some c)]|]. split; [exact Gm|]. split; [|split].
  - unfold convert_value in E. cbn [same_unit ulist_of option_map] in E. destruct (upl_eqb (eu_list v) (eu_list u)).
    + assert (m = n) as -> by (injection E; auto). exact Lo.
    + destruct (unit_conversion (u_rels U) (num_q n) (Some (eu_list v)) (Some (eu_list u)) false) as [[w ?]| |]; [|discriminate|discriminate]. cbn [obind fst] in E.
      assert (m = of_q n w) as -> by (injection E; auto). unfold of_q. destruct (Qeq_bool w (num_q n)); [exact Lo|]. apply gcd1_lowest. cbn [nnum nden]. pose proof (ratio_props w) as R. unfold ratio in R. apply R.
  - rewrite Me, V. reflexivity.
  - intros k (n' & Hn' & S & Hd). assert (n' = n) as -> by (unfold number_at in *; congruence). apply Hm; [exact S|]. rewrite Me in Hd. exact Hd.
Qed.
Lemma finish_num_u (d : opdef) c u n : o_autores d = true ->
  exists m, finish d c u (mkOR (VNum n) None None) = mkRes (VNum m) u None /\ nnum m = nnum n /\ nden m = nden n.
Proof. intros A. unfold finish. cbn [or_val or_unit or_ref]. rewrite A. destruct c as [k|]; eexists; (split; [reflexivity|split; reflexivity]). Qed.

(** * Sum *)
Lemma sum_there U u d xs l : (1 <= l_prec (u_lib U))%Z -> (0 < d)%Z -> (d < 10 ^ l_prec (u_lib U))%Z ->
  Forall2 (fun x r => RangeSpec.over d x (there U u r)) xs l ->
  forall y acc, RangeSpec.over d y acc -> ((Z.abs y + zsum (map Z.abs xs)) * d < 10 ^ l_prec (u_lib U))%Z ->
  exists r, sum_from (l_prec (u_lib U)) acc (map (uconv U u) l) = Some r /\ RangeSpec.over d (y + zsum xs) r.
Proof.
  intros Hp Hd Sd H. induction H as [|x r xs l H2 _ IH]; intros y acc Hy S.
  - exists acc. split; [reflexivity|]. unfold zsum. cbn [fold_right]. rewrite Z.add_0_r. exact Hy.
  - cbn [map sum_from]. unfold zsum in *. cbn [map fold_right] in *. fold (zsum (map Z.abs xs)) in *. fold (zsum xs) in *. pose proof (zsum_nonneg xs) as N.
    change (num_of (uconv U u r)) with (Some (there U u r)). destruct (add_over (l_prec (u_lib U)) d y x acc (there U u r) Hp Hd Hy H2) as (q & Q1 & Q2 & _); [nia|exact Sd|]. rewrite Q1.
    destruct (IH (y + x)%Z q Q2) as (t & T1 & T2); [nia|]. exists t. split; [exact T1|]. now rewrite Z.add_assoc.
Qed.
Lemma sum_gather U us h stl x r0 l u s d xs : world (u_rels U) us -> made_of us u -> steady (u_rels U) u ->
  rval x = VList (r0 :: l) -> runit r0 = Some u -> Forall (comparable U us u) (r0 :: l) ->
  (1 <= l_prec (u_lib U))%Z -> (0 < d < 10 ^ l_prec (u_lib U))%Z ->
  Forall2 (fun z r => (measure (u_lib U) r / size_of (Some u) == inject_Z z / inject_Z d)%Q) xs (r0 :: l) ->
  (zsum (map Z.abs xs) * d < 10 ^ l_prec (u_lib U))%Z ->
  exists n, call (unit_env U) h (d_sum (u_lib U)) stl [x] s = (OOk (mkRes (VNum n) (Some u) None), s) /\
    (val n * size_of (Some u) == qsum (map (measure (u_lib U)) (r0 :: l)))%Q.
Proof.
  intros W Mu Su Hx H0 Hl Hp [Hd Sd] Hxs S.
  assert (Mv : Forall (moves U (Some u)) (r0 :: l)) by (eapply Forall_impl; [|exact Hl]; intros r Hr; now apply (comparable_moves U us u r W Mu Su)).
  destruct (gather_call U h (d_sum (u_lib U)) stl x r0 l u s) as [c E]; try assumption; [repeat split; reflexivity|].
  assert (Ov : Forall2 (fun z r => RangeSpec.over d z (there U (Some u) r)) xs (r0 :: l)).
  { revert Hxs. generalize (r0 :: l), Hl. clear - W Mu Su. intros L HL H. induction H as [|z r zs L Hz _ IH]; constructor.
    - apply Forall_cons_iff in HL as [HL _]. destruct (comparable_moves U us u r W Mu Su HL) as (_ & G & Lo & V & _). split; [exact G|]. split; [exact Lo|]. rewrite V. exact Hz.
    - apply IH. now apply Forall_cons_iff in HL as [_ HL]. }
  destruct (sum_there U (Some u) d xs (r0 :: l) Hp Hd Sd Ov 0 (num_of_Z (l_prec (u_lib U)) 0) (zero_over (l_prec (u_lib U)) d Hp Hd)) as (r & R1 & R2); [cbn [Z.abs]; lia|].
  rewrite E. unfold d_sum at 1. cbn [snd fdef o_impl fn_sum]. rewrite R1. unfold bind, pym, just, ret.
  destruct (finish_num_u (d_sum (u_lib U)) c (Some u) r eq_refl) as (m & M1 & M2 & M3). exists m. rewrite M1. split; [reflexivity|].
  pose proof (over_pos (u_rels U) us (eu_list u) W (proj1 Mu)) as Pu. change (factor (eu_list u)) with (size_of (Some u)) in Pu.
  assert (Vm : (val m == inject_Z (zsum xs) / inject_Z d)%Q). { unfold val. rewrite M2, M3. destruct R2 as (_ & _ & V). exact V. }
  rewrite Vm. clear - Hxs Hd Pu. assert (Nd : ~ (inject_Z d == 0)%Q) by (pose proof (inj_pos d Hd); lra). assert (Nu : ~ (size_of (Some u) == 0)%Q) by lra. revert Nu Hxs. generalize (size_of (Some u)). intros k Nu H.
  induction H as [|z r zs L Hz _ IH]; cbn [map qsum zsum fold_right]; [change (inject_Z 0) with 0%Q; field; exact Nd|].
  unfold qsum in IH. rewrite <- IH. unfold zsum. rewrite inject_Z_plus. assert (Z1 : (measure (u_lib U) r == inject_Z z / inject_Z d * k)%Q) by (rewrite <- Hz; field; exact Nu). rewrite Z1. field. exact Nd.
Qed.

(** * Least and greatest *)
Lemma pick_map {A} (g : A -> result) (k : A -> Q) (lt : Q -> Q -> bool) (better : result -> result -> bool) (l : list A) (P : A -> Prop) :
  (forall a b, P a -> P b -> better (g a) (g b) = lt (k a) (k b)) ->
  (forall p q r, lt p q = true -> lt q r = true -> lt p r = true) -> (forall p q r, lt p q = false -> lt q r = false -> lt p r = false) ->
  (forall p, lt p p = false) ->
  forall x, Forall P (x :: l) -> exists a r b, x :: l = a ++ r :: b /\ pick_from better (g x) (map g l) = g r /\
    (forall y, In y (x :: l) -> lt (k y) (k r) = false) /\ (forall y, In y a -> lt (k r) (k y) = true).
Proof.
  intros Hb T N I. induction l as [|y l IH] using rev_ind; intros x Hl; rewrite Forall_forall in Hl.
  - exists [], x, []. split; [reflexivity|]. split; [reflexivity|]. split; [|intros y []]. intros y [->|[]]. apply I.
  - rewrite map_app. cbn [map].
    assert (Q : forall l' b, pick_from better b (l' ++ [g y]) = (if better (g y) (pick_from better b l') then g y else pick_from better b l'))
      by (induction l' as [|z l' IHl]; intros b; cbn [app pick_from]; [reflexivity|apply IHl]).
    rewrite Q. assert (Hl' : Forall P (x :: l)) by (apply Forall_forall; intros r Hr; apply Hl; destruct Hr; [now left|right; apply in_or_app; now left]).
    destruct (IH x Hl') as (a & r & b & E & F & M1 & M2). rewrite F. rewrite Forall_forall in Hl'.
    assert (Pr : P r). { apply Hl'. rewrite E. apply in_or_app. right. now left. }
    assert (Py : P y). { apply Hl. right. apply in_or_app. right. now left. }
    rewrite (Hb y r Py Pr). destruct (lt (k y) (k r)) eqn:C.
    + exists (x :: l), y, []. split; [reflexivity|]. split; [reflexivity|]. split.
      * intros z Hz. change (x :: l ++ [y]) with ((x :: l) ++ [y]) in Hz. apply in_app_or in Hz as [Hz|[<-|[]]]; [|apply I].
        specialize (M1 z Hz). destruct (lt (k z) (k y)) eqn:D; [|reflexivity]. rewrite (T _ _ _ D C) in M1. discriminate.
      * intros z Hz. specialize (M1 z Hz). destruct (lt (k y) (k z)) eqn:D; [reflexivity|]. rewrite (N _ _ _ D M1) in C. discriminate.
    + exists a, r, (b ++ [y]). split; [change (x :: l ++ [y]) with ((x :: l) ++ [y]); rewrite E, <- app_assoc; reflexivity|]. split; [reflexivity|]. split; [|exact M2].
      intros z Hz. change (x :: l ++ [y]) with ((x :: l) ++ [y]) in Hz. apply in_app_or in Hz as [Hz|[<-|[]]]; [now apply M1|exact C].
Qed.
(** With few enough digits the decimals order as the quantities do. *)
Definition weighs (U : ucfg) (us : list unit) (k : Z) (u : eunit) (r : result) : Prop := comparable U us u r /\ fits (u_lib U) k u r.
Lemma there_lt U us k u a b : world (u_rels U) us -> made_of us u -> steady (u_rels U) u -> (0 <= k)%Z -> (2 * k + 1 <= l_prec (u_lib U))%Z ->
  weighs U us k u a -> weighs U us k u b ->
  value_lt (l_prec (u_lib U)) (uconv U (Some u) a) (uconv U (Some u) b) = qlt (measure (u_lib U) a) (measure (u_lib U) b).
Proof.
  intros W Mu Su Hk Hp [Ca Fa] [Cb Fb]. destruct (comparable_moves U us u a W Mu Su Ca) as (_ & Ga & _ & Va & Sa). destruct (comparable_moves U us u b W Mu Su Cb) as (_ & Gb & _ & Vb & Sb).
  specialize (Sa k Fa). specialize (Sb k Fb). destruct (num_ltb_exact (l_prec (u_lib U)) k _ _ Hk Hp Ga Gb Sa Sb) as [L _].
  change (value_lt (l_prec (u_lib U)) (uconv U (Some u) a) (uconv U (Some u) b)) with (num_ltb (l_prec (u_lib U)) (there U (Some u) a) (there U (Some u) b)).
  pose proof (over_pos (u_rels U) us (eu_list u) W (proj1 Mu)) as Pu. change (factor (eu_list u)) with (size_of (Some u)) in Pu.
  assert (X : (val (there U (Some u) a) < val (there U (Some u) b) <-> measure (u_lib U) a < measure (u_lib U) b)%Q).
  { rewrite Va, Vb. unfold Qdiv. apply Qmult_lt_r. apply Qinv_lt_0_compat. exact Pu. }
  rewrite X in L. apply eq_true_iff_eq. rewrite L. symmetry. apply qlt_iff.
Qed.
(** The functions get numbers that are ordered as [m] *)
Definition orders (U : ucfg) (u : eunit) (m : result -> Q) (P : result -> Prop) : Prop :=
  (forall r, P r -> moves U (Some u) r) /\
  (forall a b, P a -> P b -> value_lt (l_prec (u_lib U)) (uconv U (Some u) a) (uconv U (Some u) b) = qlt (m a) (m b)).
Lemma moves_scalar U u r : moves U u r -> is_list (rval r) = false.
Proof. intros ((n & Hn) & _). unfold number_at in Hn. destruct (rval r); try reflexivity. discriminate. Qed.
Lemma pick_gather U h d (better : result -> result -> bool) stl x r0 l u s a r b : gathers d -> o_autores d = true -> o_impl d = fn_pick (u_lib U) better ->
  rval x = VList (r0 :: l) -> runit r0 = Some u -> Forall (moves U (Some u)) (r0 :: l) -> r0 :: l = a ++ r :: b ->
  pick_from better (uconv U (Some u) r0) (map (uconv U (Some u)) l) = uconv U (Some u) r ->
  exists v, call (unit_env U) h d stl [x] s = (OOk (mkRes v (runit r) (rref r)), s) /\ same_value (rval r) v.
Proof.
  intros G Au Im Hx H0 Hl E F. destruct (gather_call U h d stl x r0 l u s G Hx H0 Hl) as [c C].
  rewrite C, Im. unfold fn_pick. cbn [map].
  assert (A : all_nums (uconv U (Some u) r0 :: map (uconv U (Some u)) l) = true) by (change (uconv U (Some u) r0 :: map (uconv U (Some u)) l) with (map (uconv U (Some u)) (r0 :: l)); apply forallb_forall; intros q Hq; apply in_map_iff in Hq as (y & <- & _); reflexivity).
  rewrite A, F. unfold uconv at 1. unfold ret, finish. cbn [or_val or_unit or_ref].
  assert (NL : is_list (rval r) = false). { apply (moves_scalar U (Some u)). rewrite Forall_forall in Hl. apply Hl. rewrite E. apply in_or_app. right. now left. }
  rewrite Au. eexists. split; [reflexivity|]. unfold same_value. destruct (rval r); try reflexivity; [|discriminate]. destruct c; split; reflexivity.
Qed.
Lemma min_gather U h stl x r0 l u s (m : result -> Q) (P : result -> Prop) : orders U u m P ->
  rval x = VList (r0 :: l) -> runit r0 = Some u -> Forall P (r0 :: l) ->
  exists a r b v, r0 :: l = a ++ r :: b /\ call (unit_env U) h (d_min (u_lib U)) stl [x] s = (OOk (mkRes v (runit r) (rref r)), s) /\ same_value (rval r) v /\
    (forall y, In y (r0 :: l) -> (m r <= m y)%Q) /\ (forall y, In y a -> (m r < m y)%Q).
Proof.
  intros [O1 O2] Hx H0 Hl. assert (Mv : Forall (moves U (Some u)) (r0 :: l)) by (eapply Forall_impl; [|exact Hl]; exact O1).
  destruct (pick_map (uconv U (Some u)) m qlt (value_lt (l_prec (u_lib U))) l P) with (x := r0) as (a & r & b & E & F & M1 & M2); try assumption.
  { intros p q t H1 H2. apply qlt_iff in H1, H2. apply qlt_iff. lra. }
  { intros p q t H1 H2. apply qlt_not in H1, H2. apply qlt_not. lra. }
  { intros p. apply qlt_not. lra. }
  destruct (pick_gather U h (d_min (u_lib U)) (value_lt (l_prec (u_lib U))) stl x r0 l u s a r b) as (v & V1 & V2); try assumption; try reflexivity; [repeat split; reflexivity|].
  exists a, r, b, v. split; [exact E|]. split; [exact V1|]. split; [exact V2|]. split.
  - intros y Hy. now apply qlt_not, M1.
  - intros y Hy. now apply qlt_iff, M2.
Qed.
Lemma max_gather U h stl x r0 l u s (m : result -> Q) (P : result -> Prop) : orders U u m P ->
  rval x = VList (r0 :: l) -> runit r0 = Some u -> Forall P (r0 :: l) ->
  exists a r b v, r0 :: l = a ++ r :: b /\ call (unit_env U) h (d_max (u_lib U)) stl [x] s = (OOk (mkRes v (runit r) (rref r)), s) /\ same_value (rval r) v /\
    (forall y, In y (r0 :: l) -> (m y <= m r)%Q) /\ (forall y, In y a -> (m y < m r)%Q).
Proof.
  intros [O1 O2] Hx H0 Hl. assert (Mv : Forall (moves U (Some u)) (r0 :: l)) by (eapply Forall_impl; [|exact Hl]; exact O1).
  destruct (pick_map (uconv U (Some u)) m (fun p q => qlt q p) (fun a b => value_lt (l_prec (u_lib U)) b a) l P) with (x := r0) as (a & r & b & E & F & M1 & M2); try assumption.
  { intros p q Pp Pq. now apply O2. }
  { intros p q t H1 H2. apply qlt_iff in H1, H2. apply qlt_iff. lra. }
  { intros p q t H1 H2. apply qlt_not in H1, H2. apply qlt_not. lra. }
  { intros p. apply qlt_not. lra. }
  destruct (pick_gather U h (d_max (u_lib U)) (fun a b => value_lt (l_prec (u_lib U)) b a) stl x r0 l u s a r b) as (v & V1 & V2); try assumption; try reflexivity; [repeat split; reflexivity|].
  exists a, r, b, v. split; [exact E|]. split; [exact V1|]. split; [exact V2|]. split.
  - intros y Hy. now apply qlt_not, M1.
  - intros y Hy. now apply qlt_iff, M2.
Qed.

(** * Sorting *)
Lemma sort_gather U h stl x r0 l u s (m : result -> Q) (P : result -> Prop) : orders U u m P -> (forall r, m (StdSpec.plain r) = m r) ->
  rval x = VList (r0 :: l) -> runit r0 = Some u -> Forall P (r0 :: l) ->
  call (unit_env U) h (d_sort (u_lib U)) stl [x] s = (OOk (mkRes (VList (sort_by (by_key m) (map StdSpec.plain (r0 :: l)))) None None), s).
Proof.
  intros [O1 O2] Pm Hx H0 Hl. assert (Mv : Forall (moves U (Some u)) (r0 :: l)) by (eapply Forall_impl; [|exact Hl]; exact O1).
  destruct (gather_call U h (d_sort (u_lib U)) stl x r0 l u s) as [c E]; try assumption; [repeat split; reflexivity|].
  rewrite E. unfold d_sort at 1. cbn [snd fdef o_impl]. unfold fn_sort.
  assert (A : all_nums (map (uconv U (Some u)) (r0 :: l)) = true) by (apply forallb_forall; intros q Hq; apply in_map_iff in Hq as (y & <- & _); reflexivity).
  rewrite A. unfold unitless, ret, finish. cbn [or_val or_unit or_ref].
  assert (S1 : sort_by (value_lt (l_prec (u_lib U))) (map (uconv U (Some u)) (r0 :: l)) = map (uconv U (Some u)) (sort_by (by_key m) (r0 :: l))).
  { symmetry. rewrite Forall_forall in Hl. apply sort_map. intros a b Ha Hb. rewrite O2; auto. }
  assert (S2 : map StdSpec.plain (sort_by (by_key m) (r0 :: l)) = sort_by (by_key m) (map StdSpec.plain (r0 :: l))).
  { apply sort_map. intros a b _ _. unfold by_key. now rewrite !Pm. }
  rewrite S1, map_map, <- S2. replace (map (fun r => restore (uconv U (Some u) r)) (sort_by (by_key m) (r0 :: l))) with (map StdSpec.plain (sort_by (by_key m) (r0 :: l))); [reflexivity|].
  apply map_ext. intros r. reflexivity.
Qed.

(** * Mean, median, mode *)
Lemma decimals_there U us u l : world (u_rels U) us -> made_of us u -> steady (u_rels U) u -> Forall (comparable U us u) l ->
  decimals (l_prec (u_lib U)) (map (uconv U (Some u)) l) = Some (map (shown_in (u_lib U) u) l).
Proof.
  intros W Mu Su H. induction H as [|r l Hr _ IH]; [reflexivity|]. cbn [map decimals]. rewrite IH.
  change (num_of (uconv U (Some u) r)) with (Some (there U (Some u) r)). destruct (comparable_moves U us u r W Mu Su Hr) as (_ & _ & _ & V & _).
  rewrite to_decimal_val. unfold shown_in. now rewrite (rnd_eq _ _ _ V).
Qed.
Lemma stat_gather U us h stl x r0 l u s nm f q : world (u_rels U) us -> made_of us u -> steady (u_rels U) u ->
  rval x = VList (r0 :: l) -> runit r0 = Some u -> Forall (comparable U us u) (r0 :: l) ->
  (1 <= l_prec (u_lib U))%Z -> f (l_prec (u_lib U)) (map (shown_in (u_lib U) u) (r0 :: l)) = Some q -> narrow (l_prec (u_lib U)) q ->
  exists n, call (unit_env U) h (d_stat (u_lib U) nm f) stl [x] s = (OOk (mkRes (VNum n) (Some u) None), s) /\ (val n == q)%Q.
Proof.
  intros W Mu Su Hx H0 Hl Hp Hf Nq.
  assert (Mv : Forall (moves U (Some u)) (r0 :: l)) by (eapply Forall_impl; [|exact Hl]; intros r Hr; now apply (comparable_moves U us u r W Mu Su)).
  destruct (gather_call U h (d_stat (u_lib U) nm f) stl x r0 l u s) as [c C]; try assumption; [repeat split; reflexivity|].
  rewrite C. unfold d_stat at 1. cbn [snd fdef o_impl fn_stat]. rewrite (decimals_there U us u (r0 :: l) W Mu Su Hl). unfold bind at 1. unfold pym at 1. unfold ret at 1. rewrite Hf.
  unfold bind at 1. unfold pym at 1. unfold ret at 1. destruct (num_make_exact_Q (l_prec (u_lib U)) None q Hp Nq) as (r & R1 & R2 & R3 & R4 & _). rewrite R1.
  unfold bind, pym, just, ret. destruct (finish_num_u (d_stat (u_lib U) nm f) c (Some u) r eq_refl) as (m & M1 & M2 & M3). exists m. rewrite M1. split; [reflexivity|].
  unfold val in *. rewrite M2, M3. exact R2.
Qed.

(** * What orders the elements *)
Lemma measure_orders U us k u : world (u_rels U) us -> made_of us u -> steady (u_rels U) u -> (0 <= k)%Z -> (2 * k + 1 <= l_prec (u_lib U))%Z ->
  orders U u (measure (u_lib U)) (weighs U us k u).
Proof.
  intros W Mu Su Hk Hp. split.
  - intros r [Hr _]. now apply (comparable_moves U us u r W Mu Su).
  - intros a b Ha Hb. now apply (there_lt U us k u).
Qed.
Lemma warmth_orders U t u k : temperature t -> u = mkEU [(t, 1%Z)] false -> (0 <= k)%Z -> (2 * k + 1 <= l_prec (u_lib U))%Z ->
  orders U u (warmth (u_lib U)) (degrees (u_lib U) k t).
Proof.
  intros Tt -> Hk Hp.
  assert (X : forall r, degrees (u_lib U) k t r -> moves U (Some (mkEU [(t, 1%Z)] false)) r /\ good (there U (Some (mkEU [(t, 1%Z)] false)) r) /\ size_le k (there U (Some (mkEU [(t, 1%Z)] false)) r) /\
    (to_kelvin (ukind_of t) (val (there U (Some (mkEU [(t, 1%Z)] false)) r)) == warmth (u_lib U) r)%Q).
  { intros r (n & w & Hn & G & S & Hw & Tw & D & Nm & Hd).
    destruct (convert_temperature (u_rels U) n w t false Tw Tt D Nm G) as (m & c & E & V & Gm & _ & Hm). cbv iota in V, Hm.
    assert (M : moved U (Some (mkEU [(t, 1%Z)] false)) r = Ok (VNum m, c)) by (unfold moved; rewrite (the_num_at _ _ _ Hn), Hw; exact E).
    assert (T : there U (Some (mkEU [(t, 1%Z)] false)) r = m) by (unfold there; now rewrite M). rewrite T.
    split; [split; [now exists n|now exists m, c]|]. split; [exact Gm|]. split; [now apply Hm|].
    unfold warmth. unfold number_at in Hn. rewrite Hn, Hw. cbn [eu_list].
    rewrite <- (proj2 (kelvin_inverse (ukind_of t) (to_kelvin (ukind_of w) (val n)))). destruct (ukind_of t); cbn [to_kelvin]; rewrite V; reflexivity. }
  split; [intros r Hr; now apply X|]. intros a b Ha Hb. destruct (X a Ha) as (_ & Ga & Sa & Va). destruct (X b Hb) as (_ & Gb & Sb & Vb).
  destruct (num_ltb_exact (l_prec (u_lib U)) k _ _ Hk Hp Ga Gb Sa Sb) as [L _].
  apply eq_true_iff_eq. transitivity (num_ltb (l_prec (u_lib U)) (there U (Some (mkEU [(t, 1%Z)] false)) a) (there U (Some (mkEU [(t, 1%Z)] false)) b) = true); [reflexivity|].
  rewrite L, qlt_iff, <- Va, <- Vb. apply kelvin_order.
Qed.

(** * Elements that do not go together *)
Lemma gather_prepare_calc U d l v f : gathers d -> numeric (u_lib U) l ->
  normalise_inputs (u_rels U) (map (fun r => VNum (the_num (u_lib U) r)) l) (map runit l) false false = Calc ->
  prepare (unit_env U) d [VList l] [v] [f] = Calc.
Proof. intros Hd Hl E. destruct (unumbers_prepare U d l v f Hd Hl) as [c P]. rewrite P, E. reflexivity. Qed.
Lemma gather_refused U h d stl x l s : gathers d -> rval x = VList l -> numeric (u_lib U) l ->
  normalise_inputs (u_rels U) (map (fun r => VNum (the_num (u_lib U) r)) l) (map runit l) false false = Calc ->
  shows (u_lib U) (rval x) = true ->
  call (unit_env U) h d stl [x] s = (OErr (XCalc true (MOp (o_name d))), s).
Proof.
  intros Hd Hx Hl N Sh. pose proof (gather_prepare_calc U d l (runit x) (rref x) Hd Hl N) as P.
  destruct Hd as ((Ev & _) & _ & _ & _ & He). rewrite call_eq. unfold call_step.
  assert (F : existsb (fun b => b) (flags_of d 0 [x]) = false).
  { cbn [flags_of existsb]. unfold flagged, can_be. rewrite Ev. cbn. now rewrite andb_false_r. }
  rewrite F. assert (K : is_packed d [x] = false) by (unfold is_packed; now rewrite andb_false_r). rewrite K.
  unfold call_plain. rewrite He. unfold find_exc. cbn [find map]. rewrite Hx. cbn [is_exc].
  rewrite P. unfold bind, lift, raise. cbn [wrapped forallb e_tostr unit_env]. rewrite Sh. reflexivity.
Qed.
Lemma none_then_unit U r0 l : runit r0 = None -> numeric (u_lib U) l -> (exists r, In r l /\ runit r <> None) ->
  normalise_inputs (u_rels U) (map (fun r => VNum (the_num (u_lib U) r)) (r0 :: l)) (map runit (r0 :: l)) false false = Calc.
Proof.
  intros H0 Hl (r & Hr & Nr). unfold normalise_inputs. cbn [map]. rewrite H0. cbn [first_unit].
  assert (X : exists f, first_unit (map runit l) = Some f).
  { clear Hl. induction l as [|y l IH]; [destruct Hr|]. cbn [map first_unit]. destruct (runit y) as [f|] eqn:E; [now exists f|]. destruct Hr as [<-|Hr]; [congruence|now apply IH]. }
  destruct X as [f ->]. destruct l as [|y l]; [destruct Hr|]. cbn [length map Nat.ltb Nat.leb].
  assert (R : convert_rest (u_rels U) (map (fun r => VNum (the_num (u_lib U) r)) (y :: l)) (map runit (y :: l)) None false = Calc).
  { clear Hl f. revert Hr. generalize (y :: l). intros L Hr. induction L as [|z L IH]; [destruct Hr|]. cbn [map convert_rest]. destruct (runit z) as [f|] eqn:E; [reflexivity|].
    cbn [convert_value same_unit obind]. rewrite IH; [reflexivity|]. destruct Hr as [<-|Hr]; [congruence|exact Hr]. }
  cbn [map] in R. rewrite R. reflexivity.
Qed.
Lemma unit_then_other U us r0 l u : world (u_rels U) us -> made_of us u -> steady (u_rels U) u -> runit r0 = Some u ->
  Forall (fun r => comparable U us u r \/ other U us u r) l -> Exists (other U us u) l ->
  normalise_inputs (u_rels U) (map (fun r => VNum (the_num (u_lib U) r)) (r0 :: l)) (map runit (r0 :: l)) false false = Calc.
Proof.
  intros W Mu Su H0 Hl Ho.
  assert (Co : forall r, other U us u r -> moved U (Some u) r = Calc).
  { intros r (n & Hn & [E | (v & d & E & (Ov & _) & Sv & D)]); unfold moved; rewrite E; [reflexivity|].
    apply (convert_refused (u_rels U) us); auto; [apply Mu|]. now exists d. }
  assert (R : convert_rest (u_rels U) (map (fun r => VNum (the_num (u_lib U) r)) l) (map runit l) (Some u) false = Calc).
  { apply convert_rest_stop.
    - intros r Hr. rewrite Forall_forall in Hl. destruct (Hl r Hr) as [(n & v & H & _) | (n & H & _)]; now exists n.
    - clear - Co Ho. induction Ho; [left; now apply Co|now right].
    - eapply Forall_impl; [|exact Hl]. intros r [C|C]; [right|left; now apply Co]. destruct (comparable_moves U us u r W Mu Su C) as ((_ & M) & _). exact M. }
  unfold normalise_inputs. cbn [map]. rewrite H0. cbn [first_unit]. destruct l as [|y l]; [inversion Ho|]. cbn [length map Nat.ltb Nat.leb]. cbn [map] in R. rewrite R. reflexivity.
Qed.
