(** Bitwise operators. *)
From Coq Require Import ZArith QArith Qround Qabs Ascii String List Bool Lia Lqa.
From Verif Require Import Base BaseProofs Dec DecProofs Num NumSpec NumProofs NumProofs2 NumProofs3 Bases BasesSpec BasesProofs BasesProofs2 BasesProofs3 BasesProofs4 Formats Units Install Syntax Pos Call CallSpec CallProofs Loop Parse Exec ExecSpec Std StdSpec StdProofs StdProofs4 StdProofs5 StdProofs6 StdProofs7 StdProofs9.
Import ListNotations.
Open Scope nat_scope.

Definition d_bits (L : lib) (sym : str) (f : Z -> Z -> Z) : opdef := odef sym 2 (all_are tynum) false false true false (op_bits L f).
Definition d_shift (L : lib) (sym : str) (f : Z -> Z -> Z) : opdef := odef sym 2 (all_are tynum) false false true false (op_shift L f).
Lemma find_bits L sym f : In (sym, f) [($"&", Z.land); ($"|", Z.lor); ($"^^", Z.lxor)] ->
  find_op (g_ops (std L)) sym = Some (mkOper [None] [None] false (d_bits L sym f)).
Proof. intros H. repeat (destruct H as [H|H]; [injection H as <- <-; reflexivity|]). destruct H. Qed.
Lemma find_shift L sym f : In (sym, f) [($"<<", Z.shiftl); ($">>", Z.shiftr)] ->
  find_op (g_ops (std L)) sym = Some (mkOper [None] [None] false (d_shift L sym f)).
Proof. intros H. repeat (destruct H as [H|H]; [injection H as <- <-; reflexivity|]). destruct H. Qed.

Lemma width_shown L n : shows L (VNum n) = true -> exists w, width_of L n = Ok w.
Proof.
  cbn [shows]. unfold width_of. destruct (nwidth n); [eauto|]. destruct (num_to_string (l_fmt L) n); [|discriminate|discriminate]. intros _. cbn [obind]. eauto.
Qed.
Lemma width_known L n w : nwidth n = Some w -> width_of L n = Ok w.
Proof. unfold width_of. now intros ->. Qed.
Lemma cast_width c z w : match c with Some k => with_cast (set_width (mkNum z 1 None None) w) (Some k) | None => set_width (mkNum z 1 None None) w end = mkNum z 1 c w.
Proof. destruct c; reflexivity. Qed.

Lemma bits_impl L h f a b us rs stl wa wb i j s : (1 <= l_prec L)%Z -> whole (l_prec L) a i -> whole (l_prec L) b j ->
  width_of L a = Ok wa -> width_of L b = Ok wb ->
  op_bits L f h [VNum a; VNum b] us rs stl s = (OOk (mkOR (VNum (set_width (mkNum (f i j) 1 None None) (Some (Z.max (Z.max 0 wa) wb)))) None None), s).
Proof.
  intros Hp Ha Hb Wa Wb. unfold op_bits, bind, lift, biggest_width. rewrite Wa, Wb. cbn [obind].
  rewrite (whole_int _ a i Hp Ha), (whole_int _ b j Hp Hb), num_of_Z_eq. reflexivity.
Qed.
Lemma bits_call L stl sym f x y a b wa wb i j s : In (sym, f) [($"&", Z.land); ($"|", Z.lor); ($"^^", Z.lxor)] ->
  (1 <= l_prec L)%Z -> rval x = VNum a -> rval y = VNum b -> whole (l_prec L) a i -> whole (l_prec L) b j ->
  width_of L a = Ok wa -> width_of L b = Ok wb ->
  callop (std L) stl sym [x; y] s = (OOk (mkRes (VNum (mkNum (f i j) 1 (format_of a b) (Some (Z.max (Z.max 0 wa) wb)))) None None), s).
Proof.
  intros Hs Hp Hx Hy Ha Hb Wa Wb. rewrite callop_eq, (find_bits L sym f Hs). cbn [op_def].
  rewrite (call_num2 L _ (d_bits L sym f) stl x y a b s); [|repeat split; reflexivity|reflexivity|reflexivity|exact Hx|exact Hy].
  replace (o_impl (d_bits L sym f)) with (op_bits L f) by reflexivity. rewrite (bits_impl L _ f a b _ _ stl wa wb i j s Hp Ha Hb Wa Wb).
  unfold finish. cbn [or_val or_unit or_ref]. replace (o_autores (d_bits L sym f)) with true by reflexivity. rewrite cast_width. reflexivity.
Qed.
Lemma shift_call L stl sym f x y a b wa wb i j s : In (sym, f) [($"<<", Z.shiftl); ($">>", Z.shiftr)] ->
  (1 <= l_prec L)%Z -> rval x = VNum a -> rval y = VNum b -> whole (l_prec L) a i -> whole (l_prec L) b j -> (0 <= j)%Z ->
  width_of L a = Ok wa -> width_of L b = Ok wb ->
  callop (std L) stl sym [x; y] s = (OOk (mkRes (VNum (mkNum (f i j) 1 (format_of a b) (Some (Z.max (Z.max 0 wa) wb)))) None None), s).
Proof.
  intros Hs Hp Hx Hy Ha Hb Hj Wa Wb. rewrite callop_eq, (find_shift L sym f Hs). cbn [op_def].
  rewrite (call_num2 L _ (d_shift L sym f) stl x y a b s); [|repeat split; reflexivity|reflexivity|reflexivity|exact Hx|exact Hy].
  replace (o_impl (d_shift L sym f)) with (op_shift L f) by reflexivity. unfold op_shift at 1, bind. rewrite (whole_natural L b j s Hp Hb).
  replace (0 <=? j)%Z with true by (symmetry; apply Z.leb_le; exact Hj).
  rewrite (bits_impl L _ f a b _ _ stl wa wb i j s Hp Ha Hb Wa Wb).
  unfold finish. cbn [or_val or_unit or_ref]. replace (o_autores (d_shift L sym f)) with true by reflexivity. rewrite cast_width. reflexivity.
Qed.
Lemma shift_refused L stl sym f x y a b s : In (sym, f) [($"<<", Z.shiftl); ($">>", Z.shiftr)] ->
  (1 <= l_prec L)%Z -> rval x = VNum a -> rval y = VNum b -> good b -> mod_fits (l_prec L) b one_num ->
  (~ exists j, (0 <= j)%Z /\ (val b == inject_Z j)%Q) ->
  exists o, callop (std L) stl sym [x; y] s = (o, s) /\ forall r, o <> OOk r.
Proof.
  intros Hs Hp Hx Hy Gb Fb H. rewrite callop_eq, (find_shift L sym f Hs). cbn [op_def].
  rewrite (call_num2 L _ (d_shift L sym f) stl x y a b s); [|repeat split; reflexivity|reflexivity|reflexivity|exact Hx|exact Hy].
  replace (o_impl (d_shift L sym f)) with (op_shift L f) by reflexivity. unfold op_shift at 1, bind. rewrite (natural_refused L b s Hp Gb Fb H).
  unfold calc_err, raise. cbn [wrapped]. destruct (shows L (VNum a) && shows L (VNum b)); eexists; (split; [reflexivity|discriminate]).
Qed.

(** * Complement *)
Definition d_bit_not (L : lib) : opdef := mkOp ($"operator ~") (Some 1) (Some 1) (all_are tynum) [] false false true false false true (op_bit_not L).
Lemma find_bit_not L : find_op (g_ops (std L)) ($"~") = Some (mkOper [] [None] true (d_bit_not L)).
Proof. reflexivity. Qed.
Lemma complement w i : (0 <= w)%Z -> (0 <= i < 2 ^ w)%Z -> Z.land (Z.lnot i) (2 ^ w - 1) = (2 ^ w - 1 - i)%Z.
Proof.
  intros Hw Hi. replace (2 ^ w - 1)%Z with (Z.ones w) by (rewrite Z.ones_equiv; lia). rewrite Z.land_ones by exact Hw.
  replace (Z.lnot i) with (- i - 1)%Z by (unfold Z.lnot; lia). rewrite Z.ones_equiv.
  symmetry. apply (Z.mod_unique _ _ (-1)); lia.
Qed.
Definition flipped (n : number) (w i : Z) : number := mkNum (2 ^ w - 1 - i) 1 (ncast n) None.
Lemma bit_not_call L stl x n w v i s : (1 <= l_prec L)%Z -> rval x = VNum n -> whole (l_prec L) n i -> nwidth n = Some w ->
  (0 <= w)%Z -> (0 <= i < 2 ^ w)%Z -> width_of L (flipped n w i) = Ok v ->
  callop (std L) stl ($"~") [x] s = (OOk (mkRes (VNum (mkNum (2 ^ w - 1 - i) 1 (ncast n) (Some (Z.max w v)))) None None), s).
Proof.
  intros Hp Hx Hn Hw W0 Hi Hv. rewrite callop_eq, find_bit_not. cbn [op_def].
  rewrite call_scalars; [| |reflexivity]. 2: cbn [forallb]; rewrite Hx; reflexivity.
  unfold call_plain. replace (o_excs (d_bit_not L)) with false by reflexivity. unfold find_exc. cbn [find map]. rewrite Hx. cbn [is_exc].
  replace (prepare (std_env L) (d_bit_not L) [VNum n] [runit x] [rref x])
    with (Ok ([VNum n], [runit x], None : option cast, None : option eunit)) by reflexivity.
  unfold bind, lift. cbn [fst snd]. replace (o_impl (d_bit_not L)) with (op_bit_not L) by reflexivity.
  unfold op_bit_not at 1, bind, lift. cbn [any_number]. rewrite (whole_natural L n i s Hp Hn).
  replace (0 <=? i)%Z with true by (symmetry; apply Z.leb_le; lia). rewrite Hw. cbn [ret]. unfold ret at 1.
  rewrite (whole_int _ n i Hp Hn), num_of_Z_eq, (complement w i W0 Hi). unfold with_cast. cbn [nnum nden nwidth].
  unfold biggest_width. rewrite (width_known L n w Hw). cbn [obind]. change (mkNum (2 ^ w - 1 - i) 1 (ncast n) None) with (flipped n w i). rewrite Hv. cbn [obind].
  replace (Z.max (Z.max 0 w) v) with (Z.max w v) by lia. reflexivity.
Qed.

(** The width of a binary text *)
Lemma digits_lower b ds : (2 <= b)%Z -> Forall (fun d => 0 <= d < b)%Z ds -> (exists d r, ds = d :: r /\ d <> 0%Z) ->
  (b ^ (Z.of_nat (length ds) - 1) <= ival b ds)%Z.
Proof.
  intros Hb F (d & r & -> & Hd). inversion F as [|? ? Hd' Fr]; subst. cbn [ival length].
  assert (N : (0 <= ival b r)%Z).
  { clear - Hb Fr. induction Fr as [|e r He Fr IH]; cbn [ival]; [lia|]. assert (0 <= b ^ Z.of_nat (length r))%Z by (apply Z.pow_nonneg; lia). nia. }
  replace (Z.of_nat (S (length r)) - 1)%Z with (Z.of_nat (length r)) by lia.
  assert (0 < b ^ Z.of_nat (length r))%Z by (apply Z.pow_pos_nonneg; lia). nia.
Qed.
Lemma bin_width p prec dpow n i w : (1 <= p)%Z -> (0 <= prec)%Z -> pow_ok p dpow -> nnum n = i -> nden n = 1%Z -> nwidth n = None ->
  (1 <= w)%Z -> (0 <= i < 2 ^ w)%Z -> (i < 10 ^ (p - 1))%Z ->
  exists t, bin_to_string p prec dpow n = Ok t /\ (get_width t bin_pre <= w)%Z.
Proof.
  intros Hp Hpr PO Hn Hd Hnw Hw Hi Hs. unfold bin_to_string. rewrite Hnw.
  assert (V : (val n == inject_Z i)%Q) by (unfold val; rewrite Hn, Hd; field).
  destruct (Z.eq_dec i 0) as [->|Hnz].
  - rewrite (dec_to_base_zero p prec dpow (fun _ => Py) n 2 Hp V). cbn [obind]. eexists. split; [reflexivity|]. vm_compute (get_width _ _). lia.
  - assert (Gn : good n) by (unfold good; rewrite Hd; lia).
    assert (Ln : lowest n) by (intros d _ Dd; rewrite Hd in Dd; apply Z.divide_1_r in Dd; lia).
    destruct (dec_to_base_spec p prec dpow (fun _ => Py) 2 false i 0 n) as (ip & fp & E & FI & FF & NL & NT & LF & VI & VF); auto; try lia.
    { rewrite V. cbn [Z.of_nat]. change (2 ^ 0)%Z with 1%Z. field. }
    assert (fp = []) by (destruct fp; [reflexivity|cbn in LF; lia]). subst fp.
    rewrite E. cbn [obind]. eexists. split; [reflexivity|].
    assert (SP : spells 2 (map digit_char ip) ip) by (apply digit_char_spells; auto; lia).
    assert (NE : map digit_char ip <> []) by (rewrite map_dc_nil; apply no_leading_ne; auto).
    cbn [map]. rewrite (add_prefix_text false bin_pre (map digit_char ip) [] 2 ip SP NE).
    unfold get_width. rewrite (remove_prefix_text false bin_pre bin_pre (map digit_char ip) [] "b"%char "0"%char ["b"%char]); try reflexivity; [|right; left; reflexivity|].
    + rewrite (split_text false (lower (map digit_char ip)) (lower []) 2 ip); [|apply spells_lower; auto|destruct ip; [exfalso; now apply NE|discriminate]].
      unfold lower. rewrite !map_length. cbn [Z.of_nat] in VI. change (2 ^ 0)%Z with 1%Z in VI. rewrite Z.div_1_r in VI.
      destruct NL as [NL|NL]; [subst ip; cbn in VI; lia|].
      pose proof (digits_lower 2 ip ltac:(lia) FI NL) as B. rewrite VI in B.
      destruct (Z_le_gt_dec (Z.of_nat (length ip)) w) as [K|K]; [exact K|]. exfalso.
      assert (2 ^ w <= 2 ^ (Z.of_nat (length ip) - 1))%Z by (apply Z.pow_le_mono_r; lia). lia.
    + eapply (btext_notin 2 _ _ ip [] "b"%char 11); [reflexivity|lia|apply spells_lower; auto|constructor].
Qed.
(** Twice gives the number back, width and all *)
Lemma bit_not_twice L stl n w i u r s : (1 <= l_prec L)%Z -> (0 <= f_places (l_fmt L))%Z -> pow_ok (l_prec L) (f_pow (l_fmt L)) ->
  n = mkNum i 1 (Some CBin) (Some w) -> (1 <= w)%Z -> (0 <= i < 2 ^ w)%Z -> (2 ^ w < 10 ^ (l_prec L - 1))%Z ->
  exists x, callop (std L) stl ($"~") [mkRes (VNum n) u r] s = (OOk x, s) /\
    rval x = VNum (mkNum (2 ^ w - 1 - i) 1 (Some CBin) (Some w)) /\
    callop (std L) stl ($"~") [x] s = (OOk (mkRes (VNum n) None None), s).
Proof.
  intros Hp Hpl PO -> Hw Hi Hs. assert (P : (10 ^ (l_prec L - 1) <= 10 ^ l_prec L)%Z) by (apply Z.pow_le_mono_r; lia).
  assert (W : forall j, (0 <= j < 2 ^ w)%Z -> exists v, width_of L (mkNum j 1 (Some CBin) None) = Ok v /\ (v <= w)%Z).
  { intros j Hj. destruct (bin_width (l_prec L) (f_places (l_fmt L)) (f_pow (l_fmt L)) (mkNum j 1 (Some CBin) None) j w) as (t & E & B); auto; try lia.
    unfold width_of, num_to_string. cbn [nwidth ncast]. fold (l_prec L). rewrite E. cbn [obind]. eauto. }
  destruct (W (2 ^ w - 1 - i)%Z ltac:(lia)) as (v & V1 & V2). destruct (W i Hi) as (v' & V3 & V4).
  eexists. split; [|split].
  - rewrite (bit_not_call L stl (mkRes (VNum (mkNum i 1 (Some CBin) (Some w))) u r) (mkNum i 1 (Some CBin) (Some w)) w v i s Hp eq_refl); [|split; [reflexivity|split; [reflexivity|lia]]|reflexivity|lia|exact Hi|exact V1].
    rewrite (Z.max_l w v) by exact V2. reflexivity.
  - reflexivity.
  - cbn [ncast]. rewrite (bit_not_call L stl (mkRes (VNum (mkNum (2 ^ w - 1 - i) 1 (Some CBin) (Some w))) None None) (mkNum (2 ^ w - 1 - i) 1 (Some CBin) (Some w)) w v' (2 ^ w - 1 - i)%Z s Hp eq_refl); [|split; [reflexivity|split; [reflexivity|cbn [nnum]; lia]]|reflexivity|lia|lia|].
    + rewrite (Z.max_l w v') by exact V4. replace (2 ^ w - 1 - (2 ^ w - 1 - i))%Z with i by lia. reflexivity.
    + unfold flipped. replace (2 ^ w - 1 - (2 ^ w - 1 - i))%Z with i by lia. exact V3.
Qed.
