(** C70: changing the format of a number keeps the number, and texts in every format read back as it. *)
From Coq Require Import ZArith QArith Qround Qabs Ascii String List Bool Lia Lqa.
From Verif Require Import Base BaseProofs Dec DecProofs Num NumSpec NumProofs NumProofs3 Lex LexSpec LexProofs Bases BasesProofs BasesProofs4 Formats Units UnitReg Syntax Pos Call Loop Parse Exec Std StdSpec StdProofs7 StdProofs9 TextProofs UnitCalc UnitCalcProofs DateSpec FormatSpec SciProofs FormatProofs FormatProofs2 Prop_Bases StdRun.
Import ListNotations.
Open Scope Z_scope.

(** * Changing the format *)
(** [r] is the number [a] in the format [c]. *)
Definition same_in (a : number) (c : option cast) (r : number) : Prop := nnum r = nnum a /\ nden r = nden a /\ ncast r = c.
(** dec, bin, oct and hex give the very same number, with its unit, in their format. *)
Theorem c70_convert : forall U stl f c x a s, In (f, c) conversions -> number_at (u_lib U) x a ->
  exists r, run_named (with_units U) stl f [x] s = (OOk (mkRes (VNum r) (runit x) None), s) /\ same_in a c r.
Proof. intros U stl f c x a s H Hx. eexists. split; [exact (convert_call U stl f c x a s H Hx)|]. repeat split. Qed.
(** So does "as" with the name of a format, and scientific. *)
Theorem c70_as : forall U stl t c x y a s, In (t, c) formats -> number_at (u_lib U) x a -> rval y = VStr t ->
  exists r, run_named (with_units U) stl ($"as") [x; y] s = (OOk (mkRes (VNum r) (runit x) None), s) /\ same_in a c r.
Proof.
  intros U stl t c x y a s H Hx Hy. exists (mkNum (nnum a) (nden a) c None). split; [|repeat split].
  rewrite (as_call U stl x y a t s Hx Hy). unfold formats in H. cbn [In] in H.
  repeat (destruct H as [H|H]; [injection H as <- <-; reflexivity|]). destruct H.
Qed.
Theorem c70_scientific : forall U stl x a s, number_at (u_lib U) x a ->
  exists r, run_named (with_units U) stl ($"scientific") [x] s = (OOk (mkRes (VNum r) (runit x) None), s) /\ same_in a (Some CExp) r.
Proof. intros U stl x a s Hx. eexists. split; [exact (scientific_call U stl x a s Hx)|]. repeat split. Qed.
(** Nothing is left of the format before: a number changed twice is in the last format, and no different. *)
Theorem c70_last : forall U stl f c g d x a y s, In (f, c) conversions -> In (g, d) conversions -> number_at (u_lib U) x a ->
  run_named (with_units U) stl f [x] s = (OOk y, s) -> run_named (with_units U) stl g [y] s = run_named (with_units U) stl g [x] s.
Proof.
  intros U stl f c g d x a y s Hf Hg Hx H. rewrite (convert_call U stl f c x a s Hf Hx) in H.
  assert (Y : y = mkRes (VNum (mkNum (nnum a) (nden a) c None)) (runit x) None) by congruence. subst y.
  rewrite (convert_call U stl g d x a s Hg Hx). rewrite (convert_call U stl g d _ (mkNum (nnum a) (nden a) c None) s Hg); [reflexivity|]. reflexivity.
Qed.
(** Any other text is refused. *)
Theorem c70_as_refused : forall U stl x y a t s, number_at (u_lib U) x a -> shows (u_lib U) (rval x) = true -> rval y = VStr t ->
  (forall c, ~ In (t, c) formats) -> exists e, run_named (with_units U) stl ($"as") [x; y] s = (OErr e, s).
Proof.
  intros U stl x y a t s Hx Sx Hy H. rewrite (as_call U stl x y a t s Hx Hy), Sx. destruct (mem_str t number_types) eqn:M; [|eauto].
  destruct (assoc t representations) as [[c|]|] eqn:A; eauto. exfalso. apply (H c).
  unfold representations in A. cbn [assoc] in A.
  repeat match type of A with (if ?b then _ else _) = _ => destruct b eqn:?E; [first [discriminate A|injection A as <-; apply seq_eqb_iff in E; rewrite <- E; cbn [In formats]; tauto]|clear E] end. discriminate A.
Qed.
(** The calculator has an arbitrary base and the booleans among the formats it names, but converting to them is an error of
    the program and not one of the user: python's, not the calculator's. *)
Theorem c70_arbitrary_base_refuted : forall U stl x y a t s, t = $"arbitrarybase" \/ t = $"boolean" ->
  number_at (u_lib U) x a -> shows (u_lib U) (rval x) = true -> rval y = VStr t ->
  In t number_types /\ run_named (with_units U) stl ($"as") [x; y] s = (OErr (XCalc false (MOp ($"operator as"))), s).
Proof.
  intros U stl x y a t s T Hx Sx Hy. split; [unfold number_types; cbn [In]; destruct T as [->| ->]; tauto|].
  rewrite (as_call U stl x y a _ s Hx Hy), Sx. destruct T as [->| ->]; reflexivity.
Qed.

(** * Texts *)
(** A number in digits of another base: its text is read as a number, the very same one, in the same format. *)
Theorem c70_base_reads_back : forall F v c b m f, let p := f_prec F in 1 <= p -> pow_ok p (f_pow F) -> symbol_apart (f_sym F) ->
  ncast v = Some c -> base_of c = Some b -> good v -> lowest v -> Z.of_nat f <= f_places F ->
  (val v == inject_Z m / inject_Z (b ^ Z.of_nat f))%Q -> Z.abs m * b ^ Z.of_nat f < 10 ^ (p - 1) ->
  (match nwidth v with Some w => 2 ^ (w - 1) < 10 ^ p | None => True end) ->
  exists T r, num_to_string F v = Ok T /\ text_number F T = Ok r /\ same_in v (Some c) r.
Proof.
  intros F v c b m f p Hp PO SO Hc Hb G L Hf V S W. unfold num_to_string. fold p. rewrite Hc.
  destruct c as [| | | | | |k]; cbn in Hb; try discriminate Hb.
  - injection Hb as <-. destruct (c09_bin_round_trip p (f_places F) (f_pow F) v m f [] Hp PO G L Hf V S W I) as (T & r & w & E1 & E2 & E3 & E4 & E5 & E6 & _).
    rewrite app_nil_r in E2. exists T, r. split; [exact E1|]. split; [rewrite text_number_bin; auto|]. repeat split; auto.
  - injection Hb as <-. destruct (c09_oct_round_trip p (f_places F) (f_pow F) v m f [] Hp PO G L Hf V S I) as (T & r & E1 & E2 & E3 & E4 & E5 & E6).
    rewrite app_nil_r in E2. exists T, r. split; [exact E1|]. split; [rewrite text_number_oct; auto|]. repeat split; auto.
  - injection Hb as <-. destruct (c09_hex_round_trip p (f_places F) (f_pow F) v m f [] Hp PO G L Hf V S I) as (T & r & E1 & E2 & E3 & E4 & E5 & E6).
    rewrite app_nil_r in E2. exists T, r. split; [exact E1|]. split; [rewrite text_number_hex; auto|]. repeat split; auto.
  - destruct ((2 <=? k) && (k <=? 35) && negb (k =? 10)) eqn:K; [|discriminate Hb]. injection Hb as <-.
    apply andb_true_iff in K as [K K3]. apply andb_true_iff in K as [K1 K2]. apply Z.leb_le in K1, K2. apply negb_true_iff, Z.eqb_neq in K3.
    destruct (c09_arb_round_trip p (f_places F) (f_pow F) (fun _ => Py) k v m f [] Hp PO ltac:(lia) K3 G L Hf V S I) as (T & r & E1 & E2 & E3 & E4 & E5 & E6).
    rewrite app_nil_r in E2. exists T, r. split; [exact E1|]. split; [rewrite text_number_arb by auto; unfold p in E3; rewrite E3; reflexivity|]. repeat split; auto.
Qed.
(** A decimal number *)
Theorem c70_decimal_reads_back : forall F v m, let p := f_prec F in let k := f_places F in 1 <= k -> k <= p ->
  ncast v = None \/ ncast v = Some CDec -> good v -> lowest v ->
  (val v == inject_Z m / inject_Z (10 ^ k))%Q -> Z.abs m < 10 ^ p ->
  exists T r, num_to_string F v = Ok T /\ text_number F T = Ok r /\ same_in v (Some CDec) r.
Proof.
  intros F v m p k Hk Hp Hc G L V S. destruct (to_string_exact p k v m ltac:(lia) Hk Hp V S) as (l & S1 & S2 & S3 & S4 & (r & R1 & R2 & R3 & R4)).
  exists (lit_text l), (with_cast r (Some CDec)). unfold num_to_string. fold p. fold k. split; [destruct Hc as [-> | ->]; rewrite S1; reflexivity|].
  split; [unfold text_number; fold p; rewrite S4; cbn [is_nil orb]; rewrite R1; reflexivity|].
  destruct (lowest_unique r v) as [U1 U2]; auto. repeat split; assumption.
Qed.
(** A percentage *)
Theorem c70_percentage_reads_back : forall F v m, let p := f_prec F in let k := f_places F in 1 <= k -> k + 2 < p -> symbol_apart (f_sym F) ->
  ncast v = Some CPct -> good v -> lowest v -> (val v == inject_Z m / inject_Z (10 ^ (k + 2)))%Q -> Z.abs m * 100 < 10 ^ p ->
  exists T r, num_to_string F v = Ok T /\ text_number F T = Ok r /\ same_in v (Some CPct) r.
Proof.
  intros F v m p k Hk Hp SO Hc G L V S. unfold num_to_string. rewrite Hc.
  destruct (pct_round_trip F v m Hk Hp G L) as (T & r & E1 & E2 & E3); auto.
  { unfold symbol_apart in SO. destruct (f_sym F); tauto. }
  exists T, r. repeat split; tauto.
Qed.

(** * Scientific notation *)
(** Written with [n + 1] digits and read again, a number is rounded to that many digits.  The number is that of the
    calculator's precision; its size is such that all of its digits are within that precision. *)
Theorem c70_scientific_text : forall F n v, let p := f_prec F in let d := rnd p (val v) in 0 <= n -> n + 1 <= p -> pow_ok p (f_pow F) -> symbol_ok (f_sym F) ->
  (Qpower 10 (n + 1 - p) <= Qabs d /\ Qabs d < Qpower 10 (p - n - 1))%Q ->
  exists r, text_number F (dec_to_exp F n v) = Ok r /\ significant (n + 1) d (val r) /\ lowest r /\ ncast r = Some CExp.
Proof.
  intros F n v p d Hn Hp PO SO B. destruct (sci_reads F n v Hn Hp PO SO B) as (r & R1 & _ & R2 & R3 & R4 & R5).
  exists r. split; [exact R1|]. split; [|auto]. apply rnd_significant; [lia| |exact R2].
  intro E. destruct B as [B _]. fold p in B. fold d in B. rewrite E in B. pose proof (p10_pos (n + 1 - p)) as P. unfold p10 in P. change (Qabs 0) with 0%Q in B. lra.
Qed.
(** A number of no more digits than are printed is read back as the very same number. *)
Theorem c70_scientific_reads_back : forall F v, let p := f_prec F in let n := f_places F in 0 <= n -> n + 1 <= p -> pow_ok p (f_pow F) -> symbol_ok (f_sym F) ->
  ncast v = Some CExp -> good v -> lowest v -> digits_at_most (n + 1) (val v) ->
  (Qpower 10 (n + 1 - p) <= Qabs (val v) /\ Qabs (val v) < Qpower 10 (p - n - 1))%Q ->
  exists T r, num_to_string F v = Ok T /\ text_number F T = Ok r /\ same_in v (Some CExp) r.
Proof.
  intros F v p n Hn Hp PO SO Hc G L D B. unfold num_to_string. rewrite Hc.
  assert (D1 : fits (n + 1) (val v)) by exact D.
  assert (D2 : fits p (val v)). { destruct D1 as (m & e & M & E). exists m, e. split; [|exact E]. eapply Z.lt_le_trans; [exact M|]. apply Z.pow_le_mono_r; lia. }
  assert (X : (rnd p (val v) == val v)%Q) by (apply rnd_fits; [lia|exact D2]).
  destruct (sci_reads F n v Hn Hp PO SO) as (r & R1 & _ & R2 & R3 & R4 & R5). { fold p. rewrite X. exact B. }
  exists (dec_to_exp F n v), r. split; [reflexivity|]. split; [exact R1|].
  destruct (lowest_unique r v) as [U1 U2]; auto; [|repeat split; assumption].
  rewrite R2. fold p. assert (Y : fits (n + 1) (rnd p (val v))). { destruct D1 as (m & e & M & E). exists m, e. split; [exact M|]. rewrite X. exact E. }
  rewrite (rnd_fits (n + 1) _ ltac:(lia) Y). exact X.
Qed.
(** scientific with a number of places rounds to that many digits after the first, and keeps the unit. *)
Theorem c70_scientific_places : forall U stl x y a b n s, let F := l_fmt (u_lib U) in let p := f_prec F in let d := rnd p (val a) in
  number_at (u_lib U) x a -> number_at (u_lib U) y b -> nnum b = n -> nden b = 1 -> (ncast b = None \/ ncast b = Some CDec) ->
  0 <= n -> n + 1 <= p -> pow_ok p (f_pow F) -> symbol_ok (f_sym F) -> (Qpower 10 (n + 1 - p) <= Qabs d /\ Qabs d < Qpower 10 (p - n - 1))%Q ->
  exists r, run_named (with_units U) stl ($"scientific") [x; y] s = (OOk (mkRes (VNum r) (runit x) None), s) /\ significant (n + 1) d (val r) /\ ncast r = Some CExp.
Proof.
  intros U stl x y a b n s F p d Hx Hy Hn Hd Hc H0 Hp PO SO B.
  rewrite (scientific_places U stl x y a b s Hx Hy). unfold scientific. fold F. rewrite Hd, Hn. assert (0 <=? n = true) as -> by (apply Z.leb_le; exact H0).
  assert ((1 =? 1) && true && match ncast b with None | Some CDec => true | _ => false end = true) as -> by (destruct Hc as [-> | ->]; reflexivity).
  destruct (sci_reads F n a H0 Hp PO SO B) as (r & R1 & R1' & R2 & R3 & R4 & R5). rewrite R1'. cbn [obind].
  exists r. split; [reflexivity|]. split; [|exact R5]. apply rnd_significant; [lia| |exact R2].
  intro E. destruct B as [B _]. rewrite E in B. pose proof (p10_pos (n + 1 - p)) as P. unfold p10 in P. change (Qabs 0) with 0%Q in B. lra.
Qed.
(** Places that are not a whole number, or are negative, are refused. *)
Theorem c70_scientific_places_refused : forall U stl x y a b s, number_at (u_lib U) x a -> number_at (u_lib U) y b ->
  shows (u_lib U) (rval x) = true -> shows (u_lib U) (rval y) = true -> nden b <> 1 \/ nnum b < 0 ->
  run_named (with_units U) stl ($"scientific") [x; y] s = (OErr (XCalc false (MOp ($"scientific"))), s).
Proof.
  intros U stl x y a b s Hx Hy Sx Sy H. rewrite (scientific_places U stl x y a b s Hx Hy). unfold scientific.
  assert ((nden b =? 1) && (0 <=? nnum b) = false) as ->. { destruct H as [H|H]; [apply Z.eqb_neq in H; now rewrite H|apply Z.leb_gt in H; rewrite H; apply andb_false_r]. }
  cbn [andb]. rewrite Sx, Sy. reflexivity.
Qed.

(** The default settings meet what is asked of them, and so do these numbers. *)
Definition a_number (n d : Z) (c : option cast) : result := mkRes (VNum (mkNum n d c None)) None None.
Example c70_settings_ex : let F := l_fmt demo in symbol_apart (f_sym F) /\ symbol_ok (f_sym F) /\ 30 + 1 <= f_prec F /\ f_places F + 2 < f_prec F.
Proof. cbn. repeat split; try lia; try discriminate. intros H. repeat (destruct H as [H|H]; [discriminate H|]). destruct H. Qed.
Example c70_read_ex : let F := l_fmt demo in
  num_to_string F (mkNum 511 2 (Some CHex) None) = Ok $"0xFF.8" /\ text_number F $"0xFF.8" = Ok (mkNum 511 2 (Some CHex) None) /\
  num_to_string F (mkNum (-7) 9 (Some (CArb 3)) None) = Ok $"-3z0.21" /\ text_number F $"-3z0.21" = Ok (mkNum (-7) 9 (Some (CArb 3)) None) /\
  num_to_string F (mkNum 1 8 (Some CPct) None) = Ok $"12.5%" /\ text_number F $"12.5%" = Ok (mkNum 1 8 (Some CPct) None) /\
  num_to_string F (mkNum 1 800 (Some CExp) None) = Ok $"1.25E-3" /\ text_number F $"1.25E-3" = Ok (mkNum 1 800 (Some CExp) None) /\
  digits_at_most 31 (1 # 800).
Proof. cbv zeta. do 8 (split; [vm_compute; reflexivity|]). exists 125, (-5). split; reflexivity. Qed.
Example c70_significant_ex : significant 2 (125 # 1) (130 # 1) /\ ~ significant 2 (125 # 1) (120 # 1).
Proof.
  split.
  - exists 2, 13. split; [split; [discriminate|reflexivity]|]. cbv zeta. split; [reflexivity|]. split; [discriminate|intros _; discriminate].
  - intros (e & m & (A & B) & C & D & E). assert (e = 2).
    { change (p10 e <= Qabs (125 # 1))%Q in A. change (Qabs (125 # 1) < p10 (e + 1))%Q in B.
      assert (p10 2 < p10 (e + 1))%Q by (eapply Qle_lt_trans; [|exact B]; discriminate). assert (p10 e < p10 3)%Q by (eapply Qle_lt_trans; [exact A|]; reflexivity).
      apply p10_lt_inv in H, H0. lia. }
    subst e. cbn [Z.sub] in E. apply (E eq_refl). reflexivity.
Qed.
Example c70_ex :
  answer "hex(255)" = "0xFF"%string /\ answer "bin(hex(10)) + 1" = "0b1011"%string /\ answer "10 as hexadecimal" = "0xA"%string /\
  answer "'0.5' as 'percentage'" = "50%"%string /\ answer "scientific(123456, 2)" = "1.23E5"%string /\ answer "scientific(125, 1)" = "1.3E2"%string /\
  answer "scientific(0-0.000998, 1)" = "-1E-3"%string /\ answer "10 as 'roman'" = "execute error"%string /\
  answer "10 as boolean" = "execute error"%string.
Proof. repeat split; vm_compute; reflexivity. Qed.

Print Assumptions c70_base_reads_back.
Print Assumptions c70_scientific_places.
Print Assumptions c70_as_refused.
