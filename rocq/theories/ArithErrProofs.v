(** Operators given errors, or variables without value. *)
From Coq Require Import ZArith QArith Qabs Qpower Ascii String List Bool Lia.
From Verif Require Import Base BaseProofs Dec DecProofs Num NumSpec NumProofs NumProofs2 NumProofs3 NumProofs4 Lex LexSpec Bases BasesProofs Formats Units UnitsProofs5 Install Syntax Pos Call CallSpec Loop LoopSpec LoopProofs Parse Exec ExecSpec Std StdSpec StdProofs2 StdProofs4 StdProofs5 TextProofs ArithSpec ArithProofs Prop_Arith ArithTextSpec ArithRunSpec ArithTextProofs ArithTextProofs2 ArithTextProofs3 ArithTextProofs4 ArithTextProofs5 ArithErrSpec.
Import ListNotations.
Open Scope nat_scope.

Definition gives (r : result) (v : verdict) : Prop :=
  match v with
  | Worth q => exists n, rval r = VNum n /\ runit r = None /\ good n /\ lowest n /\ (val n == q)%Q /\ ncast n = None
  | Unset => rval r = VNone /\ runit r = None
  | Wrong => exists m its nx tr, rval r = VExc (XExec m its nx tr)
  | Open => False
  end.
Lemma gives_holds r q : gives r (Worth q) -> holds_value r q.
Proof. intros (n & H1 & H2 & H3 & H4 & H5 & H6). exists n. repeat (split; [assumption|]). rewrite H6. discriminate. Qed.
Lemma gives_no_unit r v : gives r v -> is_unit_val r = false.
Proof. unfold is_unit_val. destruct v; cbn [gives]; [intros (n & -> & _)|intros [-> _]|intros (m & i & nx & tr & ->)|intros []]; reflexivity. Qed.
Lemma gives_no_list r v : gives r v -> is_list (rval r) = false.
Proof. destruct v; cbn [gives]; [intros (n & -> & _)|intros [-> _]|intros (m & i & nx & tr & ->)|intros []]; reflexivity. Qed.
(** Such numbers can be shown *)
Definition showable (L : lib) (k : Z) : Prop := (0 <= k /\ 1 <= f_places (l_fmt L) /\ k + f_places (l_fmt L) <= l_prec L)%Z.
Lemma small_shows L k n : showable L k -> good n -> size_le k n -> ncast n = None -> shows L (VNum n) = true.
Proof.
  intros (Hk & Hp & Hs) G [S1 S2] C. unfold shows, num_to_string. rewrite C. fold (l_prec L).
  destruct (to_string_total (l_prec L) (f_places (l_fmt L)) n (nnum n * 10 ^ f_places (l_fmt L))) as [t ->].
  - lia.
  - exact Hp.
  - rewrite Z.abs_mul. rewrite (Z.abs_eq (10 ^ _)) by (apply Z.pow_nonneg; lia). 
    apply Z.lt_le_trans with (10 ^ k * 10 ^ f_places (l_fmt L))%Z.
    + apply Z.mul_lt_mono_pos_r; [apply Z.pow_pos_nonneg; lia|exact S1].
    + rewrite <- Z.pow_add_r by lia. apply Z.pow_le_mono_r; lia.
  - unfold good in G. assert (P : (0 < 10 ^ f_places (l_fmt L))%Z) by (apply Z.pow_pos_nonneg; lia).
    rewrite Z.abs_mul, (Z.abs_eq (10 ^ _)) by lia. rewrite inject_Z_mult.
    assert (N : ~ (inject_Z (10 ^ f_places (l_fmt L)) == 0)%Q) by (intros K; change 0%Q with (inject_Z 0) in K; rewrite inject_Z_injective in K; lia).
    setoid_replace (inject_Z (Z.abs (nnum n)) * inject_Z (10 ^ f_places (l_fmt L)) / inject_Z (10 ^ f_places (l_fmt L)))%Q with (inject_Z (Z.abs (nnum n)))%Q by (field; exact N).
    unfold val. destruct (nden n) as [|d|d]; try lia. unfold Qdiv. rewrite Qabs_Qmult. 
    assert (E1 : (Qabs (inject_Z (nnum n)) == inject_Z (Z.abs (nnum n)))%Q) by reflexivity. 
    rewrite E1. unfold Qle, Qmult, Qinv, inject_Z, Qabs. cbn [Qnum Qden Z.abs]. rewrite ?Pos.mul_1_l, ?Z.mul_1_r. pose proof (Z.abs_nonneg (nnum n)). nia.
  - reflexivity.
Qed.
Lemma gives_shows L k r v : showable L k -> gives r v -> match v with Worth q => digits_le k q | _ => True end -> shows L (rval r) = true.
Proof.
  intros Hs H D. destruct v; cbn [gives] in H; [|destruct H as [-> _]; reflexivity|destruct H as (m & i & nx & tr & ->); reflexivity|destruct H].
  destruct H as (n & -> & _ & G & Lo & V & C). exact (small_shows L k n Hs G (lowest_size k n q G Lo V D) C).
Qed.

(** * One operator *)
Lemma takes2_must d : takes2 d -> must_be d 0 s_array None = false.
Proof. unfold must_be. intros ([-> | [-> | ->]] & _); reflexivity. Qed.
Lemma takes2_excs d : takes2 d -> o_excs d = false.
Proof. intros H. apply H. Qed.
Lemma takes2_error L h d stl x y s : takes2 d -> is_list (rval x) = false -> is_list (rval y) = false -> is_exc (rval x) || is_exc (rval y) = true ->
  call (std_env L) h d stl [x; y] s = (OOk (if is_exc (rval x) then x else y), s).
Proof.
  intros Hd Lx Ly He. rewrite call_scalars by (cbn [forallb]; rewrite ?Lx, ?Ly; try reflexivity; apply takes2_must, Hd). unfold call_plain. rewrite (takes2_excs d Hd). unfold find_exc. cbn [find].
  destruct (is_exc (rval x)) eqn:Ex; [reflexivity|]. cbn [orb] in He. rewrite He. reflexivity.
Qed.
Lemma none_type L ts u r : ts = [tynum] \/ ts = [tynum; ty ($"unit")] -> validate_types (std_env L) ts VNone u r <> Ok tt.
Proof. intros [-> | ->]; cbn; discriminate. Qed.
Lemma takes2_validate L d x y : takes2 d -> rval x = VNone \/ rval y = VNone ->
  validate (std_env L) d [rval x; rval y] [runit x; runit y] [rref x; rref y] <> Ok tt.
Proof.
  intros (Ev & Emin & Emax & Eu & Ea & _) Hn. unfold validate. rewrite Emin, Emax, Eu.
  assert (G : forall ts1 ts2, ts1 = [tynum] \/ ts1 = [tynum; ty ($"unit")] -> ts2 = [tynum] \/ ts2 = [tynum; ty ($"unit")] ->
    validate_types (std_env L) ts1 (rval x) (runit x) (rref x) = Ok tt -> validate_types (std_env L) ts2 (rval y) (runit y) (rref y) = Ok tt -> False).
  { intros ts1 ts2 T1 T2 V1 V2. destruct Hn as [E|E]; rewrite E in *; [exact (none_type L ts1 _ _ T1 V1)|exact (none_type L ts2 _ _ T2 V2)]. }
  destruct Ev as [-> | [-> | ->]];
  cbn [all_are num_or_unit base_exponent each_is length Nat.ltb Nat.leb obind out_each indices rs_from rs_to rs_types Nat.min Nat.add Nat.sub seq nth_error];
  match goal with |- context [validate_types ?E ?ts1 (rval x) _ _] => match goal with |- context [validate_types ?E ?ts2 (rval y) _ _] =>
    specialize (G ts1 ts2); destruct (validate_types E ts1 (rval x) _ _) as [[]| |]; try discriminate; destruct (validate_types E ts2 (rval y) _ _) as [[]| |]; try discriminate end end;
  exfalso; apply G; auto.
Qed.
Lemma takes2_refused L h d stl x y s : takes2 d -> is_list (rval x) = false -> is_list (rval y) = false -> is_exc (rval x) || is_exc (rval y) = false ->
  rval x = VNone \/ rval y = VNone -> shows L (rval x) = true -> shows L (rval y) = true ->
  exists e, call (std_env L) h d stl [x; y] s = (OErr e, s).
Proof.
  intros Hd Lx Ly He Hn Sx Sy. apply orb_false_iff in He as [Ex Ey]. rewrite call_scalars by (cbn [forallb]; rewrite ?Lx, ?Ly; try reflexivity; apply takes2_must, Hd). unfold call_plain. rewrite (takes2_excs d Hd). unfold find_exc. cbn [find map]. rewrite Ex, Ey.
  unfold prepare. pose proof (takes2_validate L d x y Hd Hn) as V. cbn [forallb e_tostr std_env]. rewrite Sx, Sy. cbn [andb].
  destruct (validate (std_env L) d _ _ _) as [[]| |]; [congruence| |]; unfold bind, lift; cbn [obind wrapped]; eauto.
Qed.
Lemma run_sym_takes L o : exists d, find_op (g_ops (std L)) (run_sym o) = Some (mkOper [None] [None] false d) /\ takes2 d.
Proof.
  destruct o; cbn [run_sym osym]; eexists; (split; [apply find_plus || apply find_minus || apply find_star || apply find_slash || apply find_caret || apply find_imp|]); repeat split; auto.
Qed.
Lemma op_gives L stl o x y vx vy k s : pow_ok (l_prec L) (f_pow (l_fmt L)) -> showable L k -> (3 * k + 1 <= l_prec L)%Z -> gives x vx -> gives y vy ->
  match vx with Worth q => digits_le k q | _ => True end -> match vy with Worth q => digits_le k q | _ => True end ->
  match decide o vx vy with Worth q => digits_le k q | _ => True end -> decide o vx vy <> Open ->
  (exists r, callop (std L) stl (run_sym o) [x; y] s = (OOk r, s) /\ gives r (decide o vx vy)) \/
  (decide o vx vy = Wrong /\ exists e, callop (std L) stl (run_sym o) [x; y] s = (OErr e, s)).
Proof.
  intros Hpow Hs Hp Gx Gy Dx Dy Dv Hv. destruct (run_sym_takes L o) as (d & F & T). pose proof (gives_no_list _ _ Gx) as Lx. pose proof (gives_no_list _ _ Gy) as Ly.
  pose proof (gives_shows L k x vx Hs Gx Dx) as Sx. pose proof (gives_shows L k y vy Hs Gy Dy) as Sy.
  assert (R : is_exc (rval x) || is_exc (rval y) = false -> rval x = VNone \/ rval y = VNone -> exists e, callop (std L) stl (run_sym o) [x; y] s = (OErr e, s)).
  { intros He Hn. rewrite callop_eq, F. cbn [op_def]. now apply takes2_refused. }
  assert (X : is_exc (rval x) || is_exc (rval y) = true -> callop (std L) stl (run_sym o) [x; y] s = (OOk (if is_exc (rval x) then x else y), s)).
  { intros He. rewrite callop_eq, F. cbn [op_def]. now apply takes2_error. }
  destruct vx as [qx| | |], vy as [qy| | |]; cbn [decide] in *; try congruence; try (destruct Gx; fail); try (destruct Gy; fail).
  - destruct (match o with Over => Qeq_bool qy 0 | _ => false end) eqn:Z0.
    + right. split; [reflexivity|]. destruct o; try discriminate Z0. cbn [run_sym osym]. destruct Gx as (a & Ra & Ua & Ga & La & Va & Ca). destruct Gy as (b & Rb & Ub & Gb & Lb & Vb & Cb).
      apply (c55_by_zero L stl ($"/") x y a b s); try assumption; try (unfold number_at; rewrite ?Ra, ?Rb; reflexivity).
      * left. reflexivity.
      * apply Qeq_bool_eq in Z0. destruct (lowest_parts b qy Gb Lb Vb) as [E1 _]. rewrite <- E1. rewrite (Qred_complete _ _ Z0). reflexivity.
      * rewrite <- Ra. exact Sx.
      * rewrite <- Rb. exact Sy.
    + destruct (apply_op o qx qy) as [q|] eqn:A; [|congruence]. left. pose proof Gx as (a & Ra & _ & _ & _ & _ & Ca). pose proof Gy as (b & Rb & _ & _ & _ & _ & Cb).
      destruct (op_value_cast L stl o x y qx qy q k s Hpow (proj1 Hs) Hp (gives_holds _ _ Gx) (gives_holds _ _ Gy) Dx Dy Dv A) as (n & C & G & Lo & V & Nc).
      exists (mkRes (VNum n) None None). split; [exact C|]. exists n. repeat split; try assumption. rewrite (Nc a b Ra Rb). unfold format_of. rewrite Ca. exact Cb.
  - right. split; [reflexivity|]. destruct Gx as (a & Ra & _). destruct Gy as [Rb _]. apply R; [rewrite Ra, Rb; reflexivity|auto].
  - left. destruct Gx as (a & Ra & _). destruct Gy as (m & i & nx & tr & Rb). eexists. split; [apply X; rewrite Ra, Rb; reflexivity|]. rewrite Ra. cbn [is_exc]. exists m, i, nx, tr. exact Rb.
  - right. split; [reflexivity|]. destruct Gy as (a & Ra & _). destruct Gx as [Rb _]. apply R; [rewrite Ra, Rb; reflexivity|auto].
  - right. split; [reflexivity|]. destruct Gy as [Ra _]. destruct Gx as [Rb _]. apply R; [rewrite Ra, Rb; reflexivity|auto].
  - left. destruct Gx as [Ra _]. destruct Gy as (m & i & nx & tr & Rb). eexists. split; [apply X; rewrite Ra, Rb; reflexivity|]. rewrite Ra. cbn [is_exc]. exists m, i, nx, tr. exact Rb.
  - left. destruct Gx as (m & i & nx & tr & Ra). eexists. split; [apply X; rewrite Ra; reflexivity|]. rewrite Ra. cbn [is_exc]. exists m, i, nx, tr. exact Ra.
  - left. destruct Gx as (m & i & nx & tr & Ra). eexists. split; [apply X; rewrite Ra; reflexivity|]. rewrite Ra. cbn [is_exc]. exists m, i, nx, tr. exact Ra.
  - left. destruct Gx as (m & i & nx & tr & Ra). eexists. split; [apply X; rewrite Ra; reflexivity|]. rewrite Ra. cbn [is_exc]. exists m, i, nx, tr. exact Ra.
Qed.
