(** Running sums of quantities. *)
From Coq Require Import ZArith QArith Qpower Ascii String List Bool Lia Permutation.
From Verif Require Import Base BaseProofs Dec Num NumSpec NumProofs NumProofs2 NumProofs3 NumProofs4 Lex LexSpec Bases BasesProofs Formats Units UnitsSpec UnitsProofs UnitsProofs2 UnitsProofs3 UnitsProofs4 UnitsProofs5 UnitReg Syntax Pos Call CallSpec Loop Parse Exec Std StdSpec StdProofs9 ArithSpec ArithProofs UnitCalc UnitCalcSpec UnitCalcProofs UnitCalcProofs3 ArithTextSpec ArithTextProofs4 Prop_Convert UnitTextSpec UnitTextProofs.
Import ListNotations.
Open Scope nat_scope.

(** * The slots *)
(** A number, its place, a unit, its place, and the number they give together *)
Record pair := mkPair { p_num : number; p_at : nat; p_unit : unit; p_uat : nat; p_res : number }.
Definition one_of (u : unit) : eunit := mkEU (ulist u) false.
Definition num_slot (t : pair) : slot := SRes (mkRes (VNum (p_num t)) None (Some ROther)) (p_at t).
Definition unit_slot (t : pair) : slot := SRes (mkRes (VUnit (one_of (p_unit t))) None (Some ROther)) (p_uat t).
Definition both_slot (t : pair) : slot := SRes (mkRes (VNum (p_res t)) (Some (one_of (p_unit t))) None) (p_uat t).
Definition sign_sym (m : bool) : str := [sign_char m].
Fixpoint apart_slots (ts : list (bool * nat * pair)) : list slot :=
  match ts with [] => [] | (m, j, t) :: r => SOp (sign_sym m) j :: num_slot t :: unit_slot t :: apart_slots r end.
Fixpoint joined_slots (ts : list (bool * nat * pair)) : list slot :=
  match ts with [] => [] | (m, j, t) :: r => SOp (sign_sym m) j :: both_slot t :: joined_slots r end.
(** Nothing, or the conversion *)
Definition end_slots (e : option (nat * unit * nat)) : list slot :=
  match e with None => [] | Some (j, v, k) => [SOp ($"to") j; SRes (mkRes (VUnit (one_of v)) None (Some ROther)) k] end.
Lemma sign_three m : In (sign_sym m) three. Proof. destruct m; unfold three; cbn; auto. Qed.

Fixpoint last_of (p : option slot) (a : list slot) : option slot := match a with [] => p | x :: r => last_of (Some x) r end.
Lemma last_snoc p a x : last_of p (a ++ [x]) = Some x.
Proof. revert p. induction a as [|y a IH]; intros p; [reflexivity|]. apply IH. Qed.
Lemma calm_app p a b : calm p (a ++ b) <-> calm p a /\ calm (last_of p a) b.
Proof. revert p. induction a as [|x a IH]; intros p; cbn [app calm last_of]; [tauto|]. rewrite IH. tauto. Qed.
Definition after_op (p : option slot) : Prop := match p with Some q => slot_op q = true | None => True end.
Lemma calm_end p e : calm p (end_slots e).
Proof. destruct e as [[[j v] k]|]; [|exact I]. cbn [end_slots calm calm_at slot_unit]. split; [unfold three; cbn; auto|]. split; [reflexivity|exact I]. Qed.
Lemma calm_apart p ts e : calm p (apart_slots ts ++ end_slots e).
Proof.
  revert p. induction ts as [|[[m j] t] ts IH]; intros p; [apply calm_end|]. cbn [apart_slots app calm]. split; [apply sign_three|].
  split; [reflexivity|]. split; [reflexivity|]. apply IH.
Qed.
Lemma calm_joined p ts e : calm p (joined_slots ts ++ end_slots e).
Proof.
  revert p. induction ts as [|[[m j] t] ts IH]; intros p; [apply calm_end|]. cbn [joined_slots app calm]. split; [apply sign_three|].
  split; [reflexivity|]. apply IH.
Qed.
Lemma pairs_joined p ts e : no_pairs p (joined_slots ts ++ end_slots e).
Proof.
  revert p. induction ts as [|[[m j] t] ts IH]; intros p; cbn [joined_slots app].
  - destruct e as [[[j v] k]|]; [|exact I]. cbn [end_slots no_pairs]. split; [discriminate|]. split; [intros _; reflexivity|exact I].
  - cbn [no_pairs]. split; [discriminate|]. split; [discriminate|]. apply IH.
Qed.

(** * Numbers beside units *)
Definition joins (U : ucfg) (stl : bool) (t : pair) : Prop := forall s,
  callop (with_units U) stl ($"UNIT_ASSIGNMENT") [mkRes (VNum (p_num t)) None (Some ROther); mkRes (VUnit (one_of (p_unit t))) None (Some ROther)] s =
  (OOk (mkRes (VNum (p_res t)) (Some (one_of (p_unit t))) None), s).
Lemma joining U stl orig e : forall ts a t fuel s, joins U stl t -> Forall (fun x => joins U stl (snd x)) ts -> Forall (fun x => slot_unit x = false) a -> calm None a -> after_op (last_of None a) ->
  op_loop (S (length ts) + fuel) (unit_table U) orig (callop (with_units U) stl) (a ++ num_slot t :: unit_slot t :: apart_slots ts ++ end_slots e) s =
  op_loop fuel (unit_table U) orig (callop (with_units U) stl) (a ++ both_slot t :: joined_slots ts ++ end_slots e) s.
Proof.
  induction ts as [|[[m j] t'] ts IH]; intros a t fuel s Ht Hts Ha Ca La.
  - assert (C : calm None (a ++ num_slot t :: unit_slot t :: apart_slots [] ++ end_slots e)).
    { apply calm_app. split; [exact Ca|]. cbn [calm]. split; [unfold num_slot, calm_at; cbn [slot_unit rval mkRes]; destruct (last_of None a); [exact La|exact I]|]. split; [reflexivity|apply calm_apart]. }
    cbn [length Nat.add]. eapply loop_next; [apply first_pair; [exact C|exact Ha|split; reflexivity|reflexivity]|].
    change (a ++ num_slot t :: unit_slot t :: apart_slots [] ++ end_slots e) with (a ++ num_slot t :: [] ++ unit_slot t :: apart_slots [] ++ end_slots e).
    eapply (run_infix _ _ _ a (num_slot t) (unit_slot t) _ (_, _) [] 0 _ _ s s _ (unit_slot t)); [apply ufind_assign|left; auto|reflexivity|reflexivity|apply Ht].
  - apply Forall_cons_iff in Hts. destruct Hts as [Ht' Hts].
    assert (C : calm None (a ++ num_slot t :: unit_slot t :: apart_slots ((m, j, t') :: ts) ++ end_slots e)).
    { apply calm_app. split; [exact Ca|]. cbn [calm]. split; [unfold num_slot, calm_at; cbn [slot_unit rval mkRes]; destruct (last_of None a); [exact La|exact I]|]. split; [reflexivity|apply calm_apart]. }
    transitivity (op_loop (S (length ts) + fuel) (unit_table U) orig (callop (with_units U) stl) (a ++ both_slot t :: apart_slots ((m, j, t') :: ts) ++ end_slots e) s).
    + cbn [length Nat.add]. eapply loop_next; [apply first_pair; [exact C|exact Ha|split; reflexivity|reflexivity]|].
      change (a ++ num_slot t :: unit_slot t :: apart_slots ((m, j, t') :: ts) ++ end_slots e) with (a ++ num_slot t :: [] ++ unit_slot t :: apart_slots ((m, j, t') :: ts) ++ end_slots e).
      eapply (run_infix _ _ _ a (num_slot t) (unit_slot t) _ (_, _) [] 0 _ _ s s _ (unit_slot t)); [apply ufind_assign|left; auto|reflexivity|reflexivity|apply Ht].
    + cbn [apart_slots joined_slots app]. specialize (IH (a ++ [both_slot t; SOp (sign_sym m) j]) t' fuel s Ht' Hts). rewrite <- !app_assoc in IH. cbn [app] in IH. apply IH.
      * apply Forall_app. split; [exact Ha|]. repeat constructor.
      * apply calm_app. split; [exact Ca|]. cbn [calm]. split; [unfold both_slot, calm_at; cbn [slot_unit rval mkRes]; destruct (last_of None a); [exact La|exact I]|]. split; [apply sign_three|exact I].
      * replace (a ++ [both_slot t; SOp (sign_sym m) j]) with ((a ++ [both_slot t]) ++ [SOp (sign_sym m) j]) by (rewrite <- app_assoc; reflexivity). rewrite last_snoc. reflexivity.
Qed.

(** * Sums *)
Lemma digits_same k q : has_digits k q <-> digits_le k q. Proof. reflexivity. Qed.
Lemma one_size u : (size_of (Some (one_of u)) == uscale u)%Q.
Proof. unfold size_of, one_of, ulist, eu_list, factor. cbn. ring. Qed.
Lemma sum_step U us stl m x y a b u v k s : world (u_rels U) us -> made_of us u -> made_of us v ->
  rval x = VNum a -> rval y = VNum b -> runit x = Some u -> runit y = Some v ->
  same_dims (u_rels U) (Some u) (Some v) -> steady (u_rels U) u -> steady (u_rels U) v ->
  good a -> good b -> size_le k a -> size_le k b -> has_digits k (val b * size_of (Some v) / size_of (Some u))%Q -> (0 <= k)%Z -> (3 * k + 1 <= l_prec (u_lib U))%Z ->
  exists n, callop (with_units U) stl (sign_sym m) [x; y] s = (OOk (mkRes (VNum n) (Some u) None), s) /\ good n /\ lowest n /\ ncast n = format_of a b /\
    (val n * size_of (Some u) == if m : bool then val a * size_of (Some u) - val b * size_of (Some v) else val a * size_of (Some u) + val b * size_of (Some v))%Q.
Proof.
  intros W (Ou & _) (Ov & _) Vx Vy Ux Uy D Su Sv Ga Gb Sa Sb Hd Hk Hp.
  assert (Hx : number_at (u_lib U) x a) by (unfold number_at; rewrite Vx; reflexivity). assert (Hy : number_at (u_lib U) y b) by (unfold number_at; rewrite Vy; reflexivity).
  assert (D' : same_dims (u_rels U) (Some v) (Some u)) by (intros d; symmetry; apply D).
  destruct (convert_ok (u_rels U) us b v u true W Ov Ou D' Sv Su Gb) as (z & c & E & V & Gm & Cm & _ & Hm). specialize (Hm k Sb Hd).
  assert (P1 : (1 <= l_prec (u_lib U))%Z) by lia. destruct (size_add_sub (l_prec (u_lib U)) k a z Hk Ga Gm Sa Hm Hp) as [F1 F2].
  assert (Nz : ~ (factor (eu_list u) == 0)%Q) by (apply factor_nz; apply (world_scaled (u_rels U) us); assumption).
  cbn [size_of] in *. destruct m; unfold sign_sym, sign_char.
  - destruct (num_sub_exact _ a z P1 Ga Gm F2) as (n & N & Vn & Gn & Ln & C). exists (with_cast n (format_of a b)). split; [|split; [exact Gn|split; [exact Ln|split; [reflexivity|]]]].
    + eapply usum_call; [right; auto|exact Hx|exact Hy|exact Ux|rewrite Uy; exact E|exact N|exact C].
    + rewrite with_cast_val, Vn, V. field. exact Nz.
  - destruct (num_add_exact _ a z P1 Ga Gm F1) as (n & N & Vn & Gn & Ln & C). exists (with_cast n (format_of a b)). split; [|split; [exact Gn|split; [exact Ln|split; [reflexivity|]]]].
    + eapply usum_call; [left; auto|exact Hx|exact Hy|exact Ux|rewrite Uy; exact E|exact N|exact C].
    + rewrite with_cast_val, Vn, V. field. exact Nz.
Qed.
(** What is known of the numbers *)
Definition pair_ok (U : ucfg) (us : list unit) (k : Z) (l : declit) (u : unit) (t : pair) : Prop :=
  p_unit t = u /\ In u us /\ steady (u_rels U) (one_of u) /\ good (p_res t) /\ lowest (p_res t) /\ (val (p_res t) == spec_val l)%Q /\ has_digits k (spec_val l) /\ ncast (p_res t) = None.
Definition pair_fits (U : ucfg) (us : list unit) (k : Z) (u0 : unit) (l : declit) (u : unit) (t : pair) : Prop :=
  pair_ok U us k l u t /\ same_dims (u_rels U) (Some (one_of u0)) (Some (one_of u)) /\ has_digits k (spec_val l * uscale u / uscale u0)%Q.
Lemma one_made us u : In u us -> made_of us (one_of u).
Proof.
  intros H. split; [constructor; [exact H|constructor]|]. split; [|discriminate]. unfold one_of, ulist, eu_list. split; [constructor|exact I].
Qed.
Lemma has_eq k q r : (q == r)%Q -> has_digits k q -> has_digits k r.
Proof. apply digits_eq. Qed.
Lemma joined_app a b : joined_slots (a ++ b) = joined_slots a ++ joined_slots b.
Proof. induction a as [|[[m j] t] a IH]; [reflexivity|]. cbn [app joined_slots]. rewrite IH. reflexivity. Qed.
Lemma summing U us stl orig k u0 post e : world (u_rels U) us -> In u0 us -> steady (u_rels U) (one_of u0) -> (0 <= k)%Z -> (3 * k + 1 <= l_prec (u_lib U))%Z ->
  forall ts qs fuel s a p sum, Forall2 (fun q t => fst (fst q) = fst (fst t) /\ pair_fits U us k u0 (snd (fst q)) (snd q) (snd t)) qs ts ->
  Forall (fun x => has_digits k (x / uscale u0)%Q) (sums_along sum qs) -> good a -> lowest a -> ncast a = None -> (val a * uscale u0 == sum)%Q ->
  exists n p', op_loop (length ts + fuel) (unit_table U) orig (callop (with_units U) stl) (SRes (mkRes (VNum a) (Some (one_of u0)) None) p :: joined_slots ts ++ joined_slots post ++ end_slots e) s =
    op_loop fuel (unit_table U) orig (callop (with_units U) stl) (SRes (mkRes (VNum n) (Some (one_of u0)) None) p' :: joined_slots post ++ end_slots e) s /\
    good n /\ lowest n /\ ncast n = None /\ (val n * uscale u0 == total sum qs)%Q.
Proof.
  intros W I0 S0 Hk Hp. assert (Nz : ~ (uscale u0 == 0)%Q).
  { intros Z. destruct W as (_ & _ & _ & Ps). rewrite Forall_forall in Ps. specialize (Ps u0 I0). rewrite Z in Ps. discriminate Ps. }
  induction ts as [|[[m j] t] ts IH]; intros qs fuel s a p sum F D Ga La Na Va.
  - inversion F; subst qs. exists a, p. cbn [length Nat.add joined_slots app total]. auto.
  - inversion F as [|[[m' l] u] y qs' ts' Fh Ft E1 E2]; subst. cbn [fst snd] in Fh. destruct Fh as [-> ((<- & Iu & Su & Gr & Lr & Vr & D1 & Nr) & Sd & D2)].
    cbn [sums_along] in D. apply Forall_cons_iff in D. destruct D as [D0 D].
    assert (Sa : size_le k a) by (apply (lowest_size k a (sum / uscale u0)%Q Ga La); [rewrite <- Va; field; exact Nz|exact D0]).
    assert (Sb : size_le k (p_res t)) by exact (lowest_size k _ _ Gr Lr Vr D1).
    destruct (sum_step U us stl m (mkRes (VNum a) (Some (one_of u0)) None) (mkRes (VNum (p_res t)) (Some (one_of (p_unit t))) None) a (p_res t) (one_of u0) (one_of (p_unit t)) k s W (one_made us u0 I0) (one_made us (p_unit t) Iu)
      eq_refl eq_refl eq_refl eq_refl Sd S0 Su Ga Gr Sa Sb) as (n & C & Gn & Ln & Nn & Vn); [|exact Hk|exact Hp|].
    { apply (has_eq k _ _) with (2 := D2). rewrite Vr, !one_size. reflexivity. }
    destruct (IH qs' fuel s n j (if m : bool then sum - amount l (p_unit t) else sum + amount l (p_unit t))%Q Ft D Gn Ln) as (n' & p' & L & R).
    { rewrite Nn. unfold format_of. rewrite Na. exact Nr. }
    { clear C. unfold amount. destruct m; rewrite !one_size in Vn; rewrite Vn, Va, Vr; reflexivity. }
    assert (Hf : exists d, find_op (unit_table U) (sign_sym m) = Some (mkOper [None] [None] false d)) by (destruct m; eexists; [apply ufind_minus|apply ufind_plus]).
    destruct Hf as [d Hf]. exists n', p'. split; [|exact R]. rewrite <- L. cbn [length Nat.add joined_slots app]. eapply loop_next.
    + apply first_sum; [destruct m; [right|left]; reflexivity| | |split; reflexivity].
      * cbn [calm]. split; [exact I|]. split; [apply sign_three|]. split; [reflexivity|]. rewrite app_assoc, <- joined_app. apply calm_joined.
      * cbn [no_pairs]. split; [discriminate|]. split; [discriminate|]. split; [discriminate|]. rewrite app_assoc, <- joined_app. apply pairs_joined.
    + eapply (run_infix _ _ _ [] _ (both_slot t) (joined_slots ts ++ joined_slots post ++ end_slots e) (_, _) [SOp (sign_sym m) j] 1 _ _ s s _ (SOp (sign_sym m) j)).
      * exact Hf.
      * right. split; [reflexivity|]. split; [reflexivity|]. exists j. reflexivity.
      * reflexivity.
      * reflexivity.
      * exact C.
Qed.

(** * All of it *)
Definition unit_of (u0 : unit) (e : option (nat * unit * nat)) : unit := match e with None => u0 | Some (_, v, _) => v end.
Lemma loop_end fuel T orig call sl (s : st) : scan_levels T (t_levels T) sl = Ok None -> op_loop (S fuel) T orig call sl s = (OOk sl, s).
Proof. intros H. cbn [op_loop]. rewrite H. reflexivity. Qed.
Lemma final_one U n u : exists x, finalize U (mkRes (VNum n) (Some (one_of u)) None) = Ok (mkRes (VNum x) (Some (one_of u)) None) /\ (val x == val n)%Q.
Proof.
  unfold mkRes. cbn [finalize]. destruct (u_simplify U && negb (eu_nosimp (one_of u))); [|exists n; split; reflexivity].
  unfold simplify_value, simplify, one_of, ulist, dedupe. cbn [eu_list obind fst snd length Nat.ltb Nat.leb Z.ltb Z.compare]. cbn. eexists. split; [reflexivity|]. apply of_q_val.
Qed.
Lemma sum_runs U us stl orig k l0 t0 qs ts e (s : st) : world (u_rels U) us -> (1 <= k)%Z -> (3 * k + 1 <= l_prec (u_lib U))%Z ->
  joins U stl t0 -> Forall (fun x => joins U stl (snd x)) ts -> pair_fits U us k (p_unit t0) l0 (p_unit t0) t0 ->
  Forall2 (fun q t => fst (fst q) = fst (fst t) /\ pair_fits U us k (p_unit t0) (snd (fst q)) (snd q) (snd t)) qs ts ->
  Forall (fun x => has_digits k (x / uscale (p_unit t0))%Q) (sums_along (amount l0 (p_unit t0)) qs) ->
  match e with None => True | Some (_, v, _) => In v us /\ steady (u_rels U) (one_of v) /\ same_dims (u_rels U) (Some (one_of (p_unit t0))) (Some (one_of v)) end ->
  exists r x w, run_slots (unit_table U) orig (callop (with_units U) stl) (num_slot t0 :: unit_slot t0 :: apart_slots ts ++ end_slots e) s = (OOk r, s) /\ is_exc (rval r) = false /\
    finalize U r = Ok (mkRes (VNum x) (Some w) None) /\ (val x * size_of (Some w) == total (amount l0 (p_unit t0)) qs)%Q /\ eu_list w = ulist (unit_of (p_unit t0) e).
Proof.
  intros W Hk Hp J0 J P0 F D He. pose proof P0 as ((_ & I0 & S0 & G0 & L0 & V0 & _ & N0) & _).
  unfold run_slots, loop_fuel, bind.
  set (sl := num_slot t0 :: unit_slot t0 :: apart_slots ts ++ end_slots e).
  assert (Ln : 2 + 3 * length ts + length (end_slots e) = length sl).
  { unfold sl. cbn [length]. rewrite app_length. replace (length (apart_slots ts)) with (3 * length ts); [lia|]. clear. induction ts as [|[[m j] t] ts IH]; [reflexivity|]. cbn [apart_slots length]. lia. }
  replace (S (2 * length sl)) with (S (length ts) + (length ts + (2 + (S (2 * length sl) - 3 - 2 * length ts)))) by lia.
  set (fuel := S (2 * length sl) - 3 - 2 * length ts). clearbody fuel. unfold sl. clear sl Ln. rewrite (joining U stl orig e ts [] t0 _ s J0 J (Forall_nil _) I I). cbn [app].
  destruct (summing U us stl orig k (p_unit t0) [] e W I0 S0 ltac:(lia) Hp ts qs (2 + fuel) s (p_res t0) (p_uat t0) (amount l0 (p_unit t0)) F D G0 L0 N0) as (n & p' & L & Gn & Lo & _ & Vn).
  { unfold amount. rewrite V0. reflexivity. }
  unfold both_slot. cbn [joined_slots app] in L. rewrite L. destruct e as [[[j v] q]|]; cbn [end_slots unit_of].
  - destruct He as (Iv & Sv & Dv).
    destruct (c59_to U us stl (mkRes (VNum n) (Some (one_of (p_unit t0))) None) (mkRes (VUnit (one_of v)) None (Some ROther)) n (one_of (p_unit t0)) (one_of v) s W (one_made us _ I0) (one_made us v Iv)
      (or_introl (conj eq_refl eq_refl)) eq_refl Dv S0 Sv Gn) as (x & w & C & Vx & Pw & _ & _ & Fin).
    assert (Ew : eu_list w = ulist v) by (unfold one_of, ulist, eu_list in Pw; apply Permutation_sym, Permutation_length_1_inv in Pw; exact Pw).
    exists (mkRes (VNum x) (Some w) None), x, w. split.
    + change (2 + fuel) with (S (S fuel)). erewrite loop_next; [|apply first_to|].
      2: { eapply (run_infix _ _ _ [] _ _ [] (_, _) [SOp ($"to") j] 1 _ _ s s _ (SOp ($"to") j)); [apply ufind_to|right; split; [reflexivity|split; [reflexivity|exists j; reflexivity]]|reflexivity|reflexivity|exact C]. }
      cbn [app]. rewrite loop_end by apply first_none. reflexivity.
    + split; [reflexivity|]. split; [exact Fin|]. split; [|exact Ew]. cbn [size_of]. rewrite Ew.
      change (factor (ulist v)) with (size_of (Some (one_of v))). rewrite Vx, one_size. exact Vn.
  - destruct (final_one U n (p_unit t0)) as (x & Fin & Vx). exists (mkRes (VNum n) (Some (one_of (p_unit t0))) None), x, (one_of (p_unit t0)). split.
    + change (2 + fuel) with (S (S fuel)). rewrite loop_end by apply first_none. reflexivity.
    + split; [reflexivity|]. split; [exact Fin|]. split; [rewrite one_size, Vx; exact Vn|reflexivity].
Qed.
