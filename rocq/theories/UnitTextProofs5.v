(** Texts of quantities that do not go together. *)
From Coq Require Import ZArith QArith Ascii String List Bool Lia.
From Verif Require Import Base BaseProofs Num NumSpec Lex LexSpec Bases Formats Units UnitsSpec UnitsProofs UnitReg Syntax Pos Call Loop Parse Exec Std StdSpec StdProofs5 ArithSpec UnitCalc UnitCalcSpec UnitCalcProofs UnitCalcProofs3 ArithTextSpec ArithRunSpec ArithTextProofs4 ArithErrProofs Prop_Quantities Prop_Convert UnitTextSpec UnitTextProofs UnitTextProofs2 UnitTextProofs3 UnitTextProofs4.
Import ListNotations.
Open Scope nat_scope.

Lemma run_infix_err T orig call a x y b xi mid sym d (s s' : st) ex z : find_op T sym = Some (mkOper [None] [None] false d) -> mid = [z] -> (exists j, z = SOp sym j) ->
  x = SRes (fst xi) (snd xi) -> forall yr yk, y = SRes yr yk -> call sym [fst xi; yr] s = (OErr ex, s') ->
  exists its nx, run_op T orig call (a ++ x :: mid ++ y :: b) (S (length a)) sym 1 s = (OOk (a ++ SRes (mkRes (VExc (XExec (exc_msg ex) its nx false)) None None) (slot_idx z) :: b), s').
Proof.
  intros Hf Hm Hz' Hx yr yk Hy Hc. unfold run_op. rewrite Hf. cbn [op_l op_r length]. subst mid.
  assert (Hz : nth_error (a ++ x :: [z] ++ y :: b) (S (length a)) = Some z).
  { rewrite nth_error_app2 by lia. replace (S (length a) - length a) with 1 by lia. reflexivity. }
  rewrite Hz. replace (S (length a) <? 1) with false by (symmetry; apply Nat.ltb_ge; lia).
  assert (Hl : length (a ++ x :: [z] ++ y :: b) <? S (length a) + 1 + 1 = false).
  { apply Nat.ltb_ge. rewrite app_length. cbn [length app]. lia. }
  rewrite Hl. replace (S (length a) - 1) with (length a) by lia.
  assert (F1 : firstn (length a) (a ++ x :: [z] ++ y :: b) = a) by (rewrite firstn_app, Nat.sub_diag, firstn_all; cbn [firstn]; apply app_nil_r).
  assert (K1 : skipn (length a) (a ++ x :: [z] ++ y :: b) = x :: [z] ++ y :: b) by (rewrite skipn_app, Nat.sub_diag, skipn_all; reflexivity).
  assert (K2 : skipn (S (length a) + 1) (a ++ x :: [z] ++ y :: b) = y :: b).
  { rewrite skipn_app. rewrite skipn_all2 by lia. replace (S (length a) + 1 - length a) with 2 by lia. reflexivity. }
  assert (K3 : skipn (S (length a) + 1 + 1) (a ++ x :: [z] ++ y :: b) = b).
  { rewrite skipn_app. rewrite skipn_all2 by lia. replace (S (length a) + 1 + 1 - length a) with 3 by lia. reflexivity. }
  rewrite F1, K1, K2, K3. cbn [firstn app]. subst x y. unfold bind. cbn [take_inputs]. unfold bind, ret. rewrite Hc. eexists _, _. reflexivity.
Qed.
(** An exception is handed on *)
Definition bad_res (e : exc) : result := mkRes (VExc e) None None.
Lemma exc_call U stl sym e y (s : st) : sym = $"+" \/ sym = $"-" \/ sym = $"to" -> is_list (rval y) = false -> callop (with_units U) stl sym [bad_res e; y] s = (OOk (bad_res e), s).
Proof.
  intros Hs Hy. assert (G : exists d, find_op (unit_table U) sym = Some (mkOper [None] [None] false d) /\ must_be d 0 s_array None = false /\ o_excs d = false).
  { destruct Hs as [->|[->| ->]]; eexists; (split; [apply ufind_plus || apply ufind_minus || apply ufind_to|split; reflexivity]). }
  destruct G as (d & Gf & Gm & Ge). rewrite ucallop_eq, Gf. cbn [op_def]. rewrite call_scalars; [|cbn [forallb bad_res rval mkRes is_list negb]; rewrite Hy; reflexivity|exact Gm].
  unfold call_plain. rewrite Ge. reflexivity.
Qed.
Lemma bad_to U e k1 j y k2 : scan_levels (unit_table U) (t_levels (unit_table U)) [SRes (bad_res e) k1; SOp ($"to") j; SRes (mkRes (VUnit y) None (Some ROther)) k2] = Ok (Some (1, $"to", 1)).
Proof. reflexivity. Qed.
Lemma bad_none U e k : scan_levels (unit_table U) (t_levels (unit_table U)) [SRes (bad_res e) k] = Ok None.
Proof. reflexivity. Qed.
Lemma failing U stl orig x e : forall post p fuel (s : st), exists p',
  op_loop (length post + (2 + fuel)) (unit_table U) orig (callop (with_units U) stl) (SRes (bad_res x) p :: joined_slots post ++ end_slots e) s = (OOk [SRes (bad_res x) p'], s).
Proof.
  induction post as [|[[m j] t] post IH]; intros p fuel s.
  - cbn [length Nat.add joined_slots app]. destruct e as [[[j v] q]|]; cbn [end_slots].
    + exists j. erewrite loop_next; [|apply bad_to|].
      2: { eapply (run_infix _ _ _ [] _ _ [] (_, _) [SOp ($"to") j] 1 _ _ s s _ (SOp ($"to") j)); [apply ufind_to|right; split; [reflexivity|split; [reflexivity|exists j; reflexivity]]|reflexivity|reflexivity|apply exc_call; [auto|reflexivity]]. }
      cbn [app]. apply loop_end, bad_none.
    + exists p. apply loop_end, bad_none.
  - cbn [length Nat.add joined_slots app]. assert (Hf : exists d, find_op (unit_table U) (sign_sym m) = Some (mkOper [None] [None] false d)) by (destruct m; eexists; [apply ufind_minus|apply ufind_plus]). destruct Hf as [d Hf].
    destruct (IH j fuel s) as [p' E]. exists p'. rewrite <- E. eapply loop_next.
    + apply first_sum; [destruct m; [right|left]; reflexivity| | |split; reflexivity].
      * cbn [calm]. split; [exact I|]. split; [apply sign_three|]. split; [reflexivity|]. apply calm_joined.
      * cbn [no_pairs]. split; [discriminate|]. split; [discriminate|]. split; [discriminate|]. apply pairs_joined.
    + eapply (run_infix _ _ _ [] _ (both_slot t) (joined_slots post ++ end_slots e) (_, _) [SOp (sign_sym m) j] 1 _ _ s s _ (SOp (sign_sym m) j)).
      * exact Hf.
      * right. split; [reflexivity|]. split; [reflexivity|]. exists j. reflexivity.
      * reflexivity.
      * reflexivity.
      * apply exc_call; [destruct m; auto|reflexivity].
Qed.
Lemma total_along qs : forall sum, In (total sum qs) (sums_along sum qs).
Proof. induction qs as [|[[m l] u] qs IH]; intros sum; cbn [total sums_along]; [left; reflexivity|right; apply IH]. Qed.
Lemma sum_fails U us stl orig k l0 t0 qs ts post e (s : st) : world (u_rels U) us -> (1 <= k)%Z -> (3 * k + 1 <= l_prec (u_lib U))%Z -> showable (u_lib U) k ->
  joins U stl t0 -> Forall (fun x => joins U stl (snd x)) (ts ++ post) -> pair_fits U us k (p_unit t0) l0 (p_unit t0) t0 ->
  Forall2 (fun q t => fst (fst q) = fst (fst t) /\ pair_fits U us k (p_unit t0) (snd (fst q)) (snd q) (snd t)) qs ts ->
  Forall (fun x => has_digits k (x / uscale (p_unit t0))%Q) (sums_along (amount l0 (p_unit t0)) qs) ->
  match post, e with
  | (_, _, t) :: _, _ => (exists l, pair_ok U us k l (p_unit t) t) /\ exists d, dims_of (u_rels U) (Some (one_of (p_unit t0))) d <> dims_of (u_rels U) (Some (one_of (p_unit t))) d
  | [], Some (_, v, _) => In v us /\ steady (u_rels U) (one_of v) /\ exists d, dims_of (u_rels U) (Some (one_of (p_unit t0))) d <> dims_of (u_rels U) (Some (one_of v)) d
  | [], None => False
  end ->
  exists r m its nx tr, run_slots (unit_table U) orig (callop (with_units U) stl) (num_slot t0 :: unit_slot t0 :: apart_slots (ts ++ post) ++ end_slots e) s = (OOk r, s) /\ rval r = VExc (XExec m its nx tr).
Proof.
  intros W Hk Hp Hs J0 J P0 F D Hb. pose proof P0 as ((_ & I0 & S0 & G0 & L0 & V0 & _ & N0) & _).
  assert (Nz : ~ (uscale (p_unit t0) == 0)%Q). { intros Z. destruct W as (_ & _ & _ & Ps). rewrite Forall_forall in Ps. specialize (Ps _ I0). rewrite Z in Ps. discriminate Ps. }
  unfold run_slots, loop_fuel, bind.
  set (all := ts ++ post) in *. set (sl := num_slot t0 :: unit_slot t0 :: apart_slots all ++ end_slots e).
  assert (Ln : 2 + 3 * length all + length (end_slots e) = length sl).
  { unfold sl. cbn [length]. rewrite app_length. replace (length (apart_slots all)) with (3 * length all); [lia|]. clearbody all. clear. induction all as [|[[m j] t] xs IH]; [reflexivity|]. cbn [apart_slots length]. lia. }
  assert (La : length all = length ts + length post) by apply app_length.
  replace (S (2 * length sl)) with (S (length all) + (length ts + (length post + (3 + (S (2 * length sl) - 4 - 2 * length all))))) by lia.
  set (fuel := S (2 * length sl) - 4 - 2 * length all). clearbody fuel. unfold sl. clear sl Ln. rewrite (joining U stl orig e all [] t0 _ s J0 J (Forall_nil _) I I). cbn [app].
  unfold all at 1. rewrite joined_app, <- app_assoc. clear La J. clear all.
  destruct (summing U us stl orig k (p_unit t0) post e W I0 S0 ltac:(lia) Hp ts qs (length post + (3 + fuel)) s (p_res t0) (p_uat t0) (amount l0 (p_unit t0)) F D G0 L0 N0) as (n & p' & L & Gn & Lo & Nn & Vn).
  { unfold amount. rewrite V0. reflexivity. }
  unfold both_slot. rewrite L. clear L.
  assert (Dn : size_le k n).
  { apply (lowest_size k n (total (amount l0 (p_unit t0)) qs / uscale (p_unit t0))%Q Gn Lo); [rewrite <- Vn; field; exact Nz|]. rewrite Forall_forall in D. apply D, total_along. }
  assert (Sn : shows (u_lib U) (VNum n) = true) by exact (small_shows _ k n Hs Gn Dn Nn).
  destruct post as [|[[m j] t] post].
  - destruct e as [[[j v] q]|]; [|destruct Hb]. destruct Hb as (Iv & Sv & Hd). cbn [joined_slots app end_slots length Nat.add].
    destruct (run_infix_err (unit_table U) orig (callop (with_units U) stl) [] (SRes (mkRes (VNum n) (Some (one_of (p_unit t0))) None) p') (SRes (mkRes (VUnit (one_of v)) None (Some ROther)) q) [] (_, _) [SOp ($"to") j] ($"to") _ s s
      (XCalc true (MOp ($"operator " ++ $"to"))) (SOp ($"to") j) (ufind_to U) eq_refl (ex_intro _ j eq_refl) eq_refl _ _ eq_refl) as (its & nx & E).
    { apply (c59_different U us stl _ _ n (one_of (p_unit t0)) (one_of v) s W (one_made us _ I0) (one_made us v Iv)); try assumption; try reflexivity. left. split; reflexivity. }
    erewrite loop_next; [|apply first_to|exact E]. cbn [app]. rewrite loop_end by apply bad_none. cbn [ends]. unfold ret. eexists _, _, _, _, _. split; reflexivity.
  - destruct Hb as ((l & Ht) & Hd). destruct Ht as (_ & It & St & Gt & Lt & Vt & Dt & Nt).
    assert (Hf : exists d, find_op (unit_table U) (sign_sym m) = Some (mkOper [None] [None] false d)) by (destruct m; eexists; [apply ufind_minus|apply ufind_plus]). destruct Hf as [d Hf].
    cbn [joined_slots app length Nat.add].
    destruct (run_infix_err (unit_table U) orig (callop (with_units U) stl) [] (SRes (mkRes (VNum n) (Some (one_of (p_unit t0))) None) p') (both_slot t) (joined_slots post ++ end_slots e) (_, _) [SOp (sign_sym m) j] (sign_sym m) d s s
      (XCalc true (MOp ($"operator " ++ sign_sym m))) (SOp (sign_sym m) j) Hf eq_refl (ex_intro _ j eq_refl) eq_refl _ _ eq_refl) as (its & nx & E).
    { apply (c57_different U us stl (sign_sym m) _ _ n (p_res t) (one_of (p_unit t0)) (one_of (p_unit t)) s); try assumption; try reflexivity.
      - destruct m; cbn; tauto.
      - apply one_made, I0.
      - apply one_made, It.
      - exact (small_shows _ k _ Hs Gt (lowest_size k _ _ Gt Lt Vt Dt) Nt). }
    erewrite loop_next; [|apply first_sum; [destruct m; [right|left]; reflexivity| | |split; reflexivity]|exact E].
    + cbn [app]. match goal with |- context [op_loop ?f _ _ _ _ _] => replace f with (length post + (2 + S fuel)) by lia end. destruct (failing U stl orig (XExec (exc_msg (XCalc true (MOp ($"operator " ++ sign_sym m)))) its nx false) e post (slot_idx (SOp (sign_sym m) j)) (S fuel) s) as [p2 E2].
      unfold bad_res in E2. rewrite E2. cbn [ends]. unfold ret. eexists _, _, _, _, _. split; reflexivity.
    + cbn [calm]. split; [exact I|]. split; [apply sign_three|]. split; [reflexivity|]. apply calm_joined.
    + cbn [no_pairs]. split; [discriminate|]. split; [discriminate|]. split; [discriminate|]. apply pairs_joined.
Qed.
Lemma quantities_differ U us steps k unit_at text q qs qr tgt bad n fl (s : st) :
  reg_steps steps norm_init = Ok (u_norm U) -> world (u_rels U) us -> keys_apart (u_norm U) -> exp_letter (u_lib U) -> (1 <= k)%Z -> (3 * k + 1 <= l_prec (u_lib U))%Z -> showable (u_lib U) k ->
  sum_text text q (qs ++ qr) tgt -> let u0 := unit_at (snd q) in
  (forall m, In m (snd q :: map (fun x => snd (snd x)) (qs ++ qr) ++ match tgt with Some t => [t] | None => [] end) -> unit_for U us m (unit_at m)) ->
  (forall m, In m (map (fun x => snd (snd x)) qs) -> same_dims (u_rels U) (Some (mkEU (ulist u0) false)) (Some (mkEU (ulist (unit_at m)) false))) ->
  hd_error (map (fun x => snd (snd x)) qr ++ match tgt with Some t => [t] | None => [] end) = Some bad ->
  (exists d, dims_of (u_rels U) (Some (mkEU (ulist u0) false)) d <> dims_of (u_rels U) (Some (mkEU (ulist (unit_at bad)) false)) d) ->
  digits_stay (l_prec (u_lib U)) k (fst q) u0 (map (with_unit unit_at) qs) -> Forall (fun x => lit_fits (l_prec (u_lib U)) k (fst (snd x))) qr -> cf_parse_only fl = false ->
  exists items nx tr, calculate (with_units U) (S n) fl text s = (CFail false [] [items] nx tr, s).
Proof.
  intros Hreg W Ha He Hk Hp Hs Ht u0 Hm Hsd Hbad Hd (D0 & D & Ds) Dr Hfl.
  destruct (text_slots U us steps (cf_stl fl) k unit_at text q (qs ++ qr) tgt n s Hreg W Ha He Hk Hp Ht Hm D0) as (items & num & res & all & e & P & Tn & Fi & (E & J0 & F0) & J & F & T).
  { apply Forall_app. split; [|exact Dr]. rewrite Forall_map in D. eapply Forall_impl; [|exact D]. intros [m [l' n']] [H _]. exact H. }
  fold u0 in E, J0, F0. pose proof F0 as (_ & I0 & _). rewrite map_app in F. apply Forall2_app_inv_l in F. destruct F as (ts & post & F1 & F2 & ->).
  assert (Nz : ~ (uscale u0 == 0)%Q). { intros Z. destruct W as (_ & _ & _ & Ps). rewrite Forall_forall in Ps. specialize (Ps u0 I0). rewrite Z in Ps. discriminate Ps. }
  destruct (sum_fails U us (cf_stl fl) items k (fst q) (mkPair num 0 u0 1 res) (map (with_unit unit_at) qs) ts post e s W Hk Hp Hs J0 J) as (r & m & its & nx & tr & R1 & R2).
  - split; [exact F0|]. split; [intros d; reflexivity|]. apply (has_eq k (spec_val (fst q))); [cbn [p_unit]; field; exact Nz|apply D0].
  - apply ok_fits; [exact F1| |].
    + apply Forall_forall. intros y Hy. apply in_map_iff in Hy. destruct Hy as (y' & <- & Hy). apply Hsd. exact (in_map (fun x => snd (snd x)) _ _ Hy).
    + eapply Forall_impl; [|exact D]. intros [[m l'] u'] [_ H]. exact H.
  - exact Ds.
  - cbn [p_unit]. destruct qr as [|[m [l' n']] qr]; cbn [map] in F2.
    + assert (post = []) by (inversion F2; reflexivity). subst post. destruct tgt as [tg|]; cbn [map app hd_error] in Hbad; [|discriminate Hbad]. assert (bad = tg) by congruence. subst bad.
      destruct e as [[[j v] i]|]; [|destruct T]. unfold target_ok in T. subst v. assert (Hu : unit_for U us tg (unit_at tg)) by (apply Hm; right; apply in_or_app; right; left; reflexivity).
      destruct Hu as (_ & _ & _ & It). split; [exact It|]. split; [exact (one_steady _ _ _ W It)|exact Hd].
    + cbn [app hd_error map snd] in Hbad. assert (bad = n') by congruence. subst bad. destruct post as [|[[m' j] t] post]; [inversion F2|].
      assert (Ok2 : pair_ok U us k l' (unit_at n') t) by (inversion F2 as [|? ? ? ? [_ H] _]; exact H). pose proof Ok2 as (Eu & _). rewrite Eu. split; [exists l'; exact Ok2|exact Hd].
  - exact (proj2 (calculate_one U fl n text items r s P Tn Fi Hfl _ E R1) _ _ _ _ R2).
Qed.
