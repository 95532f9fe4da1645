(** The operator loop on the items of [c then x else y]. *)
From Coq Require Import ZArith QArith Ascii String List Bool Lia.
From Verif Require Import Base BaseProofs Dec Num NumSpec Lex Bases Formats Units UnitsProofs5 Install InstallProofs Syntax Pos Call CallSpec Loop LoopSpec LoopProofs Parse Exec ExecSpec Std StdSpec StdProofs2 StdProofs3 StdProofs4 StdProofs5 ArithTextSpec ArithTextProofs ArithTextProofs5 LoopWalls.
Import ListNotations.
Open Scope nat_scope.

(** * What leaves the state *)
Definition still {A} (m : M A) : Prop := forall s, snd (m s) = s.
Lemma still_ret A (a : A) : still (ret a). Proof. intros s. reflexivity. Qed.
Lemma still_raise A e : @still A (raise e). Proof. intros s. reflexivity. Qed.
Lemma still_py A : @still A pyerr. Proof. intros s. reflexivity. Qed.
Lemma still_fuel A : @still A (fun s => (OFuel, s)). Proof. intros s. reflexivity. Qed.
Lemma still_lift A (x : out A) : still (lift x). Proof. intros s. destruct x; reflexivity. Qed.
Lemma still_bind A B (m : M A) (f : A -> M B) : still m -> (forall a, still (f a)) -> still (bind m f).
Proof. intros Hm Hf s. unfold bind. specialize (Hm s). destruct (m s) as [o s1]. cbn [snd] in Hm. subst s1. destruct o; try reflexivity. apply Hf. Qed.
Lemma still_map A B (m : M A) (f : st -> oc B * st) : still m -> (forall s, snd (f s) = snd (m s)) -> still f.
Proof. intros Hm H s. rewrite H. apply Hm. Qed.
Lemma still_each_row f : (forall x, still (f x)) -> forall rows, still (each_row f rows).
Proof.
  intros Hf. induction rows as [|x t IH]; cbn [each_row]; [apply still_ret|]. intros s. pose proof (Hf x s) as Hx. destruct (f x s) as [o s1]. cbn [snd] in Hx. subst s1.
  assert (K : forall r : result, still (let* l := each_row f t in ret (r :: l))) by (intros r; apply still_bind; [exact IH|intros; apply still_ret]).
  destruct o; cbn [snd]; try reflexivity; apply K.
Qed.
Lemma still_each_pack f : (forall x, still (f x)) -> forall rows, still (each_pack f rows).
Proof.
  intros Hf. induction rows as [|x t IH]; cbn [each_pack]; [apply still_ret|].
  apply still_bind; [apply Hf|]. intros r. destruct (is_list (rval r)); [apply still_raise|]. apply still_bind; [exact IH|]. intros. apply still_ret.
Qed.
Lemma still_call_plain E h d stl ins : (forall vs us rs, still (o_impl d h vs us rs stl)) -> still (call_plain E h d stl ins).
Proof.
  intros Hi. unfold call_plain. destruct (if o_excs d then None else find_exc ins); [apply still_ret|].
  eapply still_map with (m := let* p := lift (prepare E d (map rval ins) (map runit ins) (map rref ins)) in
           let* o := o_impl d h (fst (fst (fst p))) (snd (fst (fst p))) (map rref ins) stl in
           ret (finish d (snd (fst p)) (snd p) o)).
  - apply still_bind; [apply still_lift|]. intros p. apply still_bind; [apply Hi|]. intros. apply still_ret.
  - intros s. cbv zeta. match goal with |- context [match ?x with _ => _ end] => destruct x as [o s1] end.
    destruct o; cbn [snd]; try reflexivity.
    + destruct (wrapped e); [reflexivity|]. destruct (forallb (e_tostr E) ins); reflexivity.
    + destruct (forallb (e_tostr E) ins); reflexivity.
Qed.
Lemma still_call E h d stl ins : (forall vs us rs, still (o_impl d h vs us rs stl)) -> still (call E h d stl ins).
Proof.
  intros Hi. unfold call. generalize (3 + depths ins) as n. intros n. revert ins.
  induction n as [|k IH]; intros ins; cbn [call_fuel]; [apply still_fuel|]. unfold call_step. cbv zeta.
  destruct (existsb (fun b : bool => b) (flags_of d 0 ins)).
  - destruct (same_length _) as [[n|]|]; try (apply still_raise).
    apply still_bind; [apply still_each_row; exact IH|]. intros. apply still_ret.
  - destruct (is_packed d ins); [|apply still_call_plain; assumption].
    destruct (same_length _) as [[n|]|]; try (apply still_raise); [|apply IH].
    apply still_bind; [apply still_each_pack; exact IH|]. intros. apply still_ret.
Qed.
Ltac stay :=
  repeat match goal with
  | |- still (bind _ _) => apply still_bind; [|intros ?]
  | |- still (ret _) => apply still_ret
  | |- still (raise _) => apply still_raise
  | |- still pyerr => apply still_py
  | |- still (lift _) => apply still_lift
  | |- still (just _) => apply still_ret
  | |- still (unitless _) => apply still_ret
  | |- still (with_unit _ _) => apply still_ret
  | |- still calc_err => apply still_raise
  | |- still (pym ?x) => destruct x; cbn [pym]
  | |- still (boolean ?x) => destruct x; cbn [boolean]
  | |- still (match ?x with _ => _ end) => destruct x
  | |- still (if ?x then _ else _) => destruct x
  | |- still (the_var ?x) => unfold the_var
  | |- still (integer _ _) => unfold integer
  | |- still (natural _ _) => unfold natural
  | |- still (int_power _ _) => unfold int_power
  | |- still (let _ := _ in _) => cbv zeta
  end.
(** The levels above [then], and the others *)
Definition tighter (L : lib) : list level := firstn 11 (std_levels L).
Definition looser (L : lib) : list level := skipn 11 (std_levels L).
Lemma both_levels L : t_levels (g_ops (std L)) = tighter L ++ looser L.
Proof. reflexivity. Qed.
Definition tight (L : lib) (q : str) : Prop := mem_str q (map fst (concat (tighter L))) = true.
Lemma tighter_still L stl : Forall (fun p : str * operator => forall h : handle, (forall q ins, tight L q -> still (h q ins)) -> forall vs us rs, still (o_impl (op_def (snd p)) h vs us rs stl)) (concat (tighter L)).
Proof.
  unfold tighter, std_levels. cbv zeta. cbn [firstn concat app].
  repeat (apply Forall_cons; [|]); try apply Forall_nil; intros h Hh vs us rs;
  cbn [op_def snd infix op2 op_def odef o_impl no_result fst]; unfold_ops; stay; unfold op_bits; stay.
  apply Hh. reflexivity.
Qed.
Lemma tight_apart L q l : tight L q -> In l (looser L) -> mem_str q (map fst l) = false.
Proof.
  intros Hq Hl. assert (C : forallb (fun q => forallb (fun l => negb (mem_str q (map fst l))) (looser L)) (map fst (concat (tighter L))) = true) by (vm_compute; reflexivity).
  rewrite forallb_forall in C. specialize (C q (proj1 (mem_str_iff _ _) Hq)). rewrite forallb_forall in C. specialize (C l Hl). apply negb_true_iff in C. exact C.
Qed.
Lemma tight_still L stl q ins s : tight L q -> snd (callop (std L) stl q ins s) = s.
Proof.
  unfold callop. generalize op_depth as n. intros n. revert q ins s. induction n as [|n IH]; intros q ins s Hq; [reflexivity|]. cbn [op_handle].
  destruct (find_op (g_ops (std L)) q) as [o|] eqn:E; [|reflexivity]. apply still_call. intros vs us rs.
  apply find_op_in in E. rewrite both_levels, concat_app in E. apply in_app_or in E as [E|E].
  - pose proof (tighter_still L stl) as K. rewrite Forall_forall in K. exact (K _ E (op_handle (std L) n stl) (fun q ins H s => IH q ins s H) vs us rs).
  - exfalso. apply in_concat in E. destruct E as (l & Hl & E). pose proof (tight_apart L q l Hq Hl) as F. assert (mem_str q (map fst l) = true) by (apply mem_str_iff; apply in_map_iff; exists (q, o); auto). congruence.
Qed.
Lemma table_tight L q : of_table (g_ops (std L)) q -> tight L q.
Proof. intros [E|[E|[E|E]]]; try discriminate E. injection E as <-. reflexivity. Qed.
Lemma tighter_rtl L : Forall (fun l => exists b, level_rtl (g_ops (std L)) l = Ok b) (tighter L).
Proof. unfold tighter, std_levels. cbv zeta. cbn [firstn]. repeat (apply Forall_cons; [eexists; reflexivity|]). apply Forall_nil. Qed.
Lemma then_wall L : wall (g_ops (std L)) (tighter L) ($"then").
Proof. split; [reflexivity|]. unfold tighter, std_levels. cbv zeta. cbn [firstn]. repeat (apply Forall_cons; [reflexivity|]). apply Forall_nil. Qed.
Lemma else_wall L : wall (g_ops (std L)) (tighter L) ($"else").
Proof. split; [reflexivity|]. unfold tighter, std_levels. cbv zeta. cbn [firstn]. repeat (apply Forall_cons; [reflexivity|]). apply Forall_nil. Qed.

(** * Trees of operators above [then] *)
Lemma level_no_in ls n q : level_no ls q < n -> n <= length ls -> mem_str q (map fst (concat (firstn n ls))) = true.
Proof.
  revert n. induction ls as [|l ls IH]; intros n H Hn; [cbn [length] in Hn; lia|]. destruct n as [|n]; [lia|]. cbn [firstn concat level_no length] in *. rewrite map_app. apply mem_str_iff, in_or_app.
  destruct (mem_str q (map fst l)) eqn:E; [left; apply mem_str_iff, E|]. right. apply mem_str_iff, IH; lia.
Qed.
Definition all_tighter (L : lib) (t : tree) : Prop := match t with Leaf _ => True | Node g _ _ => rank (g_ops (std L)) g < 11 end.
Lemma below_tight L t : grouped (g_ops (std L)) t -> all_tighter L t -> Forall (fun gb : gap * leaf => tight_slot (tight L) (match fst gb with GOp q i => SOp q i | GImp => SRes (fst (snd gb)) 0 end)) (snd (chain_of t)).
Proof.
  induction t as [x|g l IHl r IHr]; intros G H; [constructor|]. cbn [grouped all_tighter chain_of snd] in *. destruct G as (G1 & G2 & G3 & G4). apply Forall_app. split; [|constructor].
  - apply IHl; [exact G1|]. destruct l as [y|h a b]; [exact I|]. cbn [all_tighter]. lia.
  - cbn [fst snd]. destruct g as [q i|]; [|exact I]. cbn [tight_slot]. apply level_no_in; [exact H|]. apply Nat.leb_le. reflexivity.
  - apply IHr; [exact G2|]. destruct r as [y|h a b]; [exact I|]. cbn [all_tighter]. lia.
Qed.
Lemma slots_tight L t : grouped (g_ops (std L)) t -> all_tighter L t -> Forall (tight_slot (tight L)) (slots_of (chain_of t)).
Proof.
  intros G H. pose proof (below_tight L t G H) as K. unfold slots_of. constructor; [exact I|]. revert K. induction (snd (chain_of t)) as [|[g b] gs IH]; intros K; cbn [map concat]; [constructor|].
  apply Forall_cons_iff in K as [K1 K2]. apply Forall_app. split; [|exact (IH K2)]. cbn [fst snd] in K1. destruct g; repeat constructor; exact K1.
Qed.
Lemma loop_tree T orig call f t s : good_table T -> good_chain T (chain_of t) -> no_units f -> grouped T t -> agrees T orig call f s t ->
  exists j s', op_loop (loop_fuel (slots_of (chain_of t))) T orig call (slots_of (chain_of t)) s = (OOk [SRes (tree_value T orig f t) j], s').
Proof.
  intros Ht Hc Hf Hg Ha. destruct (chain_of t) as [a gs] eqn:Ec.
  destruct (loop_forest' T orig call f Ht Hf (loop_fuel (slots_of (a, gs))) (Leaf a) (leaf_gaps gs) s s) as (t' & Hg' & Hch & Hsame & _ & Hrun).
  - unfold loop_fuel, leaf_gaps. rewrite map_length. pose proof (slots_len a gs). lia.
  - apply leaf_forest_fits.
  - rewrite leaf_forest_leaves. exact Hc.
  - rewrite leaf_forest_chain, <- Ec in Hch. pose proof (grouped_unique T t' t Hg' Hg Hch) as Et. rewrite Et in Hrun.
    assert (Ha' : agrees_end T orig call f s s t).
    { split; [intros g l r H _; exact (Ha g l r H)|]. destruct t as [x|g l r]; [reflexivity|]. rewrite <- interp_state. apply Ha. apply subtree_refl. }
    specialize (Hrun (or_intror Ha')). rewrite leaf_forest_leaves in Hrun. eexists _, _. exact Hrun.
Qed.
Lemma tree_settles L stl orig f t s : good_chain (g_ops (std L)) (chain_of t) -> no_units f -> grouped (g_ops (std L)) t -> all_tighter L t -> agrees (g_ops (std L)) orig (callop (std L) stl) f s t ->
  exists n j, n <= 2 * length (slots_of (chain_of t)) /\ settles (g_ops (std L)) (tighter L) orig (callop (std L) stl) s n (slots_of (chain_of t)) [SRes (tree_value (g_ops (std L)) orig f t) j].
Proof.
  intros Hc Hf Hg Hl Ha. destruct (loop_tree (g_ops (std L)) orig (callop (std L) stl) f t s (std_good L) Hc Hf Hg Ha) as (j & s' & E).
  destruct (loop_settled (g_ops (std L)) (tighter L) (looser L) orig (callop (std L) stl) (tight L) s (both_levels L) (table_tight L) (tight_apart L) (fun q ins s H => tight_still L stl q ins s H) _ _ _ s' (slots_tight L t Hg Hl) E) as (n & Hn & Hs).
  exists n, j. split; [unfold loop_fuel in Hn; lia|exact Hs].
Qed.

(** * The whole *)
Lemma settles_end T ls orig call s n X X' : settles T ls orig call s n X X' -> scan_levels T ls X' = Ok None.
Proof. induction 1; assumption. Qed.
Lemma choice_scan L x y z i j a b c : is_unit_val x = false -> is_unit_val y = false -> is_unit_val z = false ->
  scan_levels (g_ops (std L)) (looser L) [SRes x a; SOp ($"then") i; SRes y b; SOp ($"else") j; SRes z c] = Ok (Some (1, $"then", 1)).
Proof.
  unfold is_unit_val. intros Hx Hy Hz. unfold looser, std_levels. cbv zeta. cbn [skipn scan_levels]. 
  assert (A0 : forall l : level, in_level (t_imul (g_ops (std L))) l = false -> action (g_ops (std L)) l [SRes x a; SOp ($"then") i; SRes y b; SOp ($"else") j; SRes z c] 0 = None).
  { intros l Hl. unfold action. cbn [nth_error]. cbv zeta. rewrite Hl. change (in_level (t_uassign (g_ops (std L))) l) with false. change (in_level (t_umul (g_ops (std L))) l) with false.
    change (in_level (t_udiv (g_ops (std L))) l) with false. reflexivity. }
  match goal with |- context [level_rtl _ ?l] => set (lv := l) end.
  replace (level_rtl (g_ops (std L)) lv) with (Ok false) by reflexivity. cbn [obind]. cbv zeta. cbn [length seq scan]. rewrite A0 by reflexivity.
  assert (A1 : action (g_ops (std L)) lv [SRes x a; SOp ($"then") i; SRes y b; SOp ($"else") j; SRes z c] 1 = Some ($"then", 1)).
  { unfold action, at_slot. cbn [nth_error slot_unit slot_op]. rewrite Hx, Hy. reflexivity. }
  rewrite A1. reflexivity.
Qed.
Lemma choice_slots L stl orig f X1 x n1 j1 t2 t3 i j s r : n1 < length X1 -> settles (g_ops (std L)) (tighter L) orig (callop (std L) stl) s n1 X1 [SRes x j1] -> is_unit_val x = false ->
  (forall t, In t [t2; t3] -> good_chain (g_ops (std L)) (chain_of t) /\ grouped (g_ops (std L)) t /\ all_tighter L t /\ agrees (g_ops (std L)) orig (callop (std L) stl) f s t /\
    is_unit_val (tree_value (g_ops (std L)) orig f t) = false) -> no_units f ->
  callop (std L) stl ($"then") [x; tree_value (g_ops (std L)) orig f t2; tree_value (g_ops (std L)) orig f t3] s = (OOk r, s) -> is_unit_val r = false ->
  run_slots (g_ops (std L)) orig (callop (std L) stl) (X1 ++ SOp ($"then") i :: slots_of (chain_of t2) ++ SOp ($"else") j :: slots_of (chain_of t3)) s = (OOk r, s).
Proof.
  intros N1 S1 U1 H Hf Hc Hr. destruct (H t2) as (C2 & G2 & L2 & A2 & U2); [cbn; auto|]. destruct (H t3) as (C3 & G3 & L3 & A3 & U3); [cbn; auto|].
  destruct (tree_settles L stl orig f t2 s C2 Hf G2 L2 A2) as (n2 & j2 & N2 & S2).
  destruct (tree_settles L stl orig f t3 s C3 Hf G3 L3 A3) as (n3 & j3 & N3 & S3).
  pose proof (settle_both _ _ _ _ _ _ j (else_wall L) (tighter_rtl L) _ _ _ _ _ _ _ eq_refl S2 S3) as S4. pose proof (settle_both _ _ _ _ _ _ i (then_wall L) (tighter_rtl L) _ _ _ _ _ _ _ eq_refl S1 S4) as S5.
  set (X := X1 ++ _) in *. set (y := tree_value _ _ _ t2) in *. set (z := tree_value _ _ _ t3) in *.
  assert (LX : length X = length X1 + length (slots_of (chain_of t2)) + length (slots_of (chain_of t3)) + 2) by (unfold X; rewrite app_length; cbn [length]; rewrite app_length; cbn [length]; lia).
  assert (F : exists k, loop_fuel X = n1 + (n2 + n3) + (2 + k)) by (exists (loop_fuel X - (n1 + (n2 + n3) + 2)); unfold loop_fuel; lia). destruct F as [k F].
  unfold run_slots, bind. rewrite F, (loop_settles _ _ _ _ _ _ (both_levels L) _ _ _ S5). cbn [Nat.add op_loop app].
  rewrite both_levels, (levels_none _ _ _ _ (settles_end _ _ _ _ _ _ _ _ S5)). cbn [app]. rewrite choice_scan by assumption.
  assert (R : run_op (g_ops (std L)) orig (callop (std L) stl) [SRes x j1; SOp ($"then") i; SRes y j2; SOp ($"else") j; SRes z j3] 1 ($"then") 1 s = (OOk [SRes r i], s)).
  { unfold run_op. rewrite find_then. cbn [nth_error op_l op_r length Nat.ltb Nat.leb Nat.add Nat.sub skipn firstn app take_inputs slot_idx]. unfold bind, ret. cbn [seq_eqb]. 
    replace (seq_eqb ($"else") ($"else")) with true by reflexivity. rewrite Hc. reflexivity. }
  unfold bind. rewrite R. assert (E : scan_levels (g_ops (std L)) (tighter L ++ looser L) [SRes r i] = Ok None).
  { rewrite <- both_levels. apply (scan_levels_done (g_ops (std L)) (r, i) (std_good L)). split; [exact Hr|constructor]. }
  rewrite E. reflexivity.
Qed.
