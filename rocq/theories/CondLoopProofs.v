(** The operator loop on the items of conditions: the operators above [and], [or] and [xor] are run first. *)
From Coq Require Import ZArith QArith Ascii String List Bool Lia.
From Verif Require Import Base BaseProofs Dec Num NumSpec Lex Bases Formats Units UnitsProofs5 Install InstallProofs Syntax Pos Call CallSpec Loop LoopSpec LoopProofs Parse Exec ExecSpec Std StdSpec StdProofs2 StdProofs3 StdProofs4 StdProofs5 ArithTextSpec ArithTextProofs ArithTextProofs5 CondTextSpec LoopWalls ChoiceLoopProofs.
Import ListNotations.
Open Scope nat_scope.

(** * One level after the other *)
Lemma settles_on T a b orig call s n X C : settles T a orig call s n X C -> forall m D, settles T (a ++ b) orig call s m C D -> settles T (a ++ b) orig call s (n + m) X D.
Proof.
  induction 1 as [X H|n X i sym w X1 X2 H Hr Hs IH]; intros m D HD; [exact HD|]. cbn [Nat.add].
  exact (settling T (a ++ b) orig call s (n + m) X i sym w X1 D (levels_first _ _ _ _ _ H) Hr (IH m D HD)).
Qed.
(** * Steps make the items fewer *)
Definition lowers (T : optable) (ls : list level) : Prop := forall l X i sym w o, In l ls -> action T l X i = Some (sym, w) -> find_op T sym = Some o -> 2 <= length (op_l o) + length (op_r o) + w.
Lemma run_fewer T orig call X i sym w s X1 s1 o : find_op T sym = Some o -> 2 <= length (op_l o) + length (op_r o) + w -> run_op T orig call X i sym w s = (OOk X1, s1) -> S (length X1) <= length X.
Proof.
  intros Fo H2. unfold run_op. rewrite Fo. destruct (nth_error X i) as [x|]; [|discriminate].
  destruct (i <? length (op_l o)) eqn:E1; [discriminate|]. destruct (length X <? i + length (op_r o) + w) eqn:E2; [discriminate|]. apply Nat.ltb_ge in E1, E2. cbv zeta. unfold bind.
  destruct (take_inputs _ _ _ _ _ s) as [[ins| | |] s2]; try discriminate.
  assert (G : forall r, S (length (firstn (i - length (op_l o)) X ++ [SRes r (slot_idx x)] ++ skipn (i + w + length (op_r o)) X)) <= length X).
  { intros r. rewrite !app_length, firstn_length, skipn_length. cbn [length]. lia. }
  destruct (call sym ins s2) as [[r|e| |] s3]; try discriminate; unfold ret; intros H; inversion H; subst; apply G.
Qed.
Lemma levels_action T ls X i sym w : scan_levels T ls X = Ok (Some (i, sym, w)) -> exists l, In l ls /\ action T l X i = Some (sym, w).
Proof.
  induction ls as [|l ls IH]; cbn [scan_levels]; [discriminate|]. destruct (level_rtl T l) as [r| |]; try discriminate; cbn [obind]; cbv zeta.
  destruct (scan T l X _) as [x|] eqn:E.
  - intros H. injection H as ->. apply scan_action in E. exists l. split; [left; reflexivity|exact E].
  - intros H. destruct (IH H) as (l' & A & B). exists l'. split; [right; exact A|exact B].
Qed.
Lemma settles_fewer T ls orig call s n X X' : lowers T ls -> settles T ls orig call s n X X' -> n + length X' <= length X.
Proof.
  intros HL. induction 1 as [X H|n X i sym w X1 X2 H Hr Hs IH]; [lia|]. destruct (levels_action _ _ _ _ _ _ H) as (l & Hl & Ha).
  destruct (find_op T sym) as [o|] eqn:Fo; [|unfold run_op in Hr; rewrite Fo in Hr; discriminate Hr]. pose proof (run_fewer _ _ _ _ _ _ _ _ _ _ o Fo (HL _ _ _ _ _ _ Hl Ha Fo) Hr). lia.
Qed.
Lemma tighter_lowers L : lowers (g_ops (std L)) (tighter L).
Proof.
  intros l X i sym w o Hl Ha Fo. unfold action in Ha. destruct (nth_error X i) as [x|]; [|discriminate]. cbv zeta in Ha.
  change (t_uassign (g_ops (std L))) with (@None str) in Ha. change (t_umul (g_ops (std L))) with (@None str) in Ha. change (t_udiv (g_ops (std L))) with (@None str) in Ha. cbn [in_level andb] in Ha.
  match type of Ha with (if ?c then _ else _) = _ => destruct c eqn:K end.
  - assert (Es : sym = opt_get (t_imul (g_ops (std L))) /\ w = 0) by (split; congruence). destruct Es as [-> ->]. assert (E : match find_op (g_ops (std L)) (opt_get (t_imul (g_ops (std L)))) with Some o => 2 <=? length (op_l o) + length (op_r o) + 0 | None => false end = true) by reflexivity.
    rewrite Fo in E. apply Nat.leb_le, E.
  - destruct x as [q k|r k]; [|discriminate Ha]. match type of Ha with (if ?c then _ else _) = _ => destruct c eqn:K9 end; [|discriminate Ha]. injection Ha as <- <-.
    assert (C : forallb (fun p : str * operator => 1 <=? length (op_l (snd p)) + length (op_r (snd p))) (concat (t_levels (g_ops (std L)))) = true) by reflexivity.
    rewrite forallb_forall in C. specialize (C _ (find_op_in _ _ _ Fo)). apply Nat.leb_le in C. cbn [snd] in C. lia.
Qed.

(** * The levels above [and], [or] and [xor] *)
Definition lowest_levels (L : lib) : list level := firstn 10 (std_levels L).
Definition join_level (L : lib) : list level := skipn 10 (tighter L).
Lemma low_join L : tighter L = lowest_levels L ++ join_level L. Proof. reflexivity. Qed.
Lemma low_rest L : t_levels (g_ops (std L)) = lowest_levels L ++ (join_level L ++ looser L). Proof. reflexivity. Qed.
Definition low (L : lib) (q : str) : Prop := mem_str q (map fst (concat (lowest_levels L))) = true.
Lemma low_apart L q l : low L q -> In l (join_level L ++ looser L) -> mem_str q (map fst l) = false.
Proof.
  intros Hq Hl. assert (C : forallb (fun q => forallb (fun l => negb (mem_str q (map fst l))) (join_level L ++ looser L)) (map fst (concat (lowest_levels L))) = true) by (vm_compute; reflexivity).
  rewrite forallb_forall in C. specialize (C q (proj1 (mem_str_iff _ _) Hq)). rewrite forallb_forall in C. specialize (C l Hl). apply negb_true_iff in C. exact C.
Qed.
Lemma low_tight L q : low L q -> tight L q.
Proof. unfold low, tight. rewrite low_join, concat_app, map_app. intros H. apply mem_str_iff, in_or_app. left. apply mem_str_iff, H. Qed.
Lemma table_low L q : of_table (g_ops (std L)) q -> low L q.
Proof. intros [E|[E|[E|E]]]; try discriminate E. injection E as <-. reflexivity. Qed.
Lemma low_rtl L : Forall (fun l => exists b, level_rtl (g_ops (std L)) l = Ok b) (lowest_levels L).
Proof. pose proof (tighter_rtl L) as H. rewrite low_join in H. apply Forall_app in H. exact (proj1 H). Qed.
Lemma join_wall L j : wall (g_ops (std L)) (lowest_levels L) (jsym j).
Proof. destruct j; (split; [reflexivity|]); unfold lowest_levels, std_levels; cbv zeta; cbn [firstn]; repeat (apply Forall_cons; [reflexivity|]); apply Forall_nil. Qed.
Definition all_low (L : lib) (t : tree) : Prop := match t with Leaf _ => True | Node g _ _ => rank (g_ops (std L)) g < 10 end.
Lemma below_low L t : grouped (g_ops (std L)) t -> all_low L t -> Forall (fun gb : gap * leaf => tight_slot (low L) (match fst gb with GOp q i => SOp q i | GImp => SRes (fst (snd gb)) 0 end)) (snd (chain_of t)).
Proof.
  induction t as [x|g l IHl r IHr]; intros G H; [constructor|]. cbn [grouped all_low chain_of snd] in *. destruct G as (G1 & G2 & G3 & G4). apply Forall_app. split; [|constructor].
  - apply IHl; [exact G1|]. destruct l as [y|h a b]; [exact I|]. cbn [all_low]. lia.
  - cbn [fst snd]. destruct g as [q i|]; [|exact I]. cbn [tight_slot]. apply level_no_in; [exact H|]. apply Nat.leb_le. reflexivity.
  - apply IHr; [exact G2|]. destruct r as [y|h a b]; [exact I|]. cbn [all_low]. lia.
Qed.
Lemma slots_low L t : grouped (g_ops (std L)) t -> all_low L t -> Forall (tight_slot (low L)) (slots_of (chain_of t)).
Proof.
  intros G H. pose proof (below_low L t G H) as K. unfold slots_of. constructor; [exact I|]. revert K. induction (snd (chain_of t)) as [|[g b] gs IH]; intros K; cbn [map concat]; [constructor|].
  apply Forall_cons_iff in K as [K1 K2]. apply Forall_app. split; [|exact (IH K2)]. cbn [fst snd] in K1. destruct g; repeat constructor; exact K1.
Qed.
Lemma low_settles L stl orig f t s : good_chain (g_ops (std L)) (chain_of t) -> no_units f -> grouped (g_ops (std L)) t -> all_low L t -> agrees (g_ops (std L)) orig (callop (std L) stl) f s t ->
  exists n j, settles (g_ops (std L)) (lowest_levels L) orig (callop (std L) stl) s n (slots_of (chain_of t)) [SRes (tree_value (g_ops (std L)) orig f t) j].
Proof.
  intros Hc Hf Hg Hl Ha. destruct (loop_tree (g_ops (std L)) orig (callop (std L) stl) f t s (std_good L) Hc Hf Hg Ha) as (j & s' & E).
  destruct (loop_settled (g_ops (std L)) (lowest_levels L) (join_level L ++ looser L) orig (callop (std L) stl) (low L) s (low_rest L) (table_low L) (low_apart L)
    (fun q ins s H => tight_still L stl q ins s (low_tight L q H)) _ _ _ s' (slots_low L t Hg Hl) E) as (n & _ & Hs).
  exists n, j. exact Hs.
Qed.
(** * not *)
Lemma low_done L r k : is_unit_val r = false -> scan_levels (g_ops (std L)) (lowest_levels L) [SRes r k] = Ok None.
Proof.
  intros Hr. assert (E : scan_levels (g_ops (std L)) (t_levels (g_ops (std L))) [SRes r k] = Ok None) by (apply (scan_levels_done (g_ops (std L)) (r, k) (std_good L)); split; [exact Hr|constructor]).
  rewrite low_rest in E. destruct (levels_part _ _ _ _ _ E) as [[x|] E1]; [|exact E1]. rewrite (levels_first _ _ _ _ _ E1) in E. discriminate E.
Qed.
Lemma not_settles L stl orig r b s i k : rval r = VBool b -> settles (g_ops (std L)) (lowest_levels L) orig (callop (std L) stl) s 1 [SOp ($"not") i; SRes r k] [SRes (mkRes (VBool (negb b)) None None) i].
Proof.
  intros Hr. apply (settling _ _ _ _ _ 0 _ 0 ($"not") 1 [SRes (mkRes (VBool (negb b)) None None) i]).
  - destruct r as [rv ru rf ro]; cbn [rval] in Hr; subst rv; reflexivity.
  - unfold run_op. replace (find_op (g_ops (std L)) ($"not")) with (Some (mkOper [] [None] true d_not)) by reflexivity.
    cbn [nth_error op_l op_r length Nat.ltb Nat.leb Nat.add Nat.sub skipn firstn app take_inputs slot_idx Nat.eqb]. unfold bind, ret. rewrite (not_call L stl r b s Hr). reflexivity.
  - constructor. apply low_done. reflexivity.
Qed.
