(** Installation: the operator table, the parser list, feature dependencies, presets (C17, C18, C19, C49). *)
From Coq Require Import ZArith Ascii String List Bool Lia Permutation.
From Verif Require Import Base Bases Units UnitsProofs5 Install InstallSpec InstallProofs InstallProofs2.
Import ListNotations.

(** C17: whatever operators are added, in whatever order, the table has one level for every level of the layout of
    which an operator was added, in the order of the layout, holding exactly the operators added. *)
Theorem c17_table : forall A (rtl : A -> bool) m l, disjoint_levels m -> (forall s, In s (map fst l) -> In s (concat m)) -> rtl_ok rtl m l ->
  exists ops, add_ops rtl m [] l = Ok ops /\ table_ok l m ops.
Proof.
  intros A rtl m l D K R. apply (add_ops_spec rtl m D l [] []); auto.
  unfold table_ok. clear. induction m as [|x m IH]; cbn [filter used existsb]; auto.
Qed.
(** The same from any table built before. *)
Theorem c17_table_extend : forall A (rtl : A -> bool) m added ops l, disjoint_levels m -> (forall s, In s (map fst l) -> In s (concat m)) ->
  rtl_ok rtl m (added ++ l) -> table_ok added m ops -> exists ops', add_ops rtl m ops l = Ok ops' /\ table_ok (added ++ l) m ops'.
Proof. intros A rtl m added ops l D K R T. exact (add_ops_spec rtl m D l added ops K R T). Qed.
(** Two orders of addition give the same table. *)
Theorem c17_order : forall A (rtl : A -> bool) m l1 l2, disjoint_levels m -> NoDup (map fst l1) -> Permutation l1 l2 ->
  (forall s, In s (map fst l1) -> In s (concat m)) -> rtl_ok rtl m l1 ->
  exists t1 t2, add_ops rtl m [] l1 = Ok t1 /\ add_ops rtl m [] l2 = Ok t2 /\ Forall2 (fun a b : list (str * A) => forall s, assoc s a = assoc s b) t1 t2.
Proof. exact @add_ops_perm. Qed.
(** A level never mixes directions: the addition is refused with a calculator error. *)
Theorem c17_direction : forall A (rtl : A -> bool) added m level ops sym op s o,
  disjoint_levels m -> rtl_ok rtl m added -> table_ok added m ops -> In level m -> In sym level -> In s level -> In (s, o) added ->
  rtl op <> rtl o -> add_op rtl m ops (sym, op) = Calc.
Proof. exact @add_op_mismatch. Qed.
(** The layout of the repository is such a layout. *)
Theorem c17_layout : disjoint_levels op_map.
Proof. exact op_map_disjoint. Qed.
Definition plus_minus : list (str * bool) := [($"+", false); ($"=", true); ($"*", false); ($"-", false); ($"^", false)].
Example c17_ex : add_ops (fun b => b) op_map [] plus_minus =
    Ok [[($"^", false)]; [($"*", false)]; [($"+", false); ($"-", false)]; [($"=", true)]] /\
  add_ops (fun b => b) op_map [] (rev plus_minus) =
    Ok [[($"^", false)]; [($"*", false)]; [($"-", false); ($"+", false)]; [($"=", true)]] /\
  add_op (fun b => b) op_map [[($"+", false)]] ($"-", true) = Calc.
Proof. repeat split; vm_compute; reflexivity. Qed.
(** A symbol that the layout does not list: into an empty table it goes, into any other it raises TypeError. *)
Theorem c17_unlisted_refuted : exists sym : str, ~ In sym (concat op_map) /\
  add_op (fun b => b) op_map [] (sym, false) = Ok [[(sym, false)]] /\ add_op (fun b => b) op_map [[($"+", false)]] (sym, false) = Py.
Proof. exists ($"@"). split; [|split; vm_compute; reflexivity]. intros I. apply mem_str_iff in I. vm_compute in I. discriminate. Qed.

(** C18 *)
Theorem c18_parsers : forall A m (l : list (str * A)), fold_left (add_parser m) l [] = in_map_order m l.
Proof. exact @add_parsers_spec. Qed.
Theorem c18_order : forall A m (l1 l2 : list (str * A)), NoDup (map fst l1) -> Permutation l1 l2 ->
  fold_left (add_parser m) l1 [] = fold_left (add_parser m) l2 [].
Proof. intros A m l1 l2 N P. rewrite !add_parsers_spec. apply in_map_order_perm; auto. Qed.
(** A parser is active exactly when it was added and the layout lists it. *)
Theorem c18_active : forall A m (l : list (str * A)) n p, In (n, p) (fold_left (add_parser m) l []) <-> In n m /\ last_op n l = Some p.
Proof.
  intros A m l n p. rewrite add_parsers_spec. unfold in_map_order. rewrite in_flat_map. split.
  - intros (x & I & J). destruct (last_op x l) eqn:E; [|destruct J]. destruct J as [J|[]]. inversion J; subst. auto.
  - intros [I E]. exists n. rewrite E. split; auto. left; auto.
Qed.
Example c18_ex : fold_left (add_parser parser_map) [($"number", 1); ($"nosuch", 9); ($"space", 2); ($"operator", 3); ($"space", 4)] [] =
  [($"space", 4); ($"number", 1); ($"operator", 3)].
Proof. vm_compute. reflexivity. Qed.

(** C19: what is installed is exactly what the request needs, everything after what it needs; and after those of
    the requested features that it must come after. *)
Theorem c19_exact : forall fuel fl names st', install fuel fl names (mkIst [] []) = IOk st' ->
  (forall x, In x (trace st') <-> reach fl names x) /\ exists wanted, incl names wanted /\ well_ordered fl wanted [] (trace st').
Proof. exact install_exact. Qed.
(** From any state: what was installed stays, what is new comes after what it needs, all requested is installed. *)
Theorem c19_extends : forall fuel fl names st st', install fuel fl names st = IOk st' ->
  incl names (trace st') /\ exists new, trace st' = trace st ++ new /\ well_ordered fl (to_install st) (trace st) new.
Proof. intros fuel fl names st st' E. destruct (install_grows fl _ _ _ _ E) as ((_ & G) & H & _). split; auto. Qed.
(** Nothing is installed twice. *)
Theorem c19_once : forall fl rank fuel names st st', acyclic fl rank -> install fuel fl names st = IOk st' -> NoDup (trace st) -> NoDup (trace st').
Proof.
  intros fl rank fuel names st st' AC E N. assert (B : exists b, forall n, In n names -> (rank n < b)%nat).
  { clear. induction names as [|n names (b & IH)]; [exists O; intros ? []|]. exists (S (Nat.max (rank n) b)). intros x [<-|I]; [lia|]. specialize (IH x I). lia. }
  destruct B as (b & B). destruct (install_rank fl rank AC fuel names st st' b E B) as (_ & _ & _ & H). auto.
Qed.
(** It terminates and succeeds when there is no cycle and every name exists. *)
Theorem c19_terminates : forall fl rank fuel names st, acyclic fl rank -> (0 < fuel)%nat -> known fl st ->
  (forall n, In n names -> (S (rank n) < fuel)%nat /\ find_feat fl n <> None) -> exists st', install fuel fl names st = IOk st' /\ known fl st'.
Proof. intros fl rank fuel names st AC. exact (install_total fl rank AC fuel names st). Qed.
(** Installing again what is installed changes nothing. *)
Theorem c19_idempotent : forall fuel fl names st st', install fuel fl names st = IOk st' -> incl names (trace st) -> trace st' = trace st.
Proof. exact install_idem. Qed.
(** The error for a feature that does not exist is never the one written for it: it is always a KeyError. *)
Theorem c19_unknown : forall fl fuel name st, known fl st -> find_feat fl name = None -> ~ In name (to_install st) ->
  install (S fuel) fl [name] st = IKey /\ forall fuel names, install fuel fl names st <> INotFound.
Proof.
  intros fl fuel name st K F N. split; [|intros f names; apply install_never_not_found; auto].
  cbn [install each]. rewrite mark_unknown; auto.
Qed.
Definition fgraph := [mkFeat ($"a") [$"b"] [] None; mkFeat ($"b") [] [$"c"] None; mkFeat ($"c") [] [] None; mkFeat ($"m") [] [] (Some [$"a"; $"c"])].
Definition frank (x : str) : nat := index_of x [$"c"; $"b"; $"a"; $"m"].
Example c19_ex : (forall x, In x fgraph -> forallb (fun y => Nat.ltb (frank y) (frank (fid x))) (fdeps x ++ fafter x) = true) /\
  install 9 fgraph [$"a"] (mkIst [] []) = IOk (mkIst [$"a"; $"b"] [$"b"; $"a"]) /\
  install 9 fgraph [$"a"; $"c"] (mkIst [] []) = IOk (mkIst [$"a"; $"b"; $"c"] [$"c"; $"b"; $"a"]) /\
  install 9 fgraph [$"zz"] (mkIst [] []) = IKey.
Proof. split; [|split; [|split]]; [|vm_compute; reflexivity..]. intros x [<-|[<-|[<-|[<-|[]]]]]; vm_compute; reflexivity. Qed.
(** The members of a meta-feature are not counted as requested until its turn comes: a feature that must come after
    one of them is installed before it when it is listed first. *)
Theorem c19_meta_order_refuted : exists fl names first later ft, find_feat fl first = Some ft /\ In later (fafter ft) /\
  reach fl names later /\ exists st, install 9 fl names (mkIst [] []) = IOk st /\ trace st = [first; later; $"m"].
Proof.
  exists [mkFeat ($"b") [] [$"c"] None; mkFeat ($"c") [] [] None; mkFeat ($"m") [] [] (Some [$"c"])], [$"b"; $"m"], ($"b"), ($"c").
  eexists. split; [vm_compute; reflexivity|]. split; [left; reflexivity|]. split.
  - apply reach_step with (x := $"m"); [constructor; right; left; reflexivity|]. eexists. split; [vm_compute; reflexivity|]. right. eexists. split; [reflexivity|left; reflexivity].
  - eexists. split; vm_compute; reflexivity.
Qed.

(** C49: the graph of the repository has no cycle and nothing missing; so every list of its features installs. *)
Theorem c49_graph : exists rank, acyclic features rank.
Proof. exact (ex_intro _ _ features_acyclic). Qed.
Theorem c49_installs : forall names, (forall n, In n names -> find_feat features n <> None) ->
  exists st, install 100 features names (mkIst [] []) = IOk st /\ NoDup (trace st) /\ (forall x, In x (trace st) <-> reach features names x).
Proof. exact repo_installs. Qed.
(** Each preset installs, and what a smaller one installs is among what a larger one installs. *)
Theorem c49_nested : exists b a s c,
  install 100 features preset_basic (mkIst [] []) = IOk b /\ install 100 features preset_advanced (mkIst [] []) = IOk a /\
  install 100 features preset_scientific (mkIst [] []) = IOk s /\ install 100 features preset_computing (mkIst [] []) = IOk c /\
  incl preset_basic (trace b) /\ incl (trace b) (trace a) /\ incl (trace a) (trace s) /\ incl (trace s) (trace c) /\
  (List.length (trace b) < List.length (trace a) < List.length (trace s))%nat /\ (List.length (trace s) < List.length (trace c))%nat /\
  incl preset_computing (trace c).
Proof.
  assert (F : forall p, forallb (fun n => match find_feat features n with Some _ => true | None => false end) p = true -> forall n, In n p -> find_feat features n <> None).
  { intros p H n I. rewrite forallb_forall in H. specialize (H n I). destruct (find_feat features n); congruence. }
  destruct (repo_installs preset_basic) as (b & Eb & _ & Rb); [apply F; vm_compute; reflexivity|].
  destruct (repo_installs preset_advanced) as (a & Ea & _ & Ra); [apply F; vm_compute; reflexivity|].
  destruct (repo_installs preset_scientific) as (s & Es & _ & Rs); [apply F; vm_compute; reflexivity|].
  destruct (repo_installs preset_computing) as (c & Ec & _ & Rc); [apply F; vm_compute; reflexivity|].
  exists b, a, s, c. split; [auto|]. split; [auto|]. split; [auto|]. split; [auto|].
  split; [intros x I; apply Rb; constructor; auto|].
  split; [intros x I; apply Ra, (reach_mono _ preset_basic), Rb; auto; apply incl_appl, incl_refl|].
  split; [intros x I; apply Rs, (reach_mono _ preset_advanced), Ra; auto; apply incl_appl, incl_refl|].
  split; [intros x I; apply Rc, (reach_mono _ preset_scientific), Rs; auto; apply incl_appl, incl_refl|].
  split; [|split; [|intros x I; apply Rc; constructor; auto]].
  - clear - Eb Ea Es. vm_compute in Eb, Ea, Es. inversion Eb; subst. inversion Ea; subst. inversion Es; subst. cbn. lia.
  - clear - Es Ec. vm_compute in Es, Ec. inversion Es; subst. inversion Ec; subst. cbn. lia.
Qed.

Print Assumptions c17_table.
Print Assumptions c17_order.
Print Assumptions c17_direction.
Print Assumptions c18_parsers.
Print Assumptions c19_exact.
Print Assumptions c19_terminates.
Print Assumptions c19_unknown.
Print Assumptions c49_nested.
