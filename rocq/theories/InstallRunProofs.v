(** Registering units cannot fail: what each step needs, and what it leaves. *)
From Coq Require Import ZArith QArith Ascii String List Bool Lia.
From Verif Require Import Base BaseProofs Bases Units UnitsProofs5 Install InstallProofs UnitReg UnitData.
Import ListNotations.
Open Scope nat_scope.

(** * Names that are looked up while installing, with the dimension and (for members of ambiguous units) the systems of their unit *)
Definition watched : list (str * (str * option (list str))) :=
  [($"meter", ($"distance", None)); ($"second", ($"time", None)); ($"kilogram", ($"mass", None)); ($"joule", ($"energy", None));
   ($"bits", ($"data", None)); ($"bytes", ($"data", None));
   ($"short ton", ($"mass", Some [$"us"])); ($"long ton", ($"mass", Some [$"uk"]));
   ($"US fluid ounce", ($"volume", Some [$"us"])); ($"UK fluid ounce", ($"volume", Some [$"uk"]));
   ($"US pint", ($"volume", Some [$"us"])); ($"UK pint", ($"volume", Some [$"uk"]));
   ($"US quart", ($"volume", Some [$"us"])); ($"UK quart", ($"volume", Some [$"uk"]));
   ($"US gallon", ($"volume", Some [$"us"])); ($"UK gallon", ($"volume", Some [$"uk"]))].
Definition prefixes_of (us : list ustep) : list prefix := flat_map (fun s => match s with SPrefixes l => l | _ => [] end) us.
Definition all_prefixes : list prefix := prefixes_of (flat_map steps_of [$"units.advancedunitprefixes"; $"units.basicunitprefixes"; $"units.units"]).
Definition dims_of (us : list ustep) : list str := flat_map (fun s => match s with SDim d _ => [d] | _ => [] end) us.
Definition pname (p : option prefix) : option str := match p with Some x => p_name x | None => None end.
(** The names a step registers, given the prefixes *)
Definition registers (ps : list prefix) (s : ustep) : list str :=
  match s with
  | SUnit _ d p _ => prefixed (pname p) (d_names d)
  | SPrefixed _ d lo hi => flat_map (fun p => if within lo hi (p_scale p) then prefixed (p_name p) (d_names d) else []) ps
  | _ => []
  end.
Definition named (us : list ustep) (n : str) : Prop :=
  exists us1 s us2 m, us = us1 ++ s :: us2 /\ In m (registers (prefixes_of us1) s) /\ lower m = lower n.

(** * What is true of the normaliser after steps *)
Definition fits_watch (w : str * option (list str)) (dim : str) (sys : list str) : bool :=
  seq_eqb dim (fst w) && match snd w with Some l => if list_eq_dec (list_eq_dec ascii_dec) sys l then true else false | None => true end.
Definition is_watched_unit (w : str * option (list str)) (d : udef) : Prop :=
  exists u, d = UDef u /\ fits_watch w (udim u) (usystems u) = true.
Definition uids_ok (r : list (str * udef)) (next : Z) : Prop :=
  (forall n u, assoc n r = Some (UDef u) -> (uid u < next)%Z) /\
  (forall n m u v, assoc n r = Some (UDef u) -> assoc m r = Some (UDef v) -> uid u = uid v -> udim u = udim v).
Definition uinv (us : list ustep) (N : normaliser) : Prop :=
  n_prefixes N = prefixes_of us /\
  (forall d, In d (dims_of us) -> In d (n_dims N)) /\
  (forall n w, In (n, w) watched -> find_ambig n (ambigs (n_reg N)) = None /\
     forall d, assoc (lower n) (rnames (n_reg N)) = Some d -> is_watched_unit w d) /\
  (forall n, named us n -> assoc (lower n) (rnames (n_reg N)) <> None) /\
  uids_ok (rnames (n_reg N)) (n_next N).

Lemma uinv_start : uinv [] norm_init.
Proof.
  split; [reflexivity|]. split; [intros d []|]. split; [intros n w H; split; [reflexivity|intros d E; discriminate E]|].
  split; [intros n (us1 & s & us2 & m & E & _); destruct us1; discriminate E|]. split; intros; discriminate.
Qed.

(** * Names bound *)
Lemma fold_dset (d : udef) names : forall t k, assoc k (fold_left (fun t n => dset (lower n) d t) names t) =
  if mem_str k (map lower names) then Some d else assoc k t.
Proof.
  induction names as [|n names IH]; intros t k; cbn [fold_left map]; [reflexivity|].
  rewrite IH, assoc_dset. unfold mem_str. cbn [existsb]. rewrite (seq_eqb_sym k (lower n)).
  destruct (existsb (seq_eqb k) (map lower names)); [now rewrite orb_true_r|]. rewrite orb_false_r. reflexivity.
Qed.

(** * When a step cannot fail *)
Definition no_clash (names : list str) (dim : str) (sys : list str) : bool :=
  forallb (fun e => negb (mem_str (lower (fst e)) (map lower names)) || fits_watch (snd e) dim sys) watched.
Definition is_watched (n : str) : bool := match assoc n watched with Some _ => true | None => false end.
Definition systems_of (n : str) : list str := match assoc n watched with Some (_, Some l) => l | _ => [] end.
Definition dim_of (n : str) : str := match assoc n watched with Some (d, _) => d | None => [] end.
Definition has_systems (n : str) : bool := match assoc n watched with Some (_, Some _) => true | _ => false end.
Fixpoint distinct (l : list str) : bool := match l with [] => true | x :: r => negb (mem_str x r) && distinct r end.
Definition multi_ok (l : list (str * Z)) : bool :=
  negb (match l with [] => true | _ => false end) && forallb (fun e => is_watched (fst e) && negb (snd e =? 0)%Z) l &&
  distinct (map (fun e => dim_of (fst e)) l).
Definition static_ok (s : ustep) : bool :=
  match s with
  | SDim _ _ => true
  | SUnit dim d p systems => no_clash (prefixed (pname p) (d_names d)) dim (match systems with Some x => x | None => d_systems d end)
  | SPrefixed dim d _ _ => forallb (fun p => no_clash (prefixed (p_name p) (d_names d)) dim (d_systems d)) all_prefixes
  | SAmb names syms units =>
    forallb (fun e => negb (isunit names syms (fst e)) && negb (mem_str (lower (fst e)) (map lower names))) watched &&
    forallb has_systems units && distinct (flat_map systems_of units)
  | SMulti _ l => multi_ok l
  | SSystem n _ => is_watched n && forallb (fun e => match snd (snd e) with Some _ => negb (seq_eqb (fst (snd e)) (dim_of n)) | None => true end) watched
  | SPrefixes _ => true
  | SSystems _ => true
  end.
Definition needs_dims (s : ustep) : list str :=
  match s with
  | SDim d (Some l) => filter (fun x => negb (seq_eqb x d)) (map fst l)
  | SUnit dim _ _ _ => [dim]
  | SPrefixed dim _ _ _ => [dim]
  | _ => []
  end.
Definition needs_names (s : ustep) : list str :=
  match s with SAmb _ _ units => units | SMulti _ l => map fst l | SSystem n _ => [n] | _ => [] end.

Lemma prefixes_app a b : prefixes_of (a ++ b) = prefixes_of a ++ prefixes_of b.
Proof. apply flat_map_app. Qed.
Lemma dims_app a b : dims_of (a ++ b) = dims_of a ++ dims_of b.
Proof. apply flat_map_app. Qed.
Lemma named_last us s n : named (us ++ [s]) n -> named us n \/ exists m, In m (registers (prefixes_of us) s) /\ lower m = lower n.
Proof.
  intros (us1 & x & us2 & m & E & I & L). destruct (@exists_last _ (x :: us2)) as (w & y & W); [discriminate|].
  rewrite W, app_assoc in E. apply app_inj_tail in E as [E ->]. destruct w as [|x' w].
  - cbn in W. inversion W; subst. rewrite app_nil_r. right. eauto.
  - left. assert (x' = x) by (inversion W; auto). subst x'. exists us1, x, w, m. subst us. auto.
Qed.

Lemma uget us N n w : uinv us N -> In (n, w) watched -> named us n ->
  exists u, get_unit (n_prefs N) (n_reg N) n = Ok (Some (UDef u)) /\ fits_watch w (udim u) (usystems u) = true /\ assoc (lower n) (rnames (n_reg N)) = Some (UDef u).
Proof.
  intros (_ & _ & W & Nm & _) I H. destruct (W _ _ I) as [A B]. unfold get_unit. rewrite A.
  destruct (assoc (lower n) (rnames (n_reg N))) as [d|] eqn:E; [|destruct (Nm n H E)]. destruct (B d eq_refl) as (u & -> & F). eauto.
Qed.

(** Adding a unit *)
Lemma add_unit_inv us N dim d p systems names sys (U : n_prefixes N = prefixes_of us) :
  uinv us N -> In dim (n_dims N) -> names = prefixed (pname p) (d_names d) -> sys = match systems with Some x => x | None => d_systems d end ->
  no_clash names dim sys = true ->
  exists N', add_unit dim (make_unit d dim p systems) N = Ok N' /\ uinv us N' /\ n_prefixes N' = n_prefixes N /\ n_dims N' = n_dims N /\
    (forall n, assoc (lower n) (rnames (n_reg N)) <> None -> assoc (lower n) (rnames (n_reg N')) <> None) /\
    forall m n, In m names -> lower m = lower n -> assoc (lower n) (rnames (n_reg N')) <> None.
Proof.
  intros (P & D & W & Nm & [Ul Ui]) I En Es C. unfold add_unit. rewrite (proj2 (mem_str_iff dim (n_dims N)) I).
  eexists. split; [reflexivity|]. set (u := c_unit (make_unit d dim p systems (n_next N))).
  assert (Hn : unames u = names) by (subst names u; destruct p; reflexivity).
  assert (Hs : usystems u = sys) by (subst sys u; reflexivity). assert (Hd : udim u = dim) by reflexivity. assert (Hi : uid u = n_next N) by reflexivity.
  assert (A : forall k, assoc k (rnames (reg_add_unit u (n_reg N))) = if mem_str k (map lower names) then Some (UDef u) else assoc k (rnames (n_reg N))).
  { intros k. unfold reg_add_unit, reg_names. cbn [rnames]. rewrite fold_dset, Hn. reflexivity. }
  assert (K : forall n, assoc (lower n) (rnames (n_reg N)) <> None -> assoc (lower n) (rnames (reg_add_unit u (n_reg N))) <> None).
  { intros n H. rewrite A. destruct (mem_str _ _); [discriminate|exact H]. }
  split; [|split; [reflexivity|]; split; [reflexivity|]; split; [exact K|]].
  - split; [exact P|]. split; [exact D|]. split; [|split].
    + intros n w Hw. destruct (W n w Hw) as [W1 W2]. split; [exact W1|]. cbn [n_reg]. fold u. intros x. rewrite A. destruct (mem_str (lower n) (map lower names)) eqn:M.
      * intros [= <-]. exists u. split; [reflexivity|]. unfold no_clash in C. rewrite forallb_forall in C. specialize (C _ Hw). cbn [fst snd] in C.
        rewrite M in C. cbn [negb orb] in C. now rewrite Hd, Hs.
      * apply W2.
    + intros n H. cbn [n_reg]. fold u. apply K, Nm, H.
    + cbn [n_reg n_next]. fold u. split.
      * intros n v. rewrite A. destruct (mem_str _ _); [intros [= <-]; lia|]. intros H. specialize (Ul _ _ H). lia.
      * intros n m v x. rewrite !A. destruct (mem_str n _), (mem_str m _).
        -- now intros [= <-] [= <-].
        -- intros [= <-] H E. specialize (Ul _ _ H). lia.
        -- intros H [= <-] E. specialize (Ul _ _ H). lia.
        -- apply Ui.
  - intros m n Hm L. cbn [n_reg]. fold u. rewrite A. assert (M : mem_str (lower n) (map lower names) = true) by (apply mem_str_iff; rewrite <- L; apply in_map, Hm).
    rewrite M. discriminate.
Qed.

Lemma add_prefixed_inv us dim d lo hi ps : forall N, uinv us N -> n_prefixes N = prefixes_of us -> In dim (n_dims N) ->
  (forall p, In p ps -> no_clash (prefixed (p_name p) (d_names d)) dim (d_systems d) = true) ->
  exists N', add_prefixed dim d lo hi ps N = Ok N' /\ uinv us N' /\ n_prefixes N' = n_prefixes N /\ n_dims N' = n_dims N /\
    (forall n, assoc (lower n) (rnames (n_reg N)) <> None -> assoc (lower n) (rnames (n_reg N')) <> None) /\
    forall p m n, In p ps -> within lo hi (p_scale p) = true -> In m (prefixed (p_name p) (d_names d)) -> lower m = lower n ->
      assoc (lower n) (rnames (n_reg N')) <> None.
Proof.
  induction ps as [|p ps IH]; intros N U P I C; cbn [add_prefixed].
  - exists N. split; [reflexivity|]. split; [exact U|]. split; [reflexivity|]. split; [reflexivity|]. split; [auto|]. intros p m n [].
  - destruct (within lo hi (p_scale p)) eqn:Wi.
    + assert (En : d_names (no_symbols p d) = d_names d) by (unfold no_symbols; destruct (p_sym p), (p_name p); reflexivity).
      assert (Es : d_systems (no_symbols p d) = d_systems d) by (unfold no_symbols; destruct (p_sym p), (p_name p); reflexivity).
      destruct (add_unit_inv us N dim (no_symbols p d) (Some p) None (prefixed (p_name p) (d_names d)) (d_systems d) P U I) as (N1 & E1 & U1 & P1 & D1 & K1 & B1).
      { cbn [pname]. now rewrite En. } { now rewrite Es. } { apply C. now left. }
      rewrite E1. cbn [obind].
      destruct (IH N1 U1) as (N2 & E2 & U2 & P2 & D2 & K2 & B2); [congruence|now rewrite D1|intros q Hq; apply C; now right|].
      exists N2. split; [exact E2|]. split; [exact U2|]. split; [congruence|]. split; [congruence|]. split; [auto|].
      intros q m n [<-|Hq] Wq Hm L; [apply K2; eapply B1; eauto|eapply B2; eauto].
    + cbn [obind]. destruct (IH N U P I) as (N2 & E2 & U2 & P2 & D2 & K2 & B2); [intros q Hq; apply C; now right|].
      exists N2. split; [exact E2|]. split; [exact U2|]. split; [exact P2|]. split; [exact D2|]. split; [exact K2|].
      intros q m n [<-|Hq] Wq Hm L; [congruence|eapply B2; eauto].
Qed.

(** Lists of units *)
Lemma is_watched_in n : is_watched n = true -> exists w, In (n, w) watched /\ fst w = dim_of n /\ (has_systems n = true -> snd w = Some (systems_of n)).
Proof.
  unfold is_watched, dim_of, has_systems, systems_of. destruct (assoc n watched) as [[d o]|] eqn:E; [|discriminate]. intros _.
  exists (d, o). split; [|split; [reflexivity|destruct o; [reflexivity|discriminate]]].
  revert E. generalize watched. intros l. induction l as [|[k v] l IH]; cbn [assoc]; [discriminate|].
  destruct (seq_eqb k n) eqn:F; [intros [= ->]; apply seq_eqb_iff in F; subst; now left|intros H; right; auto].
Qed.
Lemma fits_dim w d s : fits_watch w d s = true -> d = fst w.
Proof. unfold fits_watch. intros H. apply andb_true_iff in H as [H _]. now apply seq_eqb_iff in H. Qed.
Lemma fits_sys w d s l : fits_watch w d s = true -> snd w = Some l -> s = l.
Proof. unfold fits_watch. intros H E. rewrite E in H. apply andb_true_iff in H as [_ H]. destruct (list_eq_dec (list_eq_dec ascii_dec) s l); [auto|discriminate]. Qed.

Lemma distinct_nodup l : distinct l = true -> NoDup l.
Proof.
  induction l as [|x l IH]; cbn [distinct]; [constructor|]. intros H. apply andb_true_iff in H as [A B]. constructor; auto.
  intros I. apply mem_str_iff in I. rewrite I in A. discriminate.
Qed.

Lemma get_units_ok us N : uinv us N -> forall l, Forall (fun e => is_watched (fst e) = true /\ named us (fst e)) l ->
  exists r, get_units N l = Ok (map (fun e : unit * Z => (ulist (fst e), snd e)) r) /\
    Forall2 (fun (a : str * Z) (b : unit * Z) => udim (fst b) = dim_of (fst a) /\ exists n, assoc n (rnames (n_reg N)) = Some (UDef (fst b))) l r.
Proof.
  intros U. induction l as [|[n k] l IH]; intros F; cbn [get_units].
  - exists []. split; [reflexivity|constructor].
  - apply Forall_cons_iff in F as [[A B] F]. cbn [fst] in A, B. destruct (is_watched_in n A) as (w & I & Dw & _).
    destruct (uget us N n w U I B) as (u & G & Fw & Bd). rewrite G. cbn [obind]. destruct (IH F) as (r & E & F2). rewrite E. cbn [obind].
    exists ((u, k) :: r). split; [reflexivity|]. constructor; [|exact F2]. cbn [fst]. split; [rewrite <- Dw; eapply fits_dim; eauto|eauto].
Qed.
Lemma pl_add_new (u : unit) p : forall (l : upl), (forall e, In e l -> uid (fst e) <> uid u) -> pl_add ueqb u p l = l ++ [(u, p)].
Proof.
  induction l as [|[v q] l IH]; intros H; cbn [pl_add app]; [reflexivity|].
  unfold ueqb at 1. assert (uid v <> uid u) by (apply (H (v, q)); now left). destruct (Z.eqb_spec (uid v) (uid u)); [contradiction|].
  rewrite IH; [reflexivity|]. intros e I. apply H. now right.
Qed.
Lemma new_nonempty (r : list (unit * Z)) : forall acc : upl, NoDup (map (fun e => uid (fst e)) r) ->
  (forall e f, In e acc -> In f r -> uid (fst e) <> uid (fst f)) ->
  fold_left (fun acc e => addall acc (fst e) (snd e)) (map (fun e : unit * Z => (ulist (fst e), snd e)) r) acc =
  acc ++ map (fun e : unit * Z => (fst e, (1 * snd e)%Z)) r.
Proof.
  induction r as [|[u k] r IH]; intros acc D H; cbn [map fold_left]; [now rewrite app_nil_r|].
  cbn [map fst] in D. apply NoDup_cons_iff in D as [D1 D2]. unfold addall at 2. cbn [fst snd ulist fold_left].
  rewrite pl_add_new by (intros e I; apply (H e (u, k) I); now left). rewrite IH; [now rewrite <- app_assoc|exact D2|].
  intros e f I J. apply in_app_or in I as [I|[<-|[]]]; [apply H; [exact I|now right]|]. cbn [fst]. intros E. apply D1. rewrite E. apply (in_map (fun e => uid (fst e))), J.
Qed.
Lemma multi_made us N l : uinv us N -> multi_ok l = true -> (forall n, In n (map fst l) -> named us n) -> exists m, make_multiunit N l = Ok m.
Proof.
  intros U M H. unfold multi_ok in M. apply andb_true_iff in M as [M D]. apply andb_true_iff in M as [NE M].
  destruct (get_units_ok us N U l) as (r & E & F2).
  { apply Forall_forall. intros e I. split; [|apply H, in_map, I]. rewrite forallb_forall in M. specialize (M e I). now apply andb_true_iff in M as [M _]. }
  unfold make_multiunit. rewrite E. cbn [obind]. destruct U as (_ & _ & _ & _ & [_ Ui]).
  assert (ND : NoDup (map (fun e => uid (fst e)) r)).
  { apply distinct_nodup in D. clear E NE H M. revert D. induction F2 as [|a b l r [A (n & B)] F2 IH]; intros D; [constructor|].
    cbn [map] in D |- *. apply NoDup_cons_iff in D as [D1 D2]. constructor; [|auto]. intros I. apply D1. apply in_map_iff in I as (c & Ec & Ic).
    clear IH D1 D2. induction F2 as [|a' b' l r [A' (n' & B')] F2 IH]; [destruct Ic|]. destruct Ic as [->|Ic].
    - left. rewrite <- A, <- A'. eapply Ui; eauto.
    - right. apply IH, Ic. }
  unfold upl_new. rewrite new_nonempty; [|exact ND|intros e f []]. destruct F2 as [|a b l r]; [discriminate NE|]. cbn. eauto.
Qed.

(** Ambiguous units *)
Lemma ambig_add_some sys u : forall a, NoDup sys -> (forall s, In s sys -> assoc s (aunits a) = None) ->
  exists a', fold_left (fun acc s => match acc with None => None | Some a => match assoc s (aunits a) with Some _ => None
       | None => Some (mkAmbig (anames a) (asyms a) (aunits a ++ [(s, u)])) end end) sys (Some a) = Some a' /\
    anames a' = anames a /\ asyms a' = asyms a /\ aunits a' = aunits a ++ map (fun s => (s, u)) sys.
Proof.
  induction sys as [|s sys IH]; intros a D H; cbn [fold_left].
  - exists a. cbn [map]. rewrite app_nil_r. auto.
  - apply NoDup_cons_iff in D as [D1 D2]. rewrite (H s (or_introl eq_refl)).
    destruct (IH (mkAmbig (anames a) (asyms a) (aunits a ++ [(s, u)])) D2) as (a' & E & A & B & C).
    { intros t I. cbn [aunits]. specialize (H t (or_intror I)). revert H. generalize (aunits a). intros l. induction l as [|[k v] l IHl]; cbn [assoc app].
      - intros _. destruct (seq_eqb s t) eqn:F; [|reflexivity]. apply seq_eqb_iff in F. subst. contradiction.
      - destruct (seq_eqb k t); [discriminate|exact IHl]. }
    exists a'. split; [exact E|]. split; [exact A|]. split; [exact B|]. rewrite C. cbn [aunits map]. now rewrite <- app_assoc.
Qed.
Lemma assoc_none_iff {A} (l : list (str * A)) s : assoc s l = None <-> ~ In s (map fst l).
Proof.
  induction l as [|[k v] l IH]; cbn [assoc map fst]; [split; auto; intros _ []|]. destruct (seq_eqb k s) eqn:F.
  - apply seq_eqb_iff in F. split; [discriminate|]. intros H. destruct H. now left.
  - rewrite IH. split; [intros H [E|I]; [subst; rewrite seq_eqb_refl in F; discriminate|auto]|intros H I; apply H; now right].
Qed.
Lemma nodup_parts {A} (a b : list A) : NoDup (a ++ b) -> NoDup a /\ NoDup b /\ forall x, In x a -> ~ In x b.
Proof.
  induction a as [|x a IH]; cbn [app]; intros D; [split; [constructor|]; split; [exact D|intros x []]|].
  apply NoDup_cons_iff in D as [D1 D2]. destruct (IH D2) as (A1 & A2 & A3). split; [constructor; [intros I; apply D1, in_or_app; now left|exact A1]|].
  split; [exact A2|]. intros y [<-|I]; [intros J; apply D1, in_or_app; now right|auto].
Qed.
Lemma ambig_filled us N : uinv us N -> forall units a, forallb has_systems units = true -> (forall n, In n units -> named us n) ->
  NoDup (map fst (aunits a) ++ flat_map systems_of units) ->
  exists a', ambig_fill (n_prefs N) (n_reg N) units a = Ok a' /\ anames a' = anames a /\ asyms a' = asyms a.
Proof.
  intros U. induction units as [|n units IH]; intros a S Nm D; cbn [ambig_fill]; [exists a; auto|].
  cbn [forallb] in S. apply andb_true_iff in S as [S1 S2].
  assert (Wn : is_watched n = true) by (unfold has_systems in S1; unfold is_watched; destruct (assoc n watched); [reflexivity|discriminate]).
  destruct (is_watched_in n Wn) as (w & I & Dw & Sw). destruct (uget us N n w U I (Nm n (or_introl eq_refl))) as (u & G & Fw & _).
  rewrite G. cbn [obind]. assert (Su : usystems u = systems_of n) by (eapply fits_sys; eauto).
  cbn [flat_map] in D. unfold ambig_add. rewrite Su.
  destruct (ambig_add_some (systems_of n) u a) as (a' & E & A & B & C).
  { apply nodup_parts in D as (_ & D & _). now apply nodup_parts in D as (D & _). }
  { intros s Is. apply assoc_none_iff. intros J. apply nodup_parts in D as (_ & _ & D). apply (D s J). apply in_or_app. now left. }
  rewrite E. destruct (IH a' S2) as (a2 & E2 & A2 & B2).
  { intros m Im. apply Nm. now right. }
  { rewrite C, map_app, map_map. cbn [fst]. rewrite map_id, <- app_assoc. exact D. }
  exists a2. split; [exact E2|]. split; congruence.
Qed.

Lemma find_ambig_app n l a : find_ambig n (l ++ [a]) = match find_ambig n l with Some x => Some x | None => if isunit (anames a) (asyms a) n then Some a else None end.
Proof. induction l as [|b l IH]; cbn [app find_ambig]; [destruct (isunit _ _ n); reflexivity|]. destruct (isunit (anames b) (asyms b) n); auto. Qed.

Lemma assoc_map {A} (g : A -> A) (l : list (str * A)) n : assoc n (map (fun e => (fst e, g (snd e))) l) = option_map g (assoc n l).
Proof. induction l as [|[k v] l IH]; cbn [map assoc fst snd]; [reflexivity|]. destruct (seq_eqb k n); [reflexivity|exact IH]. Qed.
Lemma with_system_same i s u : uid (with_system i s u) = uid u /\ udim (with_system i s u) = udim u /\ (uid u <> i -> with_system i s u = u).
Proof. unfold with_system. destruct (Z.eqb_spec (uid u) i); cbn; auto. split; [reflexivity|]. split; [reflexivity|]. congruence. Qed.

(** The invariant from one list of steps to another, when no name is lost *)
Lemma uinv_more us us' N N' : uinv us N -> n_prefixes N' = prefixes_of us' -> (forall d, In d (dims_of us') -> In d (n_dims N')) ->
  (forall n w, In (n, w) watched -> find_ambig n (ambigs (n_reg N')) = None /\ forall d, assoc (lower n) (rnames (n_reg N')) = Some d -> is_watched_unit w d) ->
  (forall n, assoc (lower n) (rnames (n_reg N)) <> None -> assoc (lower n) (rnames (n_reg N')) <> None) ->
  (forall n, named us' n -> named us n \/ assoc (lower n) (rnames (n_reg N')) <> None) -> uids_ok (rnames (n_reg N')) (n_next N') -> uinv us' N'.
Proof.
  intros (_ & _ & _ & Nm & _) P D W K M U. split; [exact P|]. split; [exact D|]. split; [exact W|]. split; [|exact U].
  intros n H. destruct (M n H) as [H'|H']; [apply K, Nm, H'|exact H'].
Qed.

Lemma ustep_runs us N s : uinv us N -> static_ok s = true -> (forall p, In p (prefixes_of us) -> In p all_prefixes) ->
  (forall d, In d (needs_dims s) -> In d (dims_of us)) -> (forall n, In n (needs_names s) -> named us n) ->
  exists N', reg_step N s = Ok N' /\ uinv (us ++ [s]) N'.
Proof.
  intros U S Pre Nd Nn. pose proof U as (P & D & W & Nm & Ud).
  assert (Pq : forall q, prefixes_of [q] = match q with SPrefixes l => l | _ => [] end) by (intros []; cbn; rewrite ?app_nil_r; reflexivity).
  assert (Dq : forall q, dims_of [q] = match q with SDim d _ => [d] | _ => [] end) by (intros []; reflexivity).
  destruct s as [d rel|dim d p systems|dim d lo hi|names syms units|dim l|n sy|l|l]; cbn [reg_step static_ok needs_dims needs_names] in *.
  - unfold add_dimension. set (dims := if mem_str d (n_dims N) then n_dims N else n_dims N ++ [d]).
    assert (Dd : forall x, In x (n_dims N) \/ x = d -> In x dims).
    { intros x H. unfold dims. destruct (mem_str d (n_dims N)) eqn:M.
      - destruct H as [H| ->]; [exact H|]. now apply mem_str_iff.
      - apply in_or_app. destruct H as [H| ->]; [now left|right; now left]. }
    assert (Inv : forall r, uinv (us ++ [SDim d rel]) (mkNorm dims r (n_units N) (n_multis N) (n_prefixes N) (n_systems N) (n_prefs N) (n_reg N) (n_maxlen N) (n_next N))).
    { intros r. apply (uinv_more us _ N); cbn [n_prefixes n_dims n_reg n_next]; auto.
      - rewrite prefixes_app, Pq, app_nil_r. exact P.
      - intros x I. rewrite dims_app, Dq in I. apply in_app_or in I as [I|[<-|[]]]; auto.
      - intros n H. apply named_last in H as [H|(m & [] & _)]. now left. }
    destruct rel as [l|]; [|eauto]. assert (F : forallb (fun e => mem_str (fst e) dims) l = true).
    { apply forallb_forall. intros e I. apply mem_str_iff. destruct (seq_eqb (fst e) d) eqn:E.
      - apply seq_eqb_iff in E. apply Dd. now right.
      - apply Dd. left. apply D, Nd, filter_In. split; [apply in_map, I|]. now rewrite E. }
    rewrite F. eauto.
  - destruct (add_unit_inv us N dim d p systems _ _ P U (D _ (Nd _ (or_introl eq_refl))) eq_refl eq_refl S) as (N' & E & U' & P' & D' & K & B).
    exists N'. split; [exact E|]. pose proof U' as (_ & _ & W' & _ & Ud'). apply (uinv_more us _ N); auto.
    + rewrite prefixes_app, Pq, app_nil_r, P'. exact P.
    + intros x I. rewrite dims_app, Dq, app_nil_r in I. rewrite D'. auto.
    + intros n H. apply named_last in H as [H|(m & I & L)]; [now left|]. right. exact (B m n I L).
  - rewrite P. destruct (add_prefixed_inv us dim d lo hi (prefixes_of us) N U P (D _ (Nd _ (or_introl eq_refl)))) as (N' & E & U' & P' & D' & K & B).
    { intros p I. rewrite forallb_forall in S. apply S, Pre, I. }
    exists N'. split; [exact E|]. pose proof U' as (_ & _ & W' & _ & Ud'). apply (uinv_more us _ N); auto.
    + rewrite prefixes_app, Pq, app_nil_r, P'. exact P.
    + intros x I. rewrite dims_app, Dq, app_nil_r in I. rewrite D'. auto.
    + intros n H. apply named_last in H as [H|(m & I & L)]; [now left|]. right. cbn [registers] in I. apply in_flat_map in I as (p & Ip & I).
      destruct (within lo hi (p_scale p)) eqn:Wi; [|destruct I]. exact (B p m n Ip Wi I L).
  - apply andb_true_iff in S as [S S3]. apply andb_true_iff in S as [S1 S2].
    destruct (ambig_filled us N U units (mkAmbig names syms []) S2 Nn) as (a & E & A1 & A2).
    { cbn [aunits map app]. apply distinct_nodup, S3. }
    unfold add_ambiguous, reg_add_ambiguous. rewrite E. cbn [obind anames asyms]. eexists. split; [reflexivity|]. cbn [anames asyms] in A1, A2.
    assert (A : forall k, assoc k (fold_left (fun t n => dset (lower n) (UAmb a) t) names (rnames (n_reg N))) =
                         if mem_str k (map lower names) then Some (UAmb a) else assoc k (rnames (n_reg N))) by (intros k; apply fold_dset).
    apply (uinv_more us _ N); cbn [n_prefixes n_dims n_reg n_next reg_names rnames ambigs]; auto.
    + rewrite prefixes_app, Pq, app_nil_r. exact P.
    + intros x I. rewrite dims_app, Dq, app_nil_r in I. auto.
    + intros n w I. destruct (W n w I) as [W1 W2]. rewrite forallb_forall in S1. specialize (S1 _ I). cbn [fst] in S1. apply andb_true_iff in S1 as [X Y].
      apply negb_true_iff in X, Y. rewrite find_ambig_app, W1, A1, A2, X. split; [reflexivity|]. intros d. rewrite A, Y. apply W2.
    + intros n H. rewrite A. destruct (mem_str _ _); [discriminate|exact H].
    + intros n H. apply named_last in H as [H|(m & [] & _)]. now left.
    + destruct Ud as [U1 U2]. split.
      * intros n u. rewrite A. destruct (mem_str _ _); [discriminate|apply U1].
      * intros n m u v. rewrite !A. destruct (mem_str n _); [discriminate|]. destruct (mem_str m _); [discriminate|]. apply U2.
  - destruct (multi_made us N l U S Nn) as (m & E). unfold add_multiunit. rewrite E. cbn [obind]. eexists. split; [reflexivity|].
    apply (uinv_more us _ N); cbn [n_prefixes n_dims n_reg n_next]; auto.
    + rewrite prefixes_app, Pq, app_nil_r. exact P.
    + intros x I. rewrite dims_app, Dq, app_nil_r in I. auto.
    + intros n H. apply named_last in H as [H|(y & [] & _)]. now left.
  - apply andb_true_iff in S as [S1 S2]. destruct (is_watched_in n S1) as (w & I & Dw & _).
    destruct (uget us N n w U I (Nn n (or_introl eq_refl))) as (u & G & Fw & Bd). unfold add_system. rewrite G. cbn [obind]. eexists. split; [reflexivity|].
    set (g := fun d => match d with UDef u0 => UDef (with_system (uid u) sy u0) | UAmb a => UAmb a end).
    assert (A : forall k, assoc k (map (fun e => (fst e, g (snd e))) (rnames (n_reg N))) = option_map g (assoc k (rnames (n_reg N)))) by (intros k; apply assoc_map).
    destruct Ud as [U1 U2].
    apply (uinv_more us _ N); cbn [n_prefixes n_dims n_reg n_next rnames ambigs]; auto.
    + rewrite prefixes_app, Pq, app_nil_r. exact P.
    + intros x Ix. rewrite dims_app, Dq, app_nil_r in Ix. auto.
    + intros m w' I'. destruct (W m w' I') as [W1 W2]. split; [exact W1|]. intros d. fold g. rewrite A.
      destruct (assoc (lower m) (rnames (n_reg N))) as [d'|] eqn:Em; [|discriminate]. intros [= <-]. destruct (W2 _ eq_refl) as (v & -> & Fv).
      cbn [g]. eexists. split; [reflexivity|]. destruct (with_system_same (uid u) sy v) as (_ & Vd & Vs).
      destruct (Z.eq_dec (uid v) (uid u)) as [Eq|Ne].
      * rewrite forallb_forall in S2. specialize (S2 _ I'). cbn [snd fst] in S2. unfold fits_watch in *. rewrite Vd.
        apply andb_true_iff in Fv as [F1 F2]. rewrite F1. cbn [andb]. destruct (snd w') as [l|] eqn:Sw; [|reflexivity].
        assert (Du : udim v = udim u) by (eapply U2; eauto). apply seq_eqb_iff in F1. pose proof (fits_dim _ _ _ Fw) as Fd.
        apply negb_true_iff in S2. rewrite <- F1, Du, Fd, Dw, seq_eqb_refl in S2. discriminate S2.
      * rewrite (Vs Ne). exact Fv.
    + intros m H. fold g. rewrite A. destruct (assoc (lower m) _); [discriminate|exact H].
    + intros m H. apply named_last in H as [H|(y & [] & _)]. now left.
    + fold g. split.
      * intros m v. rewrite A. destruct (assoc m (rnames (n_reg N))) as [[x|x]|] eqn:Em; cbn [option_map g]; try discriminate.
        intros [= <-]. rewrite (proj1 (with_system_same (uid u) sy x)). eapply U1; eauto.
      * intros m k v x. rewrite !A. destruct (assoc m (rnames (n_reg N))) as [[v'|v']|] eqn:Em; cbn [option_map g]; try discriminate.
        intros [= <-]. destruct (assoc k (rnames (n_reg N))) as [[x'|x']|] eqn:Ek; cbn [option_map g]; try discriminate. intros [= <-].
        destruct (with_system_same (uid u) sy v') as (-> & -> & _), (with_system_same (uid u) sy x') as (-> & -> & _). eapply U2; eauto.
  - eexists. split; [reflexivity|]. apply (uinv_more us _ N); cbn [n_prefixes n_dims n_reg n_next]; auto.
    + rewrite prefixes_app, Pq, P. reflexivity.
    + intros x I. rewrite dims_app, Dq, app_nil_r in I. auto.
    + intros n H. apply named_last in H as [H|(y & [] & _)]. now left.
  - eexists. split; [reflexivity|]. apply (uinv_more us _ N); cbn [n_prefixes n_dims n_reg n_next]; auto.
    + rewrite prefixes_app, Pq, app_nil_r. exact P.
    + intros x I. rewrite dims_app, Dq, app_nil_r in I. auto.
    + intros n H. apply named_last in H as [H|(y & [] & _)]. now left.
Qed.
