(** Proofs about [format]: C65. *)
From Coq Require Import ZArith QArith Qpower Qround Qfield Lqa Lia Ascii String List Sorted.
From Verif Require Import Base Num NumSpec BaseProofs Parse Bases Units UnitsSpec UnitsProofs2 UnitReg Syntax UnitCalcSpec UnitCalc SimplifySpec SimplifyProofs PartsSpec.
Import ListNotations.
Open Scope Q_scope.

Definition good (c : cand) : Prop := ukind_of (c_unit c) = UScale /\ 0 < size c.
Lemma good_scaled c : good c -> scaled (c_unit c).
Proof. intros [A B]. split; [exact A|]. unfold size in B. lra. Qed.
Lemma uconvert_to c x : good c -> exists y, uconvert (c_unit c) x 1 false = Ok y /\ y * size c == x.
Proof.
  intros G. destruct (uconvert_scaled (c_unit c) x 1 false (good_scaled c G)) as (w & E & W). exists w. split; [exact E|].
  rewrite W. destruct G as [_ G]. unfold size in *. change (Qpower (uscale (c_unit c)) 1) with (uscale (c_unit c)). field. lra.
Qed.
Lemma uconvert_from c x : good c -> exists y, uconvert (c_unit c) x (-1) false = Ok y /\ y == x * size c.
Proof.
  intros G. destruct (uconvert_scaled (c_unit c) x (-1) false (good_scaled c G)) as (w & E & W). exists w. split; [exact E|].
  rewrite W. destruct G as [_ G]. unfold size in *. change (Qpower (uscale (c_unit c)) (-1)) with (/ uscale (c_unit c)). field. lra.
Qed.

(** *** The units of a system, largest first *)
Definition bigger (a b : cand) : Prop := size b <= size a.
Lemma sized_spec l : Forall good l -> exists t, sized l = Ok t /\ map fst t = l /\ Forall (fun e => snd e == size (fst e)) t.
Proof.
  induction l as [|c l IH]; intros F; [exists []; repeat split; constructor|]. apply Forall_cons_iff in F as [G F]. destruct (IH F) as (t & E & M & V).
  destruct (uconvert_from c 1 G) as (y & Ey & Vy). cbn [sized]. rewrite Ey. cbn [obind]. rewrite E. cbn [obind]. eexists. split; [reflexivity|].
  split; [cbn [map fst]; now rewrite M|]. constructor; [cbn [fst snd]; rewrite Vy; ring|exact V].
Qed.
Lemma insert_in x l e : In e (insert_cand x l) <-> e = x \/ In e l.
Proof.
  induction l as [|y l IH]; cbn [insert_cand]; [cbn [In]; intuition congruence|]. destruct (negb (Qle_bool (snd x) (snd y))); cbn [In]; [intuition congruence|]. rewrite IH. tauto.
Qed.
Definition above (a b : cand * Q) : Prop := snd b <= snd a.
Lemma insert_sorted x l : StronglySorted above l -> StronglySorted above (insert_cand x l).
Proof.
  induction l as [|y l IH]; intros S; cbn [insert_cand]; [repeat constructor|].
  apply StronglySorted_inv in S as [S F]. destruct (Qle_bool (snd x) (snd y)) eqn:E; cbn [negb].
  - apply Qle_bool_iff in E. constructor; [now apply IH|]. apply Forall_forall. intros e I. apply insert_in in I as [-> |I]; [exact E|].
    rewrite Forall_forall in F. now apply F.
  - assert (E' : snd y < snd x). { apply Qnot_le_lt. intros H. apply Qle_bool_iff in H. congruence. }
    constructor; [now constructor|]. constructor; [unfold above; lra|]. apply Forall_forall. intros e I. rewrite Forall_forall in F. specialize (F e I). unfold above in *. lra.
Qed.
Lemma fold_insert t : forall acc, StronglySorted above acc ->
  StronglySorted above (fold_left (fun acc x => insert_cand x acc) t acc) /\
  forall e, In e (fold_left (fun acc x => insert_cand x acc) t acc) <-> In e t \/ In e acc.
Proof.
  induction t as [|x t IH]; intros acc S; cbn [fold_left]; [split; [exact S|cbn [In]; tauto]|].
  destruct (IH (insert_cand x acc) (insert_sorted x acc S)) as [A B]. split; [exact A|]. intros e. rewrite B, insert_in. cbn [In]. intuition congruence.
Qed.
Lemma sorted_map t : StronglySorted above t -> Forall (fun e => snd e == size (fst e)) t -> StronglySorted bigger (map fst t).
Proof.
  induction t as [|x t IH]; intros S F; cbn [map]; [constructor|]. apply StronglySorted_inv in S as [S A]. apply Forall_cons_iff in F as [Fx F].
  constructor; [now apply IH|]. apply Forall_forall. intros c I. apply in_map_iff in I as (e & <- & I). rewrite Forall_forall in A, F.
  specialize (A e I). specialize (F e I). unfold bigger, above in *. cbv beta in F. lra.
Qed.
Lemma mem_str_in x l : mem_str x l = true <-> In x l.
Proof.
  unfold mem_str. rewrite existsb_exists. split; [intros (y & I & E)|intros I; exists x; split; [exact I|apply seq_eqb_refl]].
  apply seq_eqb_iff in E. now subst.
Qed.
Lemma get_system_spec N sys dim : (forall c, offered N sys dim c -> good c) ->
  exists all, get_system N sys dim = Ok all /\ StronglySorted bigger all /\ forall c, In c all <-> offered N sys dim c.
Proof.
  intros G. unfold get_system. cbv zeta. set (l := match assoc dim (n_units N) with Some l => l | None => [] end).
  assert (O : forall c, In c (filter (fun c => mem_str sys (usystems (c_unit c)) && c_use c)%bool l) <-> offered N sys dim c).
  { intros c. rewrite filter_In, andb_true_iff, mem_str_in. unfold offered, l. destruct (assoc dim (n_units N)) as [cs|].
    - split; [intros (I & S & U); exists cs; auto|intros (cs' & E & I & S & U); injection E as <-; auto].
    - split; [intros ([] & _)|intros (cs' & E & _); discriminate E]. }
  destruct (sized_spec (filter (fun c => mem_str sys (usystems (c_unit c)) && c_use c)%bool l)) as (t & E & M & V).
  { apply Forall_forall. intros c I. apply G, O, I. }
  rewrite E. cbn [obind]. eexists. split; [reflexivity|]. destruct (fold_insert t [] (SSorted_nil _)) as [A B]. split.
  - apply sorted_map; [exact A|]. apply Forall_forall. intros e I. apply B in I as [I|[]]. rewrite Forall_forall in V. now apply V.
  - intros c. rewrite <- O, <- M. rewrite !in_map_iff. split; intros (e & <- & I); exists e; (split; [reflexivity|]).
    + apply B in I. destruct I as [I|[]]. exact I.
    + apply B. now left.
Qed.
Lemma sorted_filter (f : cand -> bool) l : StronglySorted bigger l -> StronglySorted bigger (filter f l).
Proof.
  induction l as [|c l IH]; intros S; cbn [filter]; [constructor|]. apply StronglySorted_inv in S as [S F]. destruct (f c); [|now apply IH].
  constructor; [now apply IH|]. apply Forall_forall. intros d I. apply filter_In in I as [I _]. rewrite Forall_forall in F. now apply F.
Qed.

(** *** The prefix *)
Lemma first_spec all b l : forall x c, Forall good l -> StronglySorted bigger l -> first_at_least b all l = Ok (x, c) ->
  In c l /\ x * size c == b /\ (forall d, In d l -> size d <= b -> size d <= size c) /\
  (1 <= x \/ exists z, last_cand all = Some z /\ uid (c_unit c) = uid (c_unit z)).
Proof.
  induction l as [|c l IH]; intros y e F S H; cbn [first_at_least] in H; [discriminate H|].
  apply Forall_cons_iff in F as [G F]. apply StronglySorted_inv in S as [S A]. destruct (uconvert_to c b G) as (x & E & V). rewrite E in H. cbn [obind] in H.
  destruct (Qle_bool 1 x) eqn:L; cbn [orb] in H.
  - injection H as <- <-. apply Qle_bool_iff in L. split; [now left|]. split; [exact V|]. split; [|now left].
    intros d [<- |I] _; [apply Qle_refl|]. rewrite Forall_forall in A. apply (A d I).
  - assert (L' : x < 1). { apply Qnot_le_lt. intros Q. apply Qle_bool_iff in Q. congruence. }
    destruct (match last_cand all with Some z => same_cand c z | None => false end) eqn:Z.
    + injection H as <- <-. split; [now left|]. split; [exact V|]. split.
      * intros d [<- |I] _; [apply Qle_refl|]. rewrite Forall_forall in A. apply (A d I).
      * right. destruct (last_cand all) as [z|]; [|discriminate Z]. exists z. split; [reflexivity|]. apply Z.eqb_eq, Z.
    + destruct (IH y e F S H) as (I & V' & B & D). split; [now right|]. split; [exact V'|]. split; [|exact D].
      intros d [<- |J] Hd; [|now apply B]. exfalso. destruct G as [_ G]. assert (x * size c < 1 * size c) by (apply Qmult_lt_compat_r; assumption). lra.
Qed.
Lemma first_ok all b l : Forall good l -> (exists d, In d l /\ (size d <= b \/ last_cand all = Some d)) -> exists x c, first_at_least b all l = Ok (x, c).
Proof.
  induction l as [|c l IH]; intros F (d & I & D); [destruct I|]. cbn [first_at_least]. apply Forall_cons_iff in F as [G F].
  destruct (uconvert_to c b G) as (x & E & V). rewrite E. cbn [obind].
  destruct (Qle_bool 1 x || match last_cand all with Some z => same_cand c z | None => false end)%bool eqn:Z; [eauto|].
  apply orb_false_iff in Z as [Z1 Z2]. destruct I as [<- |I]; [exfalso|apply IH; [exact F|exists d; auto]].
  destruct D as [D|D].
  - destruct G as [_ G]. assert (x < 1). { apply Qnot_le_lt. intros Q. apply Qle_bool_iff in Q. congruence. }
    assert (x * size c < 1 * size c) by (apply Qmult_lt_compat_r; assumption). lra.
  - rewrite D in Z2. unfold same_cand, ueqb in Z2. rewrite Z.eqb_refl in Z2. discriminate Z2.
Qed.
Lemma last_in (l : list cand) z : last_cand l = Some z -> In z l.
Proof. unfold last_cand. intros H. apply in_rev. destruct (rev l); [discriminate H|]. injection H as ->. now left. Qed.
Lemma last_small l z : StronglySorted bigger l -> last_cand l = Some z -> forall d, In d l -> size z <= size d.
Proof.
  induction l as [|c l IH]; intros S H d I; [destruct I|]. apply StronglySorted_inv in S as [S A].
  assert (K : l = [] /\ z = c \/ last_cand l = Some z).
  { unfold last_cand in *. cbn [rev] in H. destruct l as [|e l']; [left; cbn in H; injection H as ->; auto|right].
    destruct (rev (e :: l')) as [|w r] eqn:R; [apply (f_equal (@length cand)) in R; rewrite rev_length in R; discriminate R|]. exact H. }
  destruct K as [[-> ->]|K].
  - destruct I as [<- |[]]. apply Qle_refl.
  - destruct I as [<- |I]; [|now apply IH]. rewrite Forall_forall in A. apply (A z (last_in _ _ K)).
Qed.

(** *** The loop *)
Definition setting (N : normaliser) (sys dim : str) (all : list cand) : Prop :=
  StronglySorted bigger all /\ (forall c, In c all <-> offered N sys dim c) /\ Forall good all /\
  (forall c d, In c all -> In d all -> uid (c_unit c) = uid (c_unit d) -> size c = size d).
Lemma base_base c : base_name c = base c.
Proof. reflexivity. Qed.
Lemma prefix_spec N sys dim all x c p : setting N sys dim all -> In c all -> prefix_at_least_one x c all = Ok p ->
  best_prefix N sys dim p /\ worth p == x * size c /\ base c = base (snd p) /\ (size c <= worth p -> size c <= size (snd p)).
Proof.
  intros (S & O & G & U) I. unfold prefix_at_least_one. assert (Gc : good c) by (rewrite Forall_forall in G; now apply G).
  destruct (uconvert_from c x Gc) as (b & E & V). rewrite E. cbn [obind]. destruct p as [y e]. intros H.
  apply first_spec in H; [|apply Forall_forall; intros d J; apply filter_In in J as [J _]; rewrite Forall_forall in G; now apply G|now apply sorted_filter].
  destruct H as (J & W & B & D). apply filter_In in J as [J1 J2]. apply seq_eqb_iff in J2. rewrite !base_base in J2.
  assert (W' : worth (y, e) == b) by exact W.
  assert (B' : forall d, In d all -> base d = base e -> size d <= worth (y, e) -> size d <= size e).
  { intros d Id Bd Sd. apply B; [apply filter_In; split; [exact Id|apply seq_eqb_iff; rewrite !base_base; congruence]|rewrite <- W'; exact Sd]. }
  split; [split; [|split]|split; [|split]].
  - cbn [snd]. now apply O.
  - cbn [snd]. intros d Od. apply B', O, Od.
  - cbn [fst snd]. destruct D as [D|(z & Lz & Ez)]; [now left|right]. split; [now apply O|]. intros d Od. apply O in Od.
    rewrite (U e z J1 (last_in _ _ Lz) Ez). now apply (last_small all z S Lz).
  - rewrite W', V. reflexivity.
  - symmetry. exact J2.
  - cbn [snd]. apply B'; [exact I|symmetry; exact J2].
Qed.
Lemma ulist_factor c : factor (ulist (c_unit c)) == size c.
Proof. unfold ulist, size. cbn [factor]. change (Qpower (uscale (c_unit c)) 1) with (uscale (c_unit c)). ring. Qed.
Lemma ulist_scaled c : good c -> all_scaled (ulist (c_unit c)).
Proof. intros G. constructor; [apply (good_scaled c G)|constructor]. Qed.
Lemma factor_pos_conv from num : all_scaled from -> exists x, lconvert from num (-1) false = Ok x /\ x == num * factor from.
Proof.
  intros A. destruct (lconvert_scaled from false A num (-1)) as (w & E & W). exists w. split; [exact E|]. rewrite W.
  change (Qpower (factor from) (-1)) with (/ factor from). unfold Qdiv. now rewrite Qinv_involutive.
Qed.
Lemma total_cons p ps : total_worth (p :: ps) == worth p + total_worth ps.
Proof. reflexivity. Qed.
Lemma keep_total (p : Q * cand) ps : total_worth (if Qeq_bool (fst p) 0 then ps else p :: ps) == worth p + total_worth ps.
Proof. destruct (Qeq_bool (fst p) 0) eqn:E; [|reflexivity]. apply Qeq_bool_iff in E. unfold worth. rewrite E. ring. Qed.
Lemma loop_spec N sys dim all : setting N sys dim all -> forall todo num from ps,
  (forall c, In c todo -> In c all /\ unprefixed c) -> all_scaled from -> format_loop all todo num from = Ok ps ->
  (todo <> [] -> total_worth ps == num * factor from) /\ (0 <= num * factor from -> largest_first N sys dim ps).
Proof.
  intros HS. pose proof HS as (S & O & G & U). induction todo as [|c r IH]; intros num from ps T A H; cbn [format_loop] in H.
  - injection H as <-. split; [congruence|constructor].
  - destruct (T c (or_introl eq_refl)) as [Ic Pc]. assert (Tr : forall d, In d r -> In d all /\ unprefixed d) by (intros d Id; apply T; now right).
    assert (Gc : good c) by (rewrite Forall_forall in G; now apply G).
    destruct (factor_pos_conv from num A) as (b & E & V). rewrite E in H. cbn [obind] in H. destruct (uconvert_to c b Gc) as (x & E' & V'). rewrite E' in H. cbn [obind] in H.
    destruct (is_nil r) eqn:R.
    + destruct (prefix_at_least_one x c all) as [p| |] eqn:P; cbn [obind] in H; try discriminate H. injection H as <-.
      apply (prefix_spec N sys dim all x c p HS Ic) in P as (Bp & Wp & _ & _). split.
      * intros _. rewrite keep_total, Wp, V', V. cbn [total_worth fold_right]. ring.
      * intros _. destruct (Qeq_bool (fst p) 0); constructor. exact Bp.
    + destruct (Qle_bool 1 x) eqn:L.
      * apply Qle_bool_iff in L. destruct (prefix_at_least_one (inject_Z (Qfloor x)) c all) as [p| |] eqn:P; cbn [obind] in H; try discriminate H.
        apply (prefix_spec N sys dim all _ c p HS Ic) in P as (Bp & Wp & Nb & Sc). pose proof Bp as (Op & _). apply O in Op.
        assert (Gp : good (snd p)) by (rewrite Forall_forall in G; now apply G).
        match type of H with obind ?y _ = _ => assert (Y : exists z, y = Ok z /\ z * size (snd p) == b - worth p) end.
        { destruct (same_cand (snd p) c) eqn:Q.
          - eexists. split; [reflexivity|]. apply Z.eqb_eq in Q. rewrite <- V', <- (U _ _ Op Ic Q). unfold worth. ring.
          - destruct (uconvert_from c x Gc) as (y1 & E1 & V1). rewrite E1. cbn [obind]. destruct (uconvert_to (snd p) y1 Gp) as (y2 & E2 & V2). rewrite E2. cbn [obind].
            eexists. split; [reflexivity|]. unfold worth. rewrite <- V', <- V1, <- V2. ring. }
        destruct Y as (y & Ey & Vy). rewrite Ey in H. cbn [obind] in H. clear Ey.
        destruct (format_loop all r y (ulist (c_unit (snd p)))) as [ps1| |] eqn:F; cbn [obind] in H; try discriminate H. injection H as <-.
        destruct (IH y _ ps1 Tr (ulist_scaled _ Gp) F) as [T1 T2]. assert (Rn : r <> []) by (intros ->; discriminate R). specialize (T1 Rn).
        rewrite ulist_factor in T1, T2. split.
        -- intros _. rewrite keep_total, T1, Vy, V. ring.
        -- intros _. destruct Gc as [Kc Gc].
           pose proof (Qfloor_le x) as F1. pose proof (Qlt_floor x) as F2. rewrite inject_Z_plus in F2. change (inject_Z 1) with 1 in F2.
           assert (F1' : inject_Z (Qfloor x) * size c <= x * size c) by (apply Qmult_le_compat_r; lra).
           assert (F2' : x * size c < (inject_Z (Qfloor x) + 1) * size c) by (apply Qmult_lt_compat_r; lra).
           assert (F3 : (1 <= Qfloor x)%Z). { change 1%Z with (Qfloor 1). now apply Qfloor_resp_le. }
           assert (F4 : 1 <= inject_Z (Qfloor x)). { change 1 with (inject_Z 1). rewrite <- Zle_Qle. exact F3. }
           assert (F5 : 1 * size c <= inject_Z (Qfloor x) * size c) by (apply Qmult_le_compat_r; lra).
           assert (LF : largest_first N sys dim ps1) by (apply T2; rewrite Vy; lra).
           destruct (Qeq_bool (fst p) 0); [exact LF|]. apply (LFMore N sys dim p ps1 c (Qfloor x)); auto; [now apply O|apply Sc; lra|lra].
      * destruct (IH x _ ps Tr (ulist_scaled _ Gc) H) as [T1 T2]. assert (Rn : r <> []) by (intros ->; discriminate R). specialize (T1 Rn).
        rewrite ulist_factor in T1, T2. rewrite V', V in T1. rewrite V', V in T2. auto.
Qed.
Lemma loop_negative N sys dim all : setting N sys dim all -> forall todo num from ps,
  (forall c, In c todo -> In c all /\ unprefixed c) -> all_scaled from -> num * factor from < 0 -> todo <> [] -> format_loop all todo num from = Ok ps ->
  exists p, ps = [p] /\ smallest N sys dim (snd p).
Proof.
  intros HS. pose proof HS as (S & O & G & U). induction todo as [|c r IH]; intros num from ps T A Ng Nn H; [congruence|]. cbn [format_loop] in H.
  destruct (T c (or_introl eq_refl)) as [Ic Pc]. assert (Tr : forall d, In d r -> In d all /\ unprefixed d) by (intros d Id; apply T; now right).
  assert (Gc : good c) by (rewrite Forall_forall in G; now apply G).
  destruct (factor_pos_conv from num A) as (b & E & V). rewrite E in H. cbn [obind] in H. destruct (uconvert_to c b Gc) as (x & E' & V'). rewrite E' in H. cbn [obind] in H.
  assert (Nx : x * size c < 0) by (rewrite V', V; exact Ng). clear Nn.
  assert (Neg : forall y (d : cand), good d -> y * size d < 0 -> y < 0).
  { intros y d [_ Gd] Hy. apply Qnot_le_lt. intros Q. assert (0 * size d <= y * size d) by (apply Qmult_le_compat_r; lra). lra. }
  destruct (is_nil r) eqn:R.
  - destruct (prefix_at_least_one x c all) as [p| |] eqn:P; cbn [obind] in H; try discriminate H. injection H as <-.
    apply (prefix_spec N sys dim all x c p HS Ic) in P as ((Op & _ & D) & Wp & _ & _).
    assert (Gp : good (snd p)) by (rewrite Forall_forall in G; now apply G, O). unfold worth in Wp.
    assert (Np : fst p < 0) by (apply (Neg _ (snd p) Gp); lra). exists p. split.
    + destruct (Qeq_bool (fst p) 0) eqn:Z; [|reflexivity]. apply Qeq_bool_iff in Z. lra.
    + destruct D as [D|D]; [lra|exact D].
  - destruct (Qle_bool 1 x) eqn:L.
    + apply Qle_bool_iff in L. specialize (Neg x c Gc Nx). lra.
    + apply (IH x _ ps Tr (ulist_scaled _ Gc)); auto; [rewrite ulist_factor; exact Nx|intros ->; discriminate R].
Qed.
Lemma loop_ok N sys dim all : setting N sys dim all -> forall todo num from,
  (forall c, In c todo -> In c all /\ unprefixed c) -> all_scaled from ->
  (forall c, last_cand todo = Some c -> exists z, last_cand all = Some z /\ base z = base c) -> exists ps, format_loop all todo num from = Ok ps.
Proof.
  intros HS. pose proof HS as (S & O & G & U). induction todo as [|c r IH]; intros num from T A Z; cbn [format_loop]; [eauto|].
  destruct (T c (or_introl eq_refl)) as [Ic Pc]. assert (Tr : forall d, In d r -> In d all /\ unprefixed d) by (intros d Id; apply T; now right).
  assert (Gc : good c) by (rewrite Forall_forall in G; now apply G).
  assert (Gf : Forall good (filter (fun x0 => seq_eqb (base_name x0) (base_name c)) all)).
  { apply Forall_forall; intros d J; apply filter_In in J as [J _]; rewrite Forall_forall in G; now apply G. }
  assert (Ib : forall d, In d all -> base d = base c -> In d (filter (fun x0 => seq_eqb (base_name x0) (base_name c)) all)).
  { intros d Id Bd. apply filter_In. split; [exact Id|]. apply seq_eqb_iff. exact Bd. }
  destruct (factor_pos_conv from num A) as (b & E & V). rewrite E. cbn [obind]. destruct (uconvert_to c b Gc) as (x & E' & V'). rewrite E'. cbn [obind].
  destruct (is_nil r) eqn:R.
  - assert (P : exists p, prefix_at_least_one x c all = Ok p).
    { unfold prefix_at_least_one. destruct (uconvert_from c x Gc) as (y & Ey & Vy). rewrite Ey. cbn [obind].
      destruct r; [|discriminate R]. destruct (Z c eq_refl) as (z & Lz & Bz).
      destruct (first_ok all y _ Gf (ex_intro _ z (conj (Ib z (last_in _ _ Lz) Bz) (or_intror Lz)))) as (q & d & H). eauto. }
    destruct P as (p & P). rewrite P. cbn [obind]. eauto.
  - assert (Zr : forall d, last_cand r = Some d -> exists z, last_cand all = Some z /\ base z = base d).
    { intros d Hd. apply Z. unfold last_cand in *. cbn [rev]. destruct (rev r); [discriminate Hd|exact Hd]. }
    destruct (Qle_bool 1 x) eqn:L.
    + apply Qle_bool_iff in L.
      assert (F3 : (1 <= Qfloor x)%Z). { change 1%Z with (Qfloor 1). now apply Qfloor_resp_le. }
      assert (F4 : 1 <= inject_Z (Qfloor x)). { change 1 with (inject_Z 1). rewrite <- Zle_Qle. exact F3. }
      pose proof Gc as [_ Gc']. assert (F5 : 1 * size c <= inject_Z (Qfloor x) * size c) by (apply Qmult_le_compat_r; lra).
      assert (P : exists p, prefix_at_least_one (inject_Z (Qfloor x)) c all = Ok p).
      { unfold prefix_at_least_one. destruct (uconvert_from c (inject_Z (Qfloor x)) Gc) as (y & Ey & Vy). rewrite Ey. cbn [obind].
        destruct (first_ok all y _ Gf) as (q & d & H); [exists c; split; [now apply Ib|left; lra]|eauto]. }
      destruct P as (p & P). rewrite P. cbn [obind]. apply (prefix_spec N sys dim all _ c p HS Ic) in P as (Bp & _ & _ & _). destruct Bp as (Op & _). apply O in Op.
      assert (Gp : good (snd p)) by (rewrite Forall_forall in G; now apply G).
      match goal with |- context [obind ?y _] => assert (Y : exists z, y = Ok z) end.
      { destruct (same_cand (snd p) c); [eauto|]. destruct (uconvert_from c x Gc) as (y1 & E1 & V1). rewrite E1. cbn [obind].
        destruct (uconvert_to (snd p) y1 Gp) as (y2 & E2 & V2). rewrite E2. cbn [obind]. eauto. }
      destruct Y as (y & Ey). rewrite Ey. cbn [obind]. destruct (IH y (ulist (c_unit (snd p))) Tr (ulist_scaled _ Gp) Zr) as (ps & H). rewrite H. cbn [obind]. eauto.
    + apply IH; auto. now apply ulist_scaled.
Qed.
