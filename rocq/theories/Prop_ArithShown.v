(** C74: what arithmetic answers, as it is shown, and entered again. *)
From Coq Require Import ZArith QArith Qabs Qpower Ascii String List Bool Lia Lqa.
From Verif Require Import Base Dec DecProofs Num NumSpec NumProofs3 Lex LexSpec LexProofs Bases Formats Units Syntax Call Parse Exec Std StdRun VarNameSpec ArithTextSpec ArithRunSpec ArithTextProofs4 ArithTextProofs5 Prop_Ints Prop_ArithText.
Import ListNotations.
Open Scope nat_scope.

(** The answer [x] is shown as the numeral [l]. *)
Definition shown_by (L : lib) (x : number) (l : declit) : Prop := num_to_string (l_fmt L) x = Ok (lit_text l) /\ lit_ok l.
Definition undecorated (c : option cast) : Prop := c = None \/ c = Some CDec.

Lemma undecorated_text L x : undecorated (ncast x) -> num_to_string (l_fmt L) x = py_opt (to_string_plain (l_prec L) (f_places (l_fmt L)) x).
Proof. intros [C|C]; unfold num_to_string; rewrite C; reflexivity. Qed.
Lemma value_bound k q : (0 <= k)%Z -> digits_le k q -> (Qabs q <= inject_Z (10 ^ k))%Q.
Proof.
  intros Hk [D _]. rewrite <- (Qred_correct q). destruct (Qred q) as [n d]. cbn [Qnum] in D. unfold Qabs, Qle, inject_Z. cbn [Qnum Qden].
  pose proof (Zle_0_pos d). nia.
Qed.

(** Shown, it is a numeral within one unit of the last place of the value. *)
Theorem c74_shown : forall L vars k text e q n fl s,
  exp_letter L -> pow_ok (l_prec L) (f_pow (l_fmt L)) -> (0 <= k)%Z -> (3 * k + 1 <= l_prec L)%Z ->
  (1 <= f_places (l_fmt L))%Z -> (k + f_places (l_fmt L) < l_prec L)%Z -> vars_hold vars s ->
  arithmetic_text text e -> avalue vars e = Some q -> stays vars (l_prec L) k e -> undecorated (aformat (shown_as s) e) ->
  length text < n -> cf_parse_only fl = false ->
  exists items x l, calculate (std L) n fl text s =
      (CDone [mkCR items (Some (VNum x, None)) (if cf_state fl then Some (s_vars s) else None)], s) /\
    shown_by L x l /\ (Qabs (spec_val l - q) <= 1 / inject_Z (10 ^ f_places (l_fmt L)))%Q.
Proof.
  intros L vars k text e q n fl s H1 H2 H3 H4 Pl Hp Hv T V St U Hn Hf.
  destruct (text_answer L vars k text e q n fl s H1 H2 H3 H4 Hv T V St Hn Hf) as (items & x & R & G & Lo & Vx & C).
  assert (D : digits_le k q) by (destruct e; cbn [stays] in St; rewrite V in St; apply St).
  assert (U' : undecorated (ncast x)) by (rewrite C; exact U).
  pose proof (value_bound k q H3 D) as B.
  destruct (to_string_total (l_prec L) (f_places (l_fmt L)) x (10 ^ k * 10 ^ f_places (l_fmt L))) as [t E].
  - lia.
  - exact Pl.
  - rewrite <- Z.pow_add_r by lia. rewrite Z.abs_eq by (apply Z.pow_nonneg; lia). apply Z.pow_lt_mono_r; lia.
  - rewrite Vx. rewrite Z.abs_eq by (apply Z.mul_nonneg_nonneg; apply Z.pow_nonneg; lia). rewrite inject_Z_mult. unfold Qdiv. rewrite <- Qmult_assoc, Qmult_inv_r.
    + rewrite Qmult_1_r. exact B.
    + intro Z0. assert (0 < 10 ^ f_places (l_fmt L))%Z by (apply Z.pow_pos_nonneg; lia). unfold inject_Z, Qeq in Z0. cbn [Qnum Qden] in Z0. lia.
  - destruct (to_string_error _ _ _ _ Pl E) as (l & -> & K & Er). exists items, x, l. split; [exact R|]. split.
    + split; [|exact K]. rewrite undecorated_text, E by exact U'. reflexivity.
    + rewrite Vx in Er. eapply Qle_trans; [exact Er|].
      assert (E1 : (1 / inject_Z (10 ^ f_places (l_fmt L)) == p10 (- f_places (l_fmt L)))%Q) by (rewrite p10_opp, p10_nonneg by lia; unfold Qdiv; apply Qmult_1_l).
      rewrite E1. assert (E2 : (p10 (1 - l_prec L) * Qabs q <= p10 (- f_places (l_fmt L)))%Q).
      { apply Qle_trans with (p10 (1 - l_prec L) * p10 k)%Q.
        - rewrite !(Qmult_comm (p10 (1 - l_prec L))). apply Qmult_le_compat_r; [rewrite p10_nonneg by lia; exact B|apply Qlt_le_weak, p10_pos].
        - rewrite <- p10_plus. apply p10_le. lia. }
      rewrite <- (Qmult_assoc (1#2) (p10 (1 - l_prec L))). set (u := (p10 (1 - l_prec L) * Qabs q)%Q) in *. set (v := p10 (- f_places (l_fmt L))) in *. clearbody u v. lra.
Qed.
Print Assumptions c74_shown.

Lemma same_text p places a b : nnum a = nnum b -> nden a = nden b -> to_string_plain p places a = to_string_plain p places b.
Proof. intros E1 E2. unfold to_string_plain, to_decimal. rewrite E1, E2. reflexivity. Qed.
(** If the value needs no more places than are shown, the numeral is worth exactly the value, and entered again, in whatever
    state, it answers the same value, shown the same. *)
Theorem c74_shown_again : forall L vars k text e q m n fl s,
  exp_letter L -> pow_ok (l_prec L) (f_pow (l_fmt L)) -> (0 <= k)%Z -> (3 * k + 1 <= l_prec L)%Z ->
  (1 <= f_places (l_fmt L))%Z -> (k + f_places (l_fmt L) < l_prec L)%Z -> vars_hold vars s ->
  arithmetic_text text e -> avalue vars e = Some q -> stays vars (l_prec L) k e -> undecorated (aformat (shown_as s) e) ->
  (q == inject_Z m / inject_Z (10 ^ f_places (l_fmt L)))%Q -> length text < n -> cf_parse_only fl = false ->
  exists items x l, calculate (std L) n fl text s =
      (CDone [mkCR items (Some (VNum x, None)) (if cf_state fl then Some (s_vars s) else None)], s) /\
    shown_by L x l /\ (spec_val l == q)%Q /\
    forall n' fl' s', length (lit_text l) < n' -> cf_parse_only fl' = false ->
    exists items' x', calculate (std L) n' fl' (lit_text l) s' =
        (CDone [mkCR items' (Some (VNum x', None)) (if cf_state fl' then Some (s_vars s') else None)], s') /\
      (val x' == q)%Q /\ shown_by L x' l.
Proof.
  intros L vars k text e q m n fl s H1 H2 H3 H4 Pl Hp Hv T V St U Hm Hn Hf.
  destruct (text_answer L vars k text e q n fl s H1 H2 H3 H4 Hv T V St Hn Hf) as (items & x & R & G & Lo & Vx & C).
  assert (D : digits_le k q) by (destruct e; cbn [stays] in St; rewrite V in St; apply St).
  assert (U' : undecorated (ncast x)) by (rewrite C; exact U).
  pose proof (value_bound k q H3 D) as B.
  assert (P : (0 < 10 ^ f_places (l_fmt L))%Z) by (apply Z.pow_pos_nonneg; lia).
  assert (N : ~ (inject_Z (10 ^ f_places (l_fmt L)) == 0)%Q) by (intros K; change 0%Q with (inject_Z 0) in K; rewrite inject_Z_injective in K; lia).
  assert (Mb : (Z.abs m < 10 ^ l_prec L)%Z).
  { apply Z.le_lt_trans with (10 ^ k * 10 ^ f_places (l_fmt L))%Z.
    - rewrite Hm in B. rewrite Zle_Qle, inject_Z_mult.
      assert (A : (inject_Z (Z.abs m) == Qabs (inject_Z m / inject_Z (10 ^ f_places (l_fmt L))) * inject_Z (10 ^ f_places (l_fmt L)))%Q).
      { rewrite <- (Qabs_pos (inject_Z (10 ^ f_places (l_fmt L)))) at 2 by (change 0%Q with (inject_Z 0); rewrite <- Zle_Qle; lia).
        rewrite <- Qabs_Qmult. unfold Qdiv. rewrite <- Qmult_assoc, (Qmult_comm (/ _)), Qmult_inv_r, Qmult_1_r by exact N. reflexivity. }
      rewrite A. apply Qmult_le_compat_r; [exact B|]. change 0%Q with (inject_Z 0). rewrite <- Zle_Qle. lia.
    - rewrite <- Z.pow_add_r by lia. apply Z.pow_lt_mono_r; lia. }
  assert (Xm : (val x == inject_Z m / inject_Z (10 ^ f_places (l_fmt L)))%Q) by (rewrite Vx; exact Hm).
  destruct (to_string_exact (l_prec L) (f_places (l_fmt L)) x m ltac:(lia) Pl ltac:(lia) Xm Mb) as (l & E & K & Sv & M & _).
  destruct (to_string_lit _ _ _ _ Pl E) as (l2 & E2 & K2 & _ & F2 & _).
  assert (W : (spec_val l == q)%Q) by (rewrite Sv; exact Vx).
  assert (Fr : match l_frac l with Some f => (Z.of_nat (length f) <= l_prec L)%Z | None => True end).
  { pose proof (match_number_complete l2 [] K2 I) as M2. rewrite app_nil_r, <- E2, M in M2. injection M2 as ->. destruct (l_frac l2); [lia|exact I]. }
  exists items, x, l. split; [exact R|]. split; [split; [rewrite undecorated_text, E by exact U'; reflexivity|exact K]|]. split; [exact W|].
  intros n' fl' s' Hn' Hf'.
  assert (A : arithmetic_text (lit_text l) (ANum l)).
  { apply ex_whole. apply (ex_level 0); [lia|]. now apply reads_num. }
  destruct (text_answer L (fun _ => None) k (lit_text l) (ANum l) (spec_val l) n' fl' s' H1 H2 H3 H4 ltac:(intros ? ? X; discriminate X) A eq_refl
    (conj (digits_eq k q _ (Qeq_sym _ _ W) D) Fr) Hn' Hf') as (items' & x' & R' & G' & Lo' & V' & C').
  exists items', x'. split; [exact R'|]. rewrite W in V'. split; [exact V'|]. split; [|exact K].
  rewrite undecorated_text by (left; exact C'). destruct (lowest_parts x q G Lo Vx) as [N1 N2]. destruct (lowest_parts x' q G' Lo' V') as [N1' N2'].
  rewrite (same_text _ _ x' x) by congruence. rewrite E. reflexivity.
Qed.
Print Assumptions c74_shown_again.

(** * A case meeting the hypotheses *)
Example c74_shown_ex : undecorated (aformat (shown_as start) ex_call) /\ (1 <= f_places (l_fmt demo))%Z /\ (24 + f_places (l_fmt demo) < l_prec demo)%Z /\
  answer "1 / 8 + 3" = "3.125"%string /\ answer "3.125" = "3.125"%string /\
  answer "1 / 3" = "0.333333333333333333333333333333"%string.
Proof. split; [now left|]. vm_compute. repeat split; discriminate. Qed.
(** The format comes from the first operand that has one. *)
Definition ex_formats (n : str) : option cast := if seq_eqb n ($"x") then Some CHex else if seq_eqb n ($"y") then Some CBin else None.
Example c74_format_ex : aformat ex_formats (ABin Plus (ABin Plus (ANum (dig "1")) (AVar ($"x"))) (AVar ($"y"))) = Some CHex /\
  answer "x = 0xf0;y = 0b1;1 + x + y" = "0xF2"%string.
Proof. vm_compute. split; reflexivity. Qed.
(** A value that needs more places is not shown exactly, and entered again is another value. *)
Theorem c74_shown_exact_refuted : answer "1 / 3 * 3" = "1"%string /\ answer "0.333333333333333333333333333333 * 3" = "0.999999999999999999999999999999"%string.
Proof. vm_compute. split; reflexivity. Qed.
Print Assumptions c74_shown_exact_refuted.
