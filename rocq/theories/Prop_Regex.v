(** C67: matching, finding, splitting and replacing with regular expressions agree on which parts of a text match. *)
From Coq Require Import ZArith QArith Ascii String List Bool Lia.
From Verif Require Import Base BaseProofs Dec Num NumSpec Bases BasesProofs Formats Units Install Syntax Pos PosProofs Call CallSpec CallProofs Loop Parse Exec ExecSpec Std StdSpec StdProofs StdProofs4 StdProofs5 StdProofs6 StdProofs7 StdProofs8 TextSpec TextProofs DateSpec StdRun Regex RegexSpec RegexRun RegexProofs.
Import ListNotations.
Open Scope nat_scope.

Lemma two_scalars L x y t p : shown_as L x t -> shown_as L y p -> scalars [x; y].
Proof. intros (A & B & _) (C & D & _). repeat constructor; assumption. Qed.
Lemma number_scalar L z k : integer_at L z k -> is_list (rval z) = false /\ is_exc (rval z) = false.
Proof. intros (_ & n & H & _). exact (is_num_scalar L z n H). Qed.
Lemma integer_value L z k : (1 <= l_prec L)%Z -> integer_at L z k -> exists n, number_at L z n /\ num_int (l_prec L) n = k.
Proof. intros Hp (_ & n & H & E1 & E2 & S). exists n. split; [exact H|]. exact (integer_int L z k n Hp E1 E2 S H). Qed.

(** For a pattern that can be compiled there is exactly one list of matches; they come one after the other, no two at the
    same place, and the text is made of them and the pieces between them. *)
Theorem c67_matches R p t m : engine_ok R -> re_compile R p = Some m ->
  exists l ps xs, matches R p t l /\ (forall l', matches R p t l' -> l' = l) /\ laid 0 t l ps xs /\ weave ps xs = t /\
    one_after_other 0 l /\ ForallOrdPairs (fun a b => ~ same_place a b) l.
Proof.
  intros HR E. pose proof (engine_sound R p m HR E) as Hm.
  destruct (scan_total m t Hm (scan_fuel t) 0 false) as (l & _ & H); [lia|unfold scan_fuel; lia|].
  destruct (scanned_laid m t Hm 0 false l H) as (ps & xs & Hl & _); [lia|]. change (skipn 0 t) with t in Hl.
  destruct (scanned_order m t Hm 0 false l H) as [O1 O2]; [lia|].
  exists l, ps, xs. repeat split; try assumption.
  - now exists m.
  - intros l' (m' & E' & H'). assert (m' = m) by congruence. subst m'. exact (scanned_one _ _ _ _ _ _ H' H).
  - exact (laid_weave _ _ _ _ _ Hl).
Qed.
Print Assumptions c67_matches.

(** =~ says whether there is a match, !~ the opposite *)
Theorem c67_match L R stl x y t p l st : shown_as L x t -> shown_as L y p -> matches R p t l ->
  exists a b, run_named (with_regex L R) stl ($"=~") [x; y] st = (OOk a, st) /\ yes_no a (l <> []) /\
              run_named (with_regex L R) stl ($"!~") [x; y] st = (OOk b, st) /\ yes_no b (l = []).
Proof.
  intros Hx Hy (m & E & H). pose proof (scanned_step m t l H) as Hs.
  assert (G : forall neg : bool, run_named (with_regex L R) stl (if neg then $"!~" else $"=~") [x; y] st =
    (OOk (mkRes (VBool (match m t 0 false with Some _ => negb neg | None => neg end)) None None), st)).
  { intros neg. rewrite run_op, (texts_call L _ (d_op L R neg) stl [x; y] [t; p] st); [|destruct neg; repeat split; reflexivity|unfold texts_of; auto|discriminate].
    replace (o_impl (d_op L R neg)) with (op_regex L R neg) by (destruct neg; reflexivity).
    cbn [map]. unfold op_regex, bind, lift. destruct Hx as (_ & _ & ->). destruct Hy as (_ & _ & ->). rewrite E. unfold pym, just, ret. destruct (m t 0 false), neg; reflexivity. }
  eexists _, _. split; [exact (G false)|]. split; [|split; [exact (G true)|]].
  - destruct (m t 0 false); [left|right]; split; auto; try (intros F; congruence).
  - destruct (m t 0 false); [right|left]; split; auto.
Qed.
Print Assumptions c67_match.

(** regexget gives the texts of all matches, or of their group if the pattern has one *)
Definition given (t : str) (l : list rmatch) (xs : list str) : Prop :=
  (ungrouped l /\ exists ps, laid 0 t l ps xs) \/ Forall2 of_group l xs.
Lemma given_found R p t l xs : engine_ok R -> matches R p t l -> given t l xs -> map (found_of t) l = map (fun s => [s]) xs.
Proof.
  intros HR H [[U [ps Hl]]|G]; [|now apply found_grouped]. destruct (matches_laid R p t l ps xs HR H Hl) as (X & _). now apply found_ungrouped.
Qed.
Theorem c67_get L R stl x y t p l xs st : engine_ok R -> shown_as L x t -> shown_as L y p -> matches R p t l -> given t l xs ->
  run_named (with_regex L R) stl ($"regexget") [x; y] st = (OOk (mkRes (VList (map text xs)) None None), st).
Proof.
  intros HR Hx Hy H G. destruct (get2_prepare L R x y t p Hx Hy) as [c P].
  rewrite run_get, (scalars_call L _ (d_get L R) stl [x; y] _ _ c st (two_scalars L x y t p Hx Hy) eq_refl eq_refl P).
  replace (o_impl (d_get L R)) with (fn_regexget L R) by reflexivity. unfold fn_regexget, bind, lift.
  destruct Hx as (_ & _ & ->). destruct Hy as (_ & _ & ->). rewrite (findall_eq R p t l st HR H), (given_found R p t l xs HR H G), all_found_texts.
  unfold pym, just, ret, finish. cbn [or_val or_unit or_ref]. rewrite !map_map. reflexivity.
Qed.
Print Assumptions c67_get.

(** With a number [k] it gives the [k]-th *)
Lemma get_index L R stl x y z t p l xs k st : engine_ok R -> (1 <= l_prec L)%Z -> shown_as L x t -> shown_as L y p -> integer_at L z k -> matches R p t l -> given t l xs ->
  run_named (with_regex L R) stl ($"regexget") [x; y; z] st =
  match py_index xs (k - 1) with
  | Some s => (OOk (text s), st)
  | None => if e_tostr (std_env L) z then (OErr (XCalc false (MOp ($"regexget"))), st) else (OPy, st)
  end.
Proof.
  intros HR Hp Hx Hy Hz H G. pose proof (text_shows L x t Hx) as Sx. pose proof (text_shows L y p Hy) as Sy.
  destruct (integer_value L z k Hp Hz) as (n & Hn & N). destruct (get3_prepare L R x y z t p n Hx Hy Hn) as [c P].
  assert (S : scalars [x; y; z]). { pose proof (number_scalar L z k Hz). destruct Hx as (A & B & _), Hy as (C & D & _). repeat constructor; try assumption; apply H0. }
  rewrite run_get, (scalars_call L _ (d_get L R) stl [x; y; z] _ _ c st S eq_refl eq_refl P).
  replace (o_impl (d_get L R)) with (fn_regexget L R) by reflexivity. unfold fn_regexget, bind, lift.
  destruct Hx as (_ & _ & ->). destruct Hy as (_ & _ & ->). rewrite (findall_eq R p t l st HR H), (given_found R p t l xs HR H G), N.
  assert (I : py_index (map (fun s => [s]) xs) (k - 1) = option_map (fun s => [s]) (py_index xs (k - 1))).
  { unfold py_index. rewrite map_length. destruct (0 <=? k - 1)%Z; [apply nth_error_map|]. destruct (_ <=? _)%Z; [apply nth_error_map|reflexivity]. }
  rewrite I. destruct (py_index xs (k - 1)) as [s|]; cbn [option_map pym].
  - reflexivity.
  - unfold pyerr. cbn [forallb]. rewrite Sx, Sy. cbn [andb]. rewrite andb_true_r. destruct (e_tostr (std_env L) z); reflexivity.
Qed.
Theorem c67_get_nth L R stl x y z t p l xs k st : engine_ok R -> (1 <= l_prec L)%Z -> shown_as L x t -> shown_as L y p -> integer_at L z k ->
  matches R p t l -> given t l xs -> (1 <= k <= Z.of_nat (length xs))%Z ->
  exists s, nth_error xs (Z.to_nat (k - 1)) = Some s /\ run_named (with_regex L R) stl ($"regexget") [x; y; z] st = (OOk (text s), st).
Proof.
  intros HR Hp Hx Hy Hz H G K. rewrite (get_index L R stl x y z t p l xs k st HR Hp Hx Hy Hz H G), py_index_in by exact K.
  destruct (nth_error xs (Z.to_nat (k - 1))) as [s|] eqn:N; [now exists s|]. apply nth_error_None in N. lia.
Qed.
Print Assumptions c67_get_nth.
(** Above the number of matches it fails *)
Theorem c67_get_beyond L R stl x y z t p l xs k st : engine_ok R -> (1 <= l_prec L)%Z -> shown_as L x t -> shown_as L y p -> integer_at L z k ->
  (exists w, shown_as L z w) -> matches R p t l -> given t l xs -> (k > Z.of_nat (length xs))%Z ->
  run_named (with_regex L R) stl ($"regexget") [x; y; z] st = (OErr (XCalc false (MOp ($"regexget"))), st).
Proof.
  intros HR Hp Hx Hy Hz [w Hw] H G K. rewrite (get_index L R stl x y z t p l xs k st HR Hp Hx Hy Hz H G), py_index_out by (now left).
  now rewrite (text_shows L z w Hw).
Qed.
Print Assumptions c67_get_beyond.

(** regexcount counts the matches *)
Theorem c67_count L R stl x y t p l st : engine_ok R -> shown_as L x t -> shown_as L y p -> matches R p t l ->
  run_named (with_regex L R) stl ($"regexcount") [x; y] st = (OOk (mkRes (VNum (mkNum (Z.of_nat (length l)) 1 None None)) None None), st).
Proof.
  intros HR Hx Hy H. pose proof (count_prepare L R x y t p Hx Hy) as P.
  rewrite run_count, (scalars_call L _ (d_count L R) stl [x; y] _ _ None st (two_scalars L x y t p Hx Hy) eq_refl eq_refl P).
  replace (o_impl (d_count L R)) with (fn_regexcount L R) by reflexivity. unfold fn_regexcount, bind, lift.
  destruct Hx as (_ & _ & ->). destruct Hy as (_ & _ & ->). rewrite (findall_eq R p t l st HR H), map_length, num_of_Z_eq. reflexivity.
Qed.
Print Assumptions c67_count.

(** regexsplit gives the pieces between the matches *)
Theorem c67_split L R stl x y t p l ps xs st : engine_ok R -> shown_as L x t -> shown_as L y p -> matches R p t l -> ungrouped l -> laid 0 t l ps xs ->
  run_named (with_regex L R) stl ($"regexsplit") [x; y] st = (OOk (mkRes (VList (map text ps)) None None), st) /\ length ps = S (length l).
Proof.
  intros HR Hx Hy H U Hl. split.
  - rewrite run_split, (texts_call L _ (d_resplit L R) stl [x; y] [t; p] st); [|apply takes_d_text|unfold texts_of; auto|discriminate].
    replace (o_impl (d_resplit L R)) with (fn_regexsplit L R) by reflexivity. cbn [map]. unfold fn_regexsplit, bind, lift.
    destruct Hx as (_ & _ & ->). destruct Hy as (_ & _ & ->). rewrite (resplit_eq R p t l st HR H).
    destruct (matches_laid R p t l ps xs HR H Hl) as (_ & _ & _ & S). rewrite (S U). unfold just, ret, finish. cbn [or_val or_unit or_ref]. rewrite !map_map. reflexivity.
  - clear -Hl. induction Hl as [|k q x t r l ps xs _ _ _ IH]; [reflexivity|]. cbn [length]. now rewrite IH.
Qed.
Print Assumptions c67_split.

(** regexsub puts what the replacement stands for, for a match, in the place of the match *)
Lemma sub_call L R stl x y z t p w l f st : engine_ok R -> shown_as L x t -> shown_as L y p -> shown_as L z w -> matches R p t l -> re_template R p w = Some f ->
  run_named (with_regex L R) stl ($"regexsub") [x; y; z] st = (OOk (text (sub_from (f t) t 0 l)), st).
Proof.
  intros HR Hx Hy Hz H F. destruct (sub3_prepare L R x y z t p w Hx Hy Hz) as [c P].
  assert (S : scalars [x; y; z]). { destruct Hx as (A & B & _), Hy as (C & D & _), Hz as (K & M & _). repeat constructor; assumption. }
  rewrite run_sub, (scalars_call L _ (d_sub L R) stl [x; y; z] _ _ c st S eq_refl eq_refl P).
  replace (o_impl (d_sub L R)) with (fn_regexsub L R) by reflexivity. unfold fn_regexsub, bind, lift.
  destruct Hx as (_ & _ & ->). destruct Hy as (_ & _ & ->). destruct Hz as (_ & _ & ->).
  rewrite (resub_eq R p w t l f 0 st HR H F) by reflexivity. reflexivity.
Qed.
Theorem c67_sub L R stl x y z t p w l ps xs f st : engine_ok R -> shown_as L x t -> shown_as L y p -> shown_as L z w ->
  matches R p t l -> laid 0 t l ps xs -> re_template R p w = Some f ->
  run_named (with_regex L R) stl ($"regexsub") [x; y; z] st = (OOk (text (weave ps (map (f t) l))), st).
Proof.
  intros HR Hx Hy Hz H Hl F. rewrite (sub_call L R stl x y z t p w l f st HR Hx Hy Hz H F).
  destruct (matches_laid R p t l ps xs HR H Hl) as (_ & S & _). now rewrite S.
Qed.
Print Assumptions c67_sub.
(** A replacement without a backslash takes the place of every match; so replacing is joining what splitting gives *)
Lemma weave_join w ps : ps <> [] -> weave ps (repeat w (length ps - 1)) = sjoin w ps.
Proof.
  destruct ps as [|p ps]; [congruence|]. intros _. cbn [length]. rewrite Nat.sub_succ, Nat.sub_0_r. revert p. induction ps as [|q ps IH]; intros p; [reflexivity|].
  rewrite sjoin_cons by discriminate. rewrite <- (IH q). reflexivity.
Qed.
Lemma laid_length k t l ps xs : laid k t l ps xs -> length ps = S (length l).
Proof. intros H. induction H as [|k q x t r l ps xs _ _ _ IH]; [reflexivity|]. cbn [length]. now rewrite IH. Qed.
Lemma plain_sub R p t l ps xs w f : laid 0 t l ps xs -> (forall s r, f s r = w) -> re_template R p w = Some f -> weave ps (map (f t) l) = sjoin w ps.
Proof.
  intros Hl Hf _. rewrite <- weave_join by (intros ->; inversion Hl). rewrite (laid_length _ _ _ _ _ Hl). cbn [Nat.sub]. rewrite Nat.sub_0_r. f_equal.
  clear -Hf. induction l as [|r l IH]; [reflexivity|]. cbn [map length repeat]. now rewrite Hf, IH.
Qed.
Theorem c67_sub_join L R stl x y z t p w l st : engine_ok R -> shown_as L x t -> shown_as L y p -> rval z = VStr w -> ~ In "\"%char w ->
  matches R p t l -> ungrouped l ->
  exists a b, run_named (with_regex L R) stl ($"regexsplit") [x; y] st = (OOk a, st) /\
    run_named (with_regex L R) stl ($"join") [a; z] st = (OOk b, st) /\
    run_named (with_regex L R) stl ($"regexsub") [x; y; z] st = (OOk b, st).
Proof.
  intros HR Hx Hy Hz Hw H U. pose proof H as (m & E & _). destruct (c67_matches R p t m HR E) as (l' & ps & xs & H1 & H2 & Hl & _). rewrite <- (H2 l H) in Hl. clear l' H1 H2.
  destruct HR as [HR1 HR2] eqn:HRE. clear HRE. destruct (HR2 p m w E Hw) as (f & F & Ff).
  eexists _, (text (sjoin w ps)). split; [apply (c67_split L R stl x y t p l ps xs st (conj HR1 HR2) Hx Hy H U Hl)|]. split.
  - change (run_named (with_regex L R) stl ($"join")) with (fun ins => call (std_env L) (callop (with_regex L R) stl) (d_join L) stl ins). cbv beta.
    apply (join_call L _ stl _ z (map text ps) ps w st); [reflexivity|rewrite map_map; reflexivity|exact Hz].
  - rewrite (c67_sub L R stl x y z t p w l ps xs f st (conj HR1 HR2) Hx Hy); [|unfold shown_as; rewrite Hz; auto|exact H|exact Hl|exact F].
    now rewrite (plain_sub R p t l ps xs w f Hl Ff F).
Qed.
Print Assumptions c67_sub_join.

(** With a number [k]: the first [k] matches, all of them if [k] is 0, none of them if [k] is negative *)
Theorem c67_sub_first L R stl x y z n t p w l ps xs f k st : engine_ok R -> (1 <= l_prec L)%Z -> shown_as L x t -> shown_as L y p -> shown_as L z w -> integer_at L n k ->
  (Z.abs k < 2 ^ 63)%Z -> matches R p t l -> laid 0 t l ps xs -> re_template R p w = Some f ->
  run_named (with_regex L R) stl ($"regexsub") [x; y; z; n] st =
  (OOk (text (weave ps (if (k =? 0)%Z then map (f t) l else first_of (Z.to_nat k) (map (f t) l) xs))), st).
Proof.
  intros HR Hp Hx Hy Hz Hn Hk H Hl F. destruct (integer_value L n k Hp Hn) as (a & Ha & N). destruct (sub4_prepare L R x y z n t p w a Hx Hy Hz Ha) as [c P].
  assert (S : scalars [x; y; z; n]). { pose proof (number_scalar L n k Hn) as [I J]. destruct Hx as (A & B & _), Hy as (C & D & _), Hz as (K & M & _). repeat constructor; assumption. }
  rewrite run_sub, (scalars_call L _ (d_sub L R) stl [x; y; z; n] _ _ c st S eq_refl eq_refl P).
  replace (o_impl (d_sub L R)) with (fn_regexsub L R) by reflexivity. unfold fn_regexsub, bind, lift.
  destruct Hx as (_ & _ & ->). destruct Hy as (_ & _ & ->). destruct Hz as (_ & _ & ->). rewrite N.
  rewrite (resub_eq R p w t l f k st HR H F Hk). destruct (matches_laid R p t l ps xs HR H Hl) as (_ & S1 & S2 & _).
  unfold limit. destruct (k =? 0)%Z; [rewrite S1|rewrite S2]; reflexivity.
Qed.
Print Assumptions c67_sub_first.

(** A pattern that cannot be compiled is an error in each of them *)
Theorem c67_bad_pattern L R stl x y z t p w st : shown_as L x t -> shown_as L y p -> shown_as L z w -> re_compile R p = None ->
  (forall name shown, In (name, shown) [($"=~", $"operator =~"); ($"!~", $"operator !~"); ($"regexget", $"regexget"); ($"regexsplit", $"regexsplit"); ($"regexcount", $"regexcount")] ->
     run_named (with_regex L R) stl name [x; y] st = (OErr (XCalc false (MOp shown)), st)) /\
  run_named (with_regex L R) stl ($"regexsub") [x; y; z] st = (OErr (XCalc false (MOp ($"regexsub"))), st).
Proof.
  intros Hx Hy Hz E. pose proof (text_shows L x t Hx) as Sx. pose proof (text_shows L y p Hy) as Sy. pose proof (text_shows L z w Hz) as Sz.
  pose proof (two_scalars L x y t p Hx Hy) as S2. pose proof Hx as (_ & _ & Tx). pose proof Hy as (_ & _ & Ty). pose proof Hz as (_ & _ & Tz). split.
  - intros name shown [A|[A|[A|[A|[A|[]]]]]]; apply pair_equal_spec in A as [<- <-].
    + change ($"=~") with (if false then $"!~" else $"=~") at 1. rewrite run_op, (texts_call L _ (d_op L R false) stl [x; y] [t; p] st); [|repeat split; reflexivity|unfold texts_of; auto|discriminate].
      replace (o_impl (d_op L R false)) with (op_regex L R false) by reflexivity. cbn [map forallb]. unfold op_regex, bind, lift. rewrite Tx, Ty, E, Sx, Sy. reflexivity.
    + change ($"!~") with (if true then $"!~" else $"=~") at 1. rewrite run_op, (texts_call L _ (d_op L R true) stl [x; y] [t; p] st); [|repeat split; reflexivity|unfold texts_of; auto|discriminate].
      replace (o_impl (d_op L R true)) with (op_regex L R true) by reflexivity. cbn [map forallb]. unfold op_regex, bind, lift. rewrite Tx, Ty, E, Sx, Sy. reflexivity.
    + destruct (get2_prepare L R x y t p Hx Hy) as [c P]. rewrite run_get, (scalars_call L _ (d_get L R) stl [x; y] _ _ c st S2 eq_refl eq_refl P).
      replace (o_impl (d_get L R)) with (fn_regexget L R) by reflexivity. cbn [forallb]. unfold fn_regexget, findall, bind, lift. rewrite Tx, Ty, E, Sx, Sy. reflexivity.
    + rewrite run_split, (texts_call L _ (d_resplit L R) stl [x; y] [t; p] st); [|apply takes_d_text|unfold texts_of; auto|discriminate].
      replace (o_impl (d_resplit L R)) with (fn_regexsplit L R) by reflexivity. cbn [map forallb]. unfold fn_regexsplit, resplit, bind, lift. rewrite Tx, Ty, E, Sx, Sy. reflexivity.
    + rewrite run_count, (scalars_call L _ (d_count L R) stl [x; y] _ _ None st S2 eq_refl eq_refl (count_prepare L R x y t p Hx Hy)).
      replace (o_impl (d_count L R)) with (fn_regexcount L R) by reflexivity. cbn [forallb]. unfold fn_regexcount, findall, bind, lift. rewrite Tx, Ty, E, Sx, Sy. reflexivity.
  - destruct (sub3_prepare L R x y z t p w Hx Hy Hz) as [c P].
    assert (S : scalars [x; y; z]). { destruct Hx as (A & B & _), Hy as (C & D & _), Hz as (K & M & _). repeat constructor; assumption. }
    rewrite run_sub, (scalars_call L _ (d_sub L R) stl [x; y; z] _ _ c st S eq_refl eq_refl P).
    replace (o_impl (d_sub L R)) with (fn_regexsub L R) by reflexivity. cbn [forallb]. unfold fn_regexsub, resub, bind, lift. rewrite Tx, Ty, Tz, E, Sx, Sy, Sz. reflexivity.
Qed.
Print Assumptions c67_bad_pattern.

(** * The engine of the examples is one as asked for *)
Lemma look_sound r : forall rest k (adv : bool) x, look r rest k adv = Some x ->
  k <= m_from x /\ m_from x <= m_to x /\ m_to x <= k + length rest /\ (adv = true -> k < m_to x).
Proof.
  assert (W : forall rest (at0 adv : bool) w, find (fun w : nat * list (option str) => (fst w <=? length rest) && (negb adv || (0 <? fst w))) (begins r at0 rest) = Some w ->
    fst w <= length rest /\ (adv = true -> 0 < fst w)).
  { intros rest at0 adv w H. apply find_some in H as [_ H]. apply andb_true_iff in H as [H1 H2]. apply Nat.leb_le in H1. split; [exact H1|].
    intros ->. cbn [negb orb] in H2. now apply Nat.ltb_lt. }
  induction rest as [|c rest IH]; intros k adv x H; cbn [look] in H; destruct (find _ _) as [w|] eqn:F; try discriminate.
  - injection H as <-. destruct (W _ _ _ _ F) as [A B]. cbn [m_from m_to]. repeat split; try lia. intros Ha. specialize (B Ha). lia.
  - injection H as <-. destruct (W _ _ _ _ F) as [A B]. cbn [m_from m_to]. repeat split; try lia. intros Ha. specialize (B Ha). lia.
  - destruct (IH (S k) false x H) as (A & B & C & _). cbn [length]. repeat split; lia.
Qed.
Lemma fill_plain t gs : ~ In "\"%char t -> fill t gs = Some t.
Proof.
  induction t as [|c t IH]; intros H; [reflexivity|]. cbn [fill]. destruct (ceq c "\"%char) eqn:E.
  - apply Ascii.eqb_eq in E. exfalso. apply H. now left.
  - rewrite IH; [reflexivity|]. intros F. apply H. now right.
Qed.
Lemma demo_ok : engine_ok demo_re.
Proof.
  split.
  - intros p m E s from adv r Hf H. cbn [demo_re re_compile] in E. unfold demo_compile in E.
    destruct (p_alt (2 * length p + 3) p) as [[x [|c u]]|]; try discriminate. injection E as <-. destruct (from <=? length s); [|discriminate].
    destruct (look_sound x _ _ _ _ H) as (A & B & C & D). rewrite skipn_length in C. repeat split; try assumption; lia.
  - intros p m t E Ht. cbn [demo_re re_compile re_template] in *. unfold demo_compile in E. unfold demo_template.
    destruct (p_alt (2 * length p + 3) p) as [[x [|c u]]|]; try discriminate. rewrite (fill_plain t _ Ht). eexists. split; [reflexivity|].
    intros s r. cbv beta. now rewrite (fill_plain t _ Ht).
Qed.
(** The matches of a*: an empty one before b, then aa, then an empty one, and one at the end *)
Definition demo_match (p t : string) : list rmatch :=
  match demo_compile ($p) with
  | Some m => match scan m ($t) (scan_fuel ($t)) 0 false with Some l => l | None => [] end
  | None => []
  end.
Example c67_scan_ex : map (fun r => (m_from r, m_to r)) (demo_match "a*" "baac") = [(0, 0); (1, 3); (3, 3); (4, 4)].
Proof. vm_compute. reflexivity. Qed.
Example c67_matches_ex : matches demo_re ($"a*") ($"baac") (demo_match "a*" "baac") /\ ungrouped (demo_match "a*" "baac") /\
  laid 0 ($"baac") (demo_match "a*" "baac") [[]; $"b"; []; $"c"; []] [[]; $"aa"; []; []].
Proof.
  split; [|split; [vm_compute; repeat constructor|]].
  - destruct (demo_compile ($"a*")) as [m|] eqn:E; [|vm_compute in E; discriminate]. exists m. split; [exact E|].
    destruct (scan_total m ($"baac") (engine_sound demo_re ($"a*") m demo_ok E) (scan_fuel ($"baac")) 0 false) as (l & S & H); [cbn; lia|unfold scan_fuel; cbn; lia|].
    unfold demo_match. rewrite E, S. exact H.
  - change (demo_match "a*" "baac") with [mkMatch 0 0 []; mkMatch 1 3 []; mkMatch 3 3 []; mkMatch 4 4 []].
    apply (laid_more 0 [] [] ($"baac")); [reflexivity..|]. apply (laid_more 0 ($"b") ($"aa") ($"c")); [reflexivity..|].
    apply (laid_more 3 [] [] ($"c")); [reflexivity..|]. apply (laid_more 3 ($"c") [] []); [reflexivity..|]. constructor.
Qed.
Example c67_ex : map ranswer
  ["'abc12' =~ '[0-9]+'"; "'abc' !~ '[0-9]'"; "regexget('a1b22c', '[0-9]+')"; "regexget('a1b22c', '[0-9]+', 2)"; "regexget('a1b22c', '[0-9]+', 3)";
   "regexget('a1b22c', '([a-z])[0-9]+')"; "regexsplit('a1b22c', '[0-9]+')"; "regexsplit('1,2', '(,)')"; "regexsub('a1b22c', '[0-9]+', '-')";
   "regexsub('ab cd', '([a-z])([a-z])', '\\2\\1')"; "regexsub('aaa', 'a', 'b', 2)"; "regexsub('aaa', 'a', 'b', -1)"; "regexsub('aaa', 'a', 'b', 0)";
   "regexcount('baac', 'a*')"; "'a' =~ '('"; "'a' =~ 'b' or true"; "not ('a' =~ 'b')"; "not 'a' =~ 'b'"]%string =
  ["True"; "True"; "['1';'22';]"; "'22'"; "execute error"; "['a';'b';]"; "['a';'b';'c';]"; "['1';',';'2';]"; "'a-b-c'"; "'ba dc'"; "'bba'"; "'aaa'"; "'bbb'"; "4";
   "execute error"; "True"; "True"; "execute error"]%string.
Proof. vm_compute. reflexivity. Qed.

(** * What does not hold *)
(** A number that is not one of an occurrence need not be refused: 0 is the last one *)
Theorem c67_get_zero_refuted : exists L R x y z t p l xs k, engine_ok R /\ shown_as L x t /\ shown_as L y p /\ integer_at L z k /\ matches R p t l /\ given t l xs /\
  ~ (1 <= k <= Z.of_nat (length xs))%Z /\ forall stl st, run_named (with_regex L R) stl ($"regexget") [x; y; z] st = (OOk (text ($"aa")), st).
Proof.
  exists demo, demo_re, (text ($"baac")), (text ($"a+")), (mkRes (VNum (mkNum 0 1 None None)) None None), ($"baac"), ($"a+"), (demo_match "a+" "baac"), [$"aa"], 0%Z.
  assert (Hx : shown_as demo (text ($"baac")) ($"baac")) by (repeat split). assert (Hy : shown_as demo (text ($"a+")) ($"a+")) by (repeat split).
  assert (Hz : integer_at demo (mkRes (VNum (mkNum 0 1 None None)) None None) 0) by (split; [reflexivity|]; exists (mkNum 0 1 None None); repeat split; vm_compute; reflexivity).
  assert (Hm : matches demo_re ($"a+") ($"baac") (demo_match "a+" "baac")).
  { destruct (demo_compile ($"a+")) as [m|] eqn:E; [|vm_compute in E; discriminate]. exists m. split; [exact E|].
    destruct (scan_total m ($"baac") (engine_sound demo_re ($"a+") m demo_ok E) (scan_fuel ($"baac")) 0 false) as (l & S & H); [cbn; lia|unfold scan_fuel; cbn; lia|].
    unfold demo_match. rewrite E, S. exact H. }
  assert (Hg : given ($"baac") (demo_match "a+" "baac") [$"aa"]).
  { left. change (demo_match "a+" "baac") with [mkMatch 1 3 []]. split; [repeat constructor|]. exists [$"b"; $"c"]. apply (laid_more 0 ($"b") ($"aa") ($"c")); [reflexivity..|constructor]. }
  split; [exact demo_ok|]. split; [exact Hx|]. split; [exact Hy|]. split; [exact Hz|]. split; [exact Hm|]. split; [exact Hg|]. split; [lia|].
  intros stl st. rewrite (get_index demo demo_re stl _ _ _ _ _ _ _ _ st demo_ok ltac:(discriminate) Hx Hy Hz Hm Hg). reflexivity.
Qed.
(** Replacing "a specific occurrence" (the description of regexsub): with 2 it is the first two, not the second *)
Theorem c67_sub_specific_refuted : ranswer "regexsub('aaa', 'a', 'b', 2)" = "'bba'"%string /\ ranswer "regexget('abc', '[a-z]', 2)" = "'b'"%string.
Proof. split; vm_compute; reflexivity. Qed.
