(** From the text of quantities to the answer. *)
From Coq Require Import ZArith QArith Qpower Ascii String List Bool Lia.
From Verif Require Import Base BaseProofs Dec Num NumSpec NumProofs NumProofs2 NumProofs3 NumProofs4 Lex LexSpec LexProofs Bases BasesProofs Formats Units UnitsSpec UnitsProofs UnitsProofs2 UnitReg Syntax Pos Call CallSpec Loop Parse ParseProofs2 Exec Std StdSpec StdProofs2 ArithSpec ArithProofs TextSpec TextProofs VarNameSpec VarNameProofs NameSpec NameProofs UnitCalc UnitCalcSpec UnitCalcProofs UnitCalcProofs3 ArithTextSpec ArithRunSpec ArithTextProofs2 ArithTextProofs3 ArithTextProofs4 ArithTextProofs5 ArithFunProofs UnitTextSpec UnitTextProofs UnitTextProofs2 UnitTextProofs3.
Import ListNotations.
Open Scope nat_scope.

(** * Reading on *)
Definition ureads (U : ucfg) (rec : prec) (fl : flags) (t : str) (cur : list item) (rest : str) (its : list item) : Prop :=
  forall fuel done n lft, length (t ++ rest) < fuel ->
  exists fuel', length rest < fuel' /\
    parse_loop (unit_pcfg U) rec fuel fl done cur n (t ++ rest) lft = parse_loop (unit_pcfg U) rec fuel' fl done (cur ++ its) (n + length t) rest lft.
Lemma u_nothing U rec fl cur rest : ureads U rec fl [] cur rest [].
Proof. intros fuel done n lft H. exists fuel. split; [exact H|]. cbn [app length]. rewrite app_nil_r, Nat.add_0_r. reflexivity. Qed.
Lemma u_then U rec fl t1 t2 cur rest i1 i2 : ureads U rec fl t1 cur (t2 ++ rest) i1 -> ureads U rec fl t2 (cur ++ i1) rest i2 ->
  ureads U rec fl (t1 ++ t2) cur rest (i1 ++ i2).
Proof.
  intros H1 H2 fuel done n lft Hf. rewrite <- app_assoc in *. destruct (H1 fuel done n lft Hf) as (f1 & F1 & E1). destruct (H2 f1 done (n + length t1) lft F1) as (f2 & F2 & E2).
  exists f2. split; [exact F2|]. rewrite E1, E2, <- app_assoc, app_length, Nat.add_assoc. reflexivity.
Qed.
Lemma u_token U rec fl t cur rest its : t <> [] ->
  (forall lft, try_parsers (unit_pcfg U) rec (pc_parsers (unit_pcfg U)) fl cur (t ++ rest) lft = (PRitems its (length t) false, lft)) -> ureads U rec fl t cur rest its.
Proof.
  intros Ht H fuel done n lft Hf. destruct fuel as [|fuel]; [lia|]. exists fuel. rewrite app_length in Hf. destruct t as [|c t]; [congruence|].
  split; [cbn [length] in Hf; lia|]. rewrite (loop_step _ _ _ _ _ _ _ _ its (length (c :: t)) _ lft); [|discriminate|cbn; lia|apply H].
  rewrite skipn_app, Nat.sub_diag, skipn_all. reflexivity.
Qed.
Lemma u_blanks U rec fl b cur rest : blank_text b -> ureads U rec fl b cur rest (blank_items b).
Proof.
  intros H. revert cur. induction H as [|c b [Hc Hn] Hb IH]; intros cur; [apply u_nothing|].
  change (c :: b) with ([c] ++ b). change (blank_items ([c] ++ b)) with ([INon NSpace [c]] ++ blank_items b). apply u_then; [|apply IH].
  apply u_token; [discriminate|]. intros lft. cbn [app]. apply (ublank_read U rec fl cur c (b ++ rest) lft Hc Hn).
Qed.

Lemma one_steady rel us u : world rel us -> In u us -> steady rel (one_of u).
Proof.
  intros (_ & _ & D & _) I. rewrite Forall_forall in D. destruct (D u I) as (O & _). unfold steady, one_of, ulist, expand_dims, subunits. cbn [eu_list map flat_map fst snd]. rewrite app_nil_r.
  apply no_vanishing_once; [apply equiv_seq|]. revert O. generalize (norm_dim rel (udim u)). induction d as [|[k q] d IH]; cbn [map once fst snd]; [trivial|]. intros [H1 H2]. split; [|apply IH, H2].
  rewrite Forall_map. exact H1.
Qed.

(** * A quantity *)
Definition quantity_items (l : declit) (num : number) (b n : str) (u : unit) : list item :=
  [ILit (lit_text l) (LNum num)] ++ blank_items b ++ [IUnit n (one_of u)].
Lemma after_unit cur l num b n u : after_operand (cur ++ quantity_items l num b n u).
Proof.
  unfold after_operand. replace (previous_functional_item (cur ++ quantity_items l num b n u)) with (Some (IUnit n (one_of u))); [reflexivity|].
  symmetry. apply prev_app. unfold quantity_items. rewrite app_assoc. apply prev_app. reflexivity.
Qed.
Lemma quantity_on U us rec fl cur l num b n u rest : exp_letter (u_lib U) -> names_fit (u_norm U) -> keys_apart (u_norm U) -> unit_for U us n u -> lit_ok l -> blank_text b -> b <> [] ->
  number_of_lit (l_prec (u_lib U)) l = Some num -> before_operand cur -> name_end rest -> ureads U rec fl (lit_text l ++ b ++ n) cur rest (quantity_items l num b n u).
Proof.
  intros He Hf Ha Hu Hl Hb Nb Hn Hc Hr. unfold quantity_items. apply u_then; [|apply u_then].
  - destruct (lit_first l Hl) as (c & x & Et & _). apply u_token; [rewrite Et; discriminate|]. intros lft. apply ulit_read; try assumption. rewrite <- app_assoc. apply blank_follow'; assumption.
  - apply u_blanks, Hb.
  - apply u_token; [apply Hu|]. intros lft. apply (uname_read U us); assumption.
Qed.
Lemma quantity_runs U rec stl l num b n u r k sl orig s : eval_operands (with_units U) rec stl (quantity_items l num b n u ++ r) k sl orig s =
  eval_operands (with_units U) rec stl r (2 + k) (sl ++ [SRes (mkRes (VNum num) None (Some ROther)) k; SRes (mkRes (VUnit (one_of u)) None (Some ROther)) (S k)]) (orig ++ quantity_items l num b n u) s.
Proof.
  unfold quantity_items. rewrite <- !app_assoc. cbn [app]. erewrite operands_item; [|reflexivity|reflexivity|reflexivity]. rewrite operands_blank by apply blanks_items. cbn [app].
  erewrite operands_item; [|reflexivity|reflexivity|reflexivity]. rewrite <- !app_assoc. reflexivity.
Qed.
Lemma pair_made U us stl k u l : (1 <= k)%Z -> (3 * k + 1 <= l_prec (u_lib U))%Z -> lit_ok l -> lit_fits (l_prec (u_lib U)) k l -> In u us -> steady (u_rels U) (one_of u) ->
  exists num res, number_of_lit (l_prec (u_lib U)) l = Some num /\ forall i j, joins U stl (mkPair num i u j res) /\ pair_ok U us k l u (mkPair num i u j res).
Proof.
  intros Hk Hp Hl (D1 & Hf) Iu Su. assert (P1 : (1 <= l_prec (u_lib U))%Z) by lia. destruct (number_of_lit_exact _ l P1 Hl Hf) as (a & N & Va & Ga & La). exists a.
  assert (Sa : size_le k a) by exact (lowest_size k a _ Ga La Va D1).
  assert (One : good (num_of_Z (l_prec (u_lib U)) 1) /\ size_le k (num_of_Z (l_prec (u_lib U)) 1) /\ (val (num_of_Z (l_prec (u_lib U)) 1) == 1)%Q).
  { assert (T : (10 ^ 1 <= 10 ^ k)%Z) by (apply Z.pow_le_mono_r; lia). rewrite num_of_Z_eq. split; [unfold good; cbn [nden]; lia|]. split; [split; cbn [nnum nden]; lia|reflexivity]. }
  destruct One as (G1 & S1 & V1).
  destruct (num_mul_exact _ a (num_of_Z (l_prec (u_lib U)) 1) P1 Ga G1 (size_mul (l_prec (u_lib U)) k _ _ ltac:(lia) Ga G1 Sa S1 ltac:(lia))) as (n & M & Vn & Gn & Ln & C).
  exists n. split; [exact N|]. intros i j. split.
  - intros s. unfold p_num, p_res, p_unit. apply (uassign_call U stl _ _ a (one_of u) n s); try reflexivity; assumption.
  - unfold pair_ok, p_res, p_unit. repeat (split; [assumption || reflexivity|]). split; [rewrite Vn, V1, Va; ring|]. split; [exact D1|]. rewrite C. exact (lit_cast _ _ _ N).
Qed.

(** * The rest of the text *)
Lemma blanks_more (b : str) : blank_text b -> b <> [] -> exists d x, b = d :: x /\ is_space d = true.
Proof. intros [|d x [Hd _] _] N; [congruence|]. eauto. Qed.
Lemma rest_end r qs tgt : sum_rest r qs tgt -> name_end r.
Proof.
  intros [b Hb|b1 b2 n b3 H1 N1 H2 N2 H3|b1 m b2 t q x ys tg H1 H2 N2 Hq Hr].
  - exists b, []. rewrite app_nil_r. auto.
  - destruct (blanks_more b2 H2 N2) as (d & y & -> & Hd). exists b1, ($"to" ++ (d :: y) ++ n ++ b3). split; [reflexivity|]. split; [exact H1|]. right. right. split; [exact N1|]. exists d, (y ++ n ++ b3). split; [reflexivity|exact Hd].
  - destruct (blanks_more b2 H2 N2) as (d & y & -> & Hd). exists b1, ([sign_char m] ++ (d :: y) ++ t ++ x). split; [reflexivity|]. split; [exact H1|]. right. left. exists m, d, (y ++ t ++ x). split; [reflexivity|exact Hd].
Qed.
Definition target_ok (unit_at : str -> unit) (tgt : option str) (e : option (nat * unit * nat)) : Prop :=
  match tgt, e with None, None => True | Some n, Some (_, v, _) => v = unit_at n | _, _ => False end.
Lemma rest_runs U us stl k unit_at r qs tgt : world (u_rels U) us -> exp_letter (u_lib U) -> names_fit (u_norm U) -> keys_apart (u_norm U) -> (1 <= k)%Z -> (3 * k + 1 <= l_prec (u_lib U))%Z ->
  sum_rest r qs tgt ->
  Forall (fun q => unit_for U us (snd (snd q)) (unit_at (snd (snd q)))) qs ->
  match tgt with Some n => unit_for U us n (unit_at n) | None => True end ->
  Forall (fun q => lit_fits (l_prec (u_lib U)) k (fst (snd q))) qs ->
  forall rec fl cur, after_operand cur -> exists its, ureads U rec fl r cur [] its /\
  forall xrec j sl orig (s : st), exists ts e,
    eval_operands (with_units U) xrec stl its j sl orig s = (OOk (sl ++ apart_slots ts ++ end_slots e, orig ++ its), s) /\
    Forall (fun x => joins U stl (snd x)) ts /\
    Forall2 (fun q t => fst (fst q) = fst (fst t) /\ pair_ok U us k (snd (fst q)) (snd q) (snd t)) (map (with_unit unit_at) qs) ts /\ target_ok unit_at tgt e.
Proof.
  intros W He Hf Ha Hk Hp H. induction H as [b Hb|b1 b2 n b3 H1 N1 H2 N2 H3|b1 m b2 t q x ys tg H1 H2 N2 Hq Hr IH]; intros Hu Ht D rec fl cur Hc.
  - exists (blank_items b). split; [apply u_blanks, Hb|]. intros xrec j sl orig s. exists [], None. split; [rewrite operands_end by apply blanks_items; cbn [apart_slots end_slots app]; rewrite app_nil_r; reflexivity|].
    split; [constructor|]. split; [constructor|exact I].
  - destruct (blanks_more b2 H2 N2) as (d & y & E2 & Hd). exists (blank_items b1 ++ [IOp ($"to")] ++ blank_items b2 ++ [IUnit n (one_of (unit_at n))] ++ blank_items b3). split.
    + apply u_then; [apply u_blanks, H1|]. apply u_then; [|apply u_then; [apply u_blanks, H2|apply u_then; [|apply u_blanks, H3]]].
      * apply u_token; [discriminate|]. intros lft. rewrite E2. rewrite <- app_assoc. cbn [app]. apply uop_read; [right; reflexivity|exact Hd|]. unfold after_operand. rewrite prev_blanks by apply blanks_items. exact Hc.
      * apply u_token; [apply Ht|]. intros lft. apply (uname_read U us); try assumption. exists b3, []. rewrite !app_nil_r. auto.
    + intros xrec j sl orig s. exists [], (Some (j, unit_at n, S j)). split.
      * rewrite operands_blank by apply blanks_items. cbn [app]. rewrite operands_op, operands_blank by apply blanks_items. cbn [app]. erewrite operands_item; [|reflexivity|reflexivity|reflexivity].
        rewrite operands_end by apply blanks_items. rewrite <- !app_assoc. reflexivity.
      * split; [constructor|]. split; [constructor|]. reflexivity.
  - destruct q as [l n]. destruct Hq as (b & -> & Hl & Hb & Nb). cbn [fst snd] in *. apply Forall_cons_iff in Hu. destruct Hu as [Hu Hus]. apply Forall_cons_iff in D. destruct D as [Dl D].
    cbn [fst snd] in *. pose proof Hu as (_ & _ & _ & Iu). pose proof (one_steady _ _ _ W Iu) as Su.
    destruct (pair_made U us stl k (unit_at n) l Hk Hp Hl Dl Iu Su) as (num & res & Nn & Pm).
    destruct (blanks_more b2 H2 N2) as (d & y & E2 & Hd). set (mine := quantity_items l num b n (unit_at n)) in *.
    destruct (IH Hus Ht D rec fl (((cur ++ blank_items b1) ++ [IOp [sign_char m]] ++ blank_items b2) ++ mine)) as (its & On & Run); [apply after_unit|].
    exists (blank_items b1 ++ ([IOp [sign_char m]] ++ blank_items b2) ++ mine ++ its). split.
    + replace (b1 ++ [sign_char m] ++ b2 ++ (lit_text l ++ b ++ n) ++ x) with (b1 ++ ([sign_char m] ++ b2) ++ (lit_text l ++ b ++ n) ++ x) by (rewrite <- !app_assoc; reflexivity).
      apply u_then; [apply u_blanks, H1|]. apply u_then; [apply u_then; [|apply u_blanks, H2]|].
      * apply u_token; [discriminate|]. intros lft. rewrite E2. rewrite <- !app_assoc. cbn [app]. apply (uop_read U rec fl _ [sign_char m]); [left; exists m; reflexivity|exact Hd|].
        unfold after_operand. rewrite prev_blanks by apply blanks_items. exact Hc.
      * apply u_then; [|exact On]. apply (quantity_on U us); try assumption.
        -- unfold before_operand. rewrite app_assoc, prev_blanks by apply blanks_items. rewrite (prev_app (cur ++ blank_items b1) [IOp [sign_char m]] (IOp [sign_char m])) by reflexivity. reflexivity.
        -- rewrite app_nil_r. exact (rest_end _ _ _ Hr).
    + intros xrec j sl orig s.
      destruct (Run xrec (2 + S j) ((sl ++ [SOp [sign_char m] j]) ++ [SRes (mkRes (VNum num) None (Some ROther)) (S j); SRes (mkRes (VUnit (one_of (unit_at n))) None (Some ROther)) (S (S j))]) (((orig ++ blank_items b1) ++ [IOp [sign_char m]] ++ blank_items b2) ++ mine) s) as (ts & e & E & J & F & T).
      destruct (Pm (S j) (S (S j))) as [J0 F0]. exists ((m, j, mkPair num (S j) (unit_at n) (S (S j)) res) :: ts), e. split; [|split; [|split; [|exact T]]].
      * rewrite operands_blank by apply blanks_items. rewrite <- app_assoc. cbn [app]. rewrite operands_op, operands_blank by apply blanks_items. unfold mine at 1. rewrite quantity_runs. fold mine.
        rewrite <- (app_assoc (orig ++ blank_items b1) [IOp [sign_char m]] (blank_items b2)). rewrite E. rewrite <- !app_assoc. reflexivity.
      * constructor; assumption.
      * constructor; [|exact F]. split; [reflexivity|exact F0].
Qed.
(** The whole text: its items, and the slots they give *)
Lemma text_slots U us steps stl k unit_at text q qs tgt n (s : st) :
  reg_steps steps norm_init = Ok (u_norm U) -> world (u_rels U) us -> keys_apart (u_norm U) -> exp_letter (u_lib U) -> (1 <= k)%Z -> (3 * k + 1 <= l_prec (u_lib U))%Z ->
  sum_text text q qs tgt -> let u0 := unit_at (snd q) in
  (forall m, In m (snd q :: map (fun x => snd (snd x)) qs ++ match tgt with Some t => [t] | None => [] end) -> unit_for U us m (unit_at m)) ->
  lit_fits (l_prec (u_lib U)) k (fst q) -> Forall (fun x => lit_fits (l_prec (u_lib U)) k (fst (snd x))) qs ->
  exists items num res ts e,
    parse_text (unit_pcfg U) text (s_lft s) = (POk [items] (length text) None, s_lft s) /\ text <> [] /\ is_nil (functional_items items) = false /\
    (let t0 := mkPair num 0 u0 1 res in
     eval_operands (with_units U) (execute (with_units U) n) stl items 0 [] [] s = (OOk (num_slot t0 :: unit_slot t0 :: apart_slots ts ++ end_slots e, items), s) /\
     joins U stl t0 /\ pair_ok U us k (fst q) u0 t0) /\
    Forall (fun x => joins U stl (snd x)) ts /\
    Forall2 (fun q t => fst (fst q) = fst (fst t) /\ pair_ok U us k (snd (fst q)) (snd q) (snd t)) (map (with_unit unit_at) qs) ts /\ target_ok unit_at tgt e.
Proof.
  intros Hreg W Ha He Hk Hp (b & t & r & -> & Hb & Hq & Hr) u0 Hm D0 D. pose proof (steps_fit steps norm_init _ init_fit Hreg) as Hf.
  destruct q as [l n0]. destruct Hq as (b' & -> & Hl & Hb' & Nb'). cbn [fst snd] in *.
  pose proof (Hm n0 (or_introl eq_refl)) as Hu0. pose proof Hu0 as (_ & _ & _ & I0). fold u0 in Hu0, I0. pose proof (one_steady _ _ _ W I0) as S0.
  destruct (pair_made U us stl k u0 l Hk Hp Hl D0 I0 S0) as (num & res & Nn & Pm).
  set (mine := quantity_items l num b' n0 u0) in *.
  assert (Hus : Forall (fun q => unit_for U us (snd (snd q)) (unit_at (snd (snd q)))) qs).
  { apply Forall_forall. intros x Hx. apply Hm. right. apply in_or_app. left. exact (in_map (fun x => snd (snd x)) _ _ Hx). }
  assert (Htg : match tgt with Some n => unit_for U us n (unit_at n) | None => True end).
  { destruct tgt as [tg|]; [|exact I]. apply Hm. right. apply in_or_app. right. left. reflexivity. }
  set (text := b ++ (lit_text l ++ b' ++ n0) ++ r).
  destruct (rest_runs U us stl k unit_at r qs tgt W He Hf Ha Hk Hp Hr Hus Htg D (parse (unit_pcfg U) (length text)) no_flags (blank_items b ++ mine)) as (its & On & Run); [apply after_unit|].
  assert (P : parse_text (unit_pcfg U) text (s_lft s) = (POk [blank_items b ++ mine ++ its] (length text) None, s_lft s)).
  { assert (G : ureads U (parse (unit_pcfg U) (length text)) no_flags text [] [] (blank_items b ++ mine ++ its)).
    { unfold text at 2. apply u_then; [apply u_blanks, Hb|]. cbn [app]. apply u_then; [|exact On]. apply (quantity_on U us); try assumption; [apply before_blanks|]. rewrite app_nil_r. exact (rest_end _ _ _ Hr). }
    unfold parse_text. cbn [parse]. rewrite <- (app_nil_r text) at 2 3. destruct (G (S (length (text ++ []))) [] 0 (s_lft s) ltac:(lia)) as (f1 & F1 & E1). rewrite E1. destruct f1 as [|f1]; [cbn in F1; lia|]. reflexivity. }
  destruct (Run (execute (with_units U) n) 2 [SRes (mkRes (VNum num) None (Some ROther)) 0; SRes (mkRes (VUnit (one_of u0)) None (Some ROther)) 1] (blank_items b ++ mine) s) as (ts & e & E & J & F & T).
  destruct (Pm 0 1) as [J0 F0]. set (items := blank_items b ++ mine ++ its) in *. exists items, num, res, ts, e. split; [exact P|]. split; [|split; [|split; [|auto]]].
  - unfold text. destruct b as [|c y]; [|discriminate]. destruct (lit_first l Hl) as (c & y & Et & _). rewrite Et. discriminate.
  - apply (functional_in items (IUnit n0 (one_of u0))); [unfold items, mine, quantity_items; rewrite !in_app_iff; right; left; right; right; left; reflexivity|reflexivity].
  - cbv zeta. split; [|split; assumption]. unfold items at 1. rewrite operands_blank by apply blanks_items. unfold mine at 1. rewrite quantity_runs. fold mine. cbn [app Nat.add] in E |- *. rewrite E. rewrite <- app_assoc. reflexivity.
Qed.
Lemma ok_fits U us k u0 qs ts : Forall2 (fun q t => fst (fst q) = fst (fst t) /\ pair_ok U us k (snd (fst q)) (snd q) (snd t)) qs (ts : list (bool * nat * pair)) ->
  Forall (fun q : bool * declit * unit => same_dims (u_rels U) (Some (one_of u0)) (Some (one_of (snd q)))) qs -> Forall (fun x : bool * declit * unit => has_digits k (spec_val (snd (fst x)) * uscale (snd x) / uscale u0)%Q) qs ->
  Forall2 (fun q t => fst (fst q) = fst (fst t) /\ pair_fits U us k u0 (snd (fst q)) (snd q) (snd t)) qs ts.
Proof.
  induction 1 as [|q t qs ts [H1 H2] _ IH]; intros S D; [constructor|]. apply Forall_cons_iff in S. destruct S as [S1 S]. apply Forall_cons_iff in D. destruct D as [D1 D].
  constructor; [|apply IH; assumption]. split; [exact H1|]. split; [exact H2|]. split; assumption.
Qed.
Lemma calculate_one U fl n text items r (s : st) : parse_text (unit_pcfg U) text (s_lft s) = (POk [items] (length text) None, s_lft s) -> text <> [] -> is_nil (functional_items items) = false -> cf_parse_only fl = false ->
  forall sl, eval_operands (with_units U) (execute (with_units U) n) (cf_stl fl) items 0 [] [] s = (OOk (sl, items), s) ->
  run_slots (unit_table U) items (callop (with_units U) (cf_stl fl)) sl s = (OOk r, s) ->
  (forall z, is_exc (rval r) = false -> finalize U r = Ok z -> calculate (with_units U) (S n) fl text s = (CDone [mkCR items (Some (rval z, runit z)) (if cf_state fl then Some (s_vars s) else None)], s)) /\
  (forall m its nx tr, rval r = VExc (XExec m its nx tr) -> exists its' nx' tr', calculate (with_units U) (S n) fl text s = (CFail false [] [its'] nx' tr', s)).
Proof.
  intros P Tn Fi Hfl sl E R1.
  assert (X : execute (with_units U) (S n) (cf_stl fl) items s = match rval r with VExc (XExec m its nx tr) => (OOk (with_value r (VExc (restore_items (XExec m its nx tr) items items))), s) | _ => (OOk r, s) end).
  { cbn [execute]. unfold execute_body. rewrite Fi. unfold bind. rewrite E. cbn match. change (g_ops (with_units U)) with (unit_table U). rewrite R1. reflexivity. }
  unfold calculate, calculate_with. change (g_parse (with_units U)) with (unit_pcfg U). destruct text as [|c y]; [congruence|]. rewrite P. cbn [run_statements]. rewrite Fi, Hfl. cbn [orb].
  replace (mkSt (s_vars s) (s_lft s)) with s by (destruct s; reflexivity). rewrite X. split.
  - intros z R2 R3. change (g_final (with_units U)) with (finalize U). destruct (rval r) eqn:Q; try discriminate R2; rewrite Q, R3; reflexivity.
  - intros m its nx tr Q. rewrite Q. destruct r as [v u f o]. cbn [with_value rval].
    destruct (restore_items (XExec m its nx tr) items items) as [w' m'|m' its' nx' tr'] eqn:Er; [unfold restore_items in Er; destruct (restore_loop _ _ _ _ _) in Er; discriminate Er|]. eexists _, _, _. reflexivity.
Qed.
Lemma quantities_answer U us steps k unit_at text q qs tgt n fl (s : st) :
  reg_steps steps norm_init = Ok (u_norm U) -> world (u_rels U) us -> keys_apart (u_norm U) -> exp_letter (u_lib U) -> (1 <= k)%Z -> (3 * k + 1 <= l_prec (u_lib U))%Z ->
  sum_text text q qs tgt -> let u0 := unit_at (snd q) in
  (forall m, In m (snd q :: map (fun x => snd (snd x)) qs ++ match tgt with Some t => [t] | None => [] end) ->
     unit_for U us m (unit_at m) /\ same_dims (u_rels U) (Some (mkEU (ulist u0) false)) (Some (mkEU (ulist (unit_at m)) false))) ->
  digits_stay (l_prec (u_lib U)) k (fst q) u0 (map (with_unit unit_at) qs) -> cf_parse_only fl = false ->
  exists items x w, calculate (with_units U) (S n) fl text s = (CDone [mkCR items (Some (VNum x, Some w)) (if cf_state fl then Some (s_vars s) else None)], s) /\
    (val x * size_of (Some w) == total (amount (fst q) u0) (map (with_unit unit_at) qs))%Q /\
    eu_list w = ulist (match tgt with Some t => unit_at t | None => u0 end).
Proof.
  intros Hreg W Ha He Hk Hp Ht u0 Hm (D0 & D & Ds) Hfl.
  destruct (text_slots U us steps (cf_stl fl) k unit_at text q qs tgt n s Hreg W Ha He Hk Hp Ht) as (items & num & res & ts & e & P & Tn & Fi & (E & J0 & F0) & J & F & T).
  { intros m Im. apply (Hm m Im). }
  { exact D0. }
  { rewrite Forall_map in D. eapply Forall_impl; [|exact D]. intros [m [l' n']] [H _]. exact H. }
  fold u0 in E, J0, F0. pose proof (Hm (snd q) (or_introl eq_refl)) as [_ Hd0]. fold u0 in Hd0. pose proof F0 as (_ & I0 & _).
  assert (Nz : ~ (uscale u0 == 0)%Q). { intros Z. destruct W as (_ & _ & _ & Ps). rewrite Forall_forall in Ps. specialize (Ps u0 I0). rewrite Z in Ps. discriminate Ps. }
  destruct (sum_runs U us (cf_stl fl) items k (fst q) (mkPair num 0 u0 1 res) (map (with_unit unit_at) qs) ts e s W Hk Hp J0 J) as (z & x & w & R1 & R2 & R3 & R4 & R5).
  - split; [exact F0|]. split; [exact Hd0|]. apply (has_eq k (spec_val (fst q))); [cbn [p_unit]; field; exact Nz|apply D0].
  - apply ok_fits; [exact F| |].
    + apply Forall_forall. intros y Hy. apply in_map_iff in Hy. destruct Hy as (y' & <- & Hy). apply Hm. right. apply in_or_app. left. exact (in_map (fun x => snd (snd x)) _ _ Hy).
    + eapply Forall_impl; [|exact D]. intros [[m l'] u'] [_ H]. exact H.
  - exact Ds.
  - destruct e as [[[j v] i]|]; [|exact I]. unfold target_ok in T. destruct tgt as [tg|]; [|destruct T]. subst v. cbn [p_unit].
    destruct (Hm tg) as [(_ & _ & _ & It) Sd]; [right; apply in_or_app; right; left; reflexivity|]. split; [exact It|]. split; [exact (one_steady _ _ _ W It)|exact Sd].
  - exists items, x, w. split; [|split; [exact R4|]].
    + apply (proj1 (calculate_one U fl n text items z s P Tn Fi Hfl _ E R1) _ R2 R3).
    + rewrite R5. unfold unit_of, target_ok in *. cbn [p_unit]. destruct e as [[[j v] i]|], tgt as [tg|]; try contradiction; [rewrite T|]; reflexivity.
Qed.
