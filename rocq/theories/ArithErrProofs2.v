(** Running the items of arithmetic that may go wrong. *)
From Coq Require Import ZArith QArith Qpower Ascii String List Bool Lia.
From Verif Require Import Base BaseProofs Dec DecProofs Num NumSpec NumProofs NumProofs2 NumProofs3 NumProofs4 Lex LexSpec Bases BasesProofs Formats Units UnitsProofs5 Install Syntax Pos PosSpec PosProofs Call CallSpec Loop LoopSpec LoopProofs Parse Exec ExecSpec ErrorSpec ErrorProofs ErrorProofs2 ErrorProofs3 ContainSpec ContainProofs2 Std StdSpec StdProofs2 StdProofs4 ArithSpec ArithProofs ArithTextSpec ArithRunSpec ArithTextProofs ArithTextProofs2 ArithTextProofs3 ArithTextProofs4 ArithTextProofs5 ArithErrSpec ArithErrProofs.
Import ListNotations.
Open Scope nat_scope.

Definition within (k : Z) (v : verdict) : Prop := match v with Worth q => digits_le k q | _ => True end.
(** * Trees *)
Definition fair_tree (L : lib) (stl : bool) (s : st) (lev : nat) (t : tree) (v : verdict) : Prop :=
  grouped (g_ops (std L)) t /\ good_chain (g_ops (std L)) (chain_of t) /\
  match t with Leaf _ => True | Node g _ _ => exists o k, g = gap_of o k /\ olevel o <= lev end /\
  forall orig, gives (tree_value (g_ops (std L)) orig (real_interp L stl s) t) v /\ agrees (g_ops (std L)) orig (callop (std L) stl) (real_interp L stl s) s t.
Lemma fair_leaf L stl s lev r k v : gives r v -> fair_tree L stl s lev (Leaf (r, k)) v.
Proof.
  intros H. split; [exact I|]. split; [split; [exact (gives_no_unit _ _ H)|constructor]|]. split; [exact I|]. intros orig. split; [exact H|]. intros g l x [E|[]]. discriminate E.
Qed.
Lemma fair_looser L stl s lev t v : fair_tree L stl s lev t v -> fair_tree L stl s (S lev) t v.
Proof.
  intros (G1 & G2 & G3 & G4). repeat (split; [assumption|]). split; [|assumption]. destruct t; [exact I|]. destruct G3 as (o & k & E & H). exists o, k. split; [exact E|lia].
Qed.
Lemma fair_bin L stl s o k t1 t2 v1 v2 w : pow_ok (l_prec L) (f_pow (l_fmt L)) -> showable L w -> (3 * w + 1 <= l_prec L)%Z ->
  within w v1 -> within w v2 -> within w (decide o v1 v2) -> decide o v1 v2 <> Open ->
  fair_tree L stl s (olevel o) t1 v1 -> fair_tree L stl s (pred (olevel o)) t2 v2 -> fair_tree L stl s (olevel o) (Node (gap_of o k) t1 t2) (decide o v1 v2).
Proof.
  intros Hpow Hw Hp D1 D2 D Hq (A1 & A2 & A3 & A4) (B1 & B2 & B3 & B4). split; [|split; [|split]].
  - cbn [grouped]. split; [exact A1|]. split; [exact B1|]. split.
    + destruct t1 as [x|g l r]; [exact I|]. destruct A3 as (h & j & -> & Hh). apply Nat.le_lteq in Hh. destruct Hh as [Hh|Hh]; [left; apply gap_rank, Hh|right; apply gap_rank_eq, Hh].
    + destruct t2 as [x|g l r]; [exact I|]. destruct B3 as (h & j & -> & Hh). left. apply gap_rank. destruct o; cbn [olevel pred] in *; lia.
  - cbn [chain_of]. destruct A2 as [A2 A2']. destruct B2 as [B2 B2']. split; [exact A2|]. cbn [fst snd] in *. apply Forall_app. split; [exact A2'|]. constructor; [|exact B2'].
    split; [apply gap_good|exact B2].
  - exists o, k. split; [reflexivity|lia].
  - intros orig. destruct (A4 orig) as [V1 C1]. destruct (B4 orig) as [V2 C2].
    set (x := tree_value (g_ops (std L)) orig (real_interp L stl s) t1) in *. set (y := tree_value (g_ops (std L)) orig (real_interp L stl s) t2) in *.
    assert (K : (exists r, real_interp L stl s (run_sym o) [x; y] = inl r /\ callop (std L) stl (run_sym o) [x; y] s = (OOk r, s) /\ gives r (decide o v1 v2)) \/
                (decide o v1 v2 = Wrong /\ exists e, real_interp L stl s (run_sym o) [x; y] = inr e /\ callop (std L) stl (run_sym o) [x; y] s = (OErr e, s))).
    { destruct (op_gives L stl o x y v1 v2 w s Hpow Hw Hp V1 V2 D1 D2 D Hq) as [(r & R & V)|(E & e & R)].
      - left. exists r. split; [unfold real_interp; rewrite R, (gives_no_unit _ _ V); reflexivity|auto].
      - right. split; [exact E|]. exists e. split; [unfold real_interp; rewrite R; reflexivity|exact R]. }
    split.
    + cbn [tree_value]. rewrite gap_sym_of. fold x y. destruct K as [(r & -> & _ & V)|(-> & e & -> & _)]; [exact V|]. eexists _, _, _, _. reflexivity.
    + intros g l z [H|[H|H]]; [|apply C1, H|apply C2, H]. assert (Hg : g = gap_of o k /\ l = t1 /\ z = t2) by (inversion H; auto). destruct Hg as (-> & -> & ->).
      rewrite gap_sym_of. unfold interp_call. fold x y. destruct K as [(r & -> & R & _)|(_ & e & -> & R)]; exact R.
Qed.

(** * Items *)
Definition fair_run (L : lib) (stl : bool) (s : st) (m lev : nat) (its : list item) (v : verdict) : Prop :=
  forall k rest sl orig, exists t its', fair_tree L stl s lev t v /\
    eval_operands (std L) (execute (std L) m) stl (its ++ rest) k sl orig s =
    eval_operands (std L) (execute (std L) m) stl rest (k + length (functional_items its)) (sl ++ slots_of (chain_of t)) (orig ++ its') s.
Lemma fair_execute L stl s m lev w1 its w2 v : blanks w1 -> blanks w2 -> is_nil (functional_items its) = false -> fair_run L stl s m lev its v ->
  exists r, execute (std L) (S m) stl (w1 ++ its ++ w2) s = (OOk r, s) /\ gives r v.
Proof.
  intros B1 B2 Hf H. destruct (H 0 w2 [] ([] ++ w1)) as (t & its' & Ht & E). cbn [execute]. unfold execute_body. rewrite !functional_app, (functional_blanks w1 B1), (functional_blanks w2 B2), app_nil_r. cbn [app]. rewrite Hf.
  unfold bind. rewrite (operands_blank _ _ _ w1) by exact B1. rewrite E. cbn [app Nat.add]. rewrite operands_end by exact B2.
  destruct Ht as (T1 & T2 & _ & T4). destruct (T4 ((w1 ++ its') ++ w2)) as [V A]. set (rr := run_slots _ _ _ _ s).
  assert (Er : rr = (OOk (tree_value (g_ops (std L)) ((w1 ++ its') ++ w2) (real_interp L stl s) t), s)).
  { apply (loop_runs (g_ops (std L)) _ _ (real_interp L stl s)); [apply std_good|exact T2|apply real_no_units|exact T1|exact A]. }
  rewrite Er. set (x := tree_value _ _ _ t) in *. destruct v as [q| | |]; cbn [gives] in V.
  - pose proof V as (n & Rn & _). rewrite Rn. eexists. split; [reflexivity|exact V].
  - pose proof V as [Rn _]. rewrite Rn. eexists. split; [reflexivity|exact V].
  - destruct V as (mm & i & nx & tr & Rn). rewrite Rn. eexists. split; [reflexivity|]. cbn [restore_items]. destruct x as [xv xu xf xo]. cbn [with_value gives rval]. eexists _, _, _, _. reflexivity.
  - destruct V.
Qed.
(** The operands leave the state and give no errors as values; the operators are those of arithmetic *)
Definition clean_items (L : lib) (stl : bool) (s : st) (m : nat) (its : list item) : Prop :=
  Forall (fun i => is_operand i = true -> exists o, eval_item (std L) (execute (std L) m) stl i s = (o, s) /\ value_clean o) its.
Definition plain_items (its : list item) : Prop := forall sym, In (IOp sym) its -> exists o, sym = osym o.
Lemma clean_order L stl s m its : clean_items L stl s m its -> forall outs s1, in_order (eval_item (std L) (execute (std L) m) stl) (filter is_operand its) s outs s1 -> Forall value_clean outs.
Proof.
  induction its as [|i its IH]; intros H outs s1 Ho; cbn [filter] in Ho.
  - inversion Ho; constructor.
  - apply Forall_cons_iff in H as [Hi H]. destruct (is_operand i) eqn:Ei; [|exact (IH H _ _ Ho)]. inversion Ho as [|i0 r0 s0 o sx os s2 E _ Hr]; subst. destruct (Hi eq_refl) as (o' & E' & Hc).
    rewrite E' in E. assert (Eo : o' = o /\ s = sx) by (split; congruence). destruct Eo as [-> <-]. constructor; [exact Hc|exact (IH H _ _ Hr)].
Qed.
Lemma clean_blanks L stl s m w : blanks w -> clean_items L stl s m w.
Proof. intros H. eapply Forall_impl; [|exact H]. cbn beta. intros i Hi K. exfalso. unfold is_operand in K. rewrite Hi in K. discriminate. Qed.
Lemma plain_blanks w : blanks w -> plain_items w.
Proof. intros H sym Hi. unfold blanks in H. rewrite Forall_forall in H. specialize (H _ Hi). discriminate H. Qed.
Lemma plain_app a b : plain_items a -> plain_items b -> plain_items (a ++ b).
Proof. intros H1 H2 sym H. apply in_app_or in H as [H|H]; auto. Qed.
Lemma plain_passes L stl its sym : plain_items its -> used_in (g_ops (std L)) its sym -> passes_errors (callop (std L) stl) sym.
Proof.
  intros H U. apply std_passes. destruct U as [U|U].
  - destruct (H _ U) as [o ->]. destruct o; cbn; intuition discriminate.
  - destruct U as [U|[U|[U|U]]]; try discriminate U; injection U as <-; cbn; intuition discriminate.
Qed.
