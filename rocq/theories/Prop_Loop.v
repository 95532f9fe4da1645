(** C23: expressions evaluate according to precedence and associativity. *)
From Coq Require Import ZArith QArith Ascii String List Bool Lia.
From Verif Require Import Base Dec Num Bases Units Syntax Call Loop LoopSpec LoopProofs.
Import ListNotations.
Open Scope nat_scope.

(** C23: the operator loop gives a flat sequence the value of the tree that is grouped by the levels and their
    directions, whatever the operators do (return or raise), without touching the state.  Sequences may leave operators
    out (implicit multiplication). *)
Theorem c23_precedence : forall T orig f t s,
  good_table T -> good_chain T (chain_of t) -> no_units f -> grouped T t ->
  run_slots T orig (interp_call f) (slots_of (chain_of t)) s = (OOk (tree_value T orig f t), s).
Proof. intros. apply loop_grouped; assumption. Qed.
Print Assumptions c23_precedence.

(** C23: every sequence is grouped in exactly one way. *)
Theorem c23_grouping_exists : forall T c, good_table T -> good_chain T c -> exists t, grouped T t /\ chain_of t = c.
Proof. exact grouping_exists. Qed.
Print Assumptions c23_grouping_exists.
Theorem c23_grouping_unique : forall T t t', grouped T t -> grouped T t' -> chain_of t = chain_of t' -> t = t'.
Proof. intros T t t'. exact (grouped_unique T t t'). Qed.
Print Assumptions c23_grouping_unique.

(** C23: the loop always ends, on any items at all, provided the invisible operators take two inputs. *)
Theorem c23_loop_ends : forall T orig callop sl s, shrinks T -> (forall sym ins st, fst (callop sym ins st) <> OFuel) ->
  fst (run_slots T orig callop sl s) <> OFuel.
Proof. exact run_slots_fuel. Qed.
Print Assumptions c23_loop_ends.

(** * Examples: [^] right to left, implicit multiplication, [*] and [/], [+] and [-] *)
Definition ex_def (n : str) : opdef :=
  mkOp n (Some 2) (Some 2) [] [] false false false false false false (fun _ _ _ _ _ => ret (mkOR VNone None None)).
Definition ex_bin (n : str) (rtl : bool) : str * operator := (n, mkOper [None] [None] rtl (ex_def n)).
Definition ex_tab : optable :=
  mkTab [[ex_bin ($"^") true]; [ex_bin ($"IMP") false]; [ex_bin ($"*") false; ex_bin ($"/") false]; [ex_bin ($"+") false; ex_bin ($"-") false]]
        None None None (Some ($"/")) (Some ($"IMP")).
(** An interpretation that writes down what was computed. *)
Definition ex_show (r : result) : str := match rval r with VStr s => s | _ => $"?" end.
Definition ex_f : interp := fun s ins =>
  match ins with
  | [a; b] => if seq_eqb s ($"/") then inr (XCalc false MOther) else inl (mkRes (VStr ($"(" ++ ex_show a ++ s ++ ex_show b ++ $")")) None None)
  | _ => inr (XCalc false MOther)
  end.
Definition ex_v (s : string) (i : nat) : leaf := (mkRes (VStr (list_ascii_of_string s)) None None, i).
(** [a - b 2 ^ c ^ d - e] *)
Definition ex_chain : chain :=
  (ex_v "a" 0, [(GOp ($"-") 1, ex_v "b" 2); (GImp, ex_v "2" 3); (GOp ($"^") 4, ex_v "c" 5); (GOp ($"^") 6, ex_v "d" 7); (GOp ($"-") 8, ex_v "e" 9)]).
Definition ex_tree : tree :=
  Node (GOp ($"-") 8)
    (Node (GOp ($"-") 1) (Leaf (ex_v "a" 0))
      (Node GImp (Leaf (ex_v "b" 2)) (Node (GOp ($"^") 4) (Leaf (ex_v "2" 3)) (Node (GOp ($"^") 6) (Leaf (ex_v "c" 5)) (Leaf (ex_v "d" 7))))))
    (Leaf (ex_v "e" 9)).
Example c23_ex_chain : chain_of ex_tree = ex_chain. Proof. reflexivity. Qed.
Example c23_ex_table : good_table ex_tab. Proof. repeat constructor; discriminate. Qed.
Example c23_ex_good : good_chain ex_tab (chain_of ex_tree).
Proof.
  split; [reflexivity|].
  repeat (apply Forall_cons; [split; [cbn [fst good_gap]|reflexivity]|]); try apply Forall_nil;
    try (split; [vm_compute; tauto|split; [eexists; repeat split; vm_compute; reflexivity|repeat split; discriminate]]).
  exists ($"IMP"). split; [reflexivity|]. split; [vm_compute; tauto|]. eexists. repeat split; vm_compute; reflexivity.
Qed.
Example c23_ex_grouped : grouped ex_tab ex_tree.
Proof. vm_compute. repeat split; try (left; lia); try (right; split; reflexivity). Qed.
Example c23_ex_nounits : no_units ex_f.
Proof. intros s ins r. unfold ex_f. destruct ins as [|a [|b [|]]]; try discriminate. destruct (seq_eqb s ($"/")); [discriminate|]. intros H. injection H as <-. reflexivity. Qed.
Example c23_ex_run : fst (run_slots ex_tab [] (interp_call ex_f) (slots_of ex_chain) (mkSt [] None)) =
  OOk (mkRes (VStr ($"((a-(bIMP(2^(c^d))))-e)")) None None).
Proof. vm_compute. reflexivity. Qed.
Example c23_ex_shrinks : shrinks ex_tab.
Proof. intros s o [H|[H|H]] E; try discriminate. injection H as <-. vm_compute in E. injection E as <-. cbn. lia. Qed.
(** An operator that raises gives an error pointing at that operator. *)
Example c23_ex_error :
  exists r, fst (run_slots ex_tab [IOp ($"x"); IOp ($"y"); IOp ($"z")] (interp_call ex_f)
                   (slots_of (ex_v "a" 0, [(GOp ($"/") 1, ex_v "b" 2)])) (mkSt [] None)) = OOk r /\
            rval r = VExc (XExec MOther [IOp ($"x")] (Some ($"/")) false).
Proof. eexists. split; vm_compute; reflexivity. Qed.
(** Two neighbours without an implicit operator are an error that is no calculator exception (see C28). *)
Example c23_ex_adjacent :
  fst (run_slots (mkTab [[ex_bin ($"+") false]] None None None None None) [] (interp_call ex_f)
         (slots_of (ex_v "a" 0, [(GImp, ex_v "b" 1)])) (mkSt [] None)) = OPy.
Proof. vm_compute. reflexivity. Qed.
