(** Arrays of arithmetic, written out.  What the theorems about the answers to such texts are stated with; nothing here is defined
    with the calculator. *)
From Coq Require Import ZArith QArith Ascii String List Bool.
From Verif Require Import Base LexSpec VarNameSpec ArithTextSpec.
Import ListNotations.
Open Scope nat_scope.

(** In an array, [step] at the start of a name is read as the word between the end of a range and its step.  So no name starts with it,
    but in the arguments of a function. *)
Fixpoint stepless (e : aexp) : Prop :=
  match e with
  | ANum _ | ACall _ _ | ACall2 _ _ _ => True
  | AVar n => ~ starts ($"step") n
  | ABin _ a b => stepless a /\ stepless b
  end.
(** An element is arithmetic, or a range [a .. b] or [a .. b step c].  Blanks keep the range's dots and [step] apart from what stands before them,
    and [step] from what comes after it. *)
Inductive aelem := One (e : aexp) | Range (a b : aexp) | Stepped (a b c : aexp).
Definition part_text (t : str) (e : aexp) : Prop := arithmetic_text t e /\ stepless e.
Definition spaced_text (t : str) (e : aexp) : Prop :=
  (exists b1 u b2, t = b1 ++ u ++ b2 /\ blank_text b1 /\ blank_text b2 /\ b2 <> [] /\ reads 4 u e) /\ stepless e.
Inductive element_text : str -> aelem -> Prop :=
| element_one t e : part_text t e -> element_text t (One e)
| element_range t1 t2 a b : spaced_text t1 a -> part_text t2 b -> element_text (t1 ++ $".." ++ t2) (Range a b)
| element_step t1 t2 b0 t3 a b c : spaced_text t1 a -> spaced_text t2 b -> blank_text b0 -> b0 <> [] -> part_text t3 c ->
    element_text (t1 ++ $".." ++ t2 ++ $"step" ++ b0 ++ t3) (Stepped a b c).
(** Elements with commas between them *)
Inductive elements_text : str -> list aelem -> Prop :=
| elements_last t e : element_text t e -> elements_text t [e]
| elements_more t e r es : element_text t e -> elements_text r es -> elements_text (t ++ $"," ++ r) (e :: es).
Definition array_text (text : str) (es : list aelem) : Prop :=
  exists b1 t b2, text = b1 ++ $"[" ++ t ++ $"]" ++ b2 /\ blank_text b1 /\ blank_text b2 /\ elements_text t es.
