(** C38 and C39: error positions and syntax highlighting. *)
From Coq Require Import ZArith Ascii String List Bool Lia.
From Verif Require Import Base Bases Units Syntax Pos PosSpec PosProofs.
Import ListNotations.
Open Scope nat_scope.

(** C38.  Items that spell a prefix of the text, reported with the text that follows (or a prefix of it, or nothing),
    locate the error exactly at the end of that prefix, also if the items or the rest occur elsewhere in the text. *)
Theorem c38_position_exact : forall statements rest next,
  (match next with None => True | Some n => prefixb n rest = true end) ->
  find_pos (concat (map items_text statements) ++ rest) statements next = Some (length (concat (map items_text statements))).
Proof. exact find_pos_exact. Qed.
Print Assumptions c38_position_exact.
Theorem c38_truncate_exact : forall statements rest next,
  (match next with None => True | Some n => prefixb n rest = true end) ->
  truncate (concat (map items_text statements) ++ rest) statements next = Some (concat (map items_text statements)).
Proof. exact truncate_exact. Qed.
Print Assumptions c38_truncate_exact.
(** Whatever the items, a reported position splits the text so that the items occur in order before it and the reported
    remaining text starts there. *)
Theorem c38_position_sound : forall text statements next i, find_pos text statements next = Some i ->
  exists before after, text = before ++ after /\ length before = i /\
    (exists rest, parts_in (map itext (concat statements)) text rest /\ exists gap, rest = gap ++ after) /\
    (match next with None => True | Some n => prefixb n after = true end).
Proof. exact find_pos_sound. Qed.
Print Assumptions c38_position_sound.
Example c38_ex :
  let x := IVar $"a" in let p := IOp $"+" in let e := IOp $";" in
  find_pos $"a+a;a+a+?" [[x; p; x; e]; [x; p; x; p]] (Some $"?") = Some 8 /\
  truncate $"a+a;a+a+?" [[x; p; x; e]; [x; p; x; p]] (Some $"?") = Some $"a+a;a+a+" /\
  find_pos $"a+a;a+a+?" [[x; p; x; e]; [x; p]] (Some $"+?") = Some 7 /\
  find_pos $"a+a" [[x; x; x]] None = None.
Proof. vm_compute. repeat split. Qed.

(** C39.  Whenever highlighting returns, the fragments concatenate to the text. *)
Theorem c39_fragments_concat : forall text items h, highlight text items = Some h -> concat (map snd h) = text.
Proof. exact highlight_concat. Qed.
Print Assumptions c39_fragments_concat.
(** It returns for all items occurring in order in the text, as the sub-items of (possibly truncated) items do in theirs. *)
Theorem c39_highlight_total : forall text items rest, Forall covered items -> parts_in (map itext items) text rest ->
  exists h, highlight text items = Some h.
Proof. exact highlight_total. Qed.
Print Assumptions c39_highlight_total.
(** If all texts agree the fragments are the leaves of the item trees, each once, in order, with its own category. *)
Theorem c39_highlight_leaves : forall items, Forall spelled items ->
  highlight (items_text items) items = Some (map (fun y => (category y, itext y)) (flat_map leaves items)).
Proof. exact highlight_leaves. Qed.
Print Assumptions c39_highlight_leaves.
Example c39_ex :
  let inner := [INon NInnerStart $"("; IVar $"a"; INon NSpace $" "; IOp $"+"; IVar $"b"; INon NInnerEnd $")"] in
  let tree := [IInner $"(a +b)" false inner; IOp $"*"; IVar $"a"] in
  Forall spelled tree /\
  highlight $"(a +b)*a" tree = Some [(CStructural, $"("); (CVariable, $"a"); (CWhitespace, $" "); (CStructural, $"+");
    (CVariable, $"b"); (CStructural, $")"); (CStructural, $"*"); (CVariable, $"a")] /\
  highlight $"(a??" [IInner $"(a??" true [INon NInnerStart $"("; IVar $"a"]] =
    Some [(CStructural, $"("); (CVariable, $"a"); (CDefault, $"??")].
Proof.
  split; [|vm_compute; repeat split].
  constructor; [eapply spelled_rec; [reflexivity | reflexivity | repeat constructor] | repeat constructor].
Qed.
