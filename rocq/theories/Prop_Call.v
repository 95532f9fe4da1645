(** C25-C27, C48: what an operation does with its inputs.  For every operation definition, environment and state. *)
From Coq Require Import ZArith QArith Ascii String List Bool Lia.
From Verif Require Import Base Dec Num Bases Units Syntax Call CallSpec CallProofs.
Import ListNotations.
Open Scope nat_scope.

(** A small calculator for the examples: text counts as the number 7; addition, and a concatenation-like operation with
    one array parameter. *)
Definition ex_env : env := mkEnv
  (fun n => if seq_eqb n $"number" then Some (fun v _ _ _ => Ok (match v with VNum _ | VStr _ => true | _ => false end))
            else if seq_eqb n $"array" then Some (fun v _ _ _ => Ok (is_list v)) else None)
  (fun v => match v with VStr _ => Ok (num_of_Z 50 7) | _ => Calc end) None (fun _ _ => Ok true) (fun _ => true).
Definition ex_h : handle := fun _ _ => pyerr.
Definition ex_add : opdef := mkOp $"operator +" (Some 2) (Some 2)
  [mkRestr 0 (Some 0) [Some ($"number", None)]; mkRestr 1 (Some 1) [Some ($"number", None)]] [] true false true false true true
  (fun _ vs _ _ _ => match vs with
                     | [VNum a; VNum b] => lift (do n <- py_opt (num_add 50 a b); Ok (mkOR (VNum n) None None))
                     | _ => pyerr end).
Definition ex_count : opdef := mkOp $"count" (Some 1) (Some 1) [mkRestr 0 None [Some ($"array", None)]] [] false false true false true true
  (fun _ vs _ _ _ => match vs with
                     | [VList l] => ret (mkOR (VNum (num_of_Z 50 (Z.of_nat (length l)))) None None)
                     | _ => pyerr end).
Definition ex_n (z : Z) : result := mkRes (VNum (num_of_Z 50 z)) None None.
Definition ex_hex (z : Z) : result := mkRes (VNum (with_cast (num_of_Z 50 z) (Some CHex))) None None.
Definition ex_arr (l : list result) : result := mkRes (VList l) None None.
Definition ex_err : result := mkRes (VExc (XExec MEmpty [] None false)) None None.
Definition ex_s : st := mkSt [] None.
Definition ex_run (d : opdef) (ins : list result) : oc result := fst (call ex_env ex_h d false ins ex_s).

(** C25.  The first error among the inputs is returned unchanged, the state stays, and the implementation has no part in it. *)
Theorem c25_error_returned : forall E h d stl pre r post s e, o_excs d = false -> direct d (pre ++ r :: post) ->
  rval r = VExc e -> (forall x, In x pre -> forall e', rval x <> VExc e') ->
  call E h d stl (pre ++ r :: post) s = (OOk r, s).
Proof. exact error_propagates. Qed.
Print Assumptions c25_error_returned.
Example c25_ex : ex_run ex_add [ex_n 1; ex_err] = OOk ex_err /\ o_excs ex_add = false /\ direct ex_add ([ex_n 1] ++ ex_err :: []).
Proof.
  split; [vm_compute; reflexivity|]. split; [reflexivity|]. split.
  - intros k r Hk [[l Hl] _]. destruct k as [|[|k]]; cbn in Hk; try (inversion Hk; subst; discriminate).
    destruct k; discriminate.
  - intros (H & _). discriminate.
Qed.
(** An error in one element of an array becomes that element of the result. *)
Example c25_array_ex : ex_run ex_add [ex_n 1; ex_arr [ex_n 2; ex_err; ex_n 3]] = OOk (ex_arr [ex_n 3; ex_err; ex_n 4]).
Proof. vm_compute. reflexivity. Qed.

(** C26.  Inputs that do not respect the declared number, types and dimensions give an error naming the operation and
    leave the state alone ... *)
Theorem c26_refused : forall E h d stl ins s, direct d ins -> (o_excs d = true \/ forall r, In r ins -> forall e, rval r <> VExc e) ->
  ~ acceptable E d ins -> (forall r, In r ins -> e_tostr E r = true) ->
  exists w, call E h d stl ins s = (OErr (XCalc w (MOp (o_name d))), s).
Proof. exact refused. Qed.
Print Assumptions c26_refused.
(** ... whatever the implementation is: it is not run. *)
Theorem c26_not_run : forall E h d f stl ins s, direct d ins -> ~ acceptable E d ins ->
  call E h (with_impl d f) stl ins s = call E h d stl ins s.
Proof. exact refused_impl. Qed.
Print Assumptions c26_not_run.
(** Acceptable inputs do reach the implementation (stated without unit conversion). *)
Theorem c26_run : forall E h d stl ins s, direct d ins -> e_norm E = None \/ o_norm d = false -> answers E d -> acceptable E d ins ->
  (forall x l, In x ins -> rval x <> VList l) ->
  (o_excs d = true \/ forall r, In r ins -> forall e, rval r <> VExc e) ->
  let p := if o_autoin d then convert_numbers E d (map rval ins) else (map rval ins, None) in
  call E h d stl ins s = wrap_outcome E d ins
    (bind (o_impl d h (fst p) (map runit ins) (map rref ins) stl) (fun o => ret (finish d (snd p) None o)) s).
Proof. exact accepted_scalar. Qed.
Print Assumptions c26_run.
Example c26_ex :
  ex_run ex_add [ex_n 1] = OErr (XCalc true (MOp $"operator +")) /\
  ex_run ex_add [ex_n 1; mkRes (VBool true) None None] = OErr (XCalc true (MOp $"operator +")) /\
  ex_run ex_add [ex_n 1; mkRes (VStr $"x") None None] = OOk (ex_n 8) /\
  ~ acceptable ex_env ex_add [ex_n 1] /\ acceptable ex_env ex_add [ex_n 1; ex_n 2].
Proof.
  split; [vm_compute; reflexivity|]. split; [vm_compute; reflexivity|]. split; [vm_compute; reflexivity|]. split.
  - intros (H & _). specialize (H 2 eq_refl). cbn in H. lia.
  - apply (validate_sound ex_env ex_add). vm_compute. reflexivity.
Qed.

(** C27.  If some inputs are arrays where the operation takes none, all of the same length, the operation is applied to one
    row of elements after the other and the results make an array of that length; an error stays in its element.  Only a
    python error (or running out of recursion) of a row ends the whole call. *)
Theorem c27_broadcast : forall E h d stl ins s n,
  (exists k r, nth_error ins k = Some r /\ spreads d k r) ->
  (forall k r l, nth_error ins k = Some r -> spreads d k r -> rval r = VList l -> length l = n) ->
  exists rows o s', length rows = n /\ (forall i x, nth_error rows i = Some x -> row_at d ins i x) /\
    ran (call E h d stl) rows s o s' /\
    call E h d stl ins s = (match o with OOk l => OOk (Res (VList l) None None None) | OErr e => OErr e | OPy => OPy | OFuel => OFuel end, s').
Proof. exact broadcast_ok. Qed.
Print Assumptions c27_broadcast.
Theorem c27_lengths_differ : forall E h d stl ins s k1 r1 l1 k2 r2 l2,
  nth_error ins k1 = Some r1 -> spreads d k1 r1 -> rval r1 = VList l1 ->
  nth_error ins k2 = Some r2 -> spreads d k2 r2 -> rval r2 = VList l2 -> length l1 <> length l2 ->
  call E h d stl ins s = (OErr (XCalc false MLength), s).
Proof. exact broadcast_refused. Qed.
Print Assumptions c27_lengths_differ.
(** Several scalars given to a function of one array are that function of the array of them. *)
Theorem c27_packed : forall E h d stl ins s, packs d ins -> (forall k r, nth_error ins k = Some r -> ~ spreads d k r) ->
  (forall r, In r ins -> forall l, rval r <> VList l) ->
  call E h d stl ins s = call E h d stl [Res (VList ins) None None None] s.
Proof. exact packed_scalars. Qed.
Print Assumptions c27_packed.
Example c27_ex :
  ex_run ex_add [ex_arr [ex_n 1; ex_arr [ex_n 2; ex_n 3]]; ex_arr [ex_n 10; ex_n 20]] =
    OOk (ex_arr [ex_n 11; ex_arr [ex_n 22; ex_n 23]]) /\
  ex_run ex_add [ex_arr [ex_n 1]; ex_arr [ex_n 10; ex_n 20]] = OErr (XCalc false MLength) /\
  ex_run ex_count [ex_n 1; ex_n 2; ex_n 5] = OOk (ex_n 3) /\
  ex_run ex_count [ex_arr [ex_n 1; ex_n 2]; ex_arr [ex_n 3; ex_n 4]] = OOk (ex_arr [ex_n 2; ex_n 2]) /\
  spreads ex_add 0 (ex_arr [ex_n 1]).
Proof.
  split; [vm_compute; reflexivity|]. split; [vm_compute; reflexivity|]. split; [vm_compute; reflexivity|].
  split; [vm_compute; reflexivity|]. apply flagged_iff. reflexivity.
Qed.

(** C48.  A number returned for scalar inputs has the format of the first numeric operand that has one; if none has, it
    keeps the one the implementation gave it. *)
Theorem c48_result_format : forall E h d stl ins s r s' n, direct d ins -> (forall x l, In x ins -> rval x <> VList l) ->
  (o_excs d = true \/ forall x e, In x ins -> rval x <> VExc e) -> in_order d ->
  o_autoin d = true -> o_autores d = true ->
  call E h d stl ins s = (OOk r, s') -> rval r = VNum n ->
  exists c, first_format E d (map rval ins) c /\
    (forall k, c = Some k -> ncast n = Some k) /\
    (c = None -> exists vs us o, o_impl d h vs us (map rref ins) stl s = (OOk o, s') /\ or_val o = VNum n).
Proof. intros E h d stl ins s r s' n H1 H2 H3 [H4 H5]. apply result_format; auto. Qed.
Print Assumptions c48_result_format.
Example c48_ex :
  ex_run ex_add [ex_n 1; ex_hex 15] = OOk (ex_hex 16) /\ ex_run ex_add [ex_n 1; ex_n 15] = OOk (ex_n 16) /\ in_order ex_add.
Proof.
  split; [vm_compute; reflexivity|]. split; [vm_compute; reflexivity|]. split.
  - cbn. split; auto. exists 0. auto.
  - repeat constructor.
Qed.
