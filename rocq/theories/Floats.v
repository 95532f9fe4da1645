(** Functions computed with floats or by libraries: features/numerical/trigonometryfunctions.py, specialfunctions.py, and
    [log] of numericalfunctions.py.

    What [math], [scipy.special] and [Decimal.ln] compute is a parameter [X : mathlib]; None is an exception, and also a result
    that is no finite number, since [Number] raises for these (number.py:30, 215: [math.floor]).  A finite float is the rational it
    stands for, so that [-0.0] is 0. *)
From Coq Require Import ZArith QArith Ascii String List Bool.
From Verif Require Import Base Dec Num Lex Bases Formats Units UnitReg Syntax Pos Call Loop Parse Exec Std UnitCalc.
Import ListNotations.
Open Scope nat_scope.

(** [x_math f q]: [math.f] of the float nearest to [q].  [x_special f i qs]: the function [f] of [scipy.special] at floats, its
    [i]-th result if it has several, as a float; [x_special_int] at integers.  [x_float]: the float nearest to a decimal;
    [x_ln]: [Decimal.ln] at the precision in use; [x_stdev]: [statistics.stdev] of decimals. *)
Record mathlib := mkMath {
  x_math : str -> Q -> option Q; x_special : str -> option nat -> list Q -> option Q; x_special_int : str -> option nat -> list Z -> option Q;
  x_float : Q -> option Q; x_ln : Q -> option Q; x_stdev : list Q -> option Q }.

(** [Number(Decimal(x))] *)
Definition number_of (L : lib) (q : Q) : M number := pym (num_make (l_prec L) None q 1%Q).
(** trigonometryfunctions.py:140-175 *)
Definition fn_math (L : lib) (X : mathlib) (f : str) : impl := fun _ vs _ _ _ =>
  match vs with
  | [VNum a] => let* q := pym (x_math X f (to_decimal (l_prec L) a)) in let* n := number_of L q in just (VNum n)
  | _ => pyerr
  end.
Definition math_names : list str :=
  [$"sin"; $"cos"; $"tan"; $"asin"; $"acos"; $"atan"; $"sinh"; $"cosh"; $"tanh"; $"asinh"; $"acosh"; $"atanh"].

(** specialfunctions.py:285-302 *)
Fixpoint numbers_of (vs : list value) : option (list number) :=
  match vs with
  | [] => Some []
  | VNum a :: r => match numbers_of r with Some l => Some (a :: l) | None => None end
  | _ => None
  end.
Definition fn_special (L : lib) (X : mathlib) (f : str) (o : option nat) (ints : bool) : impl := fun _ vs _ _ _ =>
  let* l := pym (numbers_of vs) in
  let* q := pym (if ints : bool then x_special_int X f o (map (num_int (l_prec L)) l) else x_special X f o (map (to_decimal (l_prec L)) l)) in
  let* n := number_of L q in just (VNum n).
(** The functions (39-223): name, number of parameters, the names of the results if there are several, and whether the
    parameters are made integers ([func_int_params]). *)
Definition special_table : list (string * nat * list string * bool) :=
  [ ("airy", 1, ["Ai"; "Aip"; "Bi"; "Bip"], false); ("airye", 1, ["eAi"; "eAip"; "eBi"; "eBip"], false);
    ("itairy", 1, ["Apt"; "Bpt"; "Ant"; "Bnt"], false); ("ellipj", 2, ["sn"; "cn"; "dn"; "ph"], false);
    ("ellipk", 1, [], false); ("ellipkm1", 1, [], false); ("ellipkinc", 2, [], false); ("ellipe", 1, [], false);
    ("ellipeinc", 2, [], false); ("elliprc", 2, [], false); ("elliprd", 3, [], false); ("elliprf", 3, [], false);
    ("elliprg", 3, [], false); ("elliprj", 4, [], false); ("jv", 2, [], false); ("jve", 2, [], false);
    ("yn", 2, [], false); ("yv", 2, [], false); ("yve", 2, [], false); ("kn", 2, [], true); ("kv", 2, [], false);
    ("kve", 2, [], false); ("iv", 2, [], false); ("ive", 2, [], false); ("hankel1", 2, [], false);
    ("hankel1e", 2, [], false); ("hankel2", 2, [], false); ("hankel2e", 2, [], false); ("wright_bessel", 3, [], false);
    ("itj0y0", 1, ["ij0"; "iy0"], false); ("it2j0y0", 1, ["ij0"; "iy0"], false); ("iti0k0", 1, ["ii0"; "ik0"], false);
    ("it2i0k0", 1, ["ii0"; "ik0"], false); ("besselpoly", 3, [], false); ("jvp", 2, [], false); ("yvp", 2, [], false);
    ("ivp", 2, [], false); ("h1vp", 2, [], false); ("h2vp", 2, [], false); ("bdtrc", 3, [], true); ("bdtri", 3, [], true);
    ("bdtrik", 3, [], false); ("bdtrin", 3, [], false); ("btdtria", 3, [], false); ("btdtrib", 3, [], false);
    ("fdtr", 3, [], false); ("fdtrc", 3, [], false); ("fdtri", 3, [], false); ("fdtridfd", 3, [], false);
    ("gdtr", 3, [], false); ("gdtrc", 3, [], false); ("gdtria", 3, [], false); ("gdtrib", 3, [], false);
    ("gdtrix", 3, [], false); ("nbdtr", 3, [], false); ("nbdtrc", 3, [], false); ("nbdtri", 3, [], true);
    ("nbdtrik", 3, [], false); ("nbdtrin", 3, [], false); ("ncfdtr", 4, [], false); ("ncfdtridfd", 4, [], false);
    ("ncfdtridfn", 4, [], false); ("ncfdtri", 4, [], false); ("ncfdtrinc", 4, [], false); ("nctdtr", 3, [], false);
    ("nctdtridf", 3, [], false); ("nctdtrit", 3, [], false); ("nctdtrinc", 3, [], false); ("nrdtrimn", 3, [], false);
    ("nrdtrisd", 3, [], false); ("ndtr", 1, [], false); ("log_ndtr", 1, [], false); ("ndtri", 1, [], false);
    ("ndtri_exp", 1, [], false); ("pdtr", 2, [], false); ("pdtrc", 2, [], false); ("pdtri", 2, [], false);
    ("pdtrik", 2, [], false); ("stdtr", 2, [], false); ("stdtridf", 2, [], false); ("stdtrit", 2, [], false);
    ("chdtr", 2, [], false); ("chdtrc", 2, [], false); ("chdtri", 2, [], false); ("chdtriv", 2, [], false);
    ("chndtr", 3, [], false); ("chndtridf", 3, [], false); ("chndtrinc", 3, [], false); ("chndtrix", 3, [], false);
    ("smirnov", 2, [], false); ("smirnovi", 2, [], false); ("kolmogorov", 1, [], false); ("kolmogi", 1, [], false);
    ("boxcox", 2, [], false); ("boxcox1p", 2, [], false); ("inv_boxcox", 2, [], false); ("inv_boxcox1p", 2, [], false);
    ("logit", 1, [], false); ("expit", 1, [], false); ("log_expit", 1, [], false); ("tklmbda", 2, [], false);
    ("owens_t", 2, [], false); ("entr", 1, [], false); ("rel_entr", 2, [], false); ("kl_div", 2, [], false);
    ("huber", 2, [], false); ("pseudo_huber", 2, [], false); ("gamma", 1, [], false); ("gammaln", 1, [], false);
    ("loggamma", 1, [], false); ("gammasgn", 1, [], false); ("gammainc", 2, [], false); ("gammaincinv", 2, [], false);
    ("gammaincc", 2, [], false); ("gammainccinv", 2, [], false); ("beta", 2, [], false); ("betaln", 2, [], false);
    ("betainc", 3, [], false); ("betaincc", 3, [], false); ("betaincinv", 3, [], false); ("betainccinv", 3, [], false);
    ("psi", 1, [], false); ("rgamma", 1, [], false); ("polygamma", 2, [], false); ("digamma", 1, [], false);
    ("poch", 2, [], false); ("lpmv", 3, [], false); ("sph_harm", 4, [], false); ("hyp2f1", 4, [], false);
    ("hyp1f1", 3, [], false); ("hyperu", 3, [], false); ("hyp0f1", 2, [], false); ("pbdv", 2, ["d"; "dp"], false);
    ("pbvv", 2, ["v"; "vp"], false); ("pbwa", 2, ["w"; "wp"], false); ("mathieu_a", 2, [], false);
    ("mathieu_b", 2, [], false); ("kelvin", 1, ["Be"; "Ke"; "Bep"; "Kep"], false); ("ber", 1, [], false);
    ("bei", 1, [], false); ("berp", 1, [], false); ("beip", 1, [], false); ("ker", 1, [], false); ("kei", 1, [], false);
    ("kerp", 1, [], false); ("keip", 1, [], false); ("lambertw", 1, [], false); ("wrightomega", 1, [], false);
    ("agm", 2, [], false); ("expn", 2, [], false); ("exp1", 1, [], false); ("expi", 1, [], false);
    ("shichi", 1, ["si"; "ci"], false); ("sici", 1, ["si"; "ci"], false); ("zeta", 1, [], false); ("zetac", 1, [], false) ]%string.
(** [add_func], [format_func_name] (226-260) *)
Definition special_name (f : string) (o : option string) : str :=
  lower ($"sp_" ++ $f ++ match o with Some x => $"_" ++ $x | None => [] end).
Fixpoint special_outs (L : lib) (X : mathlib) (f : string) (k : nat) (ints : bool) (i : nat) (outs : list string) : list (str * opdef) :=
  match outs with
  | [] => []
  | o :: r => fdef (special_name f (Some o)) k k (all_are tynum) (fn_special L X ($f) (Some i) ints) :: special_outs L X f k ints (S i) r
  end.
Definition special_funcs (L : lib) (X : mathlib) : list (str * opdef) :=
  flat_map (fun r : string * nat * list string * bool =>
    let '(f, k, outs, ints) := r in
    match outs with
    | [] => [fdef (special_name f None) k k (all_are tynum) (fn_special L X ($f) None ints)]
    | _ => special_outs L X f k ints 0 outs
    end) special_table.

(** [func_log] (numericalfunctions.py:171-178), [Number.log] (number.py:145-151): a base that is not positive raises
    ExecutionException, which number.py does not import, so a NameError *)
Definition log_of (L : lib) (X : mathlib) (a : number) : M Q :=
  let* x := pym (x_ln X (inject_Z (nnum a))) in let* y := pym (x_ln X (inject_Z (nden a))) in ret (dsub (l_prec L) x y).
Definition fn_log (L : lib) (X : mathlib) : impl := fun _ vs us _ _ =>
  let p := l_prec L in
  match vs, us with
  | [VNum a], u :: _ => let* l := log_of L X a in let* n := pym (num_make p (ncast a) l 1%Q) in with_unit u (VNum n)
  | [VNum a; VNum b], u :: _ =>
    let* f := pym (x_float X (to_decimal p b)) in
    let* l := log_of L X a in
    if Qle_bool f 0 then pyerr
    else let* d := pym (x_ln X f) in
         if Qeq_bool d 0 then pyerr
         else let* n := pym (num_make p (ncast a) (ddiv p l d) 1%Q) in with_unit u (VNum n)
  | _, _ => pyerr
  end.

(** [func_exp] (numericalfunctions.py:166-169) *)
Definition fn_exp (L : lib) : impl := fun _ vs us _ _ =>
  match vs, us with
  | [VNum a], u :: _ =>
    match the_number L ($"2.71828182845904523536028747135266249775724709369995") with
    | (LNum e, _) => let* n := pym (num_pow (l_prec L) (f_pow (l_fmt L)) e a) in with_unit u (VNum n)
    | _ => pyerr
    end
  | _, _ => pyerr
  end.

(** * The calculator with them, and with [func_stdev] (statisticalfunctions.py:135-137) *)
Definition float_funcs (U : ucfg) (X : mathlib) : list (str * opdef) :=
  let L := u_lib U in
  unit_funcs U ++ map (fun f => fdef f 1 1 (all_are tynum) (fn_math L X f)) math_names ++ [fdef ($"log") 1 2 (all_are tynum) (fn_log L X); fdef ($"exp") 1 1 (all_are tynum) (fn_exp L);
    fdef ($"stdev") 1 1 (all_are (arr_of ($"number"))) (fn_stat L (fun _ => x_stdev X))] ++ special_funcs L X.
Definition float_parsers (U : ucfg) (X : mathlib) : list parser :=
  map (fun p => match p with PFunc _ => PFunc (map fst (float_funcs U X)) | p => p end) (unit_parsers U).
Definition with_floats (U : ucfg) (X : mathlib) : ecfg :=
  mkG (l_prec (u_lib U)) (unit_env U) (mkPC (float_parsers U X) (unit_table U) std_arr true) (float_funcs U X)
      true false (fun _ => None) (fun _ => Calc) (finalize U).
